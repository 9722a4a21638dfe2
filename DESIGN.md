# Formal model of PlainBox in Rocq (Coq 8.16.1)

Source modelled: `/repo` (pombredanne/git.launchpad.net-plainbox, pinned
commit), Python.  Nothing in `/repo` is built, run or changed.

## Layout

`rocq/theories/` has, for each area `X`:

* `XModel.v`  - the model: Gallina functions that follow the Python branch by
  branch.  Each definition cites the file and lines it models and says what it
  simplifies.  No proofs.
* `XSpec.v`   - a small specification that does not use the model's helpers
  (plain relations, list membership, permutations, orders, ...).
* `XProofs.v` - lemmas and proofs.
* `XProps.v`  - the theorems, one per claim, closed with `exact`, each followed
  by `Print Assumptions` and by `Example`s showing that a concrete non-trivial
  case meets the hypotheses.

`Base.v` holds shared helpers (result type, association lists, ...).

## Method

* Python functions become total Gallina functions.  Raised exceptions are
  values of a result type.  Mutable objects become records passed and returned;
  a method that raises after partly mutating its object returns the partly
  mutated record together with the exception.
* Recursion that Python does not bound (graph search, retry loops, tokenizer
  loops) is modelled with fuel.  Running out of fuel is a distinct result, and
  a theorem shows that it never happens with the fuel the model supplies (or,
  for the loops that really do not terminate, that it happens for every fuel).
* Python `set` iteration order is arbitrary.  It is modelled by an explicit
  list that the theorems quantify over.
* File-system behaviour is modelled as a sequence of atomic steps on an
  explicit disk state, with crash points between any two steps and inside
  writes.
* Threads are modelled by a small-step relation; theorems quantify over every
  reachable state of every schedule.
* Protocol properties quantify over all finite call histories (lists of calls,
  by induction).
* When the English property turns out false of the code, the theorem
  `..._refuted` exhibits the counterexample in the model, and the strongest
  version that does hold is proved beside it.  Each such case is listed under
  "Findings".

## Plan per property

* **C01** (Resolved job order respects every dependency). Model the DFS with colours (`SolverModel.v`), fuel-bounded, dependency sets as arbitrary-order lists. Invariant: everything black is in the solution, and every black job's dependencies precede it. Induction on fuel with an inner induction over the dependency list.
* **C02** (Resolution returns exactly the requested jobs and what they need). Same model. Soundness: each solution element is reachable from the visit list; completeness from the colour invariant.
* **C03** (Resolution fails only for a real reason and names it correctly). Same model. Error genuineness by carrying 'the trail is a dependency path' through the DFS; success direction by contradiction from each error being genuine; fuel sufficiency by counting white jobs.
* **C04** (An already ordered job list is left alone by the solver). Same model. Induction over the visit list.
* **C05** (Selecting jobs never fails, and only the genuinely broken jobs are dropped). `SelectModel.v`: the retry loop around the solver, fuel = |desired|+|job_list|+1 shown sufficient. Healthy-job survival via the error genuineness theorems of C03.
* **C06** (A job can start exactly when nothing blocks it). `ReadinessModel.v`: get_inhibitor_list and _recompute_job_readiness over a session record; requirement evaluation is an oracle argument with the four possible answers of evaluate_or_raise. The known hole (requirement that cannot be evaluated but whose resource job passed) is proved as a refutation plus exact characterisation.
* **C07** (Trimming jobs is all-or-nothing). `StateModel.v`: trim_job_list on the session record; direct proof.
* **C08** (Job list and job state map stay in step). `StateModel.v`: operations as a datatype, `step : op -> state -> state * outcome`, invariant by induction over the operation list.
* **C09** (Aggregated outcomes ignore order and never hide a failure). `OutcomeModel.v`: fold of the Python loop; permutation invariance and characterisation by existence.
* **C10** (Estimated duration is the sum or an honest 'unknown'). `OutcomeModel.v`: fold over the run list; rationals as Z hundredths are avoided by using an abstract exact number type (Z, in a fixed unit) - float rounding is not modelled.
* **C11** (Saving a checkpoint is atomic at every crash point). `StorageModel.v`: directory with `session` / `session.next` entries, cached vs durable contents, the step list of save_checkpoint, crash after any prefix of steps with writes torn at any byte.
* **C12** (Stale checkpoint locks are detected and recoverable). `StorageModel.v`: histories of operations with crashes, by induction.
* **C13** (A failing checkpoint keeps the old data and reports the failure). `StorageModel.v`: fault oracle for each system call. The reporting half is false (rename errors and write errors are swallowed): refuted; the 'old data kept' half is proved.
* **C14** (Suspend followed by resume restores the session). `ResumeModel.v`: suspend to a JSON value and resume from it, at the JSON level (zlib/gzip and JSON text layer trusted). Known exceptions (hollow results, mandatory jobs re-added) are refutations; the rest is proved under explicit hypotheses.
* **C15** (Resume refuses a session whose jobs changed). `ResumeModel.v`: the job-processing loop with its leftover queue.
* **C16** (Resume rejects malformed data with a resume error only). `ResumeModel.v`: _validate and builders over arbitrary JSON values.
* **C17** (Job selection: at least one include, no exclude, each job once, in qualifier order). `QualModel.v`: select_jobs both paths, votes as Z minimum; proof against a declarative filter/order specification.
* **C18** (Exclusion always wins and composition is order-insensitive). `QualModel.v`: nested inductive type of qualifiers; induction on nesting.
* **C19** (The word scanner covers the whole input and always makes progress). `ScanModel.v`: the tokenizer state machine with roll back; the claim is false for unterminated quotes (refuted, for every fuel); proved for texts whose quotes are closed.
* **C20** (Word lists are parsed into exactly the words written). `ScanModel.v`: WordList.parse; print/parse round trip.
* **C21** (Records written in the RFC822-like format are read back unchanged). `Rfc822Model.v`: dump and the line-driven loader; round trip under well-formedness; witnesses for the failures.
* **C22** (Record loading is total and record boundaries are respected). `Rfc822Model.v`: loader is total by construction; concatenation lemma.
* **C23** (Resource expressions cannot run anything outside the whitelist). `ResourceModel.v`: AST datatype and the visitor. Call arguments are not visited: refuted; proved: everything outside call arguments is whitelisted.
* **C24** (A requirement is satisfied iff some combination of resources satisfies it). `ResourceModel.v`: evaluation over the cartesian product with an abstract expression semantics (explicit argument).
* **C25** (Captured job output survives the log file byte for byte). `IologModel.v`: base64 encode/decode on byte lists, JSON line layer abstracted to its fields; round trip by induction in steps of three bytes.
* **C26** (No output line is lost, duplicated or reordered under any thread schedule). `ExtcmdModel.v`: small-step interleaving semantics; invariant 'delivered ++ queued ++ unread projects to the stream'.
* **C27** (The session assistant enforces its usage protocol). `AssistantModel.v`: allowed-call set transformer; invariants by induction on histories.
* **C28** (Running a job and recording its result alternate). `AssistantModel.v`: refuted in general (other calls reset the set); proved for histories that do not reset it.
* **C29** (Signals reach exactly the connected listeners, in order). `MorrisModel.v`: listener lists; the removal loop mutates the list it walks: refuted, with an exact characterisation of what is removed.
* **C30** (The best able execution controller is chosen, and never an unable one). `CtrlModel.v`: score functions and stable-sort-take-last selection.
* **C31** (Job environment is sanitised and layered predictably). `CtrlModel.v`: environments as association maps.
* **C32** (Field assignment filters cannot be bypassed). `PodModel.v`: Field.__set__ with filters as functions that may raise; induction over assignment histories.
* **C33** (Overrides of a test plan apply consistently). `TestplanModel.v`: first-match vs last-match: refuted; proved for non-overlapping patterns.
* **C34** (Templates instantiate once per accepted resource, in order). `TemplateModel.v`: instantiate_all over lists with a filter oracle.
* **C35** (Written durations mean what they say). `DurationModel.v`: the regular expression as an explicit matcher over code points; numerals as digit lists.
* **C36** (The unit checksum input identifies the unit). `ChecksumModel.v`: sorted JSON text of string maps; injectivity of JSON string escaping; SHA-256 itself is not modelled. The 'namespace' field collision is a refutation.
* **C37** (Return codes decide outcomes, and every result has its own complete log). `RunnerModel.v`: run_job with every method, what a run writes to the log directory, what the ui sees; slugify is not injective (refuted), the exact condition for sharing a file is proved.
* **C38** (The trusted launcher only runs commands of system jobs). `LauncherModel.v`: lookup by checksum and the run plan of main().
* **C39** (The resource job cache never returns a wrong result, whatever crashes). `CacheModel.v`: _store as a program of file system calls with partial effects, crashes and failures; histories of processes; invariant on the file system and the memory.
* **C40** (Reading a configuration text applies every valid value, keeps the others and lists the problems). `IniModel.v` (configparser), `ConfigModel.v`: refinement to a specification by lines and sections.
* **C41** (Concurrent saves never mix data). `StorageConc.v`: any number of processes interleaved, each with its own position in save_checkpoint; invariant on the shared directory.
* **C42** (Provider selection is exact and reports useless patterns). `AssistantModel.v`: select_providers; membership characterisation.
* **C43** (Import statements name exactly the resources they say). `ResourceModel.v`: parse_imports_stmt over the words of a line.
* **C44** (Command lines of root jobs carry the environment and the command intact). `CtrlModel.v` builds the command line, a specification of env(1) reads it.
* **C45** (Format strings insert exactly the named parameters). `FormatModel.v`: CPython's format parser as a character machine.
* **C46** (Override and include statements mean what is written). `XparseModel.v`: parsers over the scanner of C19.
* **C47** (A test plan selects exactly what it says). `TestplanModel.v`: qualifiers of a plan, composed with the selection of C17.
* **C48** (The root launcher runs what the controller asked for). Composition of `CtrlModel.v` and `LauncherModel.v`.
* **C49** (A written configuration reads back with the same values). `ConfigModel.v`: Config.write, then reading.
* **C50** (With several configuration files the last one that mentions an option wins). `IniModel.v`: reading into an existing parser is merging.
* **C51** (Exported data is exactly the selected view of the session). `ExportModel.v`: the option dictionary, `get_session_data_subset` field by field, the members of the archive. `ExportSpec.v` lists the fields one rule each, with the option that selects it.
* **C52** (The text of a job's output does not depend on how it was recorded). `Utf8Model.v`: iterdecode with the incremental UTF-8 decoder (strict and replacing), control character removal; proved equal to reading the concatenation of all records.
* **C53** (A result holds what its builder was given and can be taken apart and rebuilt). `ResultModel.v`: the builder's typed fields, get_result, get_builder, add_comment, the properties and the removal of escape sequences; exact characterisations and a round trip.
* **C54** (Plug-in collections hold exactly what can be loaded). `PluginModel.v`: loading of files (with os.walk over a tree), entry points and lazy mappings, calls with nested fakes as a small language; exact characterisations for every tree and every history.
* **C55** (What is loaded from a provider). classification rules as an ordered list of functions on paths; loader as a state with the units, problems and maps; exact characterisation of each by an independent relation
* **C56** (A provider definition file becomes the provider that it describes, or none). ProvdefModel.v builds the configuration class of provider definitions on top of ConfigModel.v (C40) and the patterns on top of RegexModel.v (derivatives; RegexProofs.v shows what they match). ProvdefSpec.v says what a definition is, when it is acceptable and which provider it describes. The proof goes through the meaning of configuration files of C40 in both directions.
* **C57** (Running a session takes every job exactly once and survives interruptions). SessrunModel.v: the run as a function that logs events (a job is considered, started, ended, recorded; a checkpoint is saved), on top of the session of SessionModel.v, with the signal for new jobs delivered during a run. Proof: the events are a chain of complete blocks followed by at most one incomplete block; the theorems are inductions over the chain. Crash points are prefixes of the events.
* **C58** (The dialogue about a job records what the user decided). Model ActionUI.run, the prompt, the verdict loop and the loop of _run_single_job_with_ui_loop over a list of typed lines, with a log of what happens; prove by induction on the fuel (bounded by the lines left) that the dialogue ends, that the log is what the lines say, and what the result holds.
* **C59** (The fields of a job mean what is written). FieldsModel mirrors the accessors of Unit and JobDefinition branch by branch over the record of C21. The invariant that the loaded values are the normal forms of the raw ones is proved over the loader; words of flags are characterised by induction over the scan; dependencies reuse C20.
* **C60** (Jobs made from a job are what they should be). SiblingsModel mirrors the text surgery (str.replace as a scan, str.endswith, dict updates, json.loads of C17) on the units of C59 and the mutual recursion as the sequence of added jobs. Flags: the words of a text after leaving out a separator-free pattern are the words with the pattern left out. Dependencies: appending a bare word to a list of pieces. Termination: lexicographic measure (length of the siblings text, length of the flags text); every text inside a JSON text is shorter than it.
* **C61** (Validation accepts exactly the jobs that are well formed and whose references exist). Model each validator class and the table of validators of jobs and templates branch by branch as generators that yield issues and may raise; prove that the generator of a job is free of errors iff the record `well_formed` and `well_connected` (ValidateSpec) hold of what the job's attributes give; cache transparency by an invariant; the verdict by computation over all issues; compose with the solver model of C03.
* **C62** (A job that reboots the machine is resumed by the command given, and only once). RestartModel has shlex.quote, os.path.expandvars, both restart strategies with their configuration objects, and run_job, use_job_result and resume_session of the session assistant as lists of effects on a machine and a session; a crash is a prefix of such a list, a file is written in arbitrary pieces. RestartSpec says what words a POSIX shell finds in a line and what the lines of the two files are. Proved: quoting (for all texts), the exact files, that the system is ready at every moment of the job, that nothing is left afterwards, that resuming is correct from every state and can be interrupted anywhere.
* **C63** (A provider's packages get exactly the dependencies that apply to the system they are built on). Model the drivers, get_os_release (over shlex of IniModel), the command and device discovery; specify relations as the trimmed non-blank pieces between commas and os-release as shell assignments; prove the exact contents of all files after the command in every case.
* **C64** (One view of the units of a session). the device context and the unit part of the session state as one record of lists and tables, every operation returns the new record and the exception raised; jobs bring a tree of further jobs. Invariant over all histories; the signals are a log that a specification replays
* **C65** (Installing a provider and loading the installed one gives the same provider). A file system is a function from component lists to nodes; setup(), install, develop, sdist and validate of manage.py are functions on it that return the new file system and whether they succeeded. The installed definition is a configuration object written with the ini writer (C49) and read back with the provider loader (C56). Proof: overlay lemmas for copytree/makedirs give the resulting file system, whatever the order; the ini round trip gives the definition; the exact characterisation of loading gives the provider.
* **C66** (Stored sessions are listed, made, found, resumed and removed without mixing them up). The repository is a list of directory entries with what lstat and stat say. Listing, creation, lookup, removal, the search for candidates and the dialogue are functions on it; answers of the user and loading are parameters. Creation by several programs is a small-step system (look, make, remove by others) with an invariant over all reachable worlds. Listing is proved to be a sorted permutation of the sessions, the searches exact (iff), the dialogue characterised by the first decisive answer.
* **C67** (Starting a provider makes a new directory, overwrites nothing, and gives a provider that works). The skeletons, with the texts of their files, are data; instantiation is a function that gives the list of states the file system goes through and how it ends. str.format is a scanner. Proved by induction over the list of things to make, with an invariant that what was there stays; the effect of manage.py is the set-up call read from its text, which feeds the installation theorems of C65; the unit files are loaded with the RFC822 model.
* **C68** (What a resource job prints is what later requirements see). Model the log from the events of extcmd, the record parser as a generator, the store of resources and a python value type for requirements. Prove that the generator yields the records up to the first bad block (induction on lines, simulation for comments), that every finished run has the printed lines in the log (from C26), and that equality requirements hold exactly when a record has the value (from C24).
* **C69** (An application's to-do list is what the test plan says, and working through it once is enough). Model the calls of the assistant on top of the session of C05 to C08: an assistant is a session, the running job, the flags, the test plans and what is on the disk. The lists follow from C05 and C17; narrowing from the list being closed under dependencies; recording a result from an invariant kept by adding generated jobs; one pass by induction on the calls of the application; bootstrapping by induction on its list.
* **C70** (A validation message points at the place that is wrong). Model origins, the position that report_issue computes, the position of qualifiers and the POSIX mode of shlex; extend the loader's invariant to relate every value to the lines it was read from; characterise the lexer by a small grammar of closed quotes.
* **C71** (Exported results arrive complete, or the failure is visible). DeliverModel: events (printed text, emptied and appended files, posted requests, marks, checkpoints) and outcomes; DeliverSpec: what a file holds after events, stops at any point, character boundaries, option lists. Printing is proved exact iff no character straddles a buffer boundary (both directions, with the UTF-8 theory of C52); the transports are characterised exactly; marking is proved to follow delivery at every stop. Refuted with exact counterexamples: every text is printed, old files are kept, all failures are TransportError, bytes may be sent, marked means submitted.
* **C72** (The spreadsheet report shows every test once with the right outcome). Model the tree of categories, the writing of lines, of attachments and of resources as sequences of cell writes, and the counters. Rewrite the accumulating loops into a list of items placed on consecutive rows; prove the tree invariant (jobs and status of a category as functions of the results so far), that the last write of a cell is the only value written, and that jobs on lines are a permutation of the jobs counted.
* **C73** (A job runs in a fresh directory of its own with exactly the executables of its namespace, and nothing is left behind). Model the making of the two directories, the links, the command, the search for leftovers and the removal as a function from everything the outside may do (results and exceptions) to the sequence of effects and the result; prove what is there when the command starts, what is reported and what is there at the end; model the two pipes of a QML job by their room.
* **C74** (A job run by sudo with a password delivers its output in order and ends with its return code, except in known races). Model one pipe with its two readers (the thread with its buffer, and communicate, which takes bytes and closes the stream at the end) as a labelled transition system, prove by invariants what is delivered; model the loop of the main thread by its turns.
* **C75** (What the listeners of a command are told). Delegates are a tree (own delegate with a set of methods, chain, transformation); a notification gives the list of calls made and whether an exception was raised. A separate relation tells, for the flat list of delegates with the callbacks on the way to each, who is told what; the theorem is an equivalence by nested induction. Files and printed lines are folds over notifications, characterised by induction.
* **C76** (Building a provider does what its sources call for, wherever it is). Commands are functions from the file system's contents to effects (directories made, commands run where) and an exit code; relative names are those of PathModel, shown to lead from any proper absolute directory to any other by cancelling common components; glob patterns are a matcher on name components. Choosing is a stable sort, characterised as the last of the greatest; languages and QML files by separate relations.
* **C77** (A value sent as bytes arrives as the same value). Model brine.dump, load and dumpable over an inductive type of values, with the stream as the list of bytes left and the iteration order of sets, set membership and int() of loaded objects as parameters; prove by induction over values that a written value is read back from any longer stream, by induction on fuel that every sequence of bytes is read to an end.
* **C78** (Messages between processes arrive whole and in order, or not at all). Each system call consumes an event of an arbitrary list (so many bytes, closed, timeout, retried error, failure); reads and writes are functions of that list, frames are built and taken apart on top of them; prove by induction over events and messages that the messages received are a prefix of those sent, and all when the events allow it; zlib is a pair of functions of which decompress(compress(d)) = d is assumed.
* **C79** (Messages handed in by many threads are sent one at a time, in order, and none is forgotten). Small-step model of any number of calls of _send over the queue and the lock. Proved by invariants: the lock is held by exactly one call, what was tried plus what is in hand plus the queue is what was handed in, a non-empty queue has a lock holder or a call that will look again; termination by a decreasing weight.
* **C80** (An object given to the other process stays available as long as it can be used there). Small-step model of one object, its entry in the owner's collection, the peer's proxy and the messages under way in both directions. Proved by the exact invariant: entry = references under way + proxy + ends under way + references that arrived again.
* **C81** (Validating a test plan points out exactly the selectors that select nothing or too much). Model of the two validators, of the reference validator with the constraints of bootstrap_include and of their order, on top of the models of include statements (C46) and of test plans (C47). Proved as equivalences with what each line of a field says and which units it selects.
* **C82** (An exporter is offered exactly when its unit is in order, and can be created with the options its class knows). The field validators of exporters are written with the validators of the model of validation, and support, exporter_map, create_exporter and the collecting of the tar exporter on top. The condition for being usable is a record over what reading the fields gives, and silence of the check is shown equivalent to it; options are specified by an inductive reading of words and separators.
* **C83** (Places in files are ordered, and comparing others fails in known cases). The methods answer, decline or raise; the operators and functools.total_ordering are modelled on top with the rule for derived classes. Specified by an order of texts by first difference and by lines.
* **C84** (There is one symbol of a name, and symbols compare like texts). Threads are modelled with small steps (lookup, store); invariants give the uniqueness. Comparing reuses the answers of C83. Blocks are run statement by statement over the namespace.
* **C85** (The service for remote sessions runs one job at a time and keeps each result under its own job). A step function over events (calls with what the session underneath answered, and steps of threads; a call that waits is two events). Invariants by induction over any list of events that obeys a rule for the callers; the rules are part of the specification. What happens without the rules is shown by executions.
* **C86** (The service for remote sessions answers according to what was done). The same step function; phases specified by a relation, output by an equation over the list of events and answers, sorting by permutation, order and stability.
* **C87** (The password for a remote session arrives, is asked for once, and its temporary key serves once). Keys and encodings are parameters with the laws a cipher obeys as hypotheses of the section; a provider is a state machine over questions, readings and passphrase requests, related by an invariant to the list of what was typed; the temporary key is a state that is used up, its uses characterised by induction on the messages.
* **C88** (Jobs named on the command line are listed, and graphs show exactly their links). Patterns are lists of alternatives of the regular expressions of RegexModel.v; the listings compose select_jobs of QualModel.v (C17 is used in the proof). Choice, expressions and graphs are specified as sets of jobs, of texts and of lines by inductive relations.
* **C89** (A list of everything shows what there is, and can be read back). The tree and the printing are functions on a nested inductive; lists of a group are specified by a relation over the units; reading back is injectivity of printing, by induction on the size of forests with what follows less indented.
* **C90** (Command line tools run the command that was named). Model the registration of commands with and without hints, what argparse makes of the first word, the handlers of exceptions, the name and the texts of a command and the search for programs; prove that guessing does not change what is run, by showing that a guess is a known command; prove the endings by cases, the name by induction on the stem, the docstring by the first occurrence of the mark, and the search by induction on both lists.
* **C91** (Exceptions from the other side keep their details and make nothing else). Model dump over the names of dir() and load over values of the model of brine, with the modules, the imports and the generic classes as state; prove sendability by induction on the names, safety by cases on what is received, the way there and back by the list of pairs that are set, and one class per name as an invariant of histories.
* **C92** (Results that come later come once, in time, and tell all who asked). Model the object as a record with a step per call, times as numbers that come with the events; prove what is told by computing the state of a history before and after the result, and waiting by induction on the rounds, each with the reply that comes in it.
* **C93** (Reports about the selected jobs tell of each and miss no problem). Model the reports as functions from the run list to lines, with the variable that remembers the last problem; prove the lines by position, and the final message by the value of that variable after the loop; prove that the report of requirements is empty or fails.
* **C94** (Paragraphs are shown in their box). Model para with textwrap.wrap as a parameter whose promises are stated as a hypothesis; prove widths from the lengths of the padded lines, the placement by cases on the alignment and the parities in str.center, and splitlines by induction.
* **C95** (The usage of a tool shows every argument within the width). Model the filling of lines and the three layouts as functions of the width; prove for all lists of parts that some division into rows explains the text, that no part is lost and that every row fits or is a single part.
* **C96** (Colours change how a text looks and nothing else). Model the tables, the colorizer and the colours of outcomes; state what a terminal shows as a small separate function that drops escape sequences; prove that it shows the text, for all texts without escapes.
* **C97** (Messages are translated from the right catalogue or shown as they are). Model the translator with its three kinds of memory (directories, catalogues, lru_caches) as a state and calls as steps over it; state what a catalogue says about a call as a separate function; prove an invariant of the memory over all histories.
* **C98** (Log messages go where they belong, once). Model the configuration, adjustments of levels, the tree of loggers with effective levels and the propagation to handlers; prove for every reachable setting and every name where messages of each level go.
* **C99** (Small commands report what happened by text and exit code). Model the four commands as functions from their inputs to printed lines and exit codes, and the scanning of arguments before a command; prove what each exit code means and that nothing is left out.
* **C100** (The other side of a connection reaches only the attributes the configuration opens). Model _check_attr, _access_attr and the handlers over a heap of objects with attribute lists; characterise by an inductive relation which attribute a name reaches, and prove reading, setting and deleting exact against it; induct over histories for the default configuration and for services.
* **C101** (Services have one name and modules of the other side are asked for until they are found). Same files: aliases and the cache of ModuleNamespace as a fold over lookups; prove the result equals the first found answer and the questions asked are counted exactly.
* **C102** (Every request on a connection gets the answer to itself, once). Caller as a step function over events (request, answer, pick-up, clean-up), other side as a function of how the handler ended; invariant that a number is in one place at most; specification by first and last answers in the history; both sides composed over every arrival order (permutation).
* **C103** (A connection is closed once, however often it is closed). Same file: close, _cleanup and _handle_close over a small state; induction over the sequence of closings. A service whose on_disconnect raises is not modelled.
* **C104** (A job that cannot start is not run, and being skipped spreads). Model run_job_if_possible over the session state of C01-C10 with the runner as a parameter; prove the outcome of a refused job from the exactness of inhibitors in an up-to-date session, and the spreading by induction over the chain, each step restoring the invariant.
* **C105** (The registry of services finds exactly the live servers). Model the table of services and the three commands; prove that the table agrees with the last time each server was heard of, except for entries already too old, by induction over the history.
* **C106** (A server with a pool of threads serves each connection by one thread at a time and loses none). Model the threads as a step function over events on the shared table, polling set, queue and workers; prove by an invariant counting the places of each descriptor; refute the property for descriptor 0 and for connections that close themselves by concrete schedules.
* **C107** (What units remember of themselves is the first value, for each instance and arguments). Model the entry of a cached property in the instance, and the caches made for an instance with the one it has under the name of the method; prove agreement with a specification that keeps first values, by induction over the history; refute it for extended methods.
* **C108** (A server serves only authenticated clients, loses no socket and closes them all). Model the accepting thread, the threads of clients and closing as a step function over events; prove the claims by invariants over every sequence of events; refute that closing closes all by a schedule.
* **C109** (Reading the other side's iterators in chunks loses nothing, and a restricted view shows and changes only what it lists). The iterator of the other side is the list of what it still gives and how it ends; one request, the loop of requests and the accesses through a view are functions. Induction over the rounds, with fuel shown to suffice, and over histories of accesses.
* **C110** (The text report lists the jobs that have results, in order, and can be read back). The report is a function of the run list to the text written and the histories printed; the reader of a report is specified separately, by lines and the first colon. Induction over the run list.
* **C111** (Wrapping an object of the other side for asynchronous calls gives the wrapper of that very object). Memory as live objects with addresses, what the program holds, and the cache from addresses to wrappers; events create, wrap and drop, dropping collects. Invariant: the entries of the cache are those of live wrappers, at their own address and at that of their object, which is alive.

## Trusted base

* Coq 8.16.1's kernel (and `vm_compute`, which the kernel checks, in proofs about
  closed terms).
* `Print Assumptions` follows every theorem named in `MANIFEST.json`; for every
  one of them it says "Closed under the global context": no axiom of ours and no
  axiom of the standard library is used.  (`vcheck` lists some constants of
  `Coq.ssr.ssrunder` as library axioms: they are parameters of a sealed module of
  the ssreflect plugin that comes in with `Lia`/`stdlib` imports; no theorem
  depends on them.)
* The faithfulness of the hand-written models to the Python, as described in
  the comments and in the next section.  The parts of Python's own library that
  are modelled concretely (configparser, shlex, base64, json, string.Formatter's
  parser) were written from the sources of CPython; configparser and shlex were
  also compared with the installed Python on random inputs.

## What is modelled and what is not, per area

| Files | Code | Left out or simplified |
|---|---|---|
| Solver, Select | `impl/depmgr.py` | set iteration order is an argument; equality of jobs is equality of their checksum text |
| Job, Session, History | `impl/session/state.py`, `jobs.py`, `impl/ctrl.py` (readiness, signals), `impl/resource.py` (evaluation as an oracle) | logging, signal ordering between independent listeners, device contexts |
| Outcome | `impl/session/state.py` statistics, `unit/job.py` estimates | floats: any addition |
| Storage, StorageConc | `impl/session/storage.py`, part of `manager.py` | the file system is the relation `sysstep`, power loss the relation `power_loss`; the legacy (non-`openat`) variants are not modelled |
| Scan, Xparse | `impl/xscanners.py`, `impl/xparsers.py` | `re` is a parameter; characters are bytes |
| Rfc822 | `impl/secure/rfc822.py`, origins of lines | decoding of files |
| Qual | `impl/secure/qualifiers.py` | how a qualifier that is not composite matches is a parameter |
| Resource | `impl/resource.py` | python's parser and its operations on values are parameters |
| Json, Iolog | `json.dumps`/`loads` as used, `impl/result.py` IO logs | characters are bytes, numbers are their text, gzip is not modelled |
| Extcmd | `vendor/extcmd` | the operating system pipes are queues of lines; Transform/Redirect/Split delegates are not modelled |
| Assistant | `impl/session/assistant.py`, `developer.py` | the work done by each call is an oracle; callbacks into the assistant are not modelled; generators are their first and next steps |
| Morris | `vendor/morris` | garbage collection of listeners |
| Ctrl | `impl/ctrl.py` controllers | nest and temporary directories, QML pipes |
| Pod | `impl/pod.py` | filters are pure functions; values are not mutated in place; writes to underscore attributes are not modelled |
| Format, Template | `unit/template.py`, `unit/__init__.py`, CPython's format parser | jinja2, python's parser and line splitting are parameters; values are formatted by a parameter |
| Testplan | `unit/testplan.py`, `session/jobs.py` overrides, `state.py` | nested parts are a finite tree (self-nesting plans recurse for ever); state left by exceptions; updating of mandatory jobs in `set_test_plan_list` |
| Duration | `unit/job.py` | ASCII digits |
| Checksum | `unit/unit.py` | SHA-256 is a parameter |
| Path, Resume | `session/suspend.py`, `session/resume.py` | the JSON value, not its text, encoding or gzip; `early_cb`; float rounding; `True` and `1` are the same number |
| Launcher | `secure/launcher1.py`, providers it reads | abbreviated or attached options; what commands do; plugin loading; templates only make jobs |
| Ini, Config | `secure/config.py`, configparser, shlex | floats are their repr; exceptions of validators; encoding errors |
| Cache | `impl/jobcache.py` | symbolic links; ancestors of the cache directory; numbers as file descriptors |
| Runner | `impl/runner.py` | threads, time, leftover files, the deprecated io delegate |
| Exporters | `impl/exporter/__init__.py` (options, data), archive members of `exporter/tar.py`, `create_exporter` | translation, jinja2 and spreadsheet rendering, the text and RFC822 exporters, tar itself |
| Text of job output | `io_log_as_flat_text`, `io_log_as_text_attachment` of `impl/result.py`; the incremental UTF-8 decoder of CPython | encodings other than UTF-8 |
| Job results | `JobResultBuilder`, `_JobResultBase` of `impl/result.py` (fields, builder, comments, is_hollow), the initializer and `as_dict` of `impl/pod.py` for it | translated outcome labels, equality and hashing |
| Plug-ins | `impl/secure/plugins.py` | times; LazyFileContent; what wrappers and imports do is a parameter |
| Contents of providers | `impl/secure/providers/v1.py` 60-606, 836-921, 983-1001 | the parser and the validators of units, the executable bit and the first bytes of a file are parameters; units with an id field that is None |
| Provider definitions | `impl/secure/providers/v1.py` 1070-1560, `impl/providers/v1.py` | patterns are over ASCII (the classes in them are ASCII; `$` also matches before a newline at the end); os.path.isdir is a parameter and does not change while a file is loaded; messages of refusals are not modelled, only the offending option |
| Running a session | `impl/commands/inv_run.py` 369-424, 495-559, 717-805, 1004-1047 | categories, what is printed, the texts of comments, the dialogue during one job (C58), exporting |
| Dialogue about a job | `impl/commands/inv_run.py` 63-104, 183-190, 807-863, 898-970 | printing, colours; labels of actions are parameters; the builder is reduced to outcome, comments, return code and the run it is about; SilentUI |
| Fields of units and jobs | `impl/unit/unit.py` 557-848 and `impl/unit/job.py` 249-289, 361-380, 477-551, 611-682 | jinja2 rendering and the formatter are parameters (the formatter is that of C28 in one theorem), caching of properties |
| Jobs made from a job | `impl/session/state.py` 1111-1181 | overrides that are not texts; origin, controller and offsets of the copies; the session itself (C57) |
| Validation | `impl/unit/validators.py`, `impl/unit/{unit,unit_with_id,job,template}.py` check and Meta.field_validators, `provider_manager.py` 1046-1175, `ctrl.py` 303-325 | the validators of categories, test plans, files, exporters, manifest entries and packaging units other than id and unit (a parameter); shlex, accessed parameters, resource and import parsers (parameters); texts of messages |
| Restart | `impl/session/restart.py` all, `impl/session/assistant.py` 614-640, 1304-1346, 1398-1422 | that creating directories, sudo and systemctl can fail; jobs that cannot start; the user interface; what the desktop makes of an Exec line |
| Packaging meta-data, os-release | `unit/packaging.py` 131-470, `device.py` 41-200, `provider_manager.py` 1318-1334 | parsing of debian/control (python-debian), parameters of units |
| Device contexts, session managers | `impl/session/state.py` 195-262, 361-530, 794-803, 1038-1110, 1183-1214; `impl/session/manager.py` 96-200, 398-466 | readiness and overrides on changes, storage, the extra signals of managers |
| manage.py commands | `provider_manager.py` 169-388, 421-486, 514-560, 1054-1126, 1450-1498 | symbolic links, permissions and modes (copy2, copymode), OS errors other than existing targets, build/clean/i18n/test/packaging commands, the contents of archives beyond which names are included |
| Session repository | `impl/session/storage.py` 45-263, `impl/commands/inv_session.py` 66-84, 196-201, `impl/commands/inv_run.py` 427-478, 495-514, `impl/session/assistant.py` 486-541, 592-594, 651-689 | partial removals by rmtree, entries that vanish between listdir and lstat, the texts printed, archives and exports of sessions |
| Starting a provider | `impl/commands/inv_startprovider.py` 34-139, 140-520 (texts as data), 521-532; `cmd_startprovider.py` 29-60 | permissions other than executable; the printing; that Python runs manage.py as its text says is read off the text (calls_setup) |
| Resource observation | `impl/ctrl.py` 254-290 and 327-351, `impl/session/state.py` 1216-1222, `impl/runner.py` 75-87, `impl/resource.py` 76-130 | Texts of characters above 255, logging, comparisons other than ==, != and in on texts |
| Assistant, jobs | `impl/session/assistant.py` 592-650, 797-1040, 1135-1463 | user interfaces, warm-up, warnings, exporters and transports; which calls are allowed (AssistantModel.v) |
| Issue positions | `impl/secure/origin.py` 46-194, `impl/unit/unit.py` 172-245, `impl/unit/testplan.py` 405-425, `impl/unit/validators.py` 502-535 | ordering and printing of origins, text sources other than their name, negative offsets, message texts; Python's shlex is modelled, not read |
| Delivery of results | `impl/transport.py` 60-255, `impl/exporter/__init__.py` 338-380, `impl/commands/inv_run.py` 413-424, 865-893, `impl/commands/inv_session.py` 157-173, `impl/session/assistant.py` 1482-1594 | the exporters themselves (C49-C51), OAuth signing, requests and the network (an answer is a parameter), Python's write buffering (bytes reach the file in order), garbage collection of StreamTransport (its TextIOWrapper closes the process's standard output when collected), a stop while the checkpoint is written (C01) |
| Spreadsheet report | `impl/exporter/xlsx.py` 366-378, 442-715 | the sheet about the system (188-364), formats, the chart, what xlsxwriter does to a value |
| Directories of a job | `impl/ctrl.py` 357-545, 883-995; `impl/runner.py` 683-760, 888-910 | Windows; symlink failing for another reason than an existing name; exceptions while the command line is made; the file system itself (given as results of the calls) |
| Sudo with a password | `impl/ctrl.py` 1514-1560; `vendor/extcmd/__init__.py` 582-614 | CHUNKED_IO; the implementation of Popen.communicate (modelled from its documentation and source: it reads both pipes, closes them at their end, and refuses input when it was called before); the command line is in C44 |
| Delegates | `vendor/extcmd/__init__.py` 323-428, 629-850, `impl/runner.py` 97-190 | Redirect (writes to streams), EncodeInPython2; composing a chain with no delegates under a transformation; which exception is raised; colours of the printer |
| Building a provider | `provider_manager.py` 593-815, 1186-1300, `impl/buildsystems.py` | what is printed; the shell; the second look at the sources; failures of makedirs and listdir; what intltool, xgettext and msgfmt do |
| Values as bytes | `vendor/rpyc/core/brine.py` 1-374 (Python 3) | Python 2 branches, RecursionError, MemoryError, the digit limit of later CPython, bits of floats beyond their pattern |
| Streams and channels | `vendor/rpyc/core/channel.py`, `vendor/rpyc/core/stream.py` 210-238, 291-317 | poll(), connecting, closing, TLS, Win32 pipes, threads |
| Sending from many threads | `vendor/rpyc/core/protocol.py` 146, 156, 239-268 | list operations and lock operations are atomic, as the code assumes; asynchronous exceptions in a thread |
| Shared objects | `vendor/rpyc/lib/colls.py` 56-86, `core/protocol.py` 284-325, 343-347, 607-608, `core/netref.py` 57-132 | several threads in _unbox at once; resurrection of a proxy during its destructor; what the classes of proxies forward |
| Validation of test plans | `impl/unit/testplan.py` 67-182, 596-662, `impl/unit/validators.py` 622-690 | messages; the checks of a plan by itself (those validators are the ones of C61) |
| Exporter units | `impl/unit/exporter.py`, `impl/session/manager.py` 449-510, `impl/exporter/tar.py` 133-140 | what the exporter classes do when made (jinja2 loads its template); the deprecated checks of fields |
| Places | `impl/secure/origin.py` | str and repr, get_caller_origin, os.path.relpath (a parameter) |
| Symbols | `impl/symbol.py` | repr, immutability of the name, subclasses of blocks |
| Remote service | `impl/session/assistant2.py` 42-265, 304-325 | `get_jobs_repr`, `get_session_progress`, the application blob, `whole_output`, undecodable output, two calls of `monitor_job` at once, what the session underneath does (AssistantModel.v, AsrunModel.v) |
| Passwords | `impl/secure/sudo_broker.py` 36-153, `impl/session/assistant2.py` 252-255 | RSA and SHA-512 themselves (parameters), getpass, collecting garbage |
| Special listings | `impl/commands/inv_checkbox.py` 54-103, `impl/commands/inv_special.py` 33-125 | parsing of regular expressions (a parameter gives the alternatives of a pattern), loading providers, logging |
| Listing | `impl/highlevel.py` 40-337, `impl/commands/inv_list.py` 28-60 | which attributes an object of a kind has (taken from the unit), repr() |
| Command line tools | `impl/clitools.py` 112-118, 140-147, 166-201, 290-324, 552-603, 658-716, 840-852, 891-899 | options of the tool itself, argcomplete, logging, translation, abbreviations in argparse, the fork of the pager, SingleCommandToolMixIn |
| Exceptions of the other side | `vendor/rpyc/core/vinegar.py` 49-160 (Python 3) | Python 2 branches, arguments that are not a tuple, classes that cannot be made without arguments, __str__ and __repr__ of the derived classes, the derived class itself (one per class) |
| Results that come later | `vendor/rpyc/core/async.py` 14-20, 32-118 | callbacks that use the result while being called, times as floats, what serve() does beside, __repr__ |
| Reports about jobs | `impl/commands/inv_analyze.py` 99-122, 136-176, `impl/resource.py` 567-572 | headings, formats of durations, other reports, translation |
| Paragraphs | `impl/ingredients.py` 70-122 | textwrap (a parameter), colours, line boundaries other than newlines, wide characters, the command recipe |
| Usage of tools | `impl/_argparse.py` 150-227 | a usage given by the tool; how single arguments are formatted and split into parts |
| Colours | `impl/color.py`, colours of `impl/result.py` 113-186 | Windows, a custom table of colours, translated labels of outcomes |
| Translations | `plainbox/i18n.py` 375-508 | reading of catalogues, which do not change while the program runs; keyword arguments (which the caches tell apart); translators for testing |
| Logging | `impl/logging.py`, `impl/clitools.py` 281-288, levels and propagation of python's logging | formats, rotation of files, loggers outside plainbox and checkbox (python's handler of last resort), disabled loggers |
| Small commands | `impl/commands/inv_check_config.py`, `inv_parse.py`, `inv_script.py`, `inv_selftest.py`, `impl/parsers.py` 116-143 | how values are formatted, json, running of commands (C44, C48), unittest; of argparse only what precedes a command |
| Access from the other side | `vendor/rpyc/core/protocol.py` 21-61, 562-640; `core/service.py` 67-85, 96-150 | what running a value does; attributes computed by the object; handlers repr, str, hash, cmp, call, inspect, buffiter and oldslicing |
| Requests and answers | `vendor/rpyc/core/protocol.py` 140-209, 236-237, 343-378, 508-535 | decoding and encoding of messages (C-numbers on brine and references), time-outs of polling, nested handling while waiting (its events are events of the same history) |
| Running one job if possible | `impl/applogic.py` 51-80, `impl/session/jobs.py` 192-211, 364-375 | the runner itself (C26 and others), translation, repr of texts (a parameter) |
| Registry of services | `vendor/rpyc/utils/registry.py` 30-142 | sockets, the brine messages (C74 and others), logging, clients; times are whole numbers |
| Server with a pool of threads | `vendor/rpyc/utils/server.py` 292-504 | authentication, closing the server, what serving a request does (C102), pauses after exceptions; unregistering and queueing by the polling thread are one step |
| Caches of units | `impl/decorators.py` 30-65 | limits on the size of caches (units use none), how functools.lru_cache compares arguments, several threads |
| Server with a thread per client | `vendor/rpyc/utils/server.py` 24-265, 279-289 | what serving a client does (C102), registering in the background, servers that fork or serve one client, authenticators that give back another socket; setting the flags and closing the listener is one step |
| Chunks and restricted views (`HelpersModel`) | `vendor/rpyc/utils/helpers.py` 12-85, `core/protocol.py` 641-651 | deleting through a view, async_, timed, BgServingThread |
| Text report (`TextreportModel`) | `impl/exporter/text.py` 45-77 | translations of the words, how `print` shows bytes |
| Asynchronous wrappers (`WrapperModel`) | `vendor/rpyc/utils/helpers.py` 87-145, `vendor/rpyc/lib/colls.py` 5-54 | calling a wrapper (C92), threads racing in `async`, cycles of references |

Not modelled at all: CPython itself, user interfaces under
`plainbox/impl/commands` and `highlevel` other than what is listed, D-Bus, QML/gi code, exporters other than
what is listed, packaging, documentation and test code.

## Findings

Where the code does not do what its documentation or a user would expect.  Those
marked with a theorem are proved in the model.

*Sessions.*  `update_desired_job_list` raises for a malformed `requires`
(`C05_…_refuted`).  A requirement that cannot be evaluated while all its resource
jobs passed blocks nothing (`C06_…_refuted`).  Removing a job on the run list
raises KeyError and leaves the session unusable (`C08_…_refuted`).  An equal copy
of a job in the visit list turns a cycle into an AssertionError.  Trimming does not
remove units.  A manual job without estimate and command is not "unknown"
(`C10_manual_unknown_refuted`).  A blank duration is 0 seconds.  A checksum is
recorded before `add_unit` can fail.

*Storage.*  A failing fsync is swallowed, then power loss leaves garbage
(`C11_failing_flush_refuted`).  A failing rename is silent
(`C13_failing_rename_refuted`).  `break_lock` of a live process, or a write that
fails while others save, mix data (`C41_…_refuted`).

*Qualifiers and texts.*  The fast path of `select_jobs` is wrong for repeated
identifiers (`C17_duplicate_identifiers_refuted`).  `OperatorMatcher.__lt__`
compares functions.  A quote that is never closed makes the scanner loop or assert
(`C19_…_refuted`, `C20_…_refuted`); NUL ends a text.  RFC822 values with a line
"." or with blank inner lines are not read back (`C21_any_value_refuted`); a value
at the end of a file without newline skips dot processing.

*Resources.*  Arguments of calls are not checked, so
`int(__import__('os').system(...))` is accepted (`C23_calls_refuted`); attribute
calls raise AttributeError; operators of whitelisted BinOp/UnaryOp are not
whitelisted; names only used in arguments are not bound.  The message for "::" in
imports is not formatted.

*Execution.*  A delegate that raises kills the worker thread and output is lost
(`C26_…_refuted`).  KeyboardInterrupt outside `wait()` is not handled.
`remove_signals_listeners` disconnects every other signal and raises for
`pass_signal=True` (`C29_…_refuted`).  QML jobs that ask for root run as the
current user, and jobs for another user run as root when plainbox is root
(`C30_…_refuted`).  Configuration can bring LC_* back; stale
`PLAINBOX_PROVIDER_*` variables are inherited; variables equal to those of the
process are dropped for root jobs (`C31_…_refuted`).  Variable names with a leading
dash become options of env(1) and of the launcher (`C44_…`, `C48_dash_refuted`).
With no controllers the runner raises IndexError.  `temporary_cwd` swallows a
PermissionError of the job.  Different jobs can share log files, a second run
replaces the log of the first result, chunked output is not logged, and a plugin
spelt with underscores raises ValueError (`C37_…_refuted`); a qml job whose return
code is None raises TypeError.  A store that is interrupted or fails (for instance
for a result without a log) makes every later load of the resource cache raise,
because `logger.warning` is misspelt, and no JobRunner can be made until the cache
is cleared (`C39_…_refuted`); clearing by another object leaves entries in memory
whose logs are gone; a log called `result.json` would be overwritten.

*Assistant.*  `get_ubuntu_sso_oauth_transport` is never allowed.
`finalize_session` is ignored before `finish_bootstrap` and after a failed
checkpoint.  A noreturn job in bootstrap trips the protocol.  `hand_pick_jobs` and
`finish_bootstrap` reset the alternation of running and recording
(`C28_…_refuted`).  `get_mandatory_jobs` and `get_participating_categories` raise
IndexError in hand-picked sessions.  An old `get_resumable_sessions` iterator
re-allows `resume_session`.  A failed `select_providers` leaves a partial selection
(`C42_…_refuted`), overlapping patterns raise ValueError although they match.
`use_alternate_selection` ignores unknown ids.

*Units.*  `const` fields with UNSET initial value can be set once; the `unique`
filter never finds duplicates in tuples and refuses every non-empty list
(`C32_…_refuted`); assigning False over 0 is not stored.  A field called
`namespace` collides with the provider's namespace in checksums
(`C36_…_refuted`).  Template filters of several lines about an imported resource
accept nothing; `{a.b}`, `{a[0]}` and nested placeholders are not counted as used
(`C34_…_refuted`); `TemplateUnit.instantiate_template` passes its arguments in the
wrong order.

*Test plans.*  `get_effective_category` takes the first match, the maps the last,
and both ignore inline overrides and nested parts (`C33_…_refuted`).  Blank lines
in category-overrides raise there and are ignored elsewhere.  Nested overrides are
dropped when the outer plan has none.  Inline category ids are not qualified.
Patterns with their own `^`/`$` never match with a namespace; `a|b` becomes
`^ns::a|b$`; escaped literals keep their backslash.  A broken pattern raises
UnboundLocalError.  Excluding in a nested plan excludes in the parent.  The order of
bootstrap jobs depends on set iteration.  A plan that nests itself recurses for
ever.  Setting test plans twice leaves old overrides.

*Suspend and resume.*  The desired list grows by the mandatory jobs on every
cycle; hollow results and jobs without result are lost; a hollow current result
with history cannot be resumed; comments are sanitised again on every save; integer
delays and durations are rejected; logs outside the session directory come back
under an unnormalised name; `true` and `1.0` are accepted as version 1; TypeError,
ValueError, KeyError, EOFError, zlib.error, OSError, RecursionError,
DependencyDuplicateError and ResourceProgramError can escape; trimming a resource
job with results makes its generated jobs unobtainable (`C14`–`C16` `…_refuted`).

*Launcher.*  The generator runs even when the target is unknown; two units with the
same checksum across providers break every launch; siblings of generated jobs
cannot be found; a generator that fails raises CalledProcessError; one that is not
a resource job runs and its output is ignored; KeyError in a template is reported
as an unknown job.

*Configuration.*  ValueError, interpolation errors, TypeError and AttributeError
escape `read` and `read_string`, parser errors escape `read`
(`C40_…_refuted`, `C50_…_refuted`); variables in a missing section ignore DEFAULT;
DEFAULT items leak into sections; an Unset variable takes a DEFAULT on reading
back; values with `%`, lists with spaces, booleans in integer variables do not read
back (`C49_…_refuted`); mangled names collide.

*Exporters.*  An option set to the empty text is off; `create_exporter` without
strict drops every option with a value; `with-job-list` also selects the desired
list, which has no option of its own; two jobs can get one member name in the
archive; a session directory or job identifier with `record.gz` in its name loses
its output (`C51_…_refuted`).  A disk result without log file name makes the archive
raise AttributeError.  The text exporter prints history to the standard output
instead of the stream.

*Job results.*  `get_builder(**kwargs)` uses `setattr`, so a misspelt name is
silently ignored (`C53_misspelt_argument_refuted`).  Removing escape sequences
once can put two halves of a new one together (ESC ESC [ A [ A becomes ESC [ A,
`C53_sanitised_once_is_enough_refuted`), and other control characters stay in
comments although they are removed from output.  A `DiskJobResult` without a
file name comes back from `get_builder().get_result()` as a memory result, and
an integer duration makes `get_builder` raise `TypeError`
(`C53_any_result_rebuilds_refuted`).

*Plug-ins.*  `FsPlugInCollection.load` sets `_loaded` first: after an
exception that is not an `OSError` (a file that is not UTF-8 raises
`UnicodeDecodeError`) all later files are missing for good, without a problem
being recorded (`C54_failed_load_is_retried_refuted`).  The entry point
collection does try again and records its problems twice
(`C54_problems_are_recorded_once_refuted`).  `get_all_names` of a lazy
collection lists names that `get_by_name` then refuses with `KeyError`, adding
a problem each time (`C54_listed_names_can_be_got_refuted`).

**Contents of providers** (C55). (1) Directories are compared with startswith without a separator, so /p/jobs-old/a.pxu is loaded as if it was in /p/jobs. (2) The units rule lists the extension .txt.in, which splitext never returns: such files are silently not loaded. (3) Translations get build/bin as their base directory. (4) The search for .git and .bzr does not stop at a base directory that is written with a slash at the end: it goes on above it, and never ends if the path begins with exactly two slashes. (5) When loading ends with an exception (an executable that cannot be opened), is_loaded stays unset and the next access loads everything again on top: units appear twice.

**Provider definitions (C56).** (1) The pattern for names has an alternative that is not anchored at the end: with a namespace given, a name that merely begins with a qualified name is accepted, whatever follows. (2) The patterns for versions and gettext domains are not anchored at the end either: a version is accepted exactly if it begins with a digit or with v and a digit, and `x/../../etc` is a valid domain. (3) A definition without a namespace whose name is missing or malformed ends in TypeError (a pattern is matched against Unset), a syntax error or duplicate option ends in AttributeError (a parser error has no variable), a lone per cent sign in InterpolationError, a flag that is not a boolean in ValueError, and a relocatable file that was found through a relative directory in ValidationError. The collection catches PlugInError only, so each of these stops the loading of all providers. (4) The environment variable SNAP decides which directories are secure.

*Running a session.*  The checkpoint that is written when a job has ended clears the name of the running job but is written before the result is put into the session: after a crash there the result is lost, and the job is run again without asking (`C57_result_is_saved_at_once_refuted`).  A crash while results are exported leaves a session that is neither incomplete nor submitted and is never offered again (`C57_export_is_retried_refuted`).  If some job has no estimated duration then a finished session is reported as less than 100% complete (`C57_finished_session_is_complete_refuted`).

**Dialogue (C58).** The first remark on a job whose user was asked first follows an empty line, because the comments begin as the empty text and not as unset (`C58_only_comment_is_kept_as_typed_refuted`); for the same reason comments that the runner made are replaced (`C58_runner_comments_are_kept_refuted`). Remarks made after a run are lost when the job is run again (`C58_comments_survive_a_rerun_refuted`). A job flagged explicit-fail can fail without a comment, since an empty one is accepted (`C58_explicit_fail_has_a_comment_refuted`); the variable meant to remember a comment is reset in each turn, so the question is asked even after a comment. The end of the input is handled where a command is expected but is an uncaught EOFError where a comment is (`C58_end_of_input_is_handled_refuted`). In a session that is not interactive manual jobs stay undecided (`C58_unattended_is_decided_refuted`).

**Fields** (C59). A field of exactly two indented lines that is marked for translation is dedented when it is read plainly, but not when its translation is asked for and there is none: the raw value loses its last newline first, and with a single newline left `normalize_rfc822_value` takes it for a one-line value (`C59_untranslated_refuted`). The default of `get_record_value` is formatted again, so the summary of a template instance that has none fails when a resource value put into its identifier has braces, while `tr_summary` works (`C59_summary_of_an_instance_refuted`). `flags: simple,` has an empty flag (`C59_no_empty_flag_refuted`).

**Jobs made from a job** (C60). A job with both `flags` and `_flags`, the latter with also-after-suspend, is copied without end: the copy edits `flags` and the flag is read from `_flags` (`C60_endless_refuted`). With `_depends` or `_flags` alone adding the job raises KeyError (`C60_translatable_dependencies_refuted`). The copy of job `x` for the manual flag and the copy of job `manual-x` for the other flag have the same identifier (`C60_copies_clash_refuted`). The flag also-after-suspend-manual is not removed from copies, its end `-manual` stays as a flag (`C60_copy_flags`). If the dependencies end in a comment, those added for the copy are part of the comment, so it may run before the job and without a suspend (`C60_dependencies_in_a_comment_refuted`). Identifiers of template instances are formatted again in copies (`C60_copy_of_an_instance_refuted`).

**C61.** (a) Validating a provider whose name is already installed leaves the provider out of the context: new jobs crash the command with KeyError and duplicate identifiers within it pass. (b) A template that cannot make an instance passes, as the issue is created but not yielded (template.py 71-73). (c) Issues of fields marked for translation get the lines of the whole unit (unit.py 216, 229 compare with a condition that never holds). (d) n load problems are reported n*n times (provider_manager.py 1118-1126). (e) Tokens that are not identifiers in `depends` are dropped silently. (f) `_auto-retry` and `_certification-status` may be marked for translation or differ between instances, as their validators look at `auto_retry` and `certification_status`. (g) Checking an instance may raise MissingParam. (h) Cycles pass validation.

*Restarting (C62).* The session assistant sets running_job_name when it starts a job and never clears it except when resuming: a job with the autorestart flag that has finished, whose result was saved, and after which the application was closed, has its result replaced by pass or fail when the session is resumed (`C62_finished_jobs_keep_their_results_refuted`). In a snap all parts of the restart command but the first are lost (`C62_snaps_keep_the_arguments_refuted`) and an empty command is an IndexError; the file __respawn_checkbox holds the parts without anything between them (`C62_the_respawn_file_tells_the_command_refuted`). A command with a percent sign is a ValueError of configparser, before the job is run (`C62_any_command_can_be_used_refuted`); a line break in the command is followed by a tab in the file, and the Exec line is cut there (`C62_line_breaks_survive_refuted`). Setting a strategy without a command callback is a TypeError for every job with the flag (`C62_a_strategy_alone_is_not_enough_refuted`); without USER no strategy can be made in a snap (`C62_which_strategy`); without HOME the entry goes to a directory called $HOME below the current one (`C62_without_a_home_refuted`).

**Packaging (C63).** The command appends to the substvars files, so running it twice defines every variable twice (C63_running_it_again_refuted). A comment in os-release, which os-release(5) allows, makes get_os_release raise ValueError, which the packaging command does not catch (C63_comments_refuted, C63_a_stray_word_refuted). ID_LIKE is a list by os-release(5), but it is compared whole: on systems like several others nothing is done (C63_being_like_several_refuted). The fall-back for the architecture calls a method that does not exist (device.py 128), so without dpkg and rpm device discovery raises AttributeError (C63_the_last_resort_refuted). The module documentation speaks of os-version and ID_VERSION; the code reads os-version-id and VERSION_ID. A debian/control that exists and cannot be read is reported as having no applicable packages.

C64: (1) checksums do not depend on the provider, so two providers with the same text of a unit cannot be in one session: the second raises ValueError and stays half added. (2) jobs the session makes from other jobs or templates have no registered checksum, so SessionDeviceContext.remove_unit raises KeyError for them. (3) a unit that clashes (DependencyDuplicateError) has its checksum registered before the clash is found, so it is refused for ever, even after the other one is removed. (4) the identifier table is shared by all kinds of units: removing one of two units with the same id hides the other, and removing that raises KeyError after it has been taken off the list, without a signal. (5) units other than jobs made from templates are appended again each time the resource job is run. (6) adding a file or packaging unit twice raises AttributeError instead of ValueError since the message uses unit.id.

**C65 (installing providers).** Ten things do not work, each with a theorem on a concrete file system: a `bin` directory without executables makes the unix layout write a `bin_dir` that does not exist, and the installed provider is refused; a name without a namespace (neither qualified nor with `namespace=`) passes setup and install but is refused when loaded; the flat layout of a provider with nothing to copy is refused; a percent sign in the prefix makes the command fail after having created an empty definition; installing twice fails after rewriting the definition; translations cannot be installed in the unix layout if `share/locale` exists (copytree refuses existing directories), i.e. never in a real `/usr`; a ready-made `locale` directory is used in development but not installed; the description is documented as optional but required; the command that signs archives is interpolated into a shell command and versions may contain shell metacharacters; validate lists each early issue as many times as there are early issues.

**C66 (stored sessions).** Five defects: one dangling link (or an entry that vanishes during the listing) in the repository makes listing return nothing at all, because ENOENT of os.stat is taken for a missing repository; a title that begins with a dot makes a session whose directory is hidden and never listed; two programs that start in the same second can both see a name as free, and the second ends with FileExistsError instead of taking the next name; `plainbox session remove` says that a session was removed even if nothing could be removed; one session whose checkpoint cannot be read ends the search for sessions to resume with an error, hiding all older ones.

**C67 (starting a provider).** Three defects: a name followed by a newline is accepted, because the pattern ends in a dollar sign, and manage.py then has a string literal that is not closed on its line, so it cannot run; po/POTFILES.in of a new provider names jobs/examples-*.txt, which are not made (the units are in units/*.pxu), so the translation template of a new provider cannot be made; README.md tells about a jobs/ directory that is not there.

C68: records that a resource job prints after a block that is not a record are lost without a message to the user (C68_all_records_refuted); a resource job with the flag use-chunked-io has an empty log and so one resource without fields (C68_chunked_refuted); when a resource job prints nothing the one resource without fields still instantiates a template without a filter (C68_nothing_printed_refuted).

C69: the assistant never clears the name of the running job after it finished, so when a session is resumed the saved result of the last job, if it has the flag autorestart, is replaced by pass or fail (C69_finished_job_overwritten_refuted); a session interrupted while bootstrapping is not offered for resuming (C69_interrupted_bootstrapping_refuted), nor is one of hand-picked jobs before the first has run (C69_picked_jobs_saved_refuted); remove_all_filters on hand-picked jobs empties the list and get_mandatory_jobs and get_participating_categories then raise IndexError (C69_picked_jobs_refuted); a mandatory job that a template makes while bootstrapping is named by get_mandatory_jobs but is not on the list (C69_generated_mandatory_refuted); use_alternate_selection cannot use a job of the session that is not on the list, though documented, and raises nothing for unknown names (C69_any_job_refuted); a category that a test plan overrides is reported but cannot be filtered by (C69_overridden_category_refuted); with auto-retry a job that used up its attempts is reported as not supported when it is run again (C69_tried_too_often_refuted).

**C70.** (1) A message about a field marked for translation (written with an underscore) never points at its line: the branch in report_issue that looks up the underscored name asks whether the origin is None just after it was set (C70_translatable_field_refuted). (2) Comment lines within a value are not counted, so later lines are off by one (C70_comment_in_a_value_refuted). (3) A leading dot line is stripped but counted (C70_leading_dot_refuted). (4) An empty field is reported one line below itself, possibly past the end of the file (C70_empty_field_refuted). (5) The shell check misses open quotes behind a hash within a word and in programs with a here document (C70_every_open_quote_refuted). (6) An open quote is reported on the last line of the program (C70_line_of_the_quote_refuted).

C71: `plainbox run` and `session export` copy to standard output in pieces and decode each piece on its own, so a multi-byte character across a buffer boundary (16 KiB, 64 KiB from Python 3.8) ends the command with UnicodeDecodeError (C71_every_text_is_printed_refuted). `plainbox run` gives bytes to the transport although the stream and file transports read from a file object: both end with AttributeError and the file transport has emptied its file by then (C71_run_to_file_refuted, C71_bytes_refuted). `plainbox run` marks a session as submitted when the upload failed, and cleaning up removes submitted sessions (C71_marked_means_submitted_refuted). Output files are emptied when the command starts, before any job runs (C71_output_file_kept_refuted), and are not written atomically (C71_old_file_kept_refuted). Not every failure is TransportError and 3xx counts as success (C71_transport_errors_refuted).

**C72 (spreadsheet report).** One byte that is not UTF-8 in the log of one job makes the whole export fail with UnicodeDecodeError, although attachments and resources with such contents are only left out; a job in an undefined category, or a job whose identifier equals the name of a used category (`result_map.update` overwrites its entry), makes it fail with KeyError. A test that crashed counts as skipped, and a category with one passed and one crashed test is shown as passed. Local jobs have no line but decide how their category is shown. The counters are never reset, so an exporter used twice adds the sessions up.

**C73.** Two providers of the same namespace that have an executable of the same name make every job of the namespace fail with FileExistsError before it starts. Links to directories, and directories that cannot be listed, are not reported as leftovers. A PermissionError raised while the command runs, by a listener, or when the directory is removed is swallowed together with any exception before it, and the job gets the return code -1; for QML jobs the same case ends in a TypeError because None is unpacked. A PermissionError when the working directory is made becomes an UnboundLocalError in the handler. A QML job hangs for ever when its description, or the answer, does not fit into a pipe, because plainbox writes before it starts the reader and reads after the writer ended; an answer that has no outcome raises KeyError.

**C74.** The controller starts the two reading threads and then calls communicate to send the password, which reads the same pipes: of any output, any part may be lost, up to all of it, and lines already in the buffer of the reading thread are lost when communicate closes the stream first. When a running job is interrupted, the loop asks for the password again and calls communicate with input for the second time, which raises ValueError, so that an interrupted job has no result and on_end is not called. When asking for the password raises an exception, the finally clause waits for ever, since the process still waits for the password. A process killed by a signal is reported with on_end and not, as elsewhere, with on_abnormal_end.

**Interrupts stop at transformations (C75).** `Transform` does not define `on_interrupt`, so nothing behind `Decode`, `Encode` or another transformation is told about an interrupt. A delegate that raises an exception, and a `Decode` that meets a byte that is not UTF-8, keep all delegates after it from being told. `CommandOutputWriter` has no `on_chunk`, so the files of a chunked command are empty. `FallbackCommandOutputPrinter` gives up on both streams after one line that is not UTF-8.

**Go sources and brackets (C76).** `GoBuildSystem.probe` inserts the absolute source directory into a glob pattern, so a provider below a directory such as `a[b]` is not recognised, and the sources of another directory may be. `manage.py i18n --dry-run` still makes `po/` and `build/mo/…`. `manage.py i18n` ignores the exit codes of all its commands and always exits with 0. `manage.py build` raises IndexError if no build system entry points are installed, though it means to do nothing. A build system that reports a negative score is used if no other has a greater one.

C77: `dumpable` says yes to texts with lone surrogates, for which `dump` raises UnicodeEncodeError (`C77_dumpable_is_enough_refuted`). The reader takes whatever `BytesIO.read` returns: bytes cut inside a string or number are read as a shorter one without an error (`C77_truncation_is_noticed_refuted`); only the framing of the channel keeps that from happening.

C78: reading from a pipe takes every error for the end of the connection, also an interrupted or a not yet ready call, which sockets retry (`C78_pipe_waits_refuted`, `C78_socket_waits`).

C79: if the channel's send raises, the message is lost, messages of calls that have already returned stay in the queue although every call is over (until a later call sends them), and the exception reaches whichever call was sending, not the one whose message was lost (C79_failure_strands_refuted, C79_failure_reaches_its_call_refuted).

C80: the owner ignores the count a proxy sends when it ends, so an object whose reference arrived twice while a proxy existed is kept until the connection closes (C80_always_released_refuted, C80_what_is_kept gives the amount). An asynchronous call whose arguments make the owner ask back can find its object gone, because the end of the proxy is handled meanwhile (C80_nested_uses_find_it_refuted).

C81: a pattern that is not a regular expression, two words on one line of bootstrap_include (which is a word list), or a bootstrap job that has the name of a category or test plan, do not give an issue but end validation with an exception (C81_validation_reports_refuted, C81_raises). A selector of include that matches only a unit that is not a job, such as a category, is not pointed out (C81_silent_means_jobs_refuted).

*Exporters (C82).* Any issue hides an exporter, not only errors: a summary that is not marked for translation or is longer than 80 characters makes it disappear without a word (`C82_warnings_do_not_hide_refuted`). Data that is the empty object is called a syntax error (`C82_any_json_is_fine_refuted`), since the result of the reader is taken for the verdict. Options are not checked: a comma at their end, or an unknown one, lists an exporter that can never be created (`C82_listed_can_be_created_refuted`), even in the mode that discards unsupported options. The tar exporter loads all exporters of all providers without the check, so that a broken one that is not even listed stops every archive (`C82_unusable_is_ignored_refuted`). The summary has a default, so that the advice to have one is never given (`C82_summary_is_asked_for_refuted`). The name of a template may lead out of the data directory (`C82_template_stays_inside_refuted`).

*Places (C83).* Two arguments of the command line may each be later than the other (`C83_arguments_in_order_refuted`), and two without a name cannot be compared (`C83_arguments_comparable_refuted`). A file and a line of it, the outputs of two jobs, and sources of two kinds cannot be compared (`C83_any_two_comparable_refuted`), so that sorting places can raise TypeError. A place with only one end cannot be moved (`C83_can_be_moved_refuted`), and the first line of a whole file is the whole file (`C83_just_line_is_a_line_refuted`).

*Symbols (C84).* Looking for a symbol and storing a new one are two steps without a lock: two threads may be given different symbols of one name, which are neither equal nor ordered although both are equal to the same text (`C84_one_symbol_refuted`). A symbol called get_all_symbols is lost (`C84_no_symbol_lost_refuted`), and a symbol with two names in a block is listed twice (`C84_listed_once_refuted`).

*Remote sessions (C85, C86).* A job whose thread raises leaves the lock taken for good: finish_job raises and no job is ever started again (`C85_raising_job_is_the_last_refuted`). Two calls of finish_job at once can let two jobs run at once (`C85_one_at_a_time_refuted`). Because run_job is a generator, its check is made when it is called and not when it is continued: of two calls, one job gets the result of the other (`C85_own_results_refuted`); so too when a session is finalized while a job runs (`C85_finalized_refuted`). The message of a refused call names the two phases the wrong way around (`C86_refused_message_refuted`). Output left over from one job is delivered as output of the next (`C86_own_output_refuted`), as clear_buffers is never called; whole_output adds bytes to a text and raises as soon as there is output (not modelled). In a resumed session the position is wrong (`C86_progress_refuted`). With several test plans of which one has no name, start_session raises but has changed the phase (`C86_plan_without_name_refuted`).

*Passwords (C87).* `get_master_passphrase` before any password was asked for fails with AttributeError (`None.encode`), though `encrypted_password` would ask (`C87_no_passphrase_refuted`). The password is encoded in the encoding of the terminal but decoded as UTF-8 (`decode('utf-8')`), so the theorems ask for a UTF-8 terminal.

*Lists and graphs (C88).* Exclusions are ignored unless something is included (`C88_excluded_alone_refuted`). The pattern is put between ^ and $ without a group, so of a|b the first alternative matches every identifier that begins like it (`C88_whole_identifier_refuted`). Jobs of kind user-interact-verify, qml and external kinds have no box in the graph and do not appear unless they have links (`C88_all_jobs_drawn_refuted`). Identifiers with double quotes make different links the same line (`C88_links_apart_refuted`). One wrong resource program ends the graph, even when resources are not asked for (`C88_graph`).

*Listing (C89).* A unit of kind unit, which provider files can define, makes the whole list fail with NotImplementedError, whatever was asked for (`C89_fails_refuted`, an equivalence). A group that does not exist is not an error (`C89_no_such_group`).

*Command line tools (C90).* After a mistyped command the guess looks at the words that follow, so `rnu list` offers only `list` as a choice (`C90_choices_refuted`). `get_command_name` takes out every occurrence of the word `command`, not only the last (`C90_named_refuted`). `--pdb` has no effect when the error is an `OSError` other than a broken pipe (`C90_debugger_refuted`). With `PAGER` set to nothing, `find_exec` finds the first directory of the path itself, which `execl` cannot run (`C90_pager_empty_refuted`).

*Exceptions of the other side (C91).* The value of a `StopIteration` is lost (`C91_stop_refuted`). The other side can have any builtin exception raised here, also `SystemExit` and `KeyboardInterrupt`, which handlers for `Exception` do not catch (`C91_exit_refuted`).

*Results that come later (C92).* A callback that raises keeps the later ones from being called, for ever: the list is not cleared, but nothing calls it again (`C92_told_refuted`).

*Report of requirements (C93).* `_print_requirement_report` looks for the resource `package`, but the ids of a program are qualified with the namespace of its provider, so the report is empty for every job of a provider; for other jobs it reads an attribute `resource_id` that expressions do not have (`C93_requirements_refuted`).

*Paragraphs (C94).* Lines that are given as a list are not wrapped, so long lines of a traceback leave the box (`C94_box_refuted`).

*Usage lines (C95).* An argument that is wider than the terminal leaves a line with nothing but indentation before it when it is the first of its list (`C95_empty_line_refuted`).

*Background colours (C96).* Yellow has the number of blue as a background colour, so asking for yellow gives blue (`C96_background_refuted`).

*Translations and caches (C97).* All methods of the translator are behind unbounded caches, even those that set the domain and the directory: a message that was asked for keeps its translation when the domain changes (`C97_change_of_domain_refuted`), going back to a domain that had been set does nothing (`C97_back_to_domain_refuted`), and a directory that is given after the first message of its domain is never used (`C97_late_directory_refuted`).

*Logging (C98).* When the directory of logs cannot be made, crashes are shown twice: the logger of crashes has the console handler of errors and so has the one above it (`C98_crash_twice_refuted`). Levels between those with names are enabled but not shown (`C98_between_refuted`). PLAINBOX_DEBUG without PLAINBOX_TRACE traces the root logger, because splitting an empty text gives one empty name, and with `console` enables debugging messages whatever level is asked for (`C98_environment_refuted`).

*Small commands (C99).* parse catches UnicodeEncodeError, but reading raises UnicodeDecodeError: input that is not UTF-8 ends in an exception instead of the message that is there for it (`C99_undecodable_refuted`). self-test puts its hidden argument after the first argument that is `self-test`; when that is the value of an earlier option the second run complains (`C99_self_test_refuted`).

*Access from the other side (C100).* The configuration does not bind classes with hooks of their own (_rpyc_getattr and so on): C100_hooks_bypass_refuted. An empty exposed_prefix opens every attribute an object has even when all, safe and public attributes are forbidden (C100_empty_prefix). An exposed attribute hides the plain one of the same name even when all attributes are allowed (C100_exposed_hides_plain).

*Requests and answers (C102).* An answer to a number nobody asked for is kept until the connection is cleaned up and is taken for the answer to the request that later gets that number, if that one waits (C102_planted_answer_refuted, C102_unasked_answers_stay). Interrupts of a handler are kept local by default, contrary to the documentation of the setting in the same file, and the request then stays unanswered (C102_other_side). *Closing (C103).* A closing message handled after the connection was cleaned up raises an AttributeError since the service is gone (C103_what_is_raised).

*Out of attempts (C104).* A job with no inhibitors and no attempts left is not run; it is recorded as not supported with the comment that the job can be started.

*Leaving servers (C105).* on_service_removed is documented to be called when a service unregisters or is pruned; it is called only for the last server of a name, so a listener that counts servers by notices keeps servers that have left.

*Descriptors in the pool server (C106).* A worker tests the descriptor it takes for truth, so a connection with descriptor 0 is taken off the queue and never served again. And since a request to close frees the descriptor before the worker drops the connection, a connection accepted in between under the same number can be closed by that worker or be served by two workers at once.

*Extended cached methods (C107).* instance_method_lru_cache sets its cache on the instance under the name of the method. A class that overrides such a method and calls that of the class above is bypassed after the first call, since the cache of the class above has taken the place of its own. No class here does so today. A cached property that raises after it has read the property of the class above leaves the value above in place.

*Clients during closing (C108).* A client whose socket the accepting thread adds to the clients after close() has copied them is not closed by it, and is forgotten when the clients are cleared. It is then served by a server that has closed.

*Chunks (C109).* `buffiter` gets the elements of a chunk in one request, and an exception of the iterator replaces the whole answer: up to a chunk of elements already taken from the iterator is lost (`C109_elements_before_exception_refuted`). A first chunk of 0 ends the loop at once without an element and without an error (`C109_chunk_zero_refuted`); only `factor` is checked.

*Text report (C110).* Without colours `dump` prints the history of a job with `print` on standard output, as the repr of bytes, instead of writing it to the stream, so a report saved to a file has none (`C110_histories_elsewhere`); and it does so for one earlier result, where the coloured report asks for two. The coloured report shows skipped and not supported jobs alike (`C110_coloured_outcomes_refuted`). A summary of several lines can forge lines of the report (`C110_lines_refuted`).

*Elsewhere, seen while reading.*  `CommandLineTextSource.__gt__` is not
antisymmetric; `create_exporter` drops `foo=bar` options when not strict;
`device.py` calls `cls.arch_linux_uname()` without its underscore; the Snappy
restart strategy drops arguments; after-suspend siblings keep the `-manual` flag.
