{"id": "C01", "title": "Resolved job order respects every dependency", "statement": "Whenever DependencySolver.resolve_dependencies(job_list, visit_list) returns a list, every job in that list is preceded, in the same list, by a job for each identifier in its dependency set (direct, resource and 'after' dependencies), and no identifier occurs twice in the list.", "quantifier": "every list of jobs, every dependency relation between them (including cyclic, missing and duplicated ones), every order in which the unordered dependency sets are enumerated, every visit list", "why_tests_cant": "the number of dependency graphs and of set-iteration orders is unbounded; unit tests try a handful of tiny graphs with one iteration order", "anchors": ["plainbox/impl/depmgr.py:DependencySolver.resolve_dependencies", "plainbox/impl/depmgr.py:DependencySolver._visit"]}
{"id": "C02", "title": "Resolution returns exactly the requested jobs and what they need", "statement": "When resolve_dependencies succeeds, the identifiers in the returned list are exactly the identifiers reachable from the visit list by following dependencies: nothing that is needed is left out and nothing else is added.", "quantifier": "every job list, every visit list, every dependency enumeration order", "why_tests_cant": "reachability is a transitive-closure statement over arbitrary graphs", "anchors": ["plainbox/impl/depmgr.py:DependencySolver._solve", "plainbox/impl/depmgr.py:DependencySolver._visit"]}
{"id": "C03", "title": "Resolution fails only for a real reason and names it correctly", "statement": "resolve_dependencies always terminates. If it raises, the error is genuine: a duplicate error names two different listed jobs with the same identifier; an unknown error names a visited job that is not listed; a missing error names a listed job and an identifier of its dependency set that no listed job has; a cycle error carries a list of jobs in which each one depends on the next and which begins and ends with the same job. Conversely it succeeds whenever identifiers are unique, all visited jobs are listed and everything reachable from them is present and acyclic.", "quantifier": "every job list, visit list and dependency enumeration order", "why_tests_cant": "both termination and the 'only if' direction quantify over all graphs, cyclic ones included", "anchors": ["plainbox/impl/depmgr.py:DependencyDuplicateError", "plainbox/impl/depmgr.py:DependencyMissingError", "plainbox/impl/depmgr.py:DependencyCycleError", "plainbox/impl/depmgr.py:DependencyUnknownError", "plainbox/impl/depmgr.py:DependencySolver"]}
{"id": "C04", "title": "An already ordered job list is left alone by the solver", "statement": "If a visit list has no repeated identifiers and already lists, before each job, all of that job's dependencies, then resolve_dependencies returns it unchanged (so resolving a resolved list is the identity, whatever order the dependency sets are enumerated in).", "quantifier": "every dependency-closed ordered visit list", "why_tests_cant": "idempotence is claimed for every graph and every enumeration order", "anchors": ["plainbox/impl/depmgr.py:DependencySolver._solve"]}
{"id": "C05", "title": "Selecting jobs never fails, and only the genuinely broken jobs are dropped", "statement": "SessionState.update_desired_job_list terminates for every input without raising; afterwards the run list is a dependency-respecting, duplicate-free order containing exactly the surviving desired jobs and their transitive dependencies; each desired job whose whole dependency closure is present and acyclic survives; and the returned problem list is empty exactly when nothing was dropped.", "quantifier": "every job list, every desired selection (mandatory jobs included), every dependency relation", "why_tests_cant": "the retry loop removes one job per iteration; whether it stops and whether it removes a healthy job depends on arbitrary graphs", "anchors": ["plainbox/impl/session/state.py:SessionState.update_desired_job_list", "plainbox/impl/depmgr.py:DependencyError.affected_job"]}
{"id": "C06", "title": "A job can start exactly when nothing blocks it", "statement": "After any recomputation of readiness: a job outside the run list is reported undesired and cannot start; a job on the run list can start if and only if every direct dependency has outcome pass, every 'after' dependency has some outcome, and every requirement expression is satisfied by the resources collected so far (and the job has attempts left); each reported inhibitor names a real blocking dependency or requirement.", "quantifier": "every job population, run list, every assignment of outcomes and resources", "why_tests_cant": "needs all combinations of outcomes of arbitrarily many dependencies", "anchors": ["plainbox/impl/session/state.py:SessionState._recompute_job_readiness", "plainbox/impl/ctrl.py:CheckBoxSessionStateController.get_inhibitor_list", "plainbox/impl/session/jobs.py:JobState.can_start"]}
{"id": "C07", "title": "Trimming jobs is all-or-nothing", "statement": "trim_job_list(qualifier) either raises ValueError and changes nothing (when a designated job is on the run list), or removes exactly the designated jobs from the job list, from the job state map and from the resource map, leaving every other job, its state and the run list untouched and in the same order.", "quantifier": "every session state and every qualifier", "why_tests_cant": "atomicity is a statement about every state and every subset of jobs", "anchors": ["plainbox/impl/session/state.py:SessionState.trim_job_list"]}
{"id": "C08", "title": "Job list and job state map stay in step", "statement": "Starting from a freshly constructed session and after any sequence of successful or failing add_unit, remove_unit, trim_job_list, update_desired_job_list and update_job_result calls, the job list has no repeated identifiers, the job state map has exactly one entry for each job on the job list, and it is the entry of that very job. Adding a different job under a taken identifier is rejected and changes nothing; adding an identical one is a no-op.", "quantifier": "every history of operations, including those that raise", "why_tests_cant": "an invariant over unbounded operation sequences", "anchors": ["plainbox/impl/session/state.py:SessionState.add_unit", "plainbox/impl/session/state.py:SessionState._add_job_unit", "plainbox/impl/session/state.py:SessionState.remove_unit", "plainbox/impl/session/state.py:SessionState.__init__"]}
{"id": "C09", "title": "Aggregated outcomes ignore order and never hide a failure", "statement": "Each per-category (resource, attachment) aggregated outcome is fail if at least one contributing job failed or crashed, otherwise pass if at least one passed, otherwise skip; the answer does not depend on the order in which jobs were added or executed.", "quantifier": "every multiset of (category, plugin, outcome) triples and every order of them", "why_tests_cant": "order independence over arbitrary permutations", "anchors": ["plainbox/impl/session/state.py:SessionState.category_outcome_map", "plainbox/impl/session/state.py:SessionState.get_outcome_stats"]}
{"id": "C10", "title": "Estimated duration is the sum or an honest 'unknown'", "statement": "get_estimated_duration returns, for automated and manual jobs separately, the sum of the run-list estimates (plus the fixed manual overhead), and returns None for a kind exactly when at least one job of that kind has no estimate.", "quantifier": "every run list", "why_tests_cant": "unbounded sums with absorbing unknowns", "anchors": ["plainbox/impl/session/state.py:SessionState.get_estimated_duration"]}
{"id": "C11", "title": "Saving a checkpoint is atomic at every crash point", "statement": "If the process or machine stops at any point during SessionStorage.save_checkpoint(new), a later load_checkpoint returns either the complete previously saved data or the complete new data, never a mixture or a truncation; once save_checkpoint has returned normally without a reported fault, it returns the new data.", "quantifier": "every old and new byte string, every split of the data into writes, every crash point between (or inside) file-system steps", "why_tests_cant": "crash points cannot be enumerated by unit tests, which run to completion", "anchors": ["plainbox/impl/session/storage.py:SessionStorage.save_checkpoint", "plainbox/impl/session/storage.py:SessionStorage._save_checkpoint_unix_py33", "plainbox/impl/session/storage.py:SessionStorage.load_checkpoint"]}
{"id": "C12", "title": "Stale checkpoint locks are detected and recoverable", "statement": "While an unfinished 'next' file exists every save_checkpoint raises LockedStorageError and leaves the saved data untouched; break_lock followed by save_checkpoint always succeeds in replacing it; SessionManager.checkpoint does this recovery by itself, so that after any crash history the next checkpoint takes effect.", "quantifier": "every history of saves, crashes and lock breaks", "why_tests_cant": "requires all histories with crashes in the middle", "anchors": ["plainbox/impl/session/storage.py:SessionStorage.save_checkpoint", "plainbox/impl/session/storage.py:SessionStorage.break_lock", "plainbox/impl/session/manager.py:SessionManager.checkpoint"]}
{"id": "C13", "title": "A failing checkpoint keeps the old data and reports the failure", "statement": "If any file-system call made by save_checkpoint fails, then the previously saved data is still what load_checkpoint returns, and the caller is told (an exception is raised) that the new data was not saved.", "quantifier": "every choice of failing system call", "why_tests_cant": "fault injection at every call site for every prior state", "anchors": ["plainbox/impl/session/storage.py:SessionStorage._save_checkpoint_unix_py33"]}
{"id": "C14", "title": "Suspend followed by resume restores the session", "statement": "Saving a session that was used in the ordinary way (existing jobs selected, results with content that plainbox itself can make, untested jobs trimmed) and resuming it with jobs among which every recorded job is found again gives a session with exactly the recorded jobs (those with a result or on the run list), each with the same current result, the same result history and the same resources, the same run list and mandatory list, and the same metadata (title, flags, running job, app blob, app id); the desired list only gets the mandatory list put in front of it. Readiness that was up to date stays the same. The same holds after any number of save and resume cycles.", "quantifier": "every session reached by ordinary use, every supplied job population, every number of cycles", "why_tests_cant": "a round trip over all session states", "anchors": ["plainbox/impl/session/suspend.py:SessionSuspendHelper6.suspend", "plainbox/impl/session/resume.py:SessionResumeHelper6", "plainbox/impl/session/resume.py:SessionResumeHelper.resume"]}
{"id": "C15", "title": "Resume refuses a session whose jobs changed", "statement": "When a recorded job is found with another checksum, resuming raises IncompatibleJobError for such a job; when none is but a recorded job cannot be found at all, it raises CorruptedSessionError. Whatever the document, a resumed session has every job the document mentions, with the recorded checksum, and beyond those only the jobs its run list needs, all coming from the supplied jobs.", "quantifier": "every saved representation and every supplied job list", "why_tests_cant": "all pairs of saved data and job populations", "anchors": ["plainbox/impl/session/resume.py:SessionResumeHelper1._process_job", "plainbox/impl/session/resume.py:SessionResumeHelper1._restore_SessionState_jobs_and_results"]}
{"id": "C16", "title": "Resume rejects malformed data with a resume error only", "statement": "For every JSON document in which no job has null for its results, and in ordinary surroundings (a session directory that is a valid replacement text, readable logs, supplied jobs that do not contradict each other and have parsable requirements), resume either produces a session or raises a SessionResumeError subclass; the session is one that could have come about by using a session. Peeking never raises anything else for any document. Versions other than 1 to 6 are always reported as IncompatibleSessionError, a missing version as CorruptedSessionError.", "quantifier": "every JSON value", "why_tests_cant": "all malformed documents; tests try a few", "anchors": ["plainbox/impl/session/resume.py:SessionResumeHelper.resume", "plainbox/impl/session/resume.py:SessionResumeHelper1._validate"]}
{"id": "C17", "title": "Job selection: at least one include, no exclude, each job once, in qualifier order", "statement": "select_jobs(job_list, qualifier_list) returns exactly those jobs that at least one qualifier includes and none excludes, each exactly once, ordered first by the position of the first qualifier that includes it and then by job list order; the fast path used for exact identifier lists agrees with the general path.", "quantifier": "every job list with unique identifiers and every list of (composite) qualifiers", "why_tests_cant": "the two code paths must agree on all inputs", "anchors": ["plainbox/impl/secure/qualifiers.py:select_jobs", "plainbox/impl/secure/qualifiers.py:CompositeQualifier.get_vote", "plainbox/impl/secure/qualifiers.py:FieldQualifier"]}
{"id": "C18", "title": "Exclusion always wins and composition is order-insensitive", "statement": "A composite qualifier excludes a job iff one of its members does, includes it iff one includes and none excludes, and otherwise ignores it, whatever the order and nesting of the members; flattening into primitive qualifiers does not change any vote.", "quantifier": "every nesting of qualifiers, every job", "why_tests_cant": "arbitrary nesting depth", "anchors": ["plainbox/impl/secure/qualifiers.py:CompositeQualifier", "plainbox/abc.py:IJobQualifier"]}
{"id": "C19", "title": "The word scanner covers the whole input and always makes progress", "statement": "For every text, repeatedly calling WordScanner.get_token terminates with an end-of-file token after finitely many tokens, and the lexemes are consecutive non-overlapping pieces of the text.", "quantifier": "every text", "why_tests_cant": "all texts, including malformed quoting", "anchors": ["plainbox/impl/xscanners.py:ScannerBase.get_token", "plainbox/impl/xscanners.py:WordScanner"]}
{"id": "C20", "title": "Word lists are parsed into exactly the words written", "statement": "WordList.parse of words separated by spaces, newlines or commas (with optional quoting and trailing comments) yields exactly those words in order; this is how job dependencies and other list fields are read.", "quantifier": "every sequence of words and separators", "why_tests_cant": "all texts", "anchors": ["plainbox/impl/xparsers.py:WordList.parse", "plainbox/impl/unit/job.py:JobDefinition.get_direct_dependencies"]}
{"id": "C21", "title": "Records written in the RFC822-like format are read back unchanged", "statement": "Dumping a record and loading the result yields the same keys, values and order, for all records satisfying an explicit syntactic condition; outside that condition the differences are exactly characterised by witnesses.", "quantifier": "every record", "why_tests_cant": "all values, including multi-line ones with dots, blanks and indentation", "anchors": ["plainbox/impl/secure/rfc822.py:RFC822Record.dump", "plainbox/impl/secure/rfc822.py:gen_rfc822_records", "plainbox/impl/secure/rfc822.py:normalize_rfc822_value"]}
{"id": "C22", "title": "Record loading is total and record boundaries are respected", "statement": "For every text, loading either yields a list of records or raises RFC822SyntaxError; blank lines separate records, comments are ignored, and concatenating two well-formed texts with a blank line yields the concatenation of the record lists.", "quantifier": "every text", "why_tests_cant": "all texts", "anchors": ["plainbox/impl/secure/rfc822.py:gen_rfc822_records"]}
{"id": "C23", "title": "Resource expressions cannot run anything outside the whitelist", "statement": "A requirement expression is accepted exactly if it names a resource outside of calls, every node of its syntax tree outside of the arguments of calls is white-listed and every such call is to len, bool, int or float; when the arguments of its calls are white-listed too, evaluating it depends only on the records and calls nothing else. (Arguments of calls are not checked: a witness shows that arbitrary calls get through.)", "quantifier": "every expression syntax tree", "why_tests_cant": "all syntax trees of arbitrary depth", "anchors": ["plainbox/impl/resource.py:ResourceNodeVisitor", "plainbox/impl/resource.py:ResourceExpression"]}
{"id": "C24", "title": "A requirement is satisfied iff some combination of resources satisfies it", "statement": "ResourceExpression.evaluate is true iff there is a choice of one resource record per referenced resource id under which the expression evaluates to a true value; a resource program holds iff each of its expressions does, and failures identify the expression at fault.", "quantifier": "every expression, every resource map", "why_tests_cant": "existential over cartesian products of arbitrary size", "anchors": ["plainbox/impl/resource.py:ResourceExpression.evaluate", "plainbox/impl/resource.py:ResourceProgram.evaluate_or_raise"]}
{"id": "C25", "title": "Captured job output survives the log file byte for byte", "statement": "Writing any sequence of (delay, stream, bytes) records with IOLogRecordWriter and reading it with IOLogRecordReader returns the same sequence; the base64 text used is decodable for every byte string. A log file that was cut at any point is read as a prefix of the records written, containing every record that was written completely.", "quantifier": "every sequence of records with arbitrary bytes", "why_tests_cant": "all byte strings of all lengths (three residues mod 3, padding)", "anchors": ["plainbox/impl/result.py:IOLogRecordWriter", "plainbox/impl/result.py:IOLogRecordReader"]}
{"id": "C26", "title": "No output line is lost, duplicated or reordered under any thread schedule", "statement": "For every interleaving of the stdout reader, the stderr reader, the queue worker and the main thread, when ExternalCommandWithDelegate.call returns, the delegate has been called with exactly the lines of each stream, in order within each stream, after on_begin and before on_end/on_abnormal_end, with exactly one of the two end callbacks.", "quantifier": "every schedule of the four threads and every pair of output streams", "why_tests_cant": "schedules cannot be enumerated by unit tests", "anchors": ["plainbox/vendor/extcmd/__init__.py:ExternalCommandWithDelegate.call"]}
{"id": "C27", "title": "The session assistant enforces its usage protocol", "statement": "In every history of accepted calls on a SessionAssistant: nothing is run before providers were selected, a session was started or resumed and jobs were selected; after finalize_session no job can be run until another session is started or resumed; one-shot configuration calls succeed at most once.", "quantifier": "every call history", "why_tests_cant": "the set of allowed calls is mutated by each call; histories are unbounded", "anchors": ["plainbox/impl/session/assistant.py:SessionAssistant", "plainbox/impl/developer.py:UsageExpectation.enforce"]}
{"id": "C28", "title": "Running a job and recording its result alternate", "statement": "Between two accepted run_job calls there is an accepted use_job_result call (so no result can be forgotten).", "quantifier": "every call history", "why_tests_cant": "histories are unbounded and other calls reset the allowed set", "anchors": ["plainbox/impl/session/assistant.py:SessionAssistant.run_job", "plainbox/impl/session/assistant.py:SessionAssistant.use_job_result"]}
{"id": "C29", "title": "Signals reach exactly the connected listeners, in order", "statement": "Firing a signal calls each listener connected at that moment once per connection in connection order, even if listeners connect or disconnect during delivery; remove_signals_listeners disconnects an object from everything it listens to.", "quantifier": "every history of connect, disconnect, fire", "why_tests_cant": "histories and re-entrancy", "anchors": ["plainbox/vendor/morris/__init__.py:signal.fire", "plainbox/vendor/morris/__init__.py:signal.connect", "plainbox/vendor/morris/__init__.py:signal.disconnect", "plainbox/vendor/morris/__init__.py:remove_signals_listeners"]}
{"id": "C30", "title": "The best able execution controller is chosen, and never an unable one", "statement": "get_ctrl_for_job (and the job runner) return the last controller of maximal score, never one with a negative score, and raise LookupError when every score is negative. Jobs without a user run without privileges. A job with a user (other than a QML job) is only run by a controller that changes user, and its command line names that user, unless plainbox itself runs as root.", "quantifier": "every list of controllers and scores; every job, platform and environment", "why_tests_cant": "all score vectors including ties", "anchors": ["plainbox/impl/session/state.py:SessionDeviceContext.get_ctrl_for_job", "plainbox/impl/runner.py:JobRunner._get_ctrl_for_job", "plainbox/impl/ctrl.py:UserJobExecutionController"]}
{"id": "C31", "title": "Job environment is sanitised and layered predictably", "statement": "Every variable of a job's environment has the value plainbox assigns, else the value of the process environment, else the one of the configuration, which never overrides. Without preserve-locale LANG is C.UTF-8 and LC_* and LANGUAGE do not come from the process. The session share, PATH and PYTHONPATH prefixes and the provider paths the provider has are always those of the session and provider. The differential environment of root jobs contains every variable whose value differs from the process, and the neutral locale.", "quantifier": "every process environment, configuration and provider", "why_tests_cant": "all environments (maps) and their overlaps", "anchors": ["plainbox/impl/ctrl.py:CheckBoxExecutionController.get_execution_environment", "plainbox/impl/ctrl.py:CheckBoxDifferentialExecutionController.get_differential_execution_environment"]}
{"id": "C32", "title": "Field assignment filters cannot be bypassed", "statement": "After the initializer of a POD object returns, each field holds a value that was offered to that field (argument, initial value or assignment) and that passed through its whole assign filter list; a constant field that is set never changes again and assigning to it raises; a rejected value changes nothing; the notifications sent for a notifying field account for every change of its value and for nothing else; positional arguments bind to fields in declaration order and no class has two fields of one name.", "quantifier": "every history of assignments", "why_tests_cant": "histories of assignments through arbitrary filters", "anchors": ["plainbox/impl/pod.py:Field.__set__", "plainbox/impl/pod.py:POD"]}
{"id": "C33", "title": "Overrides of a test plan apply consistently", "statement": "Whenever the test plans of a device context are set, and whenever jobs are added or removed before or after that, the effective category, certification status and auto-retry value of a job is one that an override of these test plans states for it, and the job's own value if none does; it does not depend on the time when the job was added. get_effective_category and get_effective_category_map return a category that a category override states, or the job's own. The three agree whenever the test plan has no nested parts, no inline category override for the job and does not state two different categories for it (in general they do not agree).", "quantifier": "every list of test plans, every history of adding and removing jobs, every job", "why_tests_cant": "overlapping patterns in any order", "anchors": ["plainbox/impl/unit/testplan.py:TestPlanUnit.get_effective_category", "plainbox/impl/unit/testplan.py:TestPlanUnit.get_effective_category_map", "plainbox/impl/session/state.py:SessionDeviceContext._override_update"]}
{"id": "C34", "title": "Templates instantiate once per accepted resource, in order", "statement": "Instantiating a template creates exactly one unit for each resource record its filter accepts, in the order of the records, numbered 1, 2, ... without gaps, with the fields of the template that are not about templates, and with only those attributes of the record as parameters that some field refers to by name; for fields whose placeholders are plain names this gives the same text as all the attributes would. (False for nested format specifications and attribute access, and filters of several lines about an imported resource accept nothing.)", "quantifier": "every resource list and filter", "why_tests_cant": "all resource lists", "anchors": ["plainbox/impl/unit/template.py:TemplateUnit.instantiate_all", "plainbox/impl/unit/template.py:TemplateUnit.should_instantiate"]}
{"id": "C35", "title": "Written durations mean what they say", "statement": "estimated_duration of a text 'XhYmZs' (any part optional, separated by blanks or colons) equals X*3600+Y*60+Z.", "quantifier": "all numbers and all part combinations", "why_tests_cant": "all numerals", "anchors": ["plainbox/impl/unit/job.py:JobDefinition.estimated_duration"]}
{"id": "C36", "title": "The unit checksum input identifies the unit", "statement": "The canonical text that is hashed into a unit checksum does not depend on the order in which fields were supplied. Two units without a field called 'namespace' that have the same canonical text have the same fields, namespace and parameters, so changing any field changes the text. (A field called 'namespace' collides with the namespace of the provider.)", "quantifier": "every pair of field maps", "why_tests_cant": "all pairs of units", "anchors": ["plainbox/impl/unit/unit.py:Unit._compute_checksum"]}
{"id": "C37", "title": "Return codes decide outcomes, and every result has its own complete log", "statement": "Running a shell, attachment, resource or user-interact job gives pass exactly for return code 0, fail for a positive one, crash for a signal or a command that could not be started; user-verify jobs stay undecided; nothing passes without such a run (or a cached one); a dry run touches nothing. A run writes only the three files of its job, directly in the log directory, and the log a result names reads back as the complete output in order, also after any number of other jobs, if their identifiers differ in more than characters that are not letters, digits, dots or dashes (exactly then do jobs share no file). (It is not true that different jobs always have different logs, that a second run of a job keeps the log of the first, or that chunked output is logged.)", "quantifier": "all jobs, return codes, outputs, controller scores and sequences of jobs", "why_tests_cant": "all pairs of identifiers", "anchors": ["plainbox/impl/runner.py:JobRunner._just_run_command", "plainbox/impl/runner.py:slugify"]}
{"id": "C38", "title": "The trusted launcher only runs commands of system jobs", "statement": "plainbox-trusted-launcher-1 executes only commands of jobs found in (or generated from) secure providers whose checksum was requested; for an unknown target nothing is executed as the target and the exit is an error.", "quantifier": "every provider content, every argument", "why_tests_cant": "all argument/provider combinations", "anchors": ["plainbox/impl/secure/launcher1.py:TrustedLauncher", "plainbox/impl/secure/launcher1.py:main"]}
{"id": "C39", "title": "The resource job cache never returns a wrong result, whatever crashes", "statement": "In every history of processes that load the resource job cache, get results through it, clear it, are killed at any point or see calls fail, a result that get finds in the cache has the fields computed for exactly this job, and its log is the complete log or is gone; after loading it is there. A result that was stored is found again by the same process and after a restart. Loading returns exactly when every directory in the cache has a readable result.json naming a log, which always holds when nothing was interrupted and nothing failed, and storing a job again repairs its own entry. (It is not true that loading survives every interruption: a process killed right after making the directory, or a result without a log, makes every later load raise until the cache is cleared; and after clearing, a running process still finds entries whose logs are gone.)", "quantifier": "all histories, all crash points and failures of the file system calls, all results", "why_tests_cant": "crash points", "anchors": ["plainbox/impl/jobcache.py:ResourceJobCache"]}
{"id": "C40", "title": "Reading a configuration text applies every valid value, keeps the others and lists the problems", "statement": "When Config.read_string(text) returns, every Variable has the value the text gives it (after %-expansion and conversion; its default when the text does not mention it) if all its validators accept that value, and otherwise the value it had before; problem_list has the parser's error first, then one ValidationError for each refused value in the order of the variables, then that of validate_whole. Sections in the text become dictionaries of exactly their options and those of [DEFAULT]. It returns exactly when the parser finds no continuation line after an option without value and every value the class asks for can be expanded and converted (otherwise ValueError, TypeError, AttributeError or InterpolationError leaves it). After any history of assignments, deletions and readings, including ones that raise, every Variable has its default or a value that all its validators accept.", "quantifier": "all configuration classes, texts, previous states and histories of operations", "why_tests_cant": "all option maps", "anchors": ["plainbox/impl/secure/config.py:Config.read_string", "plainbox/impl/secure/config.py:Config._read_commit", "plainbox/impl/secure/config.py:Variable.validate"]}
{"id": "C41", "title": "Concurrent saves never mix data", "statement": "However many processes call save_checkpoint on the same storage at the same time, with their system calls interleaved in any way, any of them killed at any point and any call other than a write failing, the saved data is always the previously saved data or the complete data of one of the processes.", "quantifier": "every number of processes, every interleaving of their system calls, every choice of failing calls and killed processes", "why_tests_cant": "interleavings of system calls of several processes cannot be enumerated by tests", "anchors": ["plainbox/impl/session/storage.py:SessionStorage.save_checkpoint", "plainbox/impl/session/manager.py:SessionManager.checkpoint"]}
{"id": "C42", "title": "Provider selection is exact and reports useless patterns", "statement": "A successful select_providers() selects the built-in providers and exactly the providers matched by some pattern, each once, built-in ones first and the rest in pattern order; it raises ValueError exactly when some pattern adds nothing to what was selected before it; a failed call can be repeated.", "quantifier": "every list of distinct providers, every list of patterns, every call history", "why_tests_cant": "The selection depends on the interaction of overlapping patterns and on what earlier (failed) calls left behind.", "anchors": ["plainbox/impl/session/assistant.py:SessionAssistant.select_providers", "plainbox/impl/session/state.py:SessionDeviceContext.add_provider"]}
{"id": "C43", "title": "Import statements name exactly the resources they say", "statement": "An imports line is accepted exactly if it reads 'from NAMESPACE import ID' or 'from NAMESPACE import ID as ALIAS' with no '::' in NAMESPACE and ID; it then binds the alias to NAMESPACE::ID, in every namespace, and takes priority over local names.", "quantifier": "every imports text and every requirement program", "why_tests_cant": "all lines and all combinations of imports, aliases and namespaces", "anchors": ["plainbox/impl/resource.py:parse_imports_stmt", "plainbox/impl/resource.py:ResourceExpression"]}
{"id": "C44", "title": "Command lines of root jobs carry the environment and the command intact", "statement": "The command line a privileged controller builds makes env(1) set exactly the variables of the differential environment and then run the shell of the job with the command of the job, whatever the command text and the values are, for variable names and shells env(1) can take as such; ordinary jobs get exactly shell -c command.", "quantifier": "every job, environment, configuration and command text", "why_tests_cant": "all texts with equals signs, blanks and quotes in names, values and commands", "anchors": ["plainbox/impl/ctrl.py:RootViaSudoExecutionController.get_execution_command", "plainbox/impl/ctrl.py:RootViaPkexecExecutionController.get_execution_command", "plainbox/impl/ctrl.py:UserJobExecutionController.get_execution_command"]}
{"id": "C45", "title": "Format strings insert exactly the named parameters", "statement": "A unit field written with doubled braces around literal braces and plain parameter names is formatted to exactly the literal text with the parameter values in place of the names, the set of parameters reported as accessed is exactly the set of names written, and if a name has no value the first such name is reported as missing.", "quantifier": "every sequence of literal texts and plain parameter names and every mapping of values", "why_tests_cant": "the grammar of braces is unbounded; unit tests cover a few strings", "anchors": ["plainbox/impl/unit/__init__.py:get_accessed_parameters", "plainbox/impl/unit/unit.py:Unit.get_record_value"]}
{"id": "C46", "title": "Override and include statements mean what is written", "statement": "A line of a category-overrides or certification-status-overrides field parses to an override exactly when it reads: apply VALUE to PATTERN; a line of an include field parses to a pattern with overrides exactly when it reads: PATTERN, then nothing or FIELD=VALUE pairs separated by commas. Any other line gives an error node and no statement; statements of different lines do not affect each other and keep their line numbers.", "quantifier": "every line and every text without the NUL character", "why_tests_cant": "the lexer and the parser are driven by arbitrary text: quotes, commas, equals signs and comments in any order", "anchors": ["plainbox/impl/xparsers.py:FieldOverride.parse", "plainbox/impl/xparsers.py:OverrideFieldList.parse", "plainbox/impl/xparsers.py:IncludeStmt.parse", "plainbox/impl/xparsers.py:IncludeStmtList.parse"]}
{"id": "C47", "title": "A test plan selects exactly what it says", "statement": "The jobs selected with the qualifier of a test plan are exactly those that an include statement of the test plan, or of a test plan nested in it at any depth, selects (as an identifier in the namespace of its provider, or as a pattern matching the whole identifier) and that no exclude statement selects and no bootstrap_include field lists. Mandatory and bootstrap jobs are exactly those that the fields mandatory_include and bootstrap_include select or list.", "quantifier": "every test plan with nested parts at any depth, every job list with unique identifiers", "why_tests_cant": "fields are arbitrary text and nesting has no bound", "anchors": ["plainbox/impl/unit/testplan.py:TestPlanUnit.get_qualifier", "plainbox/impl/unit/testplan.py:TestPlanUnit.get_mandatory_qualifier", "plainbox/impl/unit/testplan.py:TestPlanUnit.get_bootstrap_qualifier", "plainbox/impl/unit/testplan.py:TestPlanUnit.get_bootstrap_job_ids", "plainbox/impl/unit/testplan.py:TestPlanUnit.parse_matchers"]}
{"id": "C48", "title": "The root launcher runs what the controller asked for", "statement": "The command line that the trusted-launcher controller hands to pkexec is parsed by plainbox-trusted-launcher-1 as: run the job with this checksum, after the generator with that checksum when the job was generated, and give each of them exactly the variables of its differential environment, whatever characters the values contain. (Variable names must not be empty, contain = or start with a dash, and checksums must not start with a dash; with such names the command line is refused, proved as a counterexample.)", "quantifier": "every job, generator, configuration and process environment", "why_tests_cant": "all environments and values, including values with = signs, spaces, dashes and newlines", "anchors": ["plainbox/impl/ctrl.py:RootViaPTL1ExecutionController.get_execution_command", "plainbox/impl/secure/launcher1.py:main", "plainbox/impl/secure/launcher1.py:UpdateAction"]}
{"id": "C49", "title": "A written configuration reads back with the same values", "statement": "For a Config object whose names and values an INI file can carry (no percent signs, no surrounding white space, list items that are plain words, names that can be told apart), Config.write produces a text that read_string of a new object accepts, with every Variable back at the value it had (its default if it was Unset) and every Section and ParametricSection back with its options, plus the variables of [DEFAULT].", "quantifier": "all classes, all objects whose names and values are of that kind", "why_tests_cant": "The text of every value has to survive the escaping, indentation, sorting and re-parsing of the INI format and the conversion of its kind; tests try a handful of values.", "anchors": ["plainbox/impl/secure/config.py:Config.write", "plainbox/impl/secure/config.py:Config.get_parser_obj", "plainbox/impl/secure/config.py:PlainBoxConfigParser.write", "plainbox/impl/secure/config.py:Config.read_string"]}
{"id": "C50", "title": "With several configuration files the last one that mentions an option wins", "statement": "When Config.read(filenames) returns, the configuration is that of one file in which each option of each section has the value given by the last of the files (that can be opened) that mentions it; the sections are those of all the files. It raises exactly if one of the files is faulty or the merged contents cannot be converted.", "quantifier": "all classes, all lists of files with any contents, all previous states", "why_tests_cant": "Every pair of files interacts through one parser that is fed line by line; the state carried over (sections seen, options seen, indentation) must not leak from one file to the next.", "anchors": ["plainbox/impl/secure/config.py:Config.read", "plainbox/impl/secure/config.py:Config._read_commit", "plainbox/impl/secure/config.py:PlainBoxConfigParser"]}
{"id": "C51", "title": "Exported data is exactly the selected view of the session", "statement": "A session exporter accepts exactly the option strings that name a supported option, and the last setting of an option (the unit's after the caller's) counts. The exported result map has an entry for exactly the jobs with an outcome, and each entry has exactly the fields that the options select, with the value the session holds; an I/O log decodes to the recorded data in order, an attachment to everything the job wrote to its standard output; job, run and desired lists, resources, attachments and categories are there exactly when selected and complete. The submission archive holds every non-empty output and error stream of every job that the runner logged, under the name made from its identifier, and nothing else, if neither the directory nor the identifier contains 'record.gz'.", "quantifier": "all option lists, all sessions with distinct job identifiers, all file system contents", "why_tests_cant": "Options interact (squash over flatten, attachments suppress logs), any job state can occur, and file names are made by textual replacement that can hit the wrong place.", "anchors": ["plainbox/impl/exporter/__init__.py:SessionStateExporterBase", "plainbox/impl/exporter/tar.py:TARSessionStateExporter.dump_from_session_manager", "plainbox/impl/session/manager.py:SessionManager.create_exporter"]}
{"id": "C52", "title": "The text of a job's output does not depend on how it was recorded", "statement": "The flat text of an I/O log is the text that all recorded bytes, one after the other, read as in UTF-8 (each maximal faulty part replaced by one U+FFFD), without control characters; how the output was cut into records, and on which streams, does not matter, not even if a character was cut in two. A job that writes a text has exactly that text shown. The text attachment of a result is the text of its standard output if that is valid UTF-8, and empty otherwise.", "quantifier": "all logs, all ways of cutting the bytes into records, all bytes", "why_tests_cant": "The incremental decoder carries state across record boundaries; every cut of every character is a different case.", "anchors": ["plainbox/impl/result.py:_JobResultBase.io_log_as_flat_text", "plainbox/impl/result.py:_JobResultBase.io_log_as_text_attachment"]}
{"id": "C53", "title": "A result holds what its builder was given and can be taken apart and rebuilt", "statement": "JobResultBuilder.get_result() raises exactly if both an I/O log and a log file name are set; otherwise the result is a disk result exactly if a file name is set, and each of its properties is the value that was last assigned (absent if none, None or an empty list), so that is_hollow is true exactly if nothing was set. get_builder() accepts exactly results whose data has the types of the builder's fields, with keyword arguments replacing fields; a result made by a builder is rebuilt with the same class and data. Added comments are kept in order, one per line; the comments property is the text that was set without its ANSI control sequences and otherwise unchanged.", "quantifier": "all sequences of assignments, all builders, all results, all texts", "why_tests_cant": "The field filters, UNSET against None and empty lists, and the choice of class interact for every combination of fields; the escape remover is a regular expression over arbitrary text.", "anchors": ["plainbox/impl/result.py:JobResultBuilder", "plainbox/impl/result.py:_JobResultBase.get_builder", "plainbox/impl/result.py:_JobResultBase.comments", "plainbox/impl/result.py:_JobResultBase.is_hollow", "plainbox/impl/pod.py:POD"]}
{"id": "C54", "title": "Plug-in collections hold exactly what can be loaded", "statement": "load() of a file based collection makes one plug-in for every file of the search directories (with the wanted extension, at any depth if recursive) that can be read and wrapped, listed in the order of their names, and one problem for each that cannot; it raises exactly if a file raises an exception that is not a problem. A collection of entry points has, for every name, the last entry point that can be loaded. A lazy collection imports a plug-in at most once, always returns the same object afterwards, and after load() has exactly the plug-ins that can be imported. fake_plugins() shows exactly the given plug-ins, imports nothing, and leaves the collection as it was, whatever is called inside.", "quantifier": "all directory trees, all results of reading, importing and wrapping, all sequences of (nested) calls", "why_tests_cant": "The contents of file systems and the interleavings of get_by_name, load and nested fakes are unbounded; tests fix one tree and one order of calls.", "anchors": ["plainbox/impl/secure/plugins.py:FsPlugInCollection", "plainbox/impl/secure/plugins.py:PkgResourcesPlugInCollection", "plainbox/impl/secure/plugins.py:LazyPlugInCollection", "plainbox/impl/secure/plugins.py:PlugInCollectionBase.fake_plugins"]}
{"id": "C55", "title": "What is loaded from a provider", "statement": "For every provider, set of files and contents of them: a file is a source of units exactly when its path begins with the jobs directory and it is named *.txt, *.in or *.pxu, or begins with the units directory and it is named *.txt or *.pxu; every file below the base directory gets exactly one role, unless it is executable and cannot be opened; scripts and binaries are exactly the executable files of the executable directories, told apart by #!; version control is recognised by the names between base directory and file only. Loading yields, in the order of the files, all units of a file followed by a unit for the file itself, or nothing but the first problem of the file; the maps by identifier and by path hold exactly these units; loading twice changes nothing; the lists of jobs and executables are sorted and exact.", "quantifier": "all provider layouts, file names, records, validation results and orders of files", "why_tests_cant": "The rules are tried in a fixed order on paths, and tests use one layout with well-behaved names; which rule wins, and whether part of a faulty file leaks into the result, depends on every combination.", "anchors": ["plainbox/impl/secure/providers/v1.py:ProviderContentClassifier", "plainbox/impl/secure/providers/v1.py:ProviderContentLoader", "plainbox/impl/secure/providers/v1.py:UnitPlugIn", "plainbox/impl/secure/providers/v1.py:Provider1.job_list", "plainbox/impl/secure/providers/v1.py:Provider1.executable_list"]}
{"id": "C56", "title": "A provider definition file becomes the provider that it describes, or none", "statement": "Loading the text of a provider definition yields a provider exactly when the text can be parsed, every option in it is acceptable (name, version, existing absolute directories, a namespace either given or part of the name) and, if it is relocatable, the directory of the file can be used; the provider then has the name, namespace, version, description, domain and directories that the options say, where a directory that is not given is the conventional one below the location if that exists. All its directories are absolute and exist. It is secure exactly if the file is in one of the secure directories, whatever the file says. The search path is what the environment says.", "quantifier": "every definition text, file name, file system state and environment", "why_tests_cant": "definitions are free text combined with any state of the file system and of the environment; tests load a handful of them, and never texts that merely begin in the right way", "anchors": ["plainbox/impl/secure/providers/v1.py:Provider1Definition", "plainbox/impl/secure/providers/v1.py:Provider1PlugIn", "plainbox/impl/secure/providers/v1.py:get_secure_PROVIDERPATH_list", "plainbox/impl/providers/v1.py:InsecureProvider1PlugInCollection"]}
{"id": "C57", "title": "Running a session takes every job exactly once and survives interruptions", "statement": "When all selected jobs are run, every job on the run list ends with an outcome, including jobs made on the way; no job is taken up twice and none that already had an outcome; a job is taken up only after its dependencies have an outcome and started only when it is ready; a job that cannot start gets fail, skip or not-supported according to the reasons. At every moment, if a job is running then the checkpoint on the disk names it, and when a job starts all earlier results are on the disk. Settling the interrupted job after resuming is final.", "quantifier": "every session in good order, every list of answers of the jobs and of the user, every template, every moment of the run (crash point)", "why_tests_cant": "the interleavings of checkpoints, results, generated jobs and interruptions are unbounded; tests use one session and do not interrupt it", "anchors": ["plainbox/impl/commands/inv_run.py:RunInvocation.run_all_selected_jobs", "plainbox/impl/commands/inv_run.py:RunInvocation.run_single_job_with_ui", "plainbox/impl/commands/inv_run.py:RunInvocation.handle_last_job_after_resume", "plainbox/impl/commands/inv_run.py:RunInvocation.on_job_added", "plainbox/impl/commands/inv_run.py:RunInvocation.get_completion_ratio", "plainbox/impl/commands/inv_run.py:RunInvocation.get_resume_candidates"]}
{"id": "C58", "title": "The dialogue about a job records what the user decided", "statement": "Running one job with the console interface leads a dialogue: before an interactive job the user may comment, skip, quit or go on; after a run that does not decide itself they may comment, re-run, or pass, fail or skip it. For every sequence of lines typed, every job and everything the runner returns, the dialogue ends; what happens is exactly what the lines say, with lines that mean nothing passed over; a job that needs its user is started only after they agreed; the result is that of the last run, and its outcome is that of the run or else the user's first decision after it, so that in an interactive session nothing is left undecided; and its comments are exactly the texts typed before the runs followed by those typed after the last one.", "quantifier": "every list of lines (of any length, then the end of the input), every plugin, flag and command of the job, every outcome, comment and return code of every run, and any labels", "why_tests_cant": "the dialogue is an unbounded loop over what a person types, with re-runs in any number; tests script a handful of answers", "anchors": ["plainbox/impl/commands/inv_run.py:ActionUI.run", "plainbox/impl/commands/inv_run.py:RunInvocation._run_single_job_with_ui_loop", "plainbox/impl/commands/inv_run.py:RunInvocation._interaction_callback", "plainbox/impl/commands/inv_run.py:NormalUI.wait_for_interaction_prompt", "plainbox/impl/result.py:JobResultBuilder.add_comment"]}
{"id": "C59", "title": "The fields of a job mean what is written", "statement": "For every unit: the value of a field is the one written under its name (a value marked for translation wins over a plain one, the default comes last), with the parameters of the template put in; a unit loaded from a file, whose provider has no translations, has as translated value exactly that value, unless the value has only two lines. An identifier without a namespace gets the namespace of the provider, once; so every job of a provider is named by its partial identifier inside the provider and by the full one everywhere. The flags and the environment variables of a job are exactly the longest stretches without white space and commas; the jobs a job depends on are exactly the words written, qualified; the plug-in, the summary and the description are the ones written or else those derived from the flag simple, the identifier, and the purpose, steps and verification.", "quantifier": "all records and all texts of fields, all field names and defaults, providers and parameters", "why_tests_cant": "tests look at a few literal units with short fields; a wrong rule for separators, indentation or qualification shows only for other texts", "anchors": ["plainbox/impl/unit/unit.py:Unit.get_record_value", "plainbox/impl/unit/unit.py:Unit.get_translated_record_value", "plainbox/impl/unit/unit.py:Unit.qualify_id", "plainbox/impl/unit/job.py:JobDefinition.get_flag_set", "plainbox/impl/unit/job.py:JobDefinition.get_direct_dependencies", "plainbox/impl/unit/job.py:JobDefinition.description", "plainbox/impl/unit/job.py:JobDefinition.plugin"]}
{"id": "C60", "title": "Jobs made from a job are what they should be", "statement": "For every job that is not made from a template, adding it to a session also adds its siblings, in the order written, and one copy for each of the flags also-after-suspend and also-after-suspend-manual. A sibling has, for each field, the value of the override or else that of the job; a copy has the fields of the job except that its identifier has the prefix for its kind, its summary says after suspend, its flags lack the flag, and it depends on what the job depends on, on the job itself and on the job that suspends. Neither inherits the description of siblings, so (with overrides that may have siblings of their own) only finitely many jobs are added, and no copy has the identifier of its job.", "quantifier": "all jobs, all texts of their fields, all overrides, nested to any depth", "why_tests_cant": "tests add one job with one flag; wrong text surgery on flags and dependencies or endless copies of copies show for other texts only", "anchors": ["plainbox/impl/session/state.py:SessionState._add_job_siblings_unit", "plainbox/impl/session/state.py:SessionState._add_job_unit"]}
{"id": "C61", "title": "Validation accepts exactly the jobs that are well formed and whose references exist", "statement": "Checking a job together with the units of all providers reports no error exactly when the job is well formed (it has an identifier without a namespace, a known plugin, a command where one is needed, a command that a shell can read, a description where one is needed, no user but root, a positive duration, known shell, certification status and retry policy, an existing QML file, siblings that are a JSON list of objects with known attributes, references that parse, fields that stay the same and fields that differ between instances of a template) and its identifier is its own and every dependency, ordering, resource, import and category it mentions is exactly one unit of the right kind. The verdict of the validate command is 'valid' exactly when loading met no problem and no unit has an error (in strict mode: nothing but advice), whatever the order of the units; jobs that pass never make dependency resolution fail for missing or duplicate jobs; instances of templates that join a session are exactly those that pass; issues point at the lines of their field.", "quantifier": "Every job, every list of units around it, all providers, all options of the command; every behaviour of the shell lexer, the template engines, the resource parser and the file system", "why_tests_cant": "The conditions interact (a field may be wrong, missing, useless and varying at once) and a context shares a cache between units, so a finite set of sample providers cannot show that nothing wrong gets through, nor that nothing right is refused.", "anchors": ["plainbox/impl/unit/validators.py", "plainbox/impl/unit/unit.py", "plainbox/impl/unit/job.py", "plainbox/impl/unit/unit_with_id.py", "plainbox/impl/unit/template.py", "plainbox/impl/unit/concrete_validators.py", "plainbox/provider_manager.py", "plainbox/impl/ctrl.py"]}
{"id": "C62", "title": "A job that reboots the machine is resumed by the command given, and only once", "statement": "While a job with the autorestart flag runs, at every moment at which the machine may go down, the system is set up to start the application with exactly the words that the application gave as its restart command (quoted so that a shell and shlex.split find the same words again), and the session on the disk says which job was running. When the job has come back, or when the session has been resumed, the system starts nothing any more; resuming may itself be interrupted and tried again. A job interrupted by a reboot has passed if it was not expected to return and has failed otherwise; all other results are kept.", "quantifier": "all command words, all application names and environments, both strategies in all their states, all jobs and what they do to other files, all ways of writing a file in pieces, all crash points of running and of resuming", "why_tests_cant": "the crash points and the contents of the command are unbounded, and a reboot in the middle of a unit test is not possible", "anchors": ["plainbox/impl/session/restart.py:XDGRestartStrategy", "plainbox/impl/session/restart.py:SnappyRestartStrategy", "plainbox/impl/session/restart.py:detect_restart_strategy", "plainbox/impl/session/assistant.py:SessionAssistant.run_job", "plainbox/impl/session/assistant.py:SessionAssistant.resume_session"]}
{"id": "C63", "title": "A provider's packages get exactly the dependencies that apply to the system they are built on", "statement": "'manage.py packaging' run on Debian or a system like it appends to the substvars file of every binary package marked X-Plainbox-Provider: yes one line per kind of relation that holds, in order, exactly the relations of the packaging units meant for the system (same ID and same VERSION_ID or no version, or no version and ID_LIKE), read back as the same relations; it touches no other file; in every other situation it writes nothing and ends with the documented code. The description of the system is read as os-release(5) assignments say, and the local device's cookie tells systems apart.", "quantifier": "every os-release file, every debian/control, every list of units with any field texts, any existing substvars files, any subset of files that cannot be opened", "why_tests_cant": "Tests run one provider on one distribution; field texts, lists of units and descriptions of systems are unbounded.", "anchors": ["plainbox/impl/unit/packaging.py:PackagingDriverBase.is_applicable", "plainbox/impl/unit/packaging.py:DebianPackagingDriver", "plainbox/impl/unit/packaging.py:get_packaging_driver", "plainbox/impl/device.py:get_os_release", "plainbox/impl/device.py:LocalDevice.discover", "plainbox/provider_manager.py:PackagingCommand.invoked"]}
{"id": "C64", "title": "One view of the units of a session", "statement": "At every moment of a session, the list of units, the list of jobs, the table of job states and the look-up by identifier agree: no unit is listed twice, looking up an identifier gives exactly the listed unit that has it, and a listener of the unit-added and unit-removed signals that applies them in order holds exactly the listed units. Adding a unit lists it and the jobs it makes after what was there, removing a unit removes that unit only and lets it be added again, and the same provider is never added twice. A session manager never has two devices, and its device always has the test plans of the session. All this is as long as units can be told apart by checksum and by identifier; what happens otherwise (same text in two providers, same identifier for two kinds, clashing jobs) is stated as refuted claims.", "quantifier": "all histories of additions and removals of units and providers, through the device context or by the session itself, including calls that raise exceptions; all orders of adding and removing devices and setting test plans", "why_tests_cant": "Several lists and tables are kept by hand in three places and updated by exceptions-raising code; tests look at one or two calls on a fresh context.", "anchors": ["plainbox/impl/session/state.py:SessionDeviceContext", "plainbox/impl/session/state.py:SessionState.add_unit", "plainbox/impl/session/state.py:SessionState.remove_unit", "plainbox/impl/session/manager.py:SessionManager"]}
{"id": "C65", "title": "Installing a provider and loading the installed one gives the same provider", "statement": "For a provider whose directory, name and meta-data fit in a definition file, and for each of the three layouts manage.py install offers (unix, flat, relocatable), any staging root, any prefix and any order in which the parts are copied: the command succeeds, and loading the installed definition gives a provider with the same name, namespace, version, description and translation domain, whose units, jobs, data and translations directories hold exactly the files of the source and whose program directory holds every program; a relocatable one can be moved anywhere. Installing changes no file that existed and writes nothing outside the places of the layout. manage.py develop registers exactly the provider manage.py works with, asks before replacing a registration, and its reverse removes that file only. A source archive unpacked elsewhere is the same provider without built translations. manage.py validate fails if and only if there is an error (or, when strict, a warning).", "quantifier": "all file systems, provider definitions accepted by setup(), layouts, staging roots, prefixes, copying orders, program lists, directories a relocatable provider is moved to", "why_tests_cant": "Whether the definition and the copied tree agree depends on every combination of which directories exist, what the names contain, where things are staged and which layout is used; tests install one sample provider", "anchors": ["plainbox/provider_manager.py:InstallCommand", "plainbox/provider_manager.py:DevelopCommand", "plainbox/provider_manager.py:SourceDistributionCommand", "plainbox/provider_manager.py:ValidateCommand", "plainbox/provider_manager.py:setup", "plainbox/impl/secure/providers/v1.py:Provider1PlugIn"]}
{"id": "C66", "title": "Stored sessions are listed, made, found, resumed and removed without mixing them up", "statement": "In any repository: listing gives every stored session exactly once, youngest first, and nothing else; a session is found under its identifier and only there; making a session takes the first name that nothing has and never fails when done alone, and however many programs make (and remove) sessions at the same time, no two get the same directory. Removing sessions removes exactly the named ones and nothing else in the repository. plainbox run offers exactly the incomplete sessions of the same command line, an application exactly its own incomplete sessions; the session resumed is the first not declined that can be, a new one is started only if wanted or if there is nothing to resume, and a session is erased only if it could not be resumed and the user agreed. Deleting all old sessions never deletes one that can still be resumed or that belongs to another application.", "quantifier": "all repositories (any entries, times, names), all titles, prefixes and identifiers, all schedules of concurrent creators and removals, all answers of the user", "why_tests_cant": "Names, times, clashes and schedules combine without bound; the tests use one or two sessions, one process and mocked directories", "anchors": ["plainbox/impl/session/storage.py:SessionStorageRepository.get_storage_list", "plainbox/impl/session/storage.py:SessionStorage.create", "plainbox/impl/session/storage.py:SessionStorage.remove", "plainbox/impl/commands/inv_session.py:SessionInvocation", "plainbox/impl/commands/inv_run.py:RunInvocation.maybe_resume_session", "plainbox/impl/commands/inv_run.py:RunInvocation.get_resume_candidates", "plainbox/impl/session/assistant.py:SessionAssistant.get_resumable_sessions", "plainbox/impl/session/assistant.py:SessionAssistant.get_old_sessions", "plainbox/impl/session/assistant.py:SessionAssistant.delete_sessions"]}
{"id": "C67", "title": "Starting a provider makes a new directory, overwrites nothing, and gives a provider that works", "statement": "The command that starts a provider takes exactly the qualified names (and, by mistake, those with a newline after them) and otherwise does nothing. It never changes or removes anything that was there: the first thing in its way ends it, and at every moment the names it has not made yet are as they were. In a directory where nothing has that name it makes precisely the listed files and directories, with precisely two programs, and the text of manage.py calls the set-up function with the name given, version 1.0, a description that names it, and a gettext domain that is the name with its dots and colons as underscores; without the examples it makes manage.py only. A new provider can be installed at once, for every name and place, and the installed provider has the same name; its files are classified as what they are meant to be, all of them, and its unit files load and define the listed units, with every job in a category that is there.", "quantifier": "all provider names, all directories and contents of the file system, every point at which the command is interrupted, all places to install to", "why_tests_cant": "the names, the contents of the working directory and the points of interruption are unbounded; tests start one provider in one empty directory", "anchors": ["plainbox/impl/commands/inv_startprovider.py:SomethingInTheWay/File/Directory/Skeleton/EmptyProviderSkeleton/ProviderSkeleton", "plainbox/impl/commands/inv_startprovider.py:StartProviderInvocation.run", "plainbox/impl/commands/cmd_startprovider.py:IQN"]}
{"id": "C68", "title": "What a resource job prints is what later requirements see", "statement": "When a resource job has ended, the resources stored under its id are exactly the records on its standard output, in order, up to the first block that is not a record, whatever the threads that read the streams did; lines on standard error are not read; when there is no record, one resource without fields is stored; a job that was not run leaves what was stored; the last run counts. Then a requirement r.a == 'v' (or != or in) is met exactly when some printed record has such a field, and no requirement on that resource is undecidable.", "quantifier": "All outputs of the command on both streams, all schedules of the reading threads, all earlier resource maps, all job ids, field names and values, all decoders that leave ASCII as it is.", "why_tests_cant": "A test prints two records and looks at the map; it cannot range over all outputs, interleavings, malformed blocks and requirements.", "anchors": ["plainbox/impl/ctrl.py:CheckBoxSessionStateController.observe_result", "plainbox/impl/ctrl.py:gen_rfc822_records_from_io_log", "plainbox/impl/session/state.py:SessionState.set_resource_list", "plainbox/impl/runner.py:IOLogRecordGenerator", "plainbox/impl/resource.py:Resource", "plainbox/impl/resource.py:ResourceProgram"]}
{"id": "C69", "title": "An application's to-do list is what the test plan says, and working through it once is enough", "statement": "After bootstrapping, the list of jobs that the session assistant gives an application is exactly the mandatory and included jobs that can run together with all they need, each once and each after what it needs. Selecting or filtering jobs only takes jobs off the list, keeps selected and mandatory jobs, ignores names that are not on it, and removing the filters gives the first list again. What is left to do is exactly the jobs of the list without an outcome, in the same order; recording an outcome takes exactly that job off and changes no other result, so one pass leaves nothing to do with everything saved. While a job runs the disk names it; a job that cannot run gets its documented outcome and nothing changes. The summary counts exactly the jobs with each outcome. Resuming changes only the result of the job that was running. Bootstrapping again runs no job that has a result.", "quantifier": "All sessions, test plans, selections, results, templates that make jobs, orders of calls and interruptions.", "why_tests_cant": "A test drives one plan to the end; it cannot range over all plans, dependency graphs, selections and moments of interruption.", "anchors": ["plainbox/impl/session/assistant.py:SessionAssistant.bootstrap", "plainbox/impl/session/assistant.py:SessionAssistant.use_alternate_selection", "plainbox/impl/session/assistant.py:SessionAssistant.filter_jobs_by_categories", "plainbox/impl/session/assistant.py:SessionAssistant.remove_all_filters", "plainbox/impl/session/assistant.py:SessionAssistant.get_static_todo_list", "plainbox/impl/session/assistant.py:SessionAssistant.get_dynamic_todo_list", "plainbox/impl/session/assistant.py:SessionAssistant.run_job", "plainbox/impl/session/assistant.py:SessionAssistant.use_job_result", "plainbox/impl/session/assistant.py:SessionAssistant.resume_session", "plainbox/impl/session/assistant.py:SessionAssistant.get_summary"]}
{"id": "C70", "title": "A validation message points at the place that is wrong", "statement": "A message about a field of a unit names the file and one line: the line where the field is written, or the line below it when nothing follows the colon. A message about line m of a value points at the line of the file that says what line m of the value says, provided that the value has no comment line above it and does not begin with a dot line. A message about a field that the unit does not have names all the lines of the unit. The test plan qualifiers carry the same lines. The shell program check reports exactly the programs without here document that have an open quote or end in a backslash, and its message is about the last line of the program.", "quantifier": "All files of units, all units and fields in them, all lines of values, all shell programs and all sets of word characters", "why_tests_cant": "The line depends on everything above it in the file and in the value; a test fixes one layout, and the shell check has infinitely many programs", "anchors": ["plainbox/impl/secure/origin.py:Origin.with_offset", "plainbox/impl/secure/origin.py:Origin.just_line", "plainbox/impl/unit/unit.py:UnitValidator.report_issue", "plainbox/impl/unit/validators.py:ShellProgramValidator.check", "plainbox/impl/unit/testplan.py:TestPlanUnit._gen_qualifiers", "plainbox/impl/secure/rfc822.py:gen_rfc822_records"]}
{"id": "C71", "title": "Exported results arrive complete, or the failure is visible", "statement": "Results that plainbox run or plainbox session export prints on a UTF-8 standard output are printed exactly when no character lies across a multiple of the copying buffer, otherwise the command fails with a decoding error and what was printed is the beginning of the results; on another encoding exactly the ASCII characters are printed. A transport given a stream that returns normally has delivered all of it: the file holds exactly the data, the stream got the whole text, the server was posted everything and did not answer 4xx or 5xx. Stopped at any moment the file holds its old content or a beginning of the data. A session that the assistant marks as submitted, in memory or on disk, was delivered completely before, at every crash point, and every delivered session is marked. plainbox run marks exactly when the results were saved and the transport (if any) returned or raised TransportError. Transport options are accepted exactly when they are empty or a comma-separated list of key=value, and the last value of a key counts.", "quantifier": "every exported data, buffer size, stream encoding, transport, server answer, credentials, amount of free disk space, old content, option string, and every point at which the process stops", "why_tests_cant": "Chunk boundaries, crash points, disk space and server answers are unbounded; tests export small ASCII documents that fit in one buffer and mock the transport", "anchors": ["plainbox/impl/transport.py: TransportBase.__init__", "_OAuthTransport.send", "StreamTransport.send", "FileTransport.send", "plainbox/impl/exporter/__init__.py: ByteStringStreamTranslator.write", "plainbox/impl/commands/inv_run.py: RunInvocation.export_and_send_results", "_save_results", "do_normal_sequence", "plainbox/impl/commands/inv_session.py: export_session", "plainbox/impl/session/assistant.py: SessionAssistant.export_to_transport", "export_to_file", "export_to_stream"]}
{"id": "C72", "title": "The spreadsheet report shows every test once with the right outcome", "statement": "When a session is exported as a spreadsheet, the sheet with results has, below its headings, one line for every category that has jobs, in the order of the names, with the verdict its jobs come to (fail if one failed, else pass if one passed, else skip), followed by one line for each of its jobs that is not a local job, in the order of identifiers, with outcome, summary, certification status, at most three lines of the log and the comments; no test is on two lines, no other cell is filled. The counters of the summary grow by the number of tests with that outcome and add up. Attachments and logs of resources that are text are written whole, line by line, under their names, without writing over each other; others are left out. A report is made exactly when every job has a known category, a plugin, an identifier that is not the name of a used category, and a log that is UTF-8 unless it is a local, resource or attachment job.", "quantifier": "every set of results, categories and attachments with distinct identifiers, every option set, and all values of the exporter's counters", "why_tests_cant": "the tests compare one workbook of one small session; rows, verdicts and counts for all numbers and orders of jobs and categories, and all contents of logs, need induction", "anchors": ["plainbox/impl/exporter/xlsx.py:XLSXSessionStateExporter.dump", "plainbox/impl/exporter/xlsx.py:XLSXSessionStateExporter._tree", "plainbox/impl/exporter/xlsx.py:XLSXSessionStateExporter._write_job", "plainbox/impl/exporter/xlsx.py:XLSXSessionStateExporter.write_results", "plainbox/impl/exporter/xlsx.py:XLSXSessionStateExporter.write_attachments", "plainbox/impl/exporter/xlsx.py:XLSXSessionStateExporter.write_resources"]}
{"id": "C73", "title": "A job runs in a fresh directory of its own with exactly the executables of its namespace, and nothing is left behind", "statement": "Running the command of a job makes two temporary directories. One is put at the front of PATH and holds, when the command starts, a link to every executable of every provider with the namespace of the job, under its own name, and nothing else. The other one is empty and is the working directory, unless the job preserves the working directory. The command is started at most once, and exactly when the directories can be made and no two executables of the namespace have the same name. Afterwards the files and directories it left in the working directory are reported, each once and with its full path, before anything is removed; nothing is reported when nothing was left. Whatever happened, both directories are removed unless removing them fails. The return code is that of the command. A QML job gets its outcome from what the QML shell writes, and ends unless the question or the answer is larger than a pipe.", "quantifier": "every set of providers and executables, every tree of files left by a command, every result or exception of the command, of the listeners, of making and of removing the directories; for QML jobs every question, every sequence of writes, every pipe size and every exit code", "why_tests_cant": "A test runs one command with a few executables and a mocked file system; it cannot cover every tree of leftovers and every combination of exceptions raised while another one is being handled, and a job that never ends cannot be observed by a test that ends.", "anchors": ["plainbox/impl/ctrl.py:CheckBoxExecutionController.execute_job", "plainbox/impl/ctrl.py:CheckBoxExecutionController.configured_filesystem", "plainbox/impl/ctrl.py:CheckBoxExecutionController.temporary_cwd", "plainbox/impl/ctrl.py:CheckBoxExecutionController._find_leftovers", "plainbox/impl/ctrl.py:SymLinkNest", "plainbox/impl/ctrl.py:QmlJobExecutionController", "plainbox/impl/runner.py:JobRunner.run_qml_job"]}
{"id": "C74", "title": "A job run by sudo with a password delivers its output in order and ends with its return code, except in known races", "statement": "When a job runs through the controller that gives sudo a password, what the delegate receives of each output stream is, under every schedule, part of what the process wrote and in the same order. It is all of it, cut into lines, when the call that hands over the password does not itself read from the pipe and does not close it before the reading thread has ended; every byte that call takes is lost. The call ends with a return code exactly when the first exchange with the process is not interrupted, and then the delegate is told that the process ended, with that code.", "quantifier": "every output, every interleaving of the process, the reading thread and the call that writes the password, and every sequence of interrupts and answers to the question for the password", "why_tests_cant": "The loss of output depends on which of two readers of one pipe comes first; a test sees one schedule and normally the short output of an echo.", "anchors": ["plainbox/impl/ctrl.py:RootViaSudoWithPassExecutionController.execute_job", "plainbox/vendor/extcmd/__init__.py:ExternalCommandWithDelegate"]}
{"id": "C75", "title": "What the listeners of a command are told", "statement": "However delegates of an external command are composed (chains, transformations, decoding, encoding), each of them is told about the start, every line or chunk of output, and the end of the command exactly once and in order of composition, with the data as changed by exactly the callbacks around it, if it has the method; until one of them, or a callback, raises an exception, after which none is told. When a command ends the two files of the output writer hold exactly what it wrote on each stream. The fallback printer shows every line up to the first that is not UTF-8, with its stream and its number within it. It does not hold that delegates behind a transformation are told about interrupts, that a delegate is told irrespective of failures of those before it, that chunked output is written to the files, or that lines after one that is not UTF-8 are printed.", "quantifier": "every composition of delegates of any depth, every notification, every set of notifications for which delegates raise exceptions, every output", "why_tests_cant": "Tests compose two or three mock delegates that do not fail; order and completeness concern every nesting, every failure and every byte sequence.", "anchors": ["plainbox/vendor/extcmd/__init__.py:SafeDelegate", "plainbox/vendor/extcmd/__init__.py:Chain", "plainbox/vendor/extcmd/__init__.py:Transform", "plainbox/vendor/extcmd/__init__.py:Decode", "plainbox/vendor/extcmd/__init__.py:Encode", "plainbox/impl/runner.py:CommandOutputWriter", "plainbox/impl/runner.py:FallbackCommandOutputPrinter"]}
{"id": "C76", "title": "Building a provider does what its sources call for, wherever it is", "statement": "For a provider in any directory, manage.py build runs, in build/bin (made if needed) and with PLAINBOX_SRC_DIR=../../src, the command given to setup(), or else the one of the build system with the greatest score: configure before Makefile before Go sources, in whatever order build systems are found; nothing is run and the exit code is 0 if there is nothing to build; otherwise the exit code is that of the command. clean runs its command in the provider's directory. i18n updates the template (with every QML file of the data directory), merges it into every language and compiles the catalogue of every language into the place where it is looked for, in this order, by names that are right from the directory it is run in; a dry run runs nothing. It does not hold that a dry run changes nothing, that Go sources are recognised in every directory (brackets in its name are taken for a pattern), that build without build systems does nothing, or that build systems with a negative score are not used.", "quantifier": "every location of the provider and current directory, every contents of directories, every set and order of build systems, every combination of options", "why_tests_cant": "Tests build one provider in one temporary directory with mocked build systems; relative names, patterns and file names range over all paths.", "anchors": ["plainbox/provider_manager.py:BuildCommand", "plainbox/provider_manager.py:CleanCommand", "plainbox/provider_manager.py:I18NCommand", "plainbox/impl/buildsystems.py:MakefileBuildSystem", "plainbox/impl/buildsystems.py:AutotoolsBuildSystem", "plainbox/impl/buildsystems.py:GoBuildSystem"]}
{"id": "C77", "title": "A value sent as bytes arrives as the same value", "statement": "Whatever immutable value is written as bytes for another process, reading those bytes gives the same value, part by part, frozensets with the same elements, and leaves what follows alone; values that differ are written differently and none is the beginning of another; what can be written is exactly what is reported as dumpable, but for texts with lone surrogates and parts of 4 GiB; and whatever bytes arrive, reading ends with a value made of the listed types only or with an exception", "quantifier": "every value of the listed types, nested to any depth, of any size, and every sequence of bytes", "why_tests_cant": "values nest without bound and bytes of a peer are arbitrary; tests round-trip a few values", "anchors": ["plainbox/vendor/rpyc/core/brine.py:dump", "plainbox/vendor/rpyc/core/brine.py:load", "plainbox/vendor/rpyc/core/brine.py:dumpable"]}
{"id": "C78", "title": "Messages between processes arrive whole and in order, or not at all", "statement": "Messages sent over a channel are received one by one as they were sent: whatever the pieces in which the system takes and hands over bytes, however often a call times out, wherever the connection breaks on either side, what is received is a beginning of the list of messages sent, each of them whole; when nothing breaks all of them arrive; a read returns exactly the bytes asked for or raises EOFError, and that only when the connection broke", "quantifier": "every list of messages, every sequence of partial reads, partial writes, timeouts and failures on both sides", "why_tests_cant": "the pieces are chosen by the kernel and the network; a test sees one split", "anchors": ["plainbox/vendor/rpyc/core/channel.py:Channel.send", "plainbox/vendor/rpyc/core/channel.py:Channel.recv", "plainbox/vendor/rpyc/core/stream.py:SocketStream.read", "plainbox/vendor/rpyc/core/stream.py:SocketStream.write", "plainbox/vendor/rpyc/core/stream.py:PipeStream.read", "plainbox/vendor/rpyc/core/stream.py:PipeStream.write"]}
{"id": "C79", "title": "Messages handed in by many threads are sent one at a time, in order, and none is forgotten", "statement": "Calls that send over one connection may run at the same time, also inside each other. At most one of them is inside the channel's send at any moment, the messages are given to the channel in the order in which they were handed in and each once, no call ever waits for another, every call ends, and when all calls are over and the channel did not fail, every message was sent.", "quantifier": "any number of calls, any messages, any interleaving of their steps", "why_tests_cant": "a lost message or two mixed ones need a particular interleaving of the steps of several threads around the lock; tests see a few", "anchors": ["plainbox/vendor/rpyc/core/protocol.py:Connection._send"]}
{"id": "C80", "title": "An object given to the other process stays available as long as it can be used there", "statement": "While the other process has a proxy for an object, or a reference to it is on its way there, the owner keeps the object. Every use of the proxy finds the object, also one that was still under way when the proxy ended, unless it is an asynchronous call whose arguments need a request of the owner. When nothing is under way and no proxy exists, the owner has released the object exactly when no reference arrived while a proxy existed.", "quantifier": "any sequence of references, uses, ends of proxies and deliveries", "why_tests_cant": "whether an object is dropped too early or kept for ever depends on the order in which messages of both directions cross; tests exercise a few orders", "anchors": ["plainbox/vendor/rpyc/lib/colls.py:RefCountingColl", "plainbox/vendor/rpyc/core/protocol.py:Connection._box", "plainbox/vendor/rpyc/core/protocol.py:Connection._unbox", "plainbox/vendor/rpyc/core/protocol.py:Connection._handle_del", "plainbox/vendor/rpyc/core/netref.py:BaseNetref"]}
{"id": "C81", "title": "Validating a test plan points out exactly the selectors that select nothing or too much", "statement": "Validated together with all units, a test plan gets an advice for each selector of include, exclude, mandatory_include and nested_part that matches the identifier of no unit, once and at its line, and for no other. It gets a warning for each selector of mandatory_include and bootstrap_include that matches a unit that include matches too, and for no other. It gets an error exactly when a bootstrap job, of the plan or of a nested part, is not the only unit of its name or not a resource job. Validation raises exactly when a line of one of these fields is no statement with a usable pattern or a bootstrap job has the name of a unit that has no plugin.", "quantifier": "all test plans, units, namespaces, patterns and regular expression engines", "why_tests_cant": "which selectors are dead depends on all units of all providers and on the pattern language; tests check a few plans against a few jobs", "anchors": ["plainbox/impl/unit/testplan.py:NonEmptyPatternIntersectionValidator", "plainbox/impl/unit/testplan.py:NoBaseIncludeValidator", "plainbox/impl/unit/testplan.py:TestPlanUnit", "plainbox/impl/unit/validators.py:UnitReferenceValidator"]}
{"id": "C82", "title": "An exporter is offered exactly when its unit is in order, and can be created with the options its class knows", "statement": "For every exporter unit of a provider whose fields can be read, the session offers it exactly when: its identifier has no namespace, its file extension is made of word characters, dots and dashes, its entry point is a class that loads, its data is JSON that is not empty, a jinja2 exporter has data naming a template that is a file in the data directory of the provider, its summary is one line of at most 80 characters and marked for translation, and its other fields are not. What is offered is what the fields say, the options being the words between separators. The exporters of a session are exactly the offered ones, the last of a name, and the short names of those of plainbox. Creating one succeeds exactly when it is listed and its options and, in strict mode, those of the user are known to its class. Making an archive succeeds in collecting exporters exactly when every exporter of every provider can be loaded.", "quantifier": "all exporter units and lists of units, JSON data, files, entry points, option lists and parameters", "why_tests_cant": "which exporters appear depends on all fields at once, on the files and on the entry points of the machine; tests check a handful of units", "anchors": ["plainbox/impl/unit/exporter.py:ExporterUnit", "plainbox/impl/unit/exporter.py:ExporterUnitSupport", "plainbox/impl/session/manager.py:SessionManager.exporter_map", "plainbox/impl/session/manager.py:SessionManager.create_exporter", "plainbox/impl/exporter/tar.py:TARSessionStateExporter._get_all_exporter_units"]}
{"id": "C83", "title": "Places in files are ordered, and comparing others fails in known cases", "statement": "Two places (a source and lines) are equal exactly when they are the same lines of the same source. For lines of files the operators <, <=, > and >= never raise and say which comes first by file name, first line and last line; this is a strict total order up to equality. For any two places comparing raises TypeError exactly when the sources are the same and lines that differ are not both given, or the sources differ and are neither both files nor both named arguments; otherwise the four operators agree with each other. Of two places not both from the command line at most one is later. Moving a place by an offset keeps its kind and length, and moving twice is moving by the sum.", "quantifier": "all places, sources, line numbers, offsets and file names", "why_tests_cant": "an order is a statement about all pairs and triples; tests compare a few", "anchors": ["plainbox/impl/secure/origin.py:Origin", "plainbox/impl/secure/origin.py:FileTextSource", "plainbox/impl/secure/origin.py:PythonFileTextSource", "plainbox/impl/secure/origin.py:JobOutputTextSource", "plainbox/impl/secure/origin.py:CommandLineTextSource", "plainbox/impl/secure/origin.py:UnknownTextSource"]}
{"id": "C84", "title": "There is one symbol of a name, and symbols compare like texts", "statement": "Whatever the schedule, a thread that asks for a symbol is given one of that name. As long as no two threads make a symbol of one name at the same time, in particular in one thread, all symbols of a name are the same object; and once there is one and nobody is making another, everybody is given that one from then on. Symbols that are unique by name compare with each other and with texts, on either side, like their names, and what is equal has the same hash. A block of symbol definitions defines exactly the names assigned and the ordinary names mentioned: a mentioned name stands for itself, a name assigned a text for that text, and a name assigned another name for the same symbol.", "quantifier": "all numbers of threads, schedules, request lists, names and blocks of definitions", "why_tests_cant": "races need a particular schedule, and an order is about all pairs; tests make symbols in one thread", "anchors": ["plainbox/impl/symbol.py:Symbol", "plainbox/impl/symbol.py:SymbolDefNs", "plainbox/impl/symbol.py:SymbolDefMeta"]}
{"id": "C85", "title": "The service for remote sessions runs one job at a time and keeps each result under its own job", "statement": "If finish_job is called only while the service says it is running something and not while another finish_job is in progress, then two jobs never run at the same time, whatever else is called from however many connections and in whatever order. If also only the last call of run_job is continued and nothing is finalized or resumed while something runs, the results given to the session are exactly those of the jobs started so far, each once, in order and under its own name, but for the one that is running, and starting a job never waits for another. A job whose thread raises is the last one the service ever starts.", "quantifier": "every sequence of calls and of steps of the threads behind them, every answer of the session underneath, every job and result", "why_tests_cant": "The order of calls, of the threads of jobs and of calls that wait is not bounded; tests run a few calls of one client", "anchors": ["plainbox/impl/session/assistant2.py:SessionAssistant2.run_job", "plainbox/impl/session/assistant2.py:SessionAssistant2.finish_job", "plainbox/impl/session/assistant2.py:BackgroundExecutor"]}
{"id": "C86", "title": "The service for remote sessions answers according to what was done", "statement": "Each of the four guarded calls is refused, changing nothing, exactly when the service is not in the phase for it, and phases follow one another only in the known ways. What jobs write is delivered by monitor_job once, in order and without gaps. A caller is told the purpose of an interactive job and is asked for a password exactly when one is needed and none is known, before the job is started; without the password it is not started. whats_up tells the position of the job among those of the session. Test plans are offered sorted by name. After a resume the job that was running counts as passed.", "quantifier": "every state of the service, every sequence of calls and lines of output, every list of test plans, every job", "why_tests_cant": "States, interleavings of output with calls and lists of plans are unbounded", "anchors": ["plainbox/impl/session/assistant2.py:SessionAssistant2", "plainbox/impl/session/assistant2.py:BufferedUI"]}
{"id": "C87", "title": "The password for a remote session arrives, is asked for once, and its temporary key serves once", "statement": "Whatever was asked and read before, the encrypted password that a password provider gives is decrypted by the broker whose public key it was made from to exactly what the user last typed (on a UTF-8 terminal); reading it any number of times asks the user at most once unless the answer could not be encoded, and a question that fails keeps the previous password. The passphrase it sends for a temporary key is decrypted by that key, and with it the exported master key can be brought back in a new broker that reads the same passwords. A temporary key decrypts at most one message, the first that it can, and is of no use after that. Before any password was read there is no passphrase: asking for it fails.", "quantifier": "all histories of questions, readings and passphrase requests, all passwords, all keys and ciphers for which decryption undoes encryption, all sequences of messages to a temporary key", "why_tests_cant": "Tests need a terminal and real keys, and try one order of calls; the claim is about every order and every password, including what happens after an answer that cannot be encoded or a message that cannot be decrypted.", "anchors": ["plainbox/impl/secure/sudo_broker.py:EphemeralKey", "plainbox/impl/secure/sudo_broker.py:SudoBroker", "plainbox/impl/secure/sudo_broker.py:SudoProvider", "plainbox/impl/session/assistant2.py:SessionAssistant2.get_decrypted_password"]}
{"id": "C88", "title": "Jobs named on the command line are listed, and graphs show exactly their links", "statement": "With a test plan or patterns on the command line, the special listings show exactly the jobs that the plan or a pattern includes and neither excludes, each once; without, all jobs in order. A pattern without alternatives is compared with the whole identifier. The list of expressions has every expression of these jobs once, sorted, or nothing if one job has a wrong program. The graph has its two opening lines, its closing line and in between exactly the boxes and links of these jobs; different links are drawn differently if identifiers have no quotes. (Refuted: exclusions without anything included are not heeded; a pattern with alternatives matches whatever begins like one of them but the last; jobs of some kinds are not drawn; identifiers with quotes are confused.)", "quantifier": "all arguments, all jobs, providers, test plans and patterns of any structure, in any order of the set of providers", "why_tests_cant": "Tests list a few jobs with one pattern; which jobs are chosen depends on every combination of plan, patterns, alternatives and exclusions, and whether links can be confused on every pair of identifiers.", "anchors": ["plainbox/impl/commands/inv_checkbox.py:CheckBoxInvocationMixIn._get_matching_job_list", "plainbox/impl/commands/inv_special.py:SpecialInvocation"]}
{"id": "C89", "title": "A list of everything shows what there is, and can be read back", "statement": "Listing a kind of units shows all units of that kind of all providers, in order, each with its name and, if asked for, its attributes; listing providers, repositories or storages shows all of these; a group that does not exist shows nothing, without an error. The list of everything determines the tree of what there is: two lists are the same only if the trees are. (Refuted: one unit of a kind that cannot be shown, such as a plain unit, and nothing at all is shown.)", "quantifier": "all providers, units, repositories and storages, every group, with and without attributes; for reading back, all names in quotes and groups without", "why_tests_cant": "Tests show one tree; that no two trees give the same text, and that no object is left out or shown twice, is about all trees of any width and depth.", "anchors": ["plainbox/impl/highlevel.py:Explorer.get_object_tree", "plainbox/impl/highlevel.py:PlainBoxObject", "plainbox/impl/commands/inv_list.py:ListInvocation._show"]}
{"id": "C90", "title": "Command line tools run the command that was named", "statement": "A tool with many commands loads only the one it guesses from the words on its command line, and still runs the same command with the same arguments as if it had loaded all, and rejects the same command lines, with status 2 and without running anything. What the command returns or exits with is the status of the tool; a broken pipe and an interrupt end it with 0, other errors are raised, or start the debugger if it was asked for. Without a name of its own a command is called like its class without the word command at the end; its help, description and epilog are the parts of its docstring before and after the mark. The pager is the first of the preferred programs that can be run in the first directory of the path that has it, and there is none without a terminal.", "quantifier": "all collections of commands, all words on the command line, all outcomes of commands, all class names and docstrings, all paths and preferences", "why_tests_cant": "The guess depends on every word of the command line, and names, docstrings, paths and ways to fail are unbounded; the tests run a handful of fixed command lines.", "anchors": ["plainbox/impl/clitools.py:LazyLoadingToolMixIn", "plainbox/impl/clitools.py:ToolBase.main", "plainbox/impl/clitools.py:ToolBase.dispatch_and_catch_exceptions", "plainbox/impl/clitools.py:CommandBase.get_command_name", "plainbox/impl/clitools.py:CommandBase.get_command_epilog", "plainbox/impl/clitools.py:find_exec"]}
{"id": "C91", "title": "Exceptions from the other side keep their details and make nothing else", "statement": "Whatever an exception carries, what is made of it can be sent, and without being asked for no text of a traceback is. An exception that is received has the class it had, if that is a builtin one, and else a class of its full name; it has the same arguments and public attributes, each as its repr if it is no simple value, and the traceback that was sent. Whatever is received, by default nothing is imported and only builtin exceptions or generic classes are made; allowed to make others, it takes only exceptions found under the name that was sent, and imports at most that module, if it is not there. In every history a name has one generic class and a generic class one name.", "quantifier": "all exceptions with any arguments and attributes, all messages of the other side, also malicious ones, all settings, all modules, and all histories of messages", "why_tests_cant": "What comes from the other side is arbitrary, and that nothing but the allowed classes is ever made is a claim about all of it; tests send a few exceptions.", "anchors": ["plainbox/vendor/rpyc/core/vinegar.py:dump", "plainbox/vendor/rpyc/core/vinegar.py:load", "plainbox/vendor/rpyc/core/protocol.py:Connection._dispatch_exception"]}
{"id": "C92", "title": "Results that come later come once, in time, and tell all who asked", "statement": "Of a call whose result comes later: everyone who asked to be told is told exactly once, in the order of asking, when the result comes or at once if it has come, and nobody before. A result that comes by the deadline stays, whatever deadline is set later; one that comes after it is not taken, and nobody is told. Whoever waits gets the first result that comes by the deadline, raised if it is an exception, and a timeout once the deadline has passed and not before; without a deadline the first result, whenever it comes, and never a timeout.", "quantifier": "all histories of asking, setting deadlines and results coming, and all rounds of waiting, at any times", "why_tests_cant": "Who is told depends on the order of asking, deadlines and results, which is unbounded, and on times that a test cannot control.", "anchors": ["plainbox/vendor/rpyc/core/async.py:AsyncResult"]}
{"id": "C93", "title": "Reports about the selected jobs tell of each and miss no problem", "statement": "The report of interactivity has one line for each job that would be run, in that order, with aligned columns. The report of validation tells each job with a problem, what it is and where the job comes from; that there are none is said exactly when only problems were asked for, there are jobs, and none has a problem.", "quantifier": "all lists of jobs with any ids, problems and durations", "why_tests_cant": "Lists, widths and combinations of valid and invalid jobs are unbounded, and the message that nothing was found depends on all of them.", "anchors": ["plainbox/impl/commands/inv_analyze.py:AnalyzeInvocation"]}
{"id": "C94", "title": "Paragraphs are shown in their box", "statement": "A text that is shown as a paragraph fills a box: every line has exactly the width that was set, there are as many empty lines above and below as the padding says, and between them are the lines of the text, in order and placed at the left, at the right, or in the middle but for one space, between the paddings. A box that is too narrow is refused. Of lines that are given, as those of a traceback, each is shown in order.", "quantifier": "all texts and lists of lines, all widths, paddings and alignments", "why_tests_cant": "Widths, paddings and texts are unbounded, and off-by-one errors in centering show only for some parities.", "anchors": ["plainbox/impl/ingredients.py:RenderingContext.para"]}
{"id": "C95", "title": "The usage of a tool shows every argument within the width", "statement": "Whatever the arguments of a tool are, there is a usage line: it names the tool and then every optional and positional argument, in order and separated by one space or a new line; following lines are indented alike, a new line is begun only where the argument would not have fitted, and only a line with a single argument can be wider than the width.", "quantifier": "all names, prefixes, widths and lists of arguments", "why_tests_cant": "Widths, numbers and lengths of arguments are unbounded, and the boundary between fitting and not fitting moves with each of them.", "anchors": ["plainbox/impl/_argparse.py:LegacyHelpFormatter._format_usage"]}
{"id": "C96", "title": "Colours change how a text looks and nothing else", "statement": "A text in a colour is the text itself when colours are off. When they are on, what a terminal shows is the text, and it ends with a reset so that what follows looks as before. Names of colours are accepted alike whether colours are used or not, in capitals or not; different names give different colours. Headers are centred and at least 80 wide. Colours are used if asked for, or on a terminal if nothing is said. A passed job looks like no other outcome, nor does a crashed one.", "quantifier": "all texts, names of colours, outcomes and settings", "why_tests_cant": "Texts are unbounded, and a missing reset or a name known in one mode only shows in some combination of mode, colour and text.", "anchors": ["plainbox/impl/color.py:Colorizer", "plainbox/impl/color.py:get_color_for_tty", "plainbox/impl/result.py:OUTCOME_METADATA_MAP"]}
{"id": "C97", "title": "Messages are translated from the right catalogue or shown as they are", "statement": "If directories of catalogues are given before messages are asked for, every message, singular or plural, with a context or not, is the one the catalogue of its domain in the last given directory has, or the original message without its context if there is none. In every history each call is answered, always alike; all answers of a domain come from one directory that was given to it. Contexts are told apart. (Changes after the first use have no effect: see findings.)", "quantifier": "all histories of translations and of changes of domain and directory, all catalogues, messages, contexts and numbers", "why_tests_cant": "The answers depend on the whole history of calls through three layers of caches, and histories are unbounded.", "anchors": ["plainbox/i18n.py:GettextTranslator"]}
{"id": "C98", "title": "Log messages go where they belong, once", "statement": "Whatever levels and names are asked for: a message of the program that is not below the level of its logger is shown exactly once, by the handler of its level, and debugging messages exactly if that was asked for; warnings and worse are in the file of problems and debugging in its own, nothing is anywhere twice; a disabled message goes nowhere. Errors of the logger of crashes always reach the file of crashes, that of problems and the console. The level that is asked for is that of all loggers without their own; tracing a name enables it and what is below it and changes nothing else.", "quantifier": "all sequences of adjustments, all names of loggers and all levels", "why_tests_cant": "Loggers form an unbounded tree, adjustments come in any number and order, and each message passes levels of loggers, of handlers and filters.", "anchors": ["plainbox/impl/logging.py:LoggingHelper", "plainbox/impl/logging.py:LevelFilter", "plainbox/impl/clitools.py:ToolBase._setup_logging_from_environment"]}
{"id": "C99", "title": "Small commands report what happened by text and exit code", "statement": "check-config exits with 0 exactly if there is no problem, and shows all problems, files, variables and sorted sections. parse prints the result of the parser and exits with 0 exactly if the input could be read and parsed, and with 2 if the parser failed. script runs the first job with the id if it has a command and exits with its code, with 126 or 125 if there is none, and tells of everything the command left behind, files line by line. self-test runs itself again exactly once, with the same arguments.", "quantifier": "all configurations, inputs, parsers, lists of jobs, leftovers and command lines", "why_tests_cant": "Configurations, job lists, leftovers and command lines are unbounded, and each exit code has to be right in every combination.", "anchors": ["plainbox/impl/commands/inv_check_config.py:CheckConfigInvocation", "plainbox/impl/commands/inv_parse.py:ParseInvocation", "plainbox/impl/commands/inv_script.py:ScriptInvocation", "plainbox/impl/commands/inv_selftest.py:SelfTestInvocation"]}
{"id": "C100", "title": "The other side of a connection reaches only the attributes the configuration opens", "statement": "A request of the other side to read, set, delete or run an attribute reaches the exposed attribute of that name when exposed attributes are allowed and the object has one, otherwise the attribute of exactly that name when all attributes, safe ones or public ones are allowed and it is such a one, otherwise nothing: the request then fails with an AttributeError and changes nothing. Setting and deleting change that one attribute only. Under the default configuration no history of requests changes any object without hooks of its own, and everything read or run is an attribute whose name starts with exposed_ or is one of the listed safe ones. Attributes of a service are never changed by requests under any configuration.", "quantifier": "every configuration, every set of objects and attributes, every name as text, bytes or anything else, and every sequence of requests", "why_tests_cant": "Tests try a handful of names on one object; that nothing else is reachable is about all names, configurations and histories.", "anchors": ["plainbox/vendor/rpyc/core/protocol.py:Connection._check_attr", "plainbox/vendor/rpyc/core/protocol.py:Connection._access_attr", "plainbox/vendor/rpyc/core/protocol.py:DEFAULT_CONFIG", "plainbox/vendor/rpyc/core/service.py:Service", "plainbox/vendor/rpyc/core/service.py:SlaveService.on_connect"]}
{"id": "C101", "title": "Services have one name and modules of the other side are asked for until they are found", "statement": "A service is known by its given aliases in capitals, the first being its name, or else by the name of its class in capitals without a final SERVICE. Looking up a module of the other side gives what the first successful lookup of that name gave, however the lookups were made (item, attribute, membership, tuple of name parts); the other side is asked once for every lookup up to and including the first successful one and never again.", "quantifier": "every class name and list of aliases, and every sequence of lookups with every outcome", "why_tests_cant": "Tests look up one module once; repeated and failing lookups come in arbitrary orders.", "anchors": ["plainbox/vendor/rpyc/core/service.py:Service.get_service_aliases", "plainbox/vendor/rpyc/core/service.py:ModuleNamespace"]}
{"id": "C102", "title": "Every request on a connection gets the answer to itself, once", "statement": "Requests on a connection are numbered as they are made. A callback is called with the first answer bearing the number of its request that arrives after it, once, and never when the connection is cleaned up before; a waiting call comes back with the last answer bearing its number. No request is ever answered twice or with another's answer. The other side answers each request once under its own number, except when its handler ended in an exit or interrupt that its configuration keeps local. So when both sides behave, however many requests of both kinds are open and in whatever order the answers arrive, each gets what its own handler gave or raised.", "quantifier": "every interleaving of requests of both kinds, answers (also unasked, repeated and late ones), pick-ups by waiting threads and clean-ups", "why_tests_cant": "Tests make one request and see its answer; mix-ups show only under particular interleavings of many requests.", "anchors": ["plainbox/vendor/rpyc/core/protocol.py:Connection.sync_request", "plainbox/vendor/rpyc/core/protocol.py:Connection._async_request", "plainbox/vendor/rpyc/core/protocol.py:Connection._dispatch_reply", "plainbox/vendor/rpyc/core/protocol.py:Connection._dispatch_request"]}
{"id": "C103", "title": "A connection is closed once, however often it is closed", "statement": "However often and from whichever side a connection is closed, its service is told of it exactly once, the other side is asked to close at most once and only if the first closing was ours, and the connection stays closed. Closing it again does nothing and raises nothing.", "quantifier": "every sequence of closings from both sides, with every outcome of sending", "why_tests_cant": "Tests close once; repeated closing from both sides comes in any order.", "anchors": ["plainbox/vendor/rpyc/core/protocol.py:Connection.close", "plainbox/vendor/rpyc/core/protocol.py:Connection._cleanup", "plainbox/vendor/rpyc/core/protocol.py:Connection._handle_close"]}
{"id": "C104", "title": "A job that cannot start is not run, and being skipped spreads", "statement": "Running a job if possible asks the runner exactly when the job can start, and the result is then the runner's. Otherwise, in a session that is up to date, the job is recorded as skipped when a job it directly depends on was skipped and as not supported in every other case, with a comment naming what keeps it from starting; no exception comes of it. Going through a chain of jobs that each depend on the one before, starting from one that depends on a skipped job, records every one of them as skipped and runs none. A job that is only out of attempts is recorded as not supported with the comment that it can be started.", "quantifier": "every session, job, result of the runner and chain of dependent jobs of any length", "why_tests_cant": "tests run a few jobs; that skipping spreads is about chains of any length and every state of the session", "anchors": ["plainbox/impl/applogic.py:run_job_if_possible", "plainbox/impl/session/jobs.py:JobState.get_readiness_description", "plainbox/impl/session/jobs.py:JobReadinessInhibitor.__str__"]}
{"id": "C105", "title": "The registry of services finds exactly the live servers", "statement": "Whatever registrations, unregistrations and queries came before, with a clock that does not run backwards, a query for a service gives exactly the servers last registered under that name, in whatever case it was written, no longer ago than the time-out and not unregistered since, each once, those heard of longest ago first. No command ever fails. The last notice about a name that the registry gives says whether the name has servers. A server that leaves while others of its name remain is not given notice of.", "quantifier": "every history of commands from any hosts, with any times, names and time-out", "why_tests_cant": "tests try a few registrations with fixed times; the answer depends on the whole history", "anchors": ["plainbox/vendor/rpyc/utils/registry.py:RegistryServer.cmd_query", "plainbox/vendor/rpyc/utils/registry.py:RegistryServer.cmd_register", "plainbox/vendor/rpyc/utils/registry.py:RegistryServer.cmd_unregister"]}
{"id": "C106", "title": "A server with a pool of threads serves each connection by one thread at a time and loses none", "statement": "At every moment each connection of the server waits in exactly one place: for something to arrive, in the queue for a worker, or in the hands of one worker. So no two workers ever serve the same connection, a worker never finds that its connection is gone, what it closes when a connection ends is that connection, and descriptors given out again are safe. A worker serves at most a batch of requests before it gives a connection back. All but the last fail when a descriptor is 0, whose connection is then never served, and when a connection closes its own socket while served: the descriptor may be given out again before the worker is done, and the worker then closes or serves the new connection.", "quantifier": "every interleaving of the accepting thread, the polling thread and any number of workers, any batch size, answers and numbers of descriptors", "why_tests_cant": "races among threads need particular schedules and descriptors given out again, which a test cannot force", "anchors": ["plainbox/vendor/rpyc/utils/server.py:ThreadPoolServer._serve_requests", "plainbox/vendor/rpyc/utils/server.py:ThreadPoolServer._handle_poll_result", "plainbox/vendor/rpyc/utils/server.py:ThreadPoolServer._accept_method", "plainbox/vendor/rpyc/utils/server.py:ThreadPoolServer._drop_connection"]}
{"id": "C107", "title": "What units remember of themselves is the first value, for each instance and arguments", "statement": "A cached property gives the first value it comes to forever and computes it no more; exceptions are not remembered. A cached method does the same for each value of its arguments. Each instance remembers by itself, whatever is asked of others. For properties this also holds when a class extends the property of the class above, unless it raises after having got the value above: that value then stays. For methods it does not hold: a cached method that calls the cached method above is itself called once, and from then on the instance gives what the class above gives.", "quantifier": "every history of readings and calls, in a world that may change between them, with any exceptions, any number of instances and classes", "why_tests_cant": "tests read an attribute twice; the claim is about all histories, changing worlds, exceptions and classes that extend others", "anchors": ["plainbox/impl/decorators.py:cached_property", "plainbox/impl/decorators.py:instance_method_lru_cache"]}
{"id": "C108", "title": "A server serves only authenticated clients, loses no socket and closes them all", "statement": "With an authenticator, a client is handed to the service only after being accepted by it, at most once, and never after being turned away. Every socket that is open is in the hands of the accepting thread or has a thread that will close it. However often and by whichever thread a server is closed, it is taken off the registry once. When closing is done every client's socket is closed, except one about to be dropped unserved, provided no client was halfway in when closing began. A client that was halfway in stays connected and is served after the server has closed.", "quantifier": "every interleaving of the accepting thread, any number of client threads and any number of closings", "why_tests_cant": "the races between accepting, serving and closing need particular schedules", "anchors": ["plainbox/vendor/rpyc/utils/server.py:Server.accept", "plainbox/vendor/rpyc/utils/server.py:Server._authenticate_and_serve_client", "plainbox/vendor/rpyc/utils/server.py:Server.close", "plainbox/vendor/rpyc/utils/server.py:ThreadedServer._accept_method"]}
{"id": "C109", "title": "Reading the other side's iterators in chunks loses nothing, and a restricted view shows and changes only what it lists", "statement": "Going through an iterator of the other side with buffiter gives exactly its elements, in order, for any positive sizes and any factor of at least 1, needs at most one request for each element and one more, and never asks for more than the larger of the first and the greatest chunk. When the iterator raises, the same exception comes, after all elements but the last ones, fewer than a chunk. Through a restricted view, after any history of reads and writes by the other side, attributes not listed for writing have their first value, the others the value last written, reading gives that value for the attributes listed and an AttributeError for all others, and no answer depends on an attribute that is not listed for reading.", "quantifier": "Every iterator of any length and way of ending, all chunk sizes and factors; every object, every pair of lists of attributes and every history of accesses.", "why_tests_cant": "Lengths, chunk sizes and growth combine without bound and the boundary between full and partial chunks moves with them; what a view keeps secret is about all histories of accesses.", "anchors": ["plainbox/vendor/rpyc/utils/helpers.py:buffiter", "plainbox/vendor/rpyc/utils/helpers.py:restricted", "plainbox/vendor/rpyc/core/protocol.py:Connection._handle_buffiter", "plainbox/vendor/rpyc/core/protocol.py:Connection._access_attr"]}
{"id": "C110", "title": "The text report lists the jobs that have results, in order, and can be read back", "statement": "Without colours the text report, read line by line, gives exactly the jobs of the run list that have a result, in its order, each with the word for its outcome and its summary, provided summaries have one line; so two sessions with the same report have the same outcomes. With colours there is likewise one line for each such job, ending in its summary, and one more line for each job with more than one result. Without colours the report never holds the history of a job: histories are printed on standard output.", "quantifier": "Every run list, with any summaries, results, outcomes and histories.", "why_tests_cant": "That nothing is missing, added or reordered and that the report can be read back is about all sessions and all summaries, including those with colons and spaces.", "anchors": ["plainbox/impl/exporter/text.py:TextSessionStateExporter.dump", "plainbox/impl/result.py:OUTCOME_METADATA_MAP", "plainbox/impl/color.py:Colorizer.custom"]}
{"id": "C111", "title": "Wrapping an object of the other side for asynchronous calls gives the wrapper of that very object", "statement": "After any history of objects appearing, being wrapped with async and being dropped, with the addresses of objects that are gone used again, wrapping a callable Netref gives a wrapper of that object and of no other, wrapping a wrapper gives the wrapper itself, and anything else is refused with TypeError. There is at most one wrapper of an object at a time, a wrapper keeps its object alive, and the cache keeps nothing alive: once the program drops a wrapper, its entries and, if nobody else holds it, the object are gone.", "quantifier": "Every history of creating, wrapping and dropping any number of objects, with every reuse of addresses.", "why_tests_cant": "The cache is keyed by addresses that the interpreter uses again; a wrong answer needs a particular history of frees and reuses, which a test cannot bring about at will.", "anchors": ["plainbox/vendor/rpyc/utils/helpers.py:async", "plainbox/vendor/rpyc/utils/helpers.py:_Async", "plainbox/vendor/rpyc/lib/colls.py:WeakValueDict"]}
