(** * plainbox-trusted-launcher-1

    /repo/plainbox/impl/secure/launcher1.py.

    Running a command is a function of the command line and the environment; its
    answer is the output and the return code.  What the commands do to the system
    is not modelled.  Jobs are those of JobModel.v; their shell and command are
    given by functions. *)

From Coq Require Import String List Bool NArith ZArith Ascii.
From Verif Require Import Base JobModel SolverModel SessionModel.
Import ListNotations.
Local Open Scope nat_scope.
Local Open Scope list_scope.

(** ** The command line *)

(** The options of get_parser_for_sphinx, launcher1.py:182-220, and -h, which
    argparse adds. *)
Inductive opt := OWarmup | OTarget | OTargetEnv | OGenerator | OGeneratorEnv | OHelp.

Definition option_of (s : string) : option opt :=
  if smem s ["-w"; "--warmup"]%string then Some OWarmup
  else if smem s ["-t"; "--target"]%string then Some OTarget
  else if smem s ["-T"; "--target-environment"]%string then Some OTargetEnv
  else if smem s ["-g"; "--generator"]%string then Some OGenerator
  else if smem s ["-G"; "--generator-environment"]%string then Some OGeneratorEnv
  else if smem s ["-h"; "--help"]%string then Some OHelp
  else None.

(** How argparse (_parse_optional) classifies an argument.  Other arguments with
    a leading dash may be abbreviated options, options with an attached value or
    mistakes: they are not modelled. *)
Inductive aclass := COpt (o : opt) | CArg | CUnmodelled.

Definition classify (s : string) : aclass :=
  match option_of s with
  | Some o => COpt o
  | None =>
      if String.prefix "-" s && negb (String.eqb s "-") then CUnmodelled else CArg
  end.

(** The namespace. *)
Record args := mk_args {
  a_warmup : bool;
  a_target : option string;
  a_target_env : option (dict string);
  a_generator : option string;
  a_generator_env : option (dict string)
}.

Definition no_args : args := mk_args false None None None None.

(** value.split('=', 1), launcher1.py:172-173; None is the ValueError *)
Fixpoint split_eq (s : string) : option (string * string) :=
  match s with
  | EmptyString => None
  | String c r =>
      if Ascii.eqb c "=" then Some (EmptyString, r)
      else match split_eq r with
           | Some (k, v) => Some (String c k, v)
           | None => None
           end
  end.

(** UpdateAction.__call__ for one value, launcher1.py:170-178 *)
Definition update_env (e : option (dict string)) (value : string) : option (dict string) :=
  match split_eq value with
  | Some (k, v) => Some (dset k v (match e with Some d => d | None => [] end))
  | None => None
  end.

(** What the option read last still takes: one value, values (whether there was
    one already), nothing. *)
Inductive pending := WNone | WTarget | WGenerator | WTEnv (some : bool) | WGEnv (some : bool).

Inductive parsed := PArgs (a : args) | PExit (code : Z) | PUnmodelled.

(** An option that still needs a value. *)
Definition unsatisfied (p : pending) : bool :=
  match p with WTarget | WGenerator | WTEnv false | WGEnv false => true | _ => false end.

(** parser.parse_args: launcher1.py:182-220 and 256-257.  [extra]: there was an
    argument that belongs to no option, which is only reported at the end.  The
    required exclusive group of --warmup and --target is checked too. *)
Fixpoint parse (l : list string) (p : pending) (extra : bool) (a : args) : parsed :=
  match l with
  | [] =>
      if unsatisfied p then PExit 2
      else if negb (a_warmup a || match a_target a with Some _ => true | None => false end)
      then PExit 2
      else if extra then PExit 2 else PArgs a
  | s :: l' =>
      match classify s with
      | CUnmodelled => PUnmodelled
      | CArg =>
          match p with
          | WNone => parse l' WNone true a
          | WTarget =>
              if a_warmup a then PExit 2
              else parse l' WNone extra
                (mk_args (a_warmup a) (Some s) (a_target_env a) (a_generator a) (a_generator_env a))
          | WGenerator =>
              parse l' WNone extra
                (mk_args (a_warmup a) (a_target a) (a_target_env a) (Some s) (a_generator_env a))
          | WTEnv _ =>
              match update_env (a_target_env a) s with
              | Some d => parse l' (WTEnv true) extra
                  (mk_args (a_warmup a) (a_target a) (Some d) (a_generator a) (a_generator_env a))
              | None => PExit 2
              end
          | WGEnv _ =>
              match update_env (a_generator_env a) s with
              | Some d => parse l' (WGEnv true) extra
                  (mk_args (a_warmup a) (a_target a) (a_target_env a) (a_generator a) (Some d))
              | None => PExit 2
              end
          end
      | COpt o =>
          if unsatisfied p then PExit 2
          else
            match o with
            | OWarmup =>
                match a_target a with
                | Some _ => PExit 2
                | None => parse l' WNone extra
                    (mk_args true (a_target a) (a_target_env a) (a_generator a) (a_generator_env a))
                end
            | OTarget => parse l' WTarget extra a
            | OTargetEnv => parse l' (WTEnv false) extra a
            | OGenerator => parse l' WGenerator extra a
            | OGeneratorEnv => parse l' (WGEnv false) extra a
            | OHelp => PExit 0
            end
      end
  end.

Definition parse_args (argv : list string) : parsed := parse argv WNone false no_args.

(** ** Providers *)

(** The units of a provider: jobs, templates (of jobs) and others, each with a
    checksum.  A template has the id of its resource and makes jobs of records;
    None is an exception. *)
Record template := mk_template {
  t_sum : string;
  t_resource : option name;
  t_make : list resource -> option (list job)
}.

Inductive unit_ := UJob (j : job) | UTemplate (t : template) | UOther (sum : string).

Definition unit_sum (u : unit_) : string :=
  match u with UJob j => j_sum j | UTemplate t => t_sum t | UOther c => c end.

Definition provider := list unit_.

Definition unit_job (u : unit_) : option job := match u with UJob j => Some j | _ => None end.

(** sorted by id: plainbox/impl/secure/providers/v1.py:985-991 job_list *)
Fixpoint insert_job (j : job) (l : list job) : list job :=
  match l with
  | [] => [j]
  | x :: l' => if String.leb (j_id j) (j_id x) then j :: l else x :: insert_job j l'
  end.

Fixpoint jobs_of (p : provider) : list job :=
  match p with
  | [] => []
  | u :: p' => match unit_job u with Some j => insert_job j (jobs_of p') | None => jobs_of p' end
  end.

(** ** Running *)

(** A command that was started. *)
Record event := mk_event {
  e_job : job;
  e_argv : list string;
  e_env : dict string
}.

(** How main ends: a return value, SystemExit with a message (exit status 1),
    another exception (exit status 1 and a traceback). *)
Inductive lexit := XCode (z : Z) | XMessage | XRaised.

Section Launcher.
  Variable eval_expr : expr -> list (list resource) -> bool.
  Variable shell_of : job -> string.
  Variable command_of : job -> string.
  (** The further jobs that adding a job to a session creates (state.py:1111-1181). *)
  Variable siblings : job -> list jtree.
  (** load_rfc822_records; None is RFC822SyntaxError *)
  Variable load_records : string -> option (list resource).
  (** os.environ *)
  Variable environ : dict string.
  (** Starting a command: None is the OSError, otherwise output and return code. *)
  Variable call : list string -> dict string -> option (string * Z).

  (** TrustedLauncher.find_job, launcher1.py:59-65 *)
  Definition find_job (checksum : string) (l : list job) : option job :=
    find (fun j => String.eqb (j_sum j) checksum) l.

  (** modify_execution_environment, launcher1.py:67-80: ptl_env.update(target_env) *)
  Definition modify_environment (target_env : option (dict string)) : dict string :=
    match target_env with
    | Some d => fold_left (fun e kv => dset (fst kv) (snd kv) e) d environ
    | None => environ
    end.

  Definition command_line (j : job) : list string := [shell_of j; "-c"%string; command_of j].

  (** The templates of all providers that belong to a resource job, instantiated:
      launcher1.py:128-140.  None: an exception. *)
  Fixpoint instantiate_all (l : list unit_) (j : job) (rs : list resource) : option (list job) :=
    match l with
    | [] => Some []
    | UTemplate t :: l' =>
        if match t_resource t with Some r => String.eqb r (j_id j) | None => false end then
          match t_make t rs with
          | None => None
          | Some js =>
              match instantiate_all l' j rs with
              | Some js' => Some (js ++ js')
              | None => None
              end
          end
        else instantiate_all l' j rs
    | _ :: l' => instantiate_all l' j rs
    end.

  (** run_generator_job, launcher1.py:99-141: the commands started, and the jobs;
      None of the first kind is LookupError, of the second another exception. *)
  Inductive gen_result := GJobs (l : list job) | GLookup | GRaised.

  Definition run_generator_job (units : list unit_) (jobs : list job) (checksum : string)
      (env : option (dict string)) : list event * gen_result :=
    match find_job checksum jobs with
    | None => ([], GLookup)
    | Some j =>
        let e := modify_environment env in
        let ev := mk_event j (command_line j) e in
        match call (command_line j) e with
        | None => ([ev], GRaised)
        | Some (out, rc) =>
            if negb (Z.eqb rc 0) then ([ev], GRaised)
            else
              match load_records out with
              | None => ([ev], GJobs [])
              | Some rs =>
                  if String.eqb (j_plugin j) "resource" then
                    match instantiate_all units j rs with
                    | Some l => ([ev], GJobs l)
                    | None => ([ev], GRaised)
                    end
                  else ([ev], GJobs [])
              end
        end
    end.

  (** run_shell_from_job, launcher1.py:82-97 *)
  Definition run_shell_from_job (jobs : list job) (checksum : string)
      (env : option (dict string)) : list event * lexit :=
    match find_job checksum jobs with
    | None => ([], XMessage)
    | Some j =>
        let e := modify_environment env in
        ([mk_event j (command_line j) e],
         match call (command_line j) e with
         | None => XRaised
         | Some (_, rc) => XCode rc
         end)
    end.

  (** The units of the providers put in a new session:
      plainbox/impl/session/manager.py get_throwaway_manager, state.py:400-429
      add_provider and add_unit (a checksum seen before is a ValueError).  Units
      that are not jobs are only remembered by their checksum. *)
  Fixpoint add_units (l : list unit_) (seen : list string) (s : state) : option state :=
    match l with
    | [] => Some s
    | u :: l' =>
        if smem (unit_sum u) seen then None
        else
          match u with
          | UJob j =>
              match add_tree eval_expr false (JTree j (siblings j)) s with
              | (s', None) => add_units l' (unit_sum u :: seen) s'
              | (_, Some _) => None
              end
          | _ => add_units l' (unit_sum u :: seen) s
          end
    end.

  Definition session_jobs (providers : list provider) : option (list job) :=
    match init_session [] with
    | SOk s => option_map st_jobs (add_units (concat providers) [] s)
    | _ => None
    end.

  (** The siblings and the target, launcher1.py:277-286 *)
  Definition finish (providers : list provider) (a : args) (tr : list event) (jobs : list job)
      : list event * lexit :=
    match session_jobs providers with
    | None => (tr, XRaised)
    | Some more =>
        match a_target a with
        | None => (tr, XMessage)
        | Some t =>
            let (tr', x) := run_shell_from_job (jobs ++ more) t (a_target_env a) in
            (tr ++ tr', x)
        end
    end.

  (** main after parsing the arguments, launcher1.py:258-286 *)
  Definition launch (providers : list provider) (a : args) : list event * lexit :=
    if a_warmup a then ([], XCode 0)
    else
      let jobs := flat_map jobs_of providers in
      match a_generator a with
      | Some g =>
          if String.eqb g "" then finish providers a [] jobs
          else
            match run_generator_job (concat providers) jobs g (a_generator_env a) with
            | (tr, GJobs l) => finish providers a tr (jobs ++ l)
            | (tr, GLookup) => (tr, XMessage)
            | (tr, GRaised) => (tr, XRaised)
            end
      | None => finish providers a [] jobs
      end.

  (** main, launcher1.py:223-286; None: the command line is not modelled. *)
  Definition main (providers : list provider) (argv : list string) : option (list event * lexit) :=
    match parse_args argv with
    | PArgs a => Some (launch providers a)
    | PExit c => Some ([], XCode c)
    | PUnmodelled => None
    end.
End Launcher.
