(** The session state: plainbox/impl/session/state.py (SessionState),
    plainbox/impl/session/jobs.py (JobState) and the session controller of
    plainbox/impl/ctrl.py (CheckBoxSessionStateController). *)
From Coq Require Import String List Bool NArith ZArith.
From Verif Require Import Base JobModel SolverModel.
Import ListNotations.
Open Scope string_scope.
Open Scope list_scope.

(** plainbox/abc.py IJobResult.OUTCOME_*; OUTCOME_NONE is [None] of
    [option outcome]. *)
Inductive outcome :=
  OPass | OFail | OSkip | OCrash | ONotImplemented | ONotSupported | OUndecided.

Scheme Equality for outcome.

(** A record of the IO log (plainbox/impl/result.py:67-77 IOLogRecord): the delay
    (a number, as the text of its decimal notation), the name of the stream and
    the bytes. *)
Record iorec := mk_iorec { l_delay : string; l_stream : string; l_data : string }.

(** Where the IO log is: in memory (MemoryJobResult, result.py:442-461) or in a
    file (DiskJobResult, 464-497). *)
Inductive iolog := MemLog (records : list iorec) | DiskLog (filename : string).

(** The data of a result other than the outcome.  The duration is a float, as the
    text of its decimal notation. *)
Record rdata := mk_rdata {
  d_duration : option string;
  d_comments : option string;
  d_code : option Z;
  d_log : iolog
}.

Definition rdata_eq_dec (a b : rdata) : {a = b} + {a <> b}.
Proof. repeat decide equality. Defined.

(** No data: items that are None or an empty list are dropped
    (plainbox/impl/result.py:280-286). *)
Definition no_data : rdata := mk_rdata None None None (MemLog []).

(** A job result (plainbox/impl/result.py:264-298). *)
Record result := mk_result { r_outcome : option outcome; r_data : rdata }.

(** The result every job starts with, MemoryJobResult({}):
    plainbox/impl/session/jobs.py:303-307. *)
Definition empty_result : result := mk_result None no_data.

(** plainbox/impl/result.py:295-298 __eq__ compares the data.  Numbers are
    compared by their notation. *)
Definition result_eqb (a b : result) : bool :=
  (match r_outcome a, r_outcome b with
   | None, None => true
   | Some x, Some y => outcome_beq x y
   | _, _ => false
   end && if rdata_eq_dec (r_data a) (r_data b) then true else false)%bool.

(** is_hollow of plainbox/impl/result.py: no data at all. *)
Definition is_hollow (r : result) : bool := result_eqb r empty_result.

(** A resource record produced by a resource job. *)
Definition resource := dict string.

(** plainbox/impl/session/jobs.py:43-69 and 86-211.  The constructor checks of
    lines 170-184 (related job and expression present) are part of the type. *)
Inductive inhibitor :=
| Undesired
| PendingDep (related : job)
| FailedDep (related : job)
| PendingResource (related : job) (e : expr)
| FailedResource (related : job) (e : expr).

(** plainbox/impl/session/jobs.py:274-337 JobState (effective_* fields are
    modelled elsewhere). *)
Record jstate := mk_jstate {
  js_job : job;
  js_inhibitors : list inhibitor;
  js_result : result;
  js_history : list result;
  js_via : option job;
  js_attempts : Z
}.

(** JobState(job): field initialisers of plainbox/impl/session/jobs.py:292-337 *)
Definition new_jstate (j : job) : jstate :=
  mk_jstate j [Undesired] empty_result [] None 3.

(** plainbox/impl/session/jobs.py:364-366 can_start *)
Definition can_start (js : jstate) : bool :=
  (match js_inhibitors js with [] => true | _ => false end
   && Z.ltb 0 (js_attempts js))%bool.

Definition set_inhibitors (l : list inhibitor) (js : jstate) : jstate :=
  mk_jstate (js_job js) l (js_result js) (js_history js) (js_via js) (js_attempts js).

Definition set_via (v : job) (js : jstate) : jstate :=
  mk_jstate (js_job js) (js_inhibitors js) (js_result js) (js_history js) (Some v)
    (js_attempts js).

(** Assignment to JobState.result: plainbox/impl/pod.py:318-346 (the value and
    the notification change only if the new value differs) and the listener
    plainbox/impl/session/jobs.py:351-362 (non-hollow results are appended to
    the history). *)
Definition set_result (r : result) (js : jstate) : jstate :=
  if result_eqb r (js_result js) then js
  else mk_jstate (js_job js) (js_inhibitors js) r
         (if is_hollow r then js_history js else js_history js ++ [r])
         (js_via js) (js_attempts js).

(** The mutable fields of SessionState (state.py:794-802).  Units other than
    jobs are not modelled: [st_units] is the job part of the unit list. *)
Record state := mk_state {
  st_jobs : list job;
  st_units : list job;
  st_map : dict jstate;
  st_desired : list job;
  st_mandatory : list job;
  st_run : list job;
  st_resources : dict (list resource)
}.

Definition with_map (m : dict jstate) (s : state) : state :=
  mk_state (st_jobs s) (st_units s) m (st_desired s) (st_mandatory s) (st_run s)
    (st_resources s).

(** Exceptions that can leave a SessionState method. *)
Inductive exn :=
| XDuplicate (existing new : job)   (* DependencyDuplicateError *)
| XKeyError (k : name)
| XValueError
| XProgramError (j : job)           (* ResourceProgramError *)
| XAssertion.

(** Python [list.remove(x)] on lists of jobs: drops the first equal element,
    [None] is the ValueError. *)
Fixpoint job_remove (j : job) (l : list job) : option (list job) :=
  match l with
  | [] => None
  | x :: l' => if job_eqb x j then Some l'
               else option_map (cons x) (job_remove j l')
  end.

(** Python [x in l] on lists of jobs. *)
Definition job_mem (j : job) (l : list job) : bool :=
  existsb (fun x => job_eqb x j) l.

(** ** Construction *)

(** The loop of plainbox/impl/session/state.py:764-793.  [SFuel] is the model's
    fuel running out. *)
Fixpoint dedup_jobs (fuel : nat) (l : list job) : sres (list job) :=
  match fuel with
  | O => SFuel
  | S fuel' =>
      match get_job_map l with
      | SOk _ => SOk l
      | SErr (DepDuplicate a b) =>
          if job_eqb a b then
            match job_remove b l with
            | Some l' => dedup_jobs fuel' l'
            | None => SErr DepAssert
            end
          else SErr (DepDuplicate a b)
      | SErr e => SErr e
      | SFuel => SFuel
      end
  end.

(** plainbox/impl/session/state.py:754-803 __init__ (job part) *)
Definition init_session (units : list job) : sres state :=
  match dedup_jobs (S (length units)) units with
  | SOk jobs =>
      SOk (mk_state jobs units (map (fun j => (j_id j, new_jstate j)) jobs)
             [] [] [] [])
  | SErr e => SErr e
  | SFuel => SFuel
  end.

Section Session.
  (** Enumeration order of dependency sets. *)
  Variable deps_of : job -> list (dep_type * name).
  (** Whether an expression holds for some combination of the given resources,
      one list per mentioned resource id (ResourceExpression.evaluate). *)
  Variable eval_expr : expr -> list (list resource) -> bool.
  (** The records parsed from a result's output
      (gen_rfc822_records_from_io_log, plainbox/impl/ctrl.py:327-351). *)
  Variable records_of : result -> list resource.

  (** ** Requirements *)

  (** plainbox/impl/resource.py:234-261 evaluate_or_raise *)
  Inductive eval_answer :=
  | EvalTrue
  | EvalCannot (e : expr)    (* ExpressionCannotEvaluateError *)
  | EvalFailed (e : expr).   (* ExpressionFailedError *)

  Definition unavailable (rm : dict (list resource)) (e : expr) : bool :=
    existsb (fun r => negb (dmem r rm)) (e_ids e).

  Definition resource_lists (rm : dict (list resource)) (e : expr)
      : list (list resource) :=
    map (fun r => match dget r rm with Some l => l | None => [] end) (e_ids e).

  Definition evaluate_or_raise (rm : dict (list resource)) (es : list expr)
      : eval_answer :=
    match find (unavailable rm) es with
    | Some e => EvalCannot e
    | None =>
        match find (fun e => negb (eval_expr e (resource_lists rm e))) es with
        | Some e => EvalFailed e
        | None => EvalTrue
        end
    end.

  (** ** Readiness *)

  (** Collect the results of a loop body that may raise. *)
  Fixpoint collect {A B} (f : A -> exn + list B) (l : list A) : exn + list B :=
    match l with
    | [] => inr []
    | x :: l' =>
        match f x with
        | inl e => inl e
        | inr ys =>
            match collect f l' with
            | inl e => inl e
            | inr zs => inr (ys ++ zs)
            end
        end
    end.

  Definition state_of (s : state) (k : name) : exn + jstate :=
    match dget k (st_map s) with
    | Some js => inr js
    | None => inl (XKeyError k)
    end.

  (** plainbox/impl/ctrl.py:154-194 *)
  Definition requirement_inhibitors (s : state) (j : job) : exn + list inhibitor :=
    match j_prog j with
    | NoProg => inr []
    | BadProg => inl (XProgramError j)
    | Prog es =>
        match evaluate_or_raise (st_resources s) es with
        | EvalTrue => inr []
        | EvalCannot e =>
            collect (fun rid =>
              match state_of s rid with
              | inl x => inl x
              | inr js =>
                  match r_outcome (js_result js) with
                  | Some OPass => inr []
                  | _ => inr [PendingResource (js_job js) e]
                  end
              end) (e_ids e)
        | EvalFailed e =>
            collect (fun rid =>
              match state_of s rid with
              | inl x => inl x
              | inr js => inr [FailedResource (js_job js) e]
              end) (e_ids e)
        end
    end.

  (** plainbox/impl/ctrl.py:195-214 *)
  Definition direct_inhibitors (s : state) (j : job) : exn + list inhibitor :=
    collect (fun d =>
      match state_of s d with
      | inl x => inl x
      | inr js =>
          match r_outcome (js_result js) with
          | None => inr [PendingDep (js_job js)]
          | Some OPass => inr []
          | Some _ => inr [FailedDep (js_job js)]
          end
      end) (sorted_set (j_direct j)).

  (** plainbox/impl/ctrl.py:215-224 *)
  Definition after_inhibitors (s : state) (j : job) : exn + list inhibitor :=
    collect (fun d =>
      match state_of s d with
      | inl x => inl x
      | inr js =>
          match r_outcome (js_result js) with
          | None => inr [PendingDep (js_job js)]
          | Some _ => inr []
          end
      end) (sorted_set (j_after j)).

  (** plainbox/impl/ctrl.py:139-225 get_inhibitor_list *)
  Definition get_inhibitor_list (s : state) (j : job) : exn + list inhibitor :=
    match requirement_inhibitors s j with
    | inl x => inl x
    | inr l1 =>
        match direct_inhibitors s j with
        | inl x => inl x
        | inr l2 =>
            match after_inhibitors s j with
            | inl x => inl x
            | inr l3 => inr (l1 ++ l2 ++ l3)
            end
        end
    end.

  (** [l.remove(UndesiredJobReadinessInhibitor)]; [None] is the ValueError. *)
  Fixpoint remove_undesired (l : list inhibitor) : option (list inhibitor) :=
    match l with
    | [] => None
    | Undesired :: l' => Some l'
    | x :: l' => option_map (cons x) (remove_undesired l')
    end.

  (** The second loop of plainbox/impl/session/state.py:1451-1458. *)
  Fixpoint recompute_run (l : list job) (s : state) : state * option exn :=
    match l with
    | [] => (s, None)
    | j :: l' =>
        match dget (j_id j) (st_map s) with
        | None => (s, Some (XKeyError (j_id j)))
        | Some js =>
            match remove_undesired (js_inhibitors js) with
            | None => (s, Some XValueError)
            | Some rest =>
                let s1 := with_map (dset (j_id j) (set_inhibitors rest js) (st_map s)) s in
                match get_inhibitor_list s1 j with
                | inl x => (s1, Some x)
                | inr il =>
                    recompute_run l'
                      (with_map (dset (j_id j) (set_inhibitors (rest ++ il) js) (st_map s1)) s1)
                end
            end
        end
    end.

  (** plainbox/impl/session/state.py:1434-1458 _recompute_job_readiness *)
  Definition recompute (s : state) : state * option exn :=
    recompute_run (st_run s)
      (with_map (map (fun kv => (fst kv, set_inhibitors [Undesired] (snd kv))) (st_map s)) s).

  (** ** Selecting jobs *)

  (** Outcome of the loop of update_desired_job_list: the remaining desired
      list, the run list and the problems; or an exception that is not a
      DependencyError. *)
  Inductive select_result :=
  | SelOk (desired run : list job) (problems : list dep_error)
  | SelExn (desired : list job)
  | SelFuel.

  Definition remove_if_present (j : job) (l : list job) : list job :=
    match job_remove j l with Some l' => l' | None => l end.

  (** plainbox/impl/session/state.py:913-939 *)
  Fixpoint select (fuel : nat) (job_list desired : list job)
      (problems : list dep_error) : select_result :=
    match desired with
    | [] => SelOk [] [] problems
    | _ :: _ =>
        match fuel with
        | O => SelFuel
        | S fuel' =>
            match resolve deps_of job_list (Some desired) with
            | SOk run => SelOk desired run problems
            | SErr e =>
                match affected_job e with
                | Some a =>
                    select fuel' (remove_if_present a job_list)
                      (remove_if_present a desired) (problems ++ [e])
                | None => SelExn desired
                end
            | SFuel => SelFuel
            end
        end
    end.

  (** plainbox/impl/session/state.py:883-943 update_desired_job_list.  The
      first component of the answer is the new state, the second the exception
      or the list of problems; [None] is the fuel running out. *)
  Definition update_desired_job_list (desired : list job) (include_mandatory : bool)
      (s : state) : option (state * (exn + list dep_error)) :=
    let wanted := (if include_mandatory then st_mandatory s else []) ++ desired in
    match select (S (length wanted + length (st_jobs s))) (st_jobs s) wanted [] with
    | SelOk d run problems =>
        let s1 := mk_state (st_jobs s) (st_units s) (st_map s) d (st_mandatory s) run
                    (st_resources s) in
        match recompute s1 with
        | (s2, Some x) => Some (s2, inl x)
        | (s2, None) => Some (s2, inr problems)
        end
    | SelExn d =>
        Some (mk_state (st_jobs s) (st_units s) (st_map s) d (st_mandatory s) []
                (st_resources s), inl XAssertion)
    | SelFuel => None
    end.

  (** plainbox/impl/session/state.py:872-881 *)
  Definition update_mandatory_job_list (l : list job) (s : state) : state :=
    mk_state (st_jobs s) (st_units s) (st_map s) (st_desired s) l (st_run s)
      (st_resources s).

  (** ** Trimming *)

  (** plainbox/impl/session/state.py:805-870 trim_job_list; [designates] is the
      qualifier.  [true] means that ValueError is raised. *)
  Definition trim_job_list (designates : job -> bool) (s : state) : state * bool :=
    let removed := filter designates (st_jobs s) in
    if existsb (fun j => smem (j_id j) (map j_id (st_run s))) removed then (s, true)
    else
      (mk_state (filter (fun j => negb (designates j)) (st_jobs s)) (st_units s)
         (fold_left (fun m j => ddel (j_id j) m) removed (st_map s))
         (st_desired s) (st_mandatory s) (st_run s)
         (fold_left (fun m j => ddel (j_id j) m) removed (st_resources s)),
       false).

  (** ** Adding and removing jobs *)

  (** A job together with the further jobs that adding it creates
      (siblings and after-suspend variants, state.py:1111-1181), in order. *)
  Inductive jtree := JTree (j : job) (children : list jtree).

  (** plainbox/impl/session/state.py:1085-1109 _add_job_unit; the children are
      added by _add_job_siblings_unit.  The finally clause recomputes readiness
      even when an exception is on its way, and an exception raised there
      replaces it. *)
  Fixpoint add_tree (do_recompute : bool) (t : jtree) (s : state) : state * option exn :=
    match t with
    | JTree j children =>
        let fix add_children (l : list jtree) (s : state) : state * option exn :=
          match l with
          | [] => (s, None)
          | c :: l' =>
              match add_tree do_recompute c s with
              | (s', None) => add_children l' s'
              | (s', Some x) => (s', Some x)
              end
          end in
        let body :=
          match dget (j_id j) (st_map s) with
          | None =>
              add_children children
                (mk_state (st_jobs s ++ [j]) (st_units s ++ [j])
                   (dset (j_id j) (new_jstate j) (st_map s))
                   (st_desired s) (st_mandatory s) (st_run s) (st_resources s))
          | Some js =>
              if job_eqb j (js_job js) then add_children children s
              else (s, Some (XDuplicate (js_job js) j))
          end in
        if do_recompute then
          match recompute (fst body) with
          | (s', Some x) => (s', Some x)
          | (s', None) => (s', snd body)
          end
        else body
    end.

  (** plainbox/impl/session/state.py:1183-1214 remove_unit, for a job. *)
  Definition remove_unit (j : job) (do_recompute : bool) (s : state) : state * option exn :=
    match job_remove j (st_units s) with
    | None => (s, Some XValueError)
    | Some units =>
        let s1 := mk_state (st_jobs s) units (st_map s) (st_desired s)
                    (st_mandatory s) (st_run s) (st_resources s) in
        match job_remove j (st_jobs s) with
        | None => (s1, Some XValueError)
        | Some jobs =>
            let s2 := mk_state jobs units (st_map s) (st_desired s)
                        (st_mandatory s) (st_run s) (st_resources s) in
            if dmem (j_id j) (st_map s) then
              let s3 := mk_state jobs units (ddel (j_id j) (st_map s)) (st_desired s)
                          (st_mandatory s) (st_run s) (ddel (j_id j) (st_resources s)) in
              if do_recompute then recompute s3 else (s3, None)
            else (s2, Some (XKeyError (j_id j)))
        end
    end.

  (** ** Results *)

  Definition set_resource_list (k : name) (l : list resource) (s : state) : state :=
    mk_state (st_jobs s) (st_units s) (st_map s) (st_desired s) (st_mandatory s)
      (st_run s) (dset k l (st_resources s)).

  (** plainbox/impl/ctrl.py:269-290 _parse_and_store_resource *)
  Definition parse_and_store_resource (j : job) (r : result) (s : state) : state :=
    match r_outcome r with
    | None => s
    | Some _ =>
        let l := match records_of r with [] => [[]] | l => l end in
        set_resource_list (j_id j) l s
    end.

  (** plainbox/impl/ctrl.py:304-324: add each generated unit and note which job
      it came from. *)
  Fixpoint add_generated (via : job) (l : list jtree) (s : state) : state * option exn :=
    match l with
    | [] => (s, None)
    | (JTree g _ as t) :: l' =>
        match add_tree true t s with
        | (s', Some x) => (s', Some x)
        | (s', None) =>
            match dget (j_id g) (st_map s') with
            | None => (s', Some (XKeyError (j_id g)))
            | Some js =>
                add_generated via l'
                  (with_map (dset (j_id g) (set_via via js) (st_map s')) s')
            end
        end
    end.

  (** plainbox/impl/ctrl.py:227-259 observe_result with
      _process_resource_result (261-267) and _instantiate_templates (292-324).
      [generated] stands for the valid jobs that the session's templates for
      this resource instantiate to. *)
  Definition observe_result (j : job) (r : result) (generated : list jtree) (s : state)
      : state * option exn :=
    match dget (j_id j) (st_map s) with
    | None => (s, Some (XKeyError (j_id j)))
    | Some js =>
        let s1 := with_map (dset (j_id j) (set_result r js) (st_map s)) s in
        if String.eqb (j_plugin j) "resource" then
          let s2 := parse_and_store_resource j r s1 in
          match r_outcome r with
          | None => (s2, None)
          | Some _ => add_generated j generated s2
          end
        else (s1, None)
    end.

  (** plainbox/impl/session/state.py:982-1002 update_job_result *)
  Definition update_job_result (j : job) (r : result) (generated : list jtree) (s : state)
      : state * option exn :=
    match observe_result j r generated s with
    | (s', Some x) => (s', Some x)
    | (s', None) => recompute s'
    end.

  (** ** Histories *)

  (** The public operations of a session. *)
  Inductive op :=
  | OpAdd (t : jtree) (do_recompute : bool)
  | OpRemove (j : job) (do_recompute : bool)
  | OpTrim (designates : job -> bool)
  | OpMandatory (l : list job)
  | OpDesired (l : list job) (include_mandatory : bool)
  | OpResult (j : job) (r : result) (generated : list jtree).

  (** One operation: the state after it, and the exception it raised, if any.
      Running out of fuel (which never happens, see SelectProofs.v) would count
      as an exception. *)
  Definition exec_op (o : op) (s : state) : state * option exn :=
    match o with
    | OpAdd t b => add_tree b t s
    | OpRemove j b => remove_unit j b s
    | OpTrim q =>
        let (s', raised) := trim_job_list q s in
        (s', if raised then Some XValueError else None)
    | OpMandatory l => (update_mandatory_job_list l s, None)
    | OpDesired l b =>
        match update_desired_job_list l b s with
        | Some (s', inr _) => (s', None)
        | Some (s', inl x) => (s', Some x)
        | None => (s, Some XAssertion)
        end
    | OpResult j r g => update_job_result j r g s
    end.
End Session.
