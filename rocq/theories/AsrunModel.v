(** * The jobs of an application that uses the session assistant

    plainbox/impl/session/assistant.py 592-650, 797-880, 880-1050, 1140-1180, 1180-1240,
    1240-1440 and state.py 360-380, 617-625.

    Which calls are allowed when is in AssistantModel.v; user interfaces, warm-up,
    exporters and the commands that restart the application (RestartModel.v) are left
    out.  The session is that of SessionModel.v. *)
From Coq Require Import String List Bool ZArith Arith.
From Verif Require Import Base JobModel SolverModel SessionModel SessrunModel QualModel.
Import ListNotations.
Open Scope string_scope.
Open Scope list_scope.

(** The qualifiers of a test plan: get_qualifier, get_bootstrap_qualifier and
    get_mandatory_qualifier (TestplanModel.v), and the categories of jobs in it,
    get_effective_category_map *)
Record plan := mk_plan {
  p_include : qualifier job;
  p_bootstrap : qualifier job;
  p_mandatory : qualifier job;
  p_category : job -> name
}.

(** What is on the disk: the session, metadata.running_job_name and metadata.flags.
    Test plans are not saved. *)
Record saved := mk_saved { d_state : state; d_running : option name; d_incomplete : bool; d_planless : bool }.

Record asst := mk_asst {
  a_state : state;
  a_running : option name;
  a_incomplete : bool;
  a_planless : bool;
  a_plans : list plan;
  a_disk : option saved
}.
Definition put_state (s : state) (a : asst) : asst :=
  mk_asst s (a_running a) (a_incomplete a) (a_planless a) (a_plans a) (a_disk a).
Definition put_running (o : option name) (a : asst) : asst :=
  mk_asst (a_state a) o (a_incomplete a) (a_planless a) (a_plans a) (a_disk a).
Definition put_flags (incomplete planless : bool) (a : asst) : asst :=
  mk_asst (a_state a) (a_running a) incomplete planless (a_plans a) (a_disk a).
Definition put_plans (l : list plan) (a : asst) : asst :=
  mk_asst (a_state a) (a_running a) (a_incomplete a) (a_planless a) l (a_disk a).
(** self._manager.checkpoint(), which is atomic (C11) *)
Definition save (a : asst) : asst :=
  mk_asst (a_state a) (a_running a) (a_incomplete a) (a_planless a) (a_plans a)
    (Some (mk_saved (a_state a) (a_running a) (a_incomplete a) (a_planless a))).

Definition select_jobs := QualModel.select_jobs job j_id.

Section Assistant.
  Variable deps_of : job -> list (dep_type * name).
  Variable eval_expr : expr -> list (list resource) -> bool.
  Variable records_of : result -> list resource.
  (** The jobs that the templates of the session make of the resources of a job. *)
  Variable templates : job -> result -> state -> list jtree.
  (** The flags fail-on-resource, autorestart and noreturn, and the field category_id *)
  Variable fail_on_resource autorestart noreturn : job -> bool.
  Variable category : job -> name.
  (** self._config.auto_retry; false too if there is no such variable *)
  Variable auto_retry : bool.
  (** Data of a result other than its outcome: the comments of a job that cannot start
      (1369-1371) and the return code and log of a job that restarted (628-634) *)
  Variable blocked_data : job -> jstate -> rdata.
  Variable restarted_data : job -> rdata.

  (** ** Selecting *)

  (** state.py 883-943 *)
  Definition choose (l : list job) (mandatory : bool) (a : asst) : asst * option exn :=
    match update_desired_job_list deps_of eval_expr l mandatory (a_state a) with
    | Some (s, inr _) => (put_state s a, None)
    | Some (s, inl x) => (put_state s a, Some x)
    | None => (a, Some XAssertion)
    end.
  (** Go on unless there was an exception *)
  Definition andthen (r : asst * option exn) (k : asst -> asst * option exn) : asst * option exn :=
    match r with (a, None) => k a | _ => r end.

  (** 797-821 select_test_plan, with state.py 360-380 and 617-625 *)
  Definition select_test_plan (p : plan) (a : asst) : asst * option exn :=
    let a1 := put_plans [p] a in
    let s := update_mandatory_job_list (select_jobs (st_jobs (a_state a1)) [p_mandatory p]) (a_state a1) in
    andthen (choose (st_desired s) true (put_state s a1)) (fun a => (save a, None)).

  (** 917-933 get_bootstrap_todo_list, without the answer; 855-859 *)
  Definition bootstrap_list (a : asst) : asst * option exn :=
    choose (select_jobs (st_jobs (a_state a)) (map p_bootstrap (a_plans a))) false a.
  (** 935-962 finish_bootstrap; 867-878 *)
  Definition finish_bootstrap (a : asst) : asst * option exn :=
    andthen (choose (select_jobs (st_jobs (a_state a)) (map p_include (a_plans a))) true a)
      (fun a => (save (put_flags true false a), None)).
  (** 880-909 hand_pick_jobs; the patterns as a qualifier each *)
  Definition hand_pick_jobs (patterns : list (job -> bool)) (a : asst) : asst * option exn :=
    andthen (choose (select_jobs (st_jobs (a_state a)) (map (fun f => Simple (MPred f) true) patterns)) true a)
      (fun a => (put_flags true true a, None)).
  (** 964-994 use_alternate_selection *)
  Definition use_alternate_selection (selection : list name) (a : asst) : asst * option exn :=
    choose (filter (fun j => smem (j_id j) selection) (st_run (a_state a))) true a.
  (** 996-1018 filter_jobs_by_categories *)
  Definition filter_jobs_by_categories (categories : list name) (a : asst) : asst * option exn :=
    use_alternate_selection (map j_id (filter (fun j => smem (category j) categories) (st_run (a_state a)))) a.
  (** 1020-1039 remove_all_filters *)
  Definition remove_all_filters (a : asst) : asst * option exn :=
    choose (select_jobs (st_jobs (a_state a)) (map p_include (a_plans a))) true a.

  (** ** Lists *)

  (** 1135-1155 get_participating_categories; None is the IndexError *)
  Definition get_participating_categories (a : asst) : option (list name) :=
    match a_plans a with [] => None | p :: _ => Some (map (p_category p) (st_run (a_state a))) end.
  (** 1157-1173 get_mandatory_jobs *)
  Definition get_mandatory_jobs (a : asst) : option (list name) :=
    match a_plans a with [] => None | p :: _ => Some (map j_id (select_jobs (st_jobs (a_state a)) [p_mandatory p])) end.
  (** 1175-1198 get_static_todo_list *)
  Definition get_static_todo_list (a : asst) : list name := map j_id (st_run (a_state a)).
  (** 1200-1239 get_dynamic_todo_list *)
  Definition get_dynamic_todo_list (a : asst) : exn + list name :=
    match unfinished (st_map (a_state a)) (st_run (a_state a)) with
    | inl x => inl x
    | inr l => inr (map j_id l)
    end.
  (** 1424-1440 get_summary: how many jobs have this outcome *)
  Definition get_summary (a : asst) (o : outcome) : nat :=
    length (filter (fun kv => match r_outcome (js_result (snd kv)) with Some x => outcome_beq x o | None => false end) (st_map (a_state a))).

  (** ** Running *)

  (** 1296-1378 run_job: [None] is a job that went down with the machine or the
      application *)
  Inductive answer := Ran (r : result) | Blocked (r : result) | Lost | Raises (x : exn).
  Definition run_job (k : name) (ends : option result) (a : asst) : asst * answer :=
    match dget k (st_map (a_state a)) with
    | None => (a, Raises (XKeyError k))
    | Some js =>
        if can_start js then
          let a1 := save (put_running (Some (j_id (js_job js))) a) in
          match ends with
          | None => (a1, Lost)
          | Some r => (save a1, Ran r)
          end
        else
          match blocked_outcome (fail_on_resource (js_job js)) (st_map (a_state a)) (js_inhibitors js) ONotSupported with
          | inl x => (a, Raises x)
          | inr o => (a, Blocked (mk_result (Some o) (blocked_data (js_job js) js)))
          end
    end.
  Definition used_attempt (js : jstate) : jstate :=
    mk_jstate (js_job js) (js_inhibitors js) (js_result js) (js_history js) (js_via js) (js_attempts js - 1)%Z.
  (** 1408-1420 *)
  Definition record (j : job) (r : result) (a : asst) : asst * option exn :=
    match update_job_result eval_expr records_of j r (templates j r (a_state a)) (a_state a) with
    | (s, None) => (put_state s a, None)
    | (s, Some x) => (put_state s a, Some x)
    end.
  Definition use_job_result (k : name) (r : result) (a : asst) : asst * option exn :=
    match dget k (st_map (a_state a)) with
    | None => (a, Some (XKeyError k))
    | Some js =>
        andthen (record (js_job js) r a) (fun a =>
          if auto_retry then
            match dget k (st_map (a_state a)) with
            | None => (a, Some (XKeyError k))
            | Some js => (save (put_state (with_map (dset k (used_attempt js) (st_map (a_state a))) (a_state a)) a), None)
            end
          else (save a, None))
    end.

  (** 861-866: the jobs of the bootstrap list that have no result, one after the other;
      [script] says how they end, [None] in the answer is the machine going down *)
  Fixpoint boot (l : list job) (script : list result) (a : asst) : asst * list result * option (option exn) :=
    match l with
    | [] => (a, script, Some None)
    | j :: l' =>
        match dget (j_id j) (st_map (a_state a)) with
        | None => (a, script, Some (Some (XKeyError (j_id j))))
        | Some js =>
            match js_history js with
            | _ :: _ => boot l' script a
            | [] =>
                match run_job (j_id j) (hd_error script) a with
                | (a', Lost) => (a', script, None)
                | (a', Raises x) => (a', script, Some (Some x))
                | (a', Ran r) =>
                    match use_job_result (j_id j) r a' with
                    | (a'', None) => boot l' (tl script) a''
                    | (a'', Some x) => (a'', tl script, Some (Some x))
                    end
                | (a', Blocked r) =>
                    match use_job_result (j_id j) r a' with
                    | (a'', None) => boot l' script a''
                    | (a'', Some x) => (a'', script, Some (Some x))
                    end
                end
            end
        end
    end.
  (** 823-878 bootstrap *)
  Definition bootstrap (script : list result) (a : asst) : asst * option (option exn) :=
    match bootstrap_list a with
    | (a1, Some x) => (a1, Some (Some x))
    | (a1, None) =>
        match boot (st_run (a_state a1)) script a1 with
        | (a2, _, Some None) => let '(a3, x) := finish_bootstrap a2 in (a3, Some x)
        | (a2, _, r) => (a2, r)
        end
    end.

  (** ** Resuming: 592-650 resume_session; what was saved is loaded (C14), without test
      plans *)
  Definition resume_session (d : saved) : asst * option exn :=
    let a := mk_asst (d_state d) (d_running d) (d_incomplete d) (d_planless d) [] (Some d) in
    match d_running d with
    | None => (a, None)
    | Some k =>
        match dget k (st_map (d_state d)) with
        | None => (a, Some (XKeyError k))
        | Some js =>
            if autorestart (js_job js) then
              andthen (record (js_job js) (mk_result (Some (if noreturn (js_job js) then OPass else OFail)) (restarted_data (js_job js))) a)
                (fun a => (save (put_running None a), None))
            else (a, None)
        end
    end.
End Assistant.

(** 1442-1463 finalize_session, what matters here *)
Definition finalize_session (a : asst) : asst := if a_incomplete a then save (put_flags false (a_planless a) a) else a.
(** start_new_session, 545-592: a new session is saved at once, with the flag bootstrapping *)
Definition start_new_session (s : state) : asst := save (mk_asst s None false false [] None).
(** 651-690 get_resumable_sessions: the flag incomplete is set *)
Definition offered (a : asst) : bool := match a_disk a with Some d => d_incomplete d | None => false end.
