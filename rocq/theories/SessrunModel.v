(** * Running all selected jobs: plainbox/impl/commands/inv_run.py

    What the program prints is not modelled.  The session is that of SessionModel.v. *)
From Coq Require Import String List Bool ZArith QArith.
From Verif Require Import Base JobModel SolverModel SessionModel.
Import ListNotations.
Open Scope string_scope.
Open Scope list_scope.

(** What happens, in order.  The state of the session is that at the moment of the event.
    [Saved] is a checkpoint: the session, metadata.running_job_name and the flags. *)
Inductive event :=
| Considered (j : job) (s : state)
| Saved (s : state) (running : option name) (incomplete submitted : bool)
| Started (j : job) (s : state)
| Ended (j : job) (r : result)
| Recorded (j : job) (r : result).

(** How the run of a job ends: with the result of the runner and the user, or because the
    user quits (SystemExit, lines 843-844). *)
Inductive reply := Finished (r : result) | Quits.

Inductive status :=
| Completed
| Stopped              (* the machine went down while a job was running *)
| Left                 (* the user has quit *)
| Raised (x : exn)
| NoFuel.              (* the fuel of the model ran out *)

Record run := mk_run {
  u_state : state;
  u_running : option name;
  u_incomplete : bool;
  u_submitted : bool;
  u_backtrack : bool;
  u_trace : list event
}.
Definition log (e : event) (u : run) : run :=
  mk_run (u_state u) (u_running u) (u_incomplete u) (u_submitted u) (u_backtrack u) (u_trace u ++ [e]).
Definition set_state (s : state) (u : run) : run :=
  mk_run s (u_running u) (u_incomplete u) (u_submitted u) (u_backtrack u) (u_trace u).
Definition set_running (o : option name) (u : run) : run :=
  mk_run (u_state u) o (u_incomplete u) (u_submitted u) (u_backtrack u) (u_trace u).
Definition set_flags (incomplete submitted : bool) (u : run) : run :=
  mk_run (u_state u) (u_running u) incomplete submitted (u_backtrack u) (u_trace u).
Definition set_backtrack (b : bool) (u : run) : run :=
  mk_run (u_state u) (u_running u) (u_incomplete u) (u_submitted u) b (u_trace u).
(** self.manager.checkpoint(), which is atomic (C11) *)
Definition checkpoint (u : run) : run := log (Saved (u_state u) (u_running u) (u_incomplete u) (u_submitted u)) u.

Section Run.
  Variable deps_of : job -> list (dep_type * name).
  Variable eval_expr : expr -> list (list resource) -> bool.
  Variable records_of : result -> list resource.
  (** The jobs that the command line selects from the jobs of the session
      (_get_matching_job_list). *)
  Variable matching : list job -> list job.
  (** The jobs that the templates of the session make of the resources of a job. *)
  Variable templates : job -> result -> state -> list jtree.
  (** 'fail-on-resource' in job.get_flag_set() *)
  Variable fail_on_resource : job -> bool.
  (** The data other than the outcome of the result of a job that cannot start: its
      comments and duration (lines 798-801). *)
  Variable blocked_data : job -> jstate -> rdata.

  (** ** New jobs *)

  (** 1030-1047 on_job_added, without categories; the third line sets the flag, see the
      callers. *)
  Definition job_added (s : state) : state * option exn :=
    match update_desired_job_list deps_of eval_expr (matching (st_jobs s)) true s with
    | Some (s', inr _) => (s', None)
    | Some (s', inl x) => (s', Some x)
    | None => (s, Some XAssertion)
    end.

  (** plainbox/impl/session/state.py 1085-1109 with the signal on_job_added (line 1096)
      delivered to [job_added].  The boolean is _backtrack_and_run_missing. *)
  Fixpoint add_tree_n (t : jtree) (s : state) (b : bool) : state * bool * option exn :=
    match t with
    | JTree j children =>
        let fix add_children (l : list jtree) (s : state) (b : bool) : state * bool * option exn :=
          match l with
          | [] => (s, b, None)
          | c :: l' =>
              match add_tree_n c s b with
              | (s', b', None) => add_children l' s' b'
              | (s', b', Some x) => (s', b', Some x)
              end
          end in
        let body :=
          match dget (j_id j) (st_map s) with
          | None =>
              match job_added
                (mk_state (st_jobs s ++ [j]) (st_units s ++ [j])
                   (dset (j_id j) (new_jstate j) (st_map s))
                   (st_desired s) (st_mandatory s) (st_run s) (st_resources s)) with
              | (s', None) => add_children children s' true
              | (s', Some x) => (s', b, Some x)
              end
          | Some js =>
              if job_eqb j (js_job js) then add_children children s b
              else (s, b, Some (XDuplicate (js_job js) j))
          end in
        match recompute eval_expr (fst (fst body)) with
        | (s', Some x) => (s', snd (fst body), Some x)
        | (s', None) => (s', snd (fst body), snd body)
        end
    end.

  (** plainbox/impl/ctrl.py 304-324 *)
  Fixpoint add_generated_n (via : job) (l : list jtree) (s : state) (b : bool) : state * bool * option exn :=
    match l with
    | [] => (s, b, None)
    | (JTree g _ as t) :: l' =>
        match add_tree_n t s b with
        | (s', b', Some x) => (s', b', Some x)
        | (s', b', None) =>
            match dget (j_id g) (st_map s') with
            | None => (s', b', Some (XKeyError (j_id g)))
            | Some js => add_generated_n via l' (with_map (dset (j_id g) (set_via via js) (st_map s')) s') b'
            end
        end
    end.
  (** plainbox/impl/ctrl.py 227-259 *)
  Definition observe_result_n (j : job) (r : result) (s : state) (b : bool) : state * bool * option exn :=
    match dget (j_id j) (st_map s) with
    | None => (s, b, Some (XKeyError (j_id j)))
    | Some js =>
        let s1 := with_map (dset (j_id j) (set_result r js) (st_map s)) s in
        if String.eqb (j_plugin j) "resource" then
          let s2 := parse_and_store_resource records_of j r s1 in
          match r_outcome r with
          | None => (s2, b, None)
          | Some _ => add_generated_n j (templates j r s2) s2 b
          end
        else (s1, b, None)
    end.
  (** plainbox/impl/session/state.py 982-1002 update_job_result *)
  Definition update_job_result_n (j : job) (r : result) (s : state) (b : bool) : state * bool * option exn :=
    match observe_result_n j r s b with
    | (s', b', Some x) => (s', b', Some x)
    | (s', b', None) => match recompute eval_expr s' with (s'', x) => (s'', b', x) end
    end.
  (** 804: the result is put into the session *)
  Definition record_result (j : job) (r : result) (u : run) : run * option exn :=
    match update_job_result_n j r (u_state u) (u_backtrack u) with
    | (s', b', None) => (log (Recorded j r) (set_backtrack b' (set_state s' u)), None)
    | (s', b', Some x) => (set_backtrack b' (set_state s' u), Some x)
    end.

  (** ** One job *)

  (** 781-797: the outcome of a job that cannot start *)
  Fixpoint blocked_outcome (flag : bool) (m : dict jstate) (l : list inhibitor) (o : outcome) : exn + outcome :=
    match l with
    | [] => inr o
    | FailedResource d _ :: l' => if flag then inr OFail else blocked_outcome flag m l' o
    | FailedDep d :: l' =>
        match dget (j_id d) m with
        | None => inl (XKeyError (j_id d))
        | Some js => blocked_outcome flag m l' (match r_outcome (js_result js) with Some OSkip => OSkip | _ => o end)
        end
    | _ :: l' => blocked_outcome flag m l' o
    end.

  (** 762-805 run_single_job_with_ui; [script] says how the runs of jobs end *)
  Definition run_single_job (j : job) (u : run) (script : list reply) : run * list reply * status :=
    match dget (j_id j) (st_map (u_state u)) with
    | None => (u, script, Raised (XKeyError (j_id j)))
    | Some js =>
        let u1 := log (Considered j (u_state u)) u in
        if can_start js then
          let u2 := log (Started j (u_state u)) (checkpoint (set_running (Some (j_id j)) u1)) in
          match script with
          | [] => (u2, [], Stopped)
          | Quits :: script' => (u2, script', Left)
          | Finished r :: script' =>
              match record_result j r (checkpoint (set_running None (log (Ended j r) u2))) with
              | (u', None) => (u', script', Completed)
              | (u', Some x) => (u', script', Raised x)
              end
          end
        else
          match blocked_outcome (fail_on_resource j) (st_map (u_state u)) (js_inhibitors js) ONotSupported with
          | inl x => (u1, script, Raised x)
          | inr o =>
              match record_result j (mk_result (Some o) (blocked_data j js)) u1 with
              | (u', None) => (u', script, Completed)
              | (u', Some x) => (u', script, Raised x)
              end
          end
    end.

  (** ** All jobs *)

  (** 729-738: the jobs without an outcome *)
  Fixpoint unfinished (m : dict jstate) (l : list job) : exn + list job :=
    match l with
    | [] => inr []
    | j :: l' =>
        match dget (j_id j) m with
        | None => inl (XKeyError (j_id j))
        | Some js =>
            match unfinished m l' with
            | inl x => inl x
            | inr r => inr (match r_outcome (js_result js) with None => j :: r | Some _ => r end)
            end
        end
    end.
  (** 739-749 *)
  Fixpoint run_pass (todo : list job) (u : run) (script : list reply) : run * list reply * status :=
    match todo with
    | [] => (u, script, Completed)
    | j :: todo' =>
        match run_single_job j u script with
        | (u', script', Completed) => run_pass todo' u' script'
        | r => r
        end
    end.
  (** 717-749 run_all_selected_jobs *)
  Fixpoint run_all (fuel : nat) (u : run) (script : list reply) : run * list reply * status :=
    match fuel with
    | O => (u, script, NoFuel)
    | S fuel' =>
        match unfinished (st_map (u_state u)) (st_run (u_state u)) with
        | inl x => (set_backtrack false u, script, Raised x)
        | inr todo =>
            match run_pass todo (set_backtrack false u) script with
            | (u', script', Completed) =>
                if u_backtrack u' then run_all fuel' u' script' else (u', script', Completed)
            | r => r
            end
        end
    end.

  (** ** The whole program *)

  (** 413-424: the run, and what comes after it; exporting is between the last two
      checkpoints and does not change the session *)
  Definition run_and_finish (fuel : nat) (u : run) (script : list reply) : run * status :=
    match run_all fuel u script with
    | (u', _, Completed) =>
        (checkpoint (set_flags false true (checkpoint (set_flags false (u_submitted u') u'))), Completed)
    | (u', _, x) => (u', x)
    end.
  (** 369-424 do_normal_sequence, a session that was not resumed *)
  Definition fresh_session (fuel : nat) (s : state) (script : list reply) : run * status :=
    let u := checkpoint (mk_run s None true false false []) in
    match update_desired_job_list deps_of eval_expr (matching (st_jobs s)) true s with
    | Some (s', inr _) => run_and_finish fuel (set_state s' u) script
    | Some (s', inl x) => (set_state s' u, Raised x)
    | None => (u, NoFuel)
    end.

  (** 526-559 handle_last_job_after_resume; the data of the result are its comments *)
  Inductive decision := Skip_it | Pass_it | Fail_it | Run_it.
  Variable decision_data : decision -> rdata.
  Definition last_job (d : decision) (u : run) : run * option exn :=
    match u_running u with
    | None => (u, None)
    | Some k =>
        let settle o :=
          match dget k (st_map (u_state u)) with
          | None => (u, Some (XKeyError k))
          | Some js =>
              match record_result (js_job js) (mk_result (Some o) (decision_data d)) u with
              | (u', None) => (checkpoint (set_running None u'), None)
              | r => r
              end
          end in
        match d with
        | Skip_it => settle OSkip
        | Pass_it => settle OPass
        | Fail_it => settle OFail
        | Run_it => (u, None)
        end
    end.
  (** 369-424 do_normal_sequence, a session that was resumed; [s] and [running] are what was
      saved (C14) *)
  Definition resumed_session (fuel : nat) (s : state) (running : option name) (d : decision) (script : list reply) : run * status :=
    match last_job d (mk_run s running true false false []) with
    | (u, Some x) => (u, Raised x)
    | (u, None) => run_and_finish fuel u script
    end.

  (** ** How much is done: 1004-1028 get_completion_ratio; durations are rational *)
  Variable duration : job -> option Q.
  Fixpoint tally (m : dict jstate) (l : list job) (acc : Q * nat * Q * bool) : exn + Q * nat * Q * bool :=
    match l, acc with
    | [], _ => inr acc
    | j :: l', (total, done, done_time, reliable) =>
        match duration j with
        | None => tally m l' (total, done, done_time, false)
        | Some inc =>
            match dget (j_id j) m with
            | None => inl (XKeyError (j_id j))
            | Some js =>
                match r_outcome (js_result js) with
                | Some _ => tally m l' (total + inc, S done, done_time + inc, reliable)%Q
                | None => tally m l' (total + inc, done, done_time, reliable)%Q
                end
            end
        end
    end.
  Definition completion_ratio (s : state) : exn + Q :=
    match tally (st_map s) (st_run s) (0%Q, O, 0%Q, true) with
    | inl x => inl x
    | inr (total, done, done_time, true) => inr (if Qeq_bool total 0 then 0%Q else (done_time / total)%Q)
    | inr (total, done, done_time, false) =>
        inr (match st_run s with [] => 0%Q | _ => (inject_Z (Z.of_nat done) / inject_Z (Z.of_nat (length (st_run s))))%Q end)
    end.
End Run.

(** ** Which sessions can be resumed: 495-514 get_resume_candidates *)

(** What is stored: nothing, something that cannot be read, or the metadata *)
Inductive stored := Nothing | Corrupted | Meta (app_id title : option string) (incomplete : bool).
Definition candidates (title : string) (l : list (name * stored)) : list name :=
  flat_map (fun e =>
    match snd e with
    | Meta (Some a) (Some t) true => if String.eqb a "plainbox" && String.eqb t title then [fst e] else []
    | _ => []
    end) l.
