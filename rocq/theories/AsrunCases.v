(** C69: a session of an application, and what it does not do *)
From Coq Require Import String List Bool ZArith Arith.
From Verif Require Import Base JobModel SolverModel SolverSpec SolverProofs SolverProps SessionModel SessionSpec SessionProps SessrunModel SessrunSpec SessrunProps QualModel AsrunModel AsrunSpec AsrunProps AsrunRun.
Import ListNotations.
Open Scope string_scope.
Open Scope list_scope.

Definition pick (l : list name) : qualifier job := Simple (MPred (fun j => smem (j_id j) l)) true.
Definition c_no (j : job) : bool := false.
Definition c_data (j : job) (js : jstate) : rdata := no_data.
Definition c_gen := mk_job "gen" "s9" 9 "shell" [] [] NoProg.
(** The resource job makes a job *)
Definition c_templates (j : job) (r : result) (s : state) : list jtree := if String.eqb (j_id j) "pkg" then [JTree c_gen []] else [].
Definition c_plan := mk_plan (pick ["app"; "x"]) (pick ["pkg"]) (pick ["log"; "gen"]) (fun j => if String.eqb (j_id j) "app" then "net" else "base").
Definition c_category (j : job) : name := "base".
Definition c_start := start_new_session ex_session.
Definition c_select := select_test_plan ex_deps ex_eval c_plan c_start.
Definition c_boot := bootstrap ex_deps ex_eval ex_records c_templates c_no false c_data.
Definition c_ready := fst (c_boot [noted OPass "q"] (fst c_select)).
Definition c_alternate := use_alternate_selection ex_deps ex_eval.
Definition c_filter := filter_jobs_by_categories ex_deps ex_eval c_category.
Definition c_remove := remove_all_filters ex_deps ex_eval.
Definition c_run (auto_retry : bool) (a : asst) (k : name) (r : result) : asst :=
  fst (use_job_result ex_eval ex_records c_templates auto_retry k r (fst (run_job c_no c_data k (Some r) a))).

(** Bootstrapping runs the resource job, then the list is that of the test plan; it can be
    narrowed and widened again; working through it leaves nothing *)
Example C69_case :
  snd c_select = None /\ snd (c_boot [noted OPass "q"] (fst c_select)) = Some None /\
  get_static_todo_list c_ready = ["lib"; "log"; "pkg"; "app"] /\ get_dynamic_todo_list c_ready = inr ["lib"; "log"; "app"] /\ offered c_ready = true /\
  map j_id (st_jobs (a_state c_ready)) = ["app"; "log"; "lib"; "x"; "y"; "m"; "pkg"; "gen"] /\
  get_static_todo_list (fst (c_alternate ["pkg"; "y"; "nowhere"] c_ready)) = ["lib"; "log"; "pkg"] /\
  get_static_todo_list (fst (c_remove (fst (c_alternate ["pkg"] c_ready)))) = ["lib"; "log"; "pkg"; "app"] /\
  (let done := c_run false (c_run false (c_run false c_ready "lib" (plain OPass)) "log" (plain OFail)) "app" (plain OPass) in
   get_dynamic_todo_list done = inr [] /\ get_summary done OPass = 3 /\ get_summary done OFail = 1 /\ offered (finalize_session done) = false).
Proof. vm_compute. repeat split. Qed.
(** The hypotheses of the theorems hold *)
Lemma C69_case_listed : enumerates ex_deps /\ listed ex_deps (a_state c_start) /\ mandatory_listed ex_deps (a_state c_start).
Proof.
  destruct C05_case_hypotheses as (H1 & H2 & _). split; [apply ex_deps_enumerates|]. split.
  - constructor; try exact H1.
    + unfold unique_ids. cbn. constructor.
    + intros bf a af E. destruct bf; discriminate.
    + intros j [].
    + intros j [].
    + intros a b Ia Ib. apply H2; apply in_app_iff; now left.
  - intros j [].
Qed.
(** A job that cannot start, and one that was interrupted *)
Example C69_case_run :
  (exists r, run_job c_no c_data "app" (Some (plain OPass)) (c_run false (c_run false c_ready "lib" (plain OPass)) "log" (plain OPass)) =
     (fst (run_job c_no c_data "app" (Some (plain OPass)) (c_run false (c_run false c_ready "lib" (plain OPass)) "log" (plain OPass))), Ran r)) /\
  snd (run_job c_no c_data "app" (Some (plain OPass)) (c_run false c_ready "lib" (plain OFail))) = Blocked (mk_result (Some ONotSupported) no_data) /\
  snd (run_job c_no c_data "lib" None c_ready) = Lost /\
  (match a_disk (fst (run_job c_no c_data "lib" None c_ready)) with
   | Some d => d_running d = Some "lib" /\
      outcome_of (a_state (fst (resume_session ex_eval ex_records c_templates (fun _ => true) c_no (fun _ => no_data) d))) "lib" = Some (Some OFail) /\
      outcome_of (a_state (fst (resume_session ex_eval ex_records c_templates (fun _ => true) c_no (fun _ => no_data) d))) "pkg" = Some (Some OPass)
   | None => False end).
Proof. split; [eexists; vm_compute; reflexivity|]. vm_compute. repeat split. Qed.

(** ** What the documentation promises *)

(** A mandatory job that a template makes during bootstrapping is named as mandatory but
    not run *)
Theorem C69_generated_mandatory_refuted : exists a a' l, listed ex_deps (a_state a) /\ c_boot [noted OPass "q"] (fst (select_test_plan ex_deps ex_eval c_plan a)) = (a', Some None) /\
  get_mandatory_jobs a' = Some l /\ In "gen" l /\ ~ In "gen" (get_static_todo_list a').
Proof.
  exists c_start. eexists. eexists. split; [apply C69_case_listed|]. split; [vm_compute; reflexivity|]. split; [reflexivity|]. split; [vm_compute; tauto|]. vm_compute. intuition discriminate.
Qed.
Print Assumptions C69_generated_mandatory_refuted.
(** A job of the session cannot be added to the list, and nothing is said about names that
    do not exist *)
Theorem C69_any_job_refuted : exists j, In j (st_jobs (a_state c_ready)) /\ healthy ex_deps (st_jobs (a_state c_ready)) j /\
  exists a', c_alternate [j_id j; "nowhere"] c_ready = (a', None) /\ ~ In (j_id j) (get_static_todo_list a').
Proof.
  exists c_gen. split; [vm_compute; tauto|]. split.
  - assert (N : forall b, ~ depends ex_deps (st_jobs (a_state c_ready)) c_gen b) by (intros b [_ D]; vm_compute in D; destruct D as (? & [])).
    assert (O : forall a, needed ex_deps (st_jobs (a_state c_ready)) [c_gen] a -> a = c_gen).
    { intros a H. induction H as [a [<-|[]]|a b _ -> D]; [reflexivity|now apply N in D]. }
    split.
    + intros a d H D. apply O in H. subst a. vm_compute in D. destruct D as (? & []).
    + intros a H C. apply O in H. subst a. assert (X : exists b, depends ex_deps (st_jobs (a_state c_ready)) c_gen b).
      { assert (G : forall x y, Relation_Operators.clos_trans job (depends ex_deps (st_jobs (a_state c_ready))) x y -> exists b, depends ex_deps (st_jobs (a_state c_ready)) x b) by (intros x y T; induction T; eauto). exact (G _ _ C). }
      destruct X as (b & D). now apply N in D.
  - eexists. split; [vm_compute; reflexivity|]. vm_compute. intuition discriminate.
Qed.
Print Assumptions C69_any_job_refuted.
(** Categories that the test plan overrides are reported but cannot be selected *)
Theorem C69_overridden_category_refuted : exists a', get_participating_categories c_ready = Some ["base"; "base"; "base"; "net"] /\ c_filter ["net"] c_ready = (a', None) /\ ~ In "app" (get_static_todo_list a').
Proof. eexists. split; [reflexivity|]. split; [vm_compute; reflexivity|]. vm_compute. intuition discriminate. Qed.
Print Assumptions C69_overridden_category_refuted.
(** Jobs that were picked by hand are not saved: if the application goes down before the
    first of them runs the session is not offered *)
Theorem C69_picked_jobs_saved_refuted patterns a : a_disk (fst (hand_pick_jobs ex_deps ex_eval patterns a)) = a_disk a.
Proof.
  unfold hand_pick_jobs, andthen, choose. destruct (update_desired_job_list _ _ _ _ _) as [[s [e|p]]|]; reflexivity.
Qed.
Print Assumptions C69_picked_jobs_saved_refuted.
(** A job that is retried three times is then reported as not supported *)
Example C69_case_retry :
  let a := c_run true (c_run true (c_run true c_ready "lib" (plain OFail)) "lib" (plain OFail)) "lib" (plain OFail) in
  outcome_of (a_state a) "lib" = Some (Some OFail) /\ snd (run_job c_no c_data "lib" (Some (plain OPass)) a) = Blocked (mk_result (Some ONotSupported) no_data).
Proof. vm_compute. split; reflexivity. Qed.
