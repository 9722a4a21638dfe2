(** Theorems about dependency resolution (properties C01-C04). *)
From Coq Require Import String List Relations Bool NArith.
From Verif Require Import Base JobModel SolverModel SolverSpec SolverProofs.
Import ListNotations.
Open Scope string_scope.
Open Scope list_scope.

(** A population used by the examples: [app] needs [lib] and the resource
    [pkg], and runs after [log]; [x] and [y] depend on each other; [m] needs
    something that does not exist. *)
Definition ex_lib := mk_job "lib" "s1" 1 "shell" [] [] NoProg.
Definition ex_pkg := mk_job "pkg" "s2" 2 "resource" [] [] NoProg.
Definition ex_log := mk_job "log" "s3" 3 "shell" ["lib"] [] NoProg.
Definition ex_app := mk_job "app" "s4" 4 "shell" ["lib"] ["log"]
  (Prog [mk_expr "pkg.name == 'q'" ["pkg"]]).
Definition ex_x := mk_job "x" "s5" 5 "shell" ["y"] [] NoProg.
Definition ex_y := mk_job "y" "s6" 6 "shell" ["x"] [] NoProg.
Definition ex_m := mk_job "m" "s7" 7 "shell" ["nothing"] [] NoProg.
Definition ex_jobs := [ex_app; ex_log; ex_lib; ex_x; ex_y; ex_m; ex_pkg].

(** There is an enumeration of the dependency sets. *)
Lemma dep_dec (a b : dep_type * name) : {a = b} + {a <> b}.
Proof. decide equality; [apply string_dec | decide equality]. Qed.

Example enumerates_case : enumerates (fun j => nodup dep_dec (get_dependency_set j)).
Proof. intros j. split; [apply NoDup_nodup | intros d; apply nodup_In]. Qed.

(** * C01 *)

Theorem C01_resolved_list_is_ordered :
  forall deps_of job_list visit_list run_list,
    resolve deps_of job_list visit_list = SOk run_list ->
    dependency_ordered deps_of run_list /\ unique_ids run_list.
Proof.
  intros. apply resolve_ok_inv in H. tauto.
Qed.
Print Assumptions C01_resolved_list_is_ordered.

(** The same in terms of what the job definitions say: whatever the
    enumeration order of the sets, each direct dependency, each "after"
    dependency and each resource mentioned by a requirement expression runs
    earlier. *)
Theorem C01_declared_dependencies_come_first :
  forall deps_of job_list visit_list before j after,
    enumerates deps_of ->
    resolve deps_of job_list visit_list = SOk (before ++ j :: after) ->
    (forall d, In d (j_direct j) -> In d (map j_id before)) /\
    (forall d, In d (j_after j) -> In d (map j_id before)) /\
    (forall es e d, j_prog j = Prog es -> In e es -> In d (e_ids e) ->
       In d (map j_id before)).
Proof.
  intros deps_of job_list visit_list before j after He H.
  apply resolve_ok_inv in H. destruct H as (_ & _ & Ho & _).
  assert (G : forall ty d, In (ty, d) (get_dependency_set j) -> In d (map j_id before)).
  { intros ty d Hd. apply (Ho before j after eq_refl). exists ty. now apply He. }
  unfold get_dependency_set, get_resource_dependencies in G.
  split; [|split].
  - intros d Hd. apply (G DepDirect). rewrite in_app_iff. left. now apply in_map.
  - intros d Hd. apply (G DepOrdering). rewrite !in_app_iff. right. right. now apply in_map.
  - intros es e d Hp He' Hd. apply (G DepResource). rewrite Hp, !in_app_iff.
    right. left. apply in_map. apply in_flat_map. eauto.
Qed.
Print Assumptions C01_declared_dependencies_come_first.

Example C01_case :
  resolve get_dependency_set ex_jobs (Some [ex_app]) =
  SOk [ex_lib; ex_pkg; ex_log; ex_app].
Proof. vm_compute. reflexivity. Qed.

(** A different enumeration order of the same sets. *)
Example C01_case_other_order :
  resolve (fun j => rev (get_dependency_set j)) ex_jobs (Some [ex_app]) =
  SOk [ex_lib; ex_log; ex_pkg; ex_app].
Proof. vm_compute. reflexivity. Qed.

(** * C02 *)

Theorem C02_resolution_is_exact :
  forall deps_of job_list visit_list run_list,
    incl (wanted job_list visit_list) job_list ->
    resolve deps_of job_list visit_list = SOk run_list ->
    forall j, In j run_list <-> needed deps_of job_list (wanted job_list visit_list) j.
Proof. exact resolve_exact. Qed.
Print Assumptions C02_resolution_is_exact.

Example C02_case : incl [ex_app] ex_jobs.
Proof. intros j [<-|[]]. vm_compute. auto. Qed.

(** * C03 *)

Theorem C03_resolution_terminates :
  forall deps_of job_list visit_list, resolve deps_of job_list visit_list <> SFuel.
Proof. exact resolve_terminates. Qed.
Print Assumptions C03_resolution_terminates.

Theorem C03_success_iff_sound_input :
  forall deps_of job_list visit_list,
    incl (wanted job_list visit_list) job_list ->
    faithful_equality job_list ->
    (exists run_list, resolve deps_of job_list visit_list = SOk run_list) <->
    (unique_ids job_list /\
     complete deps_of job_list (wanted job_list visit_list) /\
     acyclic deps_of job_list (wanted job_list visit_list)).
Proof.
  intros deps_of J V Hv Hf. split.
  - intros [L H]. now apply (resolve_ok_conditions deps_of J V L).
  - intros (Hu & Hc & Ha). now apply resolve_succeeds.
Qed.
Print Assumptions C03_success_iff_sound_input.

Theorem C03_errors_are_genuine :
  forall deps_of job_list visit_list e,
    (forall j, In j (wanted job_list visit_list) ->
       In (j_id j) (map j_id job_list) -> In j job_list) ->
    faithful_equality job_list ->
    resolve deps_of job_list visit_list = SErr e ->
    match e with
    | DepDuplicate a b => j_id a = j_id b /\
        exists l1 l2 l3, job_list = l1 ++ a :: l2 ++ b :: l3
    | DepUnknown j => In j (wanted job_list visit_list) /\
        ~ In (j_id j) (map j_id job_list)
    | DepMissing j d ty => In j job_list /\
        needed deps_of job_list (wanted job_list visit_list) j /\
        In (ty, d) (deps_of j) /\ ~ In d (map j_id job_list)
    | DepCycle l => dependency_cycle deps_of job_list l /\
        (forall j, In j l -> In j job_list /\
           needed deps_of job_list (wanted job_list visit_list) j)
    | DepAssert => False
    | DepTypeError => False
    end.
Proof.
  intros deps_of J V e Hv Hf H.
  destruct (resolve_unknown_genuine deps_of J V e Hv Hf H)
    as [(a & b & l1 & l2 & l3 & -> & He & ->)|[[_ G]|(j & -> & Hj & Hn)]].
  - eauto.
  - destruct e; simpl in G; try contradiction.
    + tauto.
    + destruct G as (G1 & G2 & G3). split; auto.
      rewrite Forall_forall in G1, G2. auto.
  - auto.
Qed.
Print Assumptions C03_errors_are_genuine.

Lemma ex_jobs_faithful : faithful_equality ex_jobs.
Proof.
  intros a b Ha Hb [H|H]; simpl in Ha, Hb;
    repeat match goal with H : _ \/ _ |- _ => destruct H as [H|H] end;
    subst; simpl in *; try reflexivity; try discriminate; try contradiction.
Qed.

Example C03_case_cycle :
  resolve get_dependency_set ex_jobs (Some [ex_app; ex_y]) =
  SErr (DepCycle [ex_y; ex_x; ex_y]).
Proof. vm_compute. reflexivity. Qed.

Example C03_case_missing :
  resolve get_dependency_set ex_jobs (Some [ex_app; ex_m]) =
  SErr (DepMissing ex_m "nothing" DepDirect).
Proof. vm_compute. reflexivity. Qed.

(** Finding: when the visit list holds an equal copy of a listed job (same
    checksum, different object) and that job is on a cycle, the solver fails
    with an AssertionError instead of a DependencyError. *)
Theorem C03_equal_copy_refuted :
  exists job_list visit_list,
    (forall v, In v visit_list -> exists j, In j job_list /\ job_eqb v j = true) /\
    unique_ids job_list /\ faithful_equality job_list /\
    resolve get_dependency_set job_list (Some visit_list) = SErr DepAssert.
Proof.
  exists [ex_x; ex_y], [mk_job "x" "s5" 50 "shell" ["y"] [] NoProg].
  split; [|split; [|split]].
  - intros v [<-|[]]. exists ex_x. vm_compute. auto.
  - vm_compute. repeat constructor; simpl; intuition discriminate.
  - intros a b [<-|[<-|[]]] [<-|[<-|[]]] [H|H]; vm_compute in H;
      try reflexivity; discriminate.
  - vm_compute. reflexivity.
Qed.
Print Assumptions C03_equal_copy_refuted.

(** * C04 *)

Theorem C04_ordered_list_is_kept :
  forall deps_of job_list visit_list,
    unique_ids job_list -> unique_ids visit_list ->
    (forall j, In j visit_list -> In (j_id j) (map j_id job_list)) ->
    dependency_ordered deps_of visit_list ->
    resolve deps_of job_list (Some visit_list) = SOk visit_list.
Proof. exact resolve_keeps_order. Qed.
Print Assumptions C04_ordered_list_is_kept.

(** In particular resolving is idempotent, even if the dependency sets are
    enumerated in another order the second time. *)
Theorem C04_resolution_is_idempotent :
  forall deps_of deps_of' job_list visit_list run_list,
    enumerates deps_of -> enumerates deps_of' ->
    resolve deps_of job_list visit_list = SOk run_list ->
    resolve deps_of' job_list (Some run_list) = SOk run_list.
Proof.
  intros deps_of deps_of' J V L He He' H. apply resolve_ok_inv in H.
  destruct H as (HuJ & HuL & Ho & _ & Hids & _).
  apply resolve_keeps_order; auto.
  - intros j Hj. apply Hids. now apply in_map.
  - intros before j after HL d [ty Hd]. apply (Ho before j after HL).
    exists ty. apply He. now apply He'.
Qed.
Print Assumptions C04_resolution_is_idempotent.

Example C04_case : dependency_ordered get_dependency_set [ex_lib; ex_pkg; ex_log; ex_app].
Proof.
  apply (C01_resolved_list_is_ordered get_dependency_set ex_jobs (Some [ex_app])).
  vm_compute. reflexivity.
Qed.
