(** Theorems about the session state (properties C05-C08). *)
From Coq Require Import String List Relations Bool NArith ZArith Lia.
From Verif Require Import Base BaseFacts JobModel SolverModel SolverSpec
  SolverProofs SolverProps SessionModel SessionSpec SelectProofs SessionProofs
  HistoryProofs.
Import ListNotations.
Open Scope string_scope.
Open Scope list_scope.

(** * A session used by the examples *)

Definition ex_eval (e : expr) (ls : list (list resource)) : bool :=
  match ls with
  | [l] => existsb (fun r => match dget "name" r with
                             | Some v => String.eqb v "q" | None => false end) l
  | _ => false
  end.
Definition ex_records (r : result) : list resource :=
  match d_comments (r_data r) with Some c => [[("name", c)]] | None => [] end.
Definition plain (o : outcome) : result := mk_result (Some o) no_data.
Definition noted (o : outcome) (c : string) : result :=
  mk_result (Some o) (mk_rdata None (Some c) None (MemLog [])).
Definition ex_op := exec_op get_dependency_set ex_eval ex_records.
Definition ex_session : state :=
  match init_session ex_jobs with
  | SOk s => s
  | _ => mk_state [] [] [] [] [] [] []
  end.
Definition ex_selected := fst (ex_op (OpDesired [ex_app; ex_x; ex_m] true) ex_session).
Definition ex_run_lib := fst (ex_op (OpResult ex_lib (plain OPass) []) ex_selected).
Definition ex_run_pkg := fst (ex_op (OpResult ex_pkg (noted OPass "q") []) ex_run_lib).
Definition ex_run_log := fst (ex_op (OpResult ex_log (plain OFail) []) ex_run_pkg).

Definition startable (s : state) : list name :=
  map fst (filter (fun kv => can_start (snd kv)) (st_map s)).

Lemma ex_sensible o j : (exists r g, o = OpResult j r g) -> In j ex_jobs ->
  forall s, st_jobs s = ex_jobs -> sensible s o.
Proof.
  intros (r & g & ->) Hj s Hs. simpl. rewrite Hs. intros x Hx He.
  apply (unique_ids_inj ex_jobs); auto.
  unfold unique_ids. simpl. repeat constructor; simpl; intuition discriminate.
Qed.

Lemma ex_session_reachable : reachable get_dependency_set ex_eval ex_records ex_session.
Proof. apply (reach_init _ _ _ ex_jobs). reflexivity. Qed.

Lemma ex_selected_reachable : reachable get_dependency_set ex_eval ex_records ex_selected.
Proof. apply reach_op; [apply ex_session_reachable|exact I]. Qed.

Lemma ex_run_lib_reachable : reachable get_dependency_set ex_eval ex_records ex_run_lib.
Proof.
  apply reach_op; [apply ex_selected_reachable|].
  apply (ex_sensible _ ex_lib); [eauto|simpl; auto|reflexivity].
Qed.

Lemma ex_run_pkg_reachable : reachable get_dependency_set ex_eval ex_records ex_run_pkg.
Proof.
  apply reach_op; [apply ex_run_lib_reachable|].
  apply (ex_sensible _ ex_pkg); [eauto|simpl; auto 8|reflexivity].
Qed.

(** * C05: selecting jobs *)

(** For any session in step and any list of jobs (known or not): the answer
    always comes; of the wanted jobs exactly those that are known and can be
    scheduled stay, in the order given; the run list is in dependency order,
    has no repetitions and contains exactly what the remaining jobs need;
    nothing but readiness changes; problems are reported exactly if something
    was dropped, each dropped job is named by a problem, and each problem names
    a job that really cannot be scheduled.  The only exception is the
    ResourceProgramError for a job on the new run list whose requirement
    program is malformed. *)
Theorem C05_selection_is_exact :
  forall deps_of eval_expr s desired (include_mandatory : bool) wanted,
    enumerates deps_of ->
    in_step s ->
    wanted = (if include_mandatory then st_mandatory s else []) ++ desired ->
    faithful_equality (st_jobs s ++ wanted) ->
    (forall j, In j wanted -> In (j_id j) (map j_id (st_jobs s)) -> In j (st_jobs s)) ->
    exists s' answer,
      update_desired_job_list deps_of eval_expr desired include_mandatory s = Some (s', answer) /\
      (exists keep, st_desired s' = filter keep wanted /\
         forall j, In j wanted ->
           (keep j = true <-> In j (st_jobs s) /\ healthy deps_of (st_jobs s) j)) /\
      unique_ids (st_run s') /\ dependency_ordered deps_of (st_run s') /\
      (forall j, In j (st_run s') <-> needed deps_of (st_jobs s) (st_desired s') j) /\
      same_but_readiness
        (mk_state (st_jobs s) (st_units s) (st_map s) (st_desired s') (st_mandatory s)
           (st_run s') (st_resources s)) s' /\
      match answer with
      | inr problems =>
          (forall j, In j (st_run s') -> j_prog j <> BadProg) /\
          (problems = [] <-> st_desired s' = wanted) /\
          (forall j, In j wanted -> ~ In j (st_desired s') ->
             exists e, In e problems /\ affected_job e = Some j) /\
          (forall e, In e problems -> exists j, affected_job e = Some j /\
             In j (st_jobs s ++ wanted) /\
             ~ (In j (st_jobs s) /\ healthy deps_of (st_jobs s) j))
      | inl x =>
          exists j, In j (st_run s') /\ j_prog j = BadProg /\ x = XProgramError j
      end.
Proof.
  intros deps_of eval_expr s desired im wanted Henum [Hu Hmap] Hw Hf HD.
  unfold update_desired_job_list. rewrite <- Hw.
  destruct (select_correct deps_of (st_jobs s) wanted Hu Hf HD
              (S (length wanted + length (st_jobs s))) (st_jobs s) wanted []
              (LInv_init deps_of (st_jobs s) wanted Hu) ltac:(lia))
    as (D & run & P & Hsel & (Hkeep & Hur & Ho & HrJ & Hex & HP1 & HP2 & HP3)).
  rewrite Hsel.
  set (s1 := mk_state (st_jobs s) (st_units s) (st_map s) D (st_mandatory s) run (st_resources s)).
  pose proof (recompute_frame eval_expr s1) as F.
  destruct (recompute eval_expr s1) as [s2 x] eqn:E. simpl in F.
  pose proof (frame_same _ _ F) as HS.
  assert (HD2 : st_desired s2 = D) by apply F.
  assert (HR2 : st_run s2 = run) by apply F.
  exists s2, (match x with Some e => inl e | None => inr P end).
  split; [now destruct x|]. rewrite HD2, HR2.
  split; [exact Hkeep|]. split; [exact Hur|]. split; [exact Ho|]. split; [exact Hex|].
  split; [exact HS|].
  destruct x as [e|].
  - apply recompute_err in E; [|exact Hur].
    assert (keys : dkeys (st_map s) = map j_id (st_jobs s)) by now apply inv_keys.
    destruct E as (j & Hj & [[-> Hn]|G]); simpl in Hj.
    + exfalso. apply Hn. simpl. rewrite keys. apply in_map. auto.
    + apply gil_error in G. destruct G as [[-> Hb]|(k & -> & Hn & Hk)]; [eauto|].
      exfalso. simpl in Hn. apply dget_None in Hn. apply Hn. rewrite keys.
      apply in_map_iff in Hk. destruct Hk as ([ty d] & <- & Hd). simpl.
      apply in_split in Hj. destruct Hj as (l1 & l2 & Hr).
      assert (Hi : In d (map j_id l1)).
      { apply (Ho l1 j l2 Hr). exists ty. now apply Henum. }
      apply in_map_iff in Hi. destruct Hi as (y & <- & Hy). apply in_map. apply HrJ.
      rewrite Hr, in_app_iff. auto.
  - split; [|auto]. intros j Hj Hb.
    destruct (recompute_ok_all eval_expr s1 s2 Hur E j Hj) as [il G].
    unfold get_inhibitor_list, requirement_inhibitors in G. rewrite Hb in G. discriminate.
Qed.
Print Assumptions C05_selection_is_exact.

(** The call always answers, whatever the arguments. *)
Theorem C05_selection_terminates :
  forall deps_of eval_expr s desired include_mandatory,
    update_desired_job_list deps_of eval_expr desired include_mandatory s <> None.
Proof.
  intros. unfold update_desired_job_list.
  destruct (select _ _ _ _ _) eqn:E; try discriminate.
  - destruct (recompute _ _) as [? []]; discriminate.
  - apply select_terminates in E; [contradiction|lia].
Qed.
Print Assumptions C05_selection_terminates.

(** In the example [app] stays with all it needs; [x] (on a cycle) and [m]
    (missing dependency) are dropped, with one problem each. *)
Example C05_case :
  update_desired_job_list get_dependency_set ex_eval [ex_app; ex_x; ex_m] true ex_session =
    Some (ex_selected, inr [DepCycle [ex_x; ex_y; ex_x]; DepMissing ex_m "nothing" DepDirect]) /\
  st_desired ex_selected = [ex_app] /\
  st_run ex_selected = [ex_lib; ex_pkg; ex_log; ex_app].
Proof. vm_compute. auto. Qed.

Lemma C05_case_hypotheses :
  in_step ex_session /\ faithful_equality (st_jobs ex_session ++ [ex_app; ex_x; ex_m]) /\
  (forall j, In j [ex_app; ex_x; ex_m] -> In (j_id j) (map j_id (st_jobs ex_session)) ->
     In j (st_jobs ex_session)).
Proof.
  split; [|split].
  - split; [|reflexivity].
    unfold unique_ids. simpl. repeat constructor; simpl; intuition discriminate.
  - intros a b Ha Hb H. simpl in Ha, Hb.
    repeat (destruct Ha as [<-|Ha]; [repeat (destruct Hb as [<-|Hb];
      [solve [reflexivity | destruct H; discriminate]|]); destruct Hb|]). destruct Ha.
  - intros j Hj _. simpl in *. intuition (subst; auto 10).
Qed.

(** The claim that updating the selection never fails is false: a job whose
    "requires" does not parse makes the call raise although the selection was
    already replaced. *)
Theorem C05_never_fails_refuted :
  exists s j s', reachable get_dependency_set ex_eval ex_records s /\ In j (st_jobs s) /\
    update_desired_job_list get_dependency_set ex_eval [j] true s =
      Some (s', inl (XProgramError j)) /\
    st_desired s' = [j].
Proof.
  set (bad := mk_job "bad" "s8" 8 "shell" [] [] BadProg).
  destruct (init_session [bad]) as [s| |] eqn:E; try discriminate.
  exists s, bad. eexists. split; [now apply (reach_init _ _ _ [bad])|].
  injection E as <-. vm_compute. auto.
Qed.
Print Assumptions C05_never_fails_refuted.

(** * C06: readiness *)

(** After any refreshing operation that returns normally, a job can start iff
    it is on the run list, has attempts left, and its dependencies and
    requirements are met - or the requirement is overlooked. *)
Theorem C06_startable_iff_ready_or_overlooked :
  forall deps_of eval_expr records_of s o s' k js,
    reachable deps_of eval_expr records_of s -> sensible s o -> refreshes o ->
    exec_op deps_of eval_expr records_of o s = (s', None) ->
    (forall j, In j (st_run s') -> requirements_wf j) ->
    dget k (st_map s') = Some js ->
    (can_start js = true <->
     (0 < js_attempts js)%Z /\
     exists j, j_id j = k /\ In j (st_run s') /\ direct_ok s' j /\ after_ok s' j /\
       (requirements_ok eval_expr s' j \/ overlooked s' j)).
Proof.
  intros deps_of eval_expr records_of s o s' k js Hr Hs Href H Hwf Hk.
  apply Inv_reachable in Hr.
  destruct (refreshed eval_expr records_of deps_of o s s' Hr Hs Href H) as (s0 & I0 & Hrec).
  pose proof (recompute_ok eval_expr s0 s' (i_run _ I0) Hrec k js Hk) as G.
  assert (Hur : unique_ids (st_run s')).
  { pose proof (recompute_frame eval_expr s0) as F. rewrite Hrec in F. simpl in F.
    destruct F as (_ & _ & _ & _ & -> & _). apply I0. }
  unfold can_start. rewrite andb_true_iff, Z.ltb_lt.
  destruct G as [[Hn Hi]|(j & Hj & Hid & Hg)].
  - rewrite Hi. split; [intros [? _]; discriminate|].
    intros (_ & j & Hid & Hj & _). exfalso. apply Hn. rewrite <- Hid. now apply in_map.
  - pose proof (gil_nil eval_expr s' j _ (Hwf j Hj) Hg) as Hnil.
    assert (E : (match js_inhibitors js with [] => true | _ => false end) = true <->
                js_inhibitors js = []).
    { destruct (js_inhibitors js); split; congruence. }
    rewrite E, Hnil. split.
    + intros [G Ha]. split; auto. exists j. tauto.
    + intros (Ha & j' & Hid' & Hj' & G). assert (j' = j); [|subst; tauto].
      apply (unique_ids_inj (st_run s')); auto. congruence.
Qed.
Print Assumptions C06_startable_iff_ready_or_overlooked.

(** If every mentioned resource job is a job with the "resource" plugin, then
    "can start" means exactly "ready". *)
Theorem C06_startable_iff_ready :
  forall deps_of eval_expr records_of s o s' k js,
    reachable deps_of eval_expr records_of s -> sensible s o -> refreshes o ->
    exec_op deps_of eval_expr records_of o s = (s', None) ->
    (forall j, In j (st_run s') -> requirements_wf j) ->
    (forall j es e r x, In j (st_run s') -> j_prog j = Prog es -> In e es -> In r (e_ids e) ->
       dget r (st_map s') = Some x -> j_plugin (js_job x) = "resource") ->
    dget k (st_map s') = Some js ->
    (can_start js = true <->
     (0 < js_attempts js)%Z /\ exists j, j_id j = k /\ ready eval_expr s' j).
Proof.
  intros deps_of eval_expr records_of s o s' k js Hr Hs Href H Hwf Hp Hk.
  rewrite (C06_startable_iff_ready_or_overlooked deps_of eval_expr records_of s o s' k js); auto.
  assert (I' : Inv s').
  { pose proof (Inv_op eval_expr records_of deps_of o s) as G. rewrite H in G. simpl in G.
    apply G; auto. now apply (Inv_reachable eval_expr records_of deps_of). }
  split; intros [Ha (j & Hid & G)]; split; auto; exists j; split; auto.
  - destruct G as (Hj & H1 & H2 & [H3|H3]); [repeat split; auto|]. exfalso.
    destruct H3 as (es1 & e & es2 & Hprog & _ & (r & Hr1 & Hr2) & Hpass).
    specialize (Hpass r Hr1). unfold outcome_of in Hpass.
    destruct (dget r (st_map s')) as [x|] eqn:Ex; [|discriminate].
    simpl in Hpass. injection Hpass as Ho.
    apply (i_res _ I' r x Ex); auto.
    + apply (Hp j (es1 ++ e :: es2) e r x); auto. rewrite in_app_iff. simpl. auto.
    + congruence.
  - destruct G as (Hj & H1 & H2 & H3). tauto.
Qed.
Print Assumptions C06_startable_iff_ready.

(** Every reported inhibitor names a real obstacle; "undesired" is reported
    exactly for jobs that are not on the run list. *)
Theorem C06_inhibitors_are_real :
  forall deps_of eval_expr records_of s o s' k js i,
    reachable deps_of eval_expr records_of s -> sensible s o -> refreshes o ->
    exec_op deps_of eval_expr records_of o s = (s', None) ->
    dget k (st_map s') = Some js -> In i (js_inhibitors js) ->
    (~ In k (map j_id (st_run s')) /\ i = Undesired) \/
    (exists j, In j (st_run s') /\ j_id j = k /\ real_obstacle eval_expr s' j i).
Proof.
  intros deps_of eval_expr records_of s o s' k js i Hr Hs Href H Hk Hi.
  apply Inv_reachable in Hr.
  destruct (refreshed eval_expr records_of deps_of o s s' Hr Hs Href H) as (s0 & I0 & Hrec).
  destruct (recompute_ok eval_expr s0 s' (i_run _ I0) Hrec k js Hk)
    as [[Hn Hinh]|(j & Hj & Hid & Hg)].
  - left. rewrite Hinh in Hi. destruct Hi as [<-|[]]. auto.
  - right. exists j. split; auto. split; auto. eapply gil_real; eauto.
Qed.
Print Assumptions C06_inhibitors_are_real.

(** Recording a result of a job that is not a resource job records that
    result, leaves every other job's result and history alone, and otherwise
    changes readiness only. *)
Theorem C06_result_touches_one_job :
  forall eval_expr records_of s j r generated s' x js,
    j_plugin j <> "resource" ->
    dget (j_id j) (st_map s) = Some js ->
    update_job_result eval_expr records_of j r generated s = (s', x) ->
    outcome_of s' (j_id j) = Some (r_outcome r) /\
    st_jobs s' = st_jobs s /\ st_desired s' = st_desired s /\ st_run s' = st_run s /\
    st_resources s' = st_resources s /\
    (forall k js', dget k (st_map s') = Some js' ->
       exists js0, dget k (st_map s) = Some js0 /\ js_job js' = js_job js0 /\
         (k <> j_id j -> js_result js' = js_result js0 /\ js_history js' = js_history js0) /\
         (k = j_id j -> js_result js' = r /\
            js_history js' =
              if (is_hollow r || result_eqb r (js_result js0))%bool
              then js_history js0 else js_history js0 ++ [r])).
Proof.
  intros eval_expr records_of s j r generated s' x js Hp Hg H.
  unfold update_job_result, observe_result in H. rewrite Hg in H.
  destruct (String.eqb_spec (j_plugin j) "resource"); [contradiction|].
  set (s1 := with_map (dset (j_id j) (set_result r js) (st_map s)) s) in *.
  pose proof (recompute_frame eval_expr s1) as F. rewrite H in F. simpl in F.
  pose proof (frame_same _ _ F) as (S1 & _ & S3 & _ & S5 & S6 & Skeys & Sj).
  split; [|split; [exact S1|split; [exact S3|split; [exact S5|split; [exact S6|]]]]].
  - unfold outcome_of.
    destruct (dget (j_id j) (st_map s')) as [js'|] eqn:E.
    + destruct (Sj _ _ E) as (js1 & E1 & _ & Er & _). simpl in E1.
      rewrite dget_dset_same in E1. injection E1 as <-. simpl. rewrite Er.
      now rewrite set_result_result.
    + exfalso. apply dget_None in E. apply E. unfold dkeys. rewrite Skeys. simpl.
      apply (proj2 (dkeys_dset_In _ _ _ _)). auto.
  - intros k js' Hk. destruct (Sj _ _ Hk) as (js1 & E1 & Ej & Er & Eh & _). simpl in E1.
    rewrite dget_dset in E1. destruct (String.eqb_spec k (j_id j)).
    + injection E1 as <-. subst k. exists js. split; auto.
      split; [now rewrite Ej, set_result_job|]. split; [congruence|]. intros _.
      rewrite Er, Eh, set_result_result. split; auto. unfold set_result.
      destruct (result_eqb r (js_result js)); simpl; [now rewrite orb_true_r|].
      rewrite orb_false_r. reflexivity.
    + exists js1. split; auto. split; auto. split; auto. congruence.
Qed.
Print Assumptions C06_result_touches_one_job.

Example C06_case :
  startable ex_selected = ["lib"; "pkg"] /\
  startable ex_run_lib = ["log"; "lib"; "pkg"] /\
  option_map js_inhibitors (dget "app" (st_map ex_run_lib)) =
    Some [PendingResource ex_pkg (mk_expr "pkg.name == 'q'" ["pkg"]); PendingDep ex_log] /\
  startable ex_run_pkg = ["log"; "lib"; "pkg"] /\
  startable ex_run_log = ["app"; "log"; "lib"; "pkg"] /\
  option_map js_inhibitors (dget "x" (st_map ex_run_log)) = Some [Undesired].
Proof. vm_compute. auto 10. Qed.

Example C06_case_hypotheses :
  reachable get_dependency_set ex_eval ex_records ex_run_pkg /\
  sensible ex_run_pkg (OpResult ex_log (plain OFail) []) /\
  exec_op get_dependency_set ex_eval ex_records
    (OpResult ex_log (plain OFail) []) ex_run_pkg = (ex_run_log, None) /\
  (forall j, In j (st_run ex_run_log) -> requirements_wf j).
Proof.
  split; [apply ex_run_pkg_reachable|]. split.
  - apply (ex_sensible _ ex_log); [eauto|simpl; auto|reflexivity].
  - split; [vm_compute; reflexivity|].
    intros j Hj es e Hp He.
    assert (E : st_run ex_run_log = [ex_lib; ex_pkg; ex_log; ex_app]) by (vm_compute; reflexivity).
    rewrite E in Hj. clear E.
    destruct Hj as [<-|[<-|[<-|[<-|[]]]]]; try discriminate Hp.
    injection Hp as <-. destruct He as [<-|[]]. intros G. discriminate G.
Qed.

(** Without that restriction the claim is false: if the "resource" is a job of
    another kind that passed, the requirement is never checked. *)
Theorem C06_overlooked_refuted :
  exists s j js, reachable get_dependency_set ex_eval ex_records s /\
    In j (st_run s) /\ dget (j_id j) (st_map s) = Some js /\ can_start js = true /\
    ~ requirements_ok ex_eval s j.
Proof.
  set (dev := mk_job "dev" "t1" 1 "shell" [] [] NoProg).
  set (app := mk_job "app" "t2" 2 "shell" [] [] (Prog [mk_expr "dev.name == 'q'" ["dev"]])).
  destruct (init_session [dev; app]) as [s0| |] eqn:E; try discriminate.
  set (s1 := fst (ex_op (OpDesired [app] true) s0)).
  set (s2 := fst (ex_op (OpResult dev (plain OPass) []) s1)).
  exists s2, app. eexists.
  assert (R1 : reachable get_dependency_set ex_eval ex_records s1).
  { apply reach_op; [|exact I]. now apply (reach_init _ _ _ [dev; app]). }
  split; [|split; [|split; [|split]]].
  - apply reach_op; auto. injection E as <-. vm_compute. intuition (subst; auto; discriminate).
  - injection E as <-. vm_compute. auto.
  - injection E as <-. vm_compute. reflexivity.
  - reflexivity.
  - injection E as <-. intros [H|(es & H & G)]; [discriminate|].
    injection H as <-. destruct (G _ (or_introl eq_refl)) as (ls & Hls & _).
    vm_compute in Hls. destruct ls; discriminate.
Qed.
Print Assumptions C06_overlooked_refuted.

(** * C07: trimming *)

Theorem C07_trim_is_all_or_nothing :
  forall deps_of eval_expr records_of s designates s' raised,
    reachable deps_of eval_expr records_of s ->
    trim_job_list designates s = (s', raised) ->
    (raised = true <->
       exists j, In j (st_jobs s) /\ designates j = true /\ In (j_id j) (map j_id (st_run s))) /\
    (raised = true -> s' = s) /\
    (raised = false ->
       st_jobs s' = filter (fun j => negb (designates j)) (st_jobs s) /\
       st_desired s' = st_desired s /\ st_run s' = st_run s /\
       st_mandatory s' = st_mandatory s /\
       (forall j, In j (st_jobs s) -> designates j = true ->
          dget (j_id j) (st_map s') = None /\ dget (j_id j) (st_resources s') = None) /\
       (forall j, In j (st_jobs s) -> designates j = false ->
          dget (j_id j) (st_map s') = dget (j_id j) (st_map s) /\
          dget (j_id j) (st_resources s') = dget (j_id j) (st_resources s)) /\
       in_step s').
Proof.
  intros deps_of eval_expr records_of s q s' raised Hr H.
  apply Inv_reachable in Hr. rename Hr into I0.
  pose proof (Inv_trim q s I0) as I'. rewrite H in I'. simpl in I'.
  unfold trim_job_list in H.
  destruct (existsb _ (filter q (st_jobs s))) eqn:E; injection H as <- <-.
  - split; [|split; [auto|discriminate]]. split; auto. intros _.
    apply existsb_exists in E. destruct E as (j & Hj & Hs). apply filter_In in Hj.
    apply smem_In in Hs. exists j. tauto.
  - split; [|split; [discriminate|]].
    + split; [discriminate|]. intros (j & Hj & Hq & Hs). exfalso.
      assert (G : existsb (fun j => smem (j_id j) (map j_id (st_run s))) (filter q (st_jobs s)) = true).
      { apply existsb_exists. exists j. split; [now apply filter_In|]. now apply smem_In. }
      congruence.
    + intros _. simpl. do 4 (split; [reflexivity|]).
      assert (Hin : forall j, In j (st_jobs s) ->
                (In (j_id j) (map j_id (filter q (st_jobs s))) <-> q j = true)).
      { intros j Hj. rewrite in_map_iff. split.
        - intros (x & Hx & Hf). apply filter_In in Hf. destruct Hf as [Hf Hq].
          assert (x = j); [|congruence].
          apply (unique_ids_inj (st_jobs s)); auto. apply I0.
        - intros Hq. exists j. split; auto. now apply filter_In. }
      split; [|split].
      * intros j Hj Hq.
        rewrite (proj2 (dget_fold_ddel (filter q (st_jobs s)) (st_map s) (j_id j) (inv_nodup s I0))).
        rewrite (proj2 (dget_fold_ddel (filter q (st_jobs s)) (st_resources s) (j_id j) (i_resd _ I0))).
        destruct (in_dec string_dec _ _) as [|n]; auto. elim n. now apply Hin.
      * intros j Hj Hq.
        rewrite (proj2 (dget_fold_ddel (filter q (st_jobs s)) (st_map s) (j_id j) (inv_nodup s I0))).
        rewrite (proj2 (dget_fold_ddel (filter q (st_jobs s)) (st_resources s) (j_id j) (i_resd _ I0))).
        destruct (in_dec string_dec _ _) as [n|]; auto. apply Hin in n; auto. congruence.
      * split; [apply I'|]. apply (i_map _ I').
Qed.
Print Assumptions C07_trim_is_all_or_nothing.

(** Trimming x and y works; trimming them together with lib, which is on the
    run list, is refused. *)
Example C07_case :
  snd (trim_job_list (fun j => smem (j_id j) ["x"; "y"]) ex_selected) = false /\
  map j_id (st_jobs (fst (trim_job_list (fun j => smem (j_id j) ["x"; "y"]) ex_selected))) =
    ["app"; "log"; "lib"; "m"; "pkg"] /\
  trim_job_list (fun j => smem (j_id j) ["x"; "y"; "lib"]) ex_selected = (ex_selected, true).
Proof. vm_compute. auto. Qed.

(** * C08: the job list and the job states stay in step *)

Theorem C08_jobs_and_states_in_step :
  forall deps_of eval_expr records_of s,
    reachable deps_of eval_expr records_of s -> in_step s /\ unique_ids (st_run s).
Proof.
  intros deps_of eval_expr records_of s H. apply Inv_reachable in H.
  split; [split; apply H|apply H].
Qed.
Print Assumptions C08_jobs_and_states_in_step.

(** Constructing a session always ends.  If jobs with the same checksum have
    the same identifier, it succeeds exactly if jobs with the same identifier
    have the same checksum; the session then has, once, every job given. *)
Theorem C08_construction :
  forall units,
    (forall a b, In a units -> In b units -> j_sum a = j_sum b -> j_id a = j_id b) ->
    match init_session units with
    | SOk s =>
        (forall a b, In a units -> In b units -> j_id a = j_id b -> j_sum a = j_sum b) /\
        in_step s /\ incl (st_jobs s) units /\
        (forall j, In j units -> In (j_id j) (map j_id (st_jobs s)))
    | SErr e =>
        exists a b, e = DepDuplicate a b /\ In a units /\ In b units /\
          j_id a = j_id b /\ j_sum a <> j_sum b
    | SFuel => False
    end.
Proof.
  intros units Hc. pose proof (Inv_init units) as Hinv.
  pose proof (dedup_spec (S (length units)) units _ ltac:(lia) eq_refl) as G.
  unfold init_session in *. destruct (dedup_jobs (S (length units)) units) as [jobs|e|].
  - destruct G as (Hu & Hi & Hs). specialize (Hinv _ eq_refl).
    split; [|split; [split; apply Hinv|split; [exact Hi|]]].
    + intros a b Ha Hb He. destruct (Hs a Ha) as (a' & Ha' & Ea).
      destruct (Hs b Hb) as (b' & Hb' & Eb). rewrite <- Ea, <- Eb. f_equal.
      apply (unique_ids_inj jobs); auto.
      rewrite (Hc a' a), (Hc b' b); auto.
    + intros j Hj. destruct (Hs j Hj) as (y & Hy & He). simpl.
      rewrite <- (Hc y j); auto. now apply in_map.
  - destruct e; try contradiction. do 2 eexists. split; [reflexivity|exact G].
  - exact G.
Qed.
Print Assumptions C08_construction.

(** Adding a job: a new identifier is appended; an equal job changes nothing;
    a different job of a known identifier is refused.  In no case do other
    jobs' results change. *)
Theorem C08_adding_a_job :
  forall eval_expr s j recompute s' x,
    exec_op get_dependency_set eval_expr (fun _ => []) (OpAdd (JTree j []) recompute) s = (s', x) ->
    match dget (j_id j) (st_map s) with
    | None =>
        st_jobs s' = st_jobs s ++ [j] /\
        outcome_of s' (j_id j) = Some None /\
        (forall k, k <> j_id j -> outcome_of s' k = outcome_of s k) /\
        (recompute = false -> x = None)
    | Some js =>
        same_but_readiness s s' /\
        (recompute = false ->
           x = if job_eqb j (js_job js) then None else Some (XDuplicate (js_job js) j)) /\
        (job_eqb j (js_job js) = false -> x <> None)
    end.
Proof.
  intros eval_expr s j rc s' x H. unfold exec_op in H. rewrite add_tree_eq in H.
  assert (Ho : forall a b k, frame a b -> outcome_of b k = outcome_of a k).
  { intros a b k F. destruct F as (_ & _ & _ & _ & _ & _ & He).
    apply (em_dget a b k) in He. unfold outcome_of.
    destruct (dget k (st_map b)), (dget k (st_map a)); try discriminate; auto.
    injection He as _ Hr _ _ _. simpl. now rewrite Hr. }
  unfold add_body in H. destruct (dget (j_id j) (st_map s)) as [js|] eqn:E.
  - simpl in H. destruct (job_eqb j (js_job js)) eqn:Ej; simpl in H; destruct rc.
    + pose proof (recompute_frame eval_expr s) as F. destruct (recompute eval_expr s) as [s1 [y|]];
        injection H as <- <-; simpl in F; split; try (now apply frame_same); split; congruence.
    + injection H as <- <-. split; [apply frame_same, frame_refl|]. split; congruence.
    + pose proof (recompute_frame eval_expr s) as F. destruct (recompute eval_expr s) as [s1 [y|]];
        injection H as <- <-; simpl in F; split; try (now apply frame_same); split; congruence.
    + injection H as <- <-. split; [apply frame_same, frame_refl|]. split; congruence.
  - simpl in H.
    assert (F : frame (added j s) s').
    { destruct rc.
      - pose proof (recompute_frame eval_expr (added j s)) as F.
        destruct (recompute eval_expr (added j s)) as [s1 [y|]]; injection H as <- <-; exact F.
      - injection H as <- <-. apply frame_refl. }
    split; [apply F|]. split; [|split].
    + rewrite (Ho _ _ _ F). unfold outcome_of. simpl. now rewrite dget_dset_same.
    + intros k Hk. rewrite (Ho _ _ _ F). unfold outcome_of. simpl. now rewrite dget_dset_other.
    + intros ->. now injection H as _ <-.
Qed.
Print Assumptions C08_adding_a_job.

(** Removing a job: exactly it disappears, and every other job keeps its
    result; a job that is not there is refused. *)
Theorem C08_removing_a_job :
  forall deps_of eval_expr records_of s j recompute s' x,
    reachable deps_of eval_expr records_of s ->
    sensible s (OpRemove j recompute) ->
    In j (st_jobs s) -> In j (st_units s) ->
    exec_op deps_of eval_expr records_of (OpRemove j recompute) s = (s', x) ->
    ~ In (j_id j) (map j_id (st_jobs s')) /\ outcome_of s' (j_id j) = None /\
    (forall y, j_id y <> j_id j -> (In y (st_jobs s') <-> In y (st_jobs s))) /\
    (forall k, k <> j_id j -> outcome_of s' k = outcome_of s k) /\
    (recompute = false -> x = None).
Proof.
  intros deps_of eval_expr records_of s j rc s' x Hr Hs Hj Hju H.
  apply Inv_reachable in Hr. rename Hr into I0.
  assert (Ho : forall a b k, frame a b -> outcome_of b k = outcome_of a k).
  { intros a b k F. destruct F as (_ & _ & _ & _ & _ & _ & He).
    apply (em_dget a b k) in He. unfold outcome_of.
    destruct (dget k (st_map b)), (dget k (st_map a)); try discriminate; auto.
    injection He as _ Hr _ _ _. simpl. now rewrite Hr. }
  unfold exec_op, remove_unit in H. simpl in Hs.
  destruct (job_remove_some j _ Hju) as [units Eu]. rewrite Eu in H.
  destruct (job_remove_some j _ Hj) as [jobs Ej]. rewrite Ej in H.
  destruct (job_remove_split _ _ _ Ej) as (l1 & y & l2 & Hl & -> & Hy & _).
  apply String.eqb_eq in Hy.
  assert (Hid : j_id y = j_id j).
  { apply Hs; auto. rewrite Hl, in_app_iff. simpl. auto. }
  assert (Hm : dmem (j_id j) (st_map s) = true).
  { apply dmem_In. rewrite (inv_keys _ (i_map _ I0)). now apply in_map. }
  rewrite Hm in H.
  set (s3 := mk_state (l1 ++ l2) units (ddel (j_id j) (st_map s)) (st_desired s)
               (st_mandatory s) (st_run s) (ddel (j_id j) (st_resources s))) in *.
  assert (F : frame s3 s').
  { destruct rc.
    - pose proof (recompute_frame eval_expr s3) as F. rewrite H in F. exact F.
    - injection H as <- <-. apply frame_refl. }
  assert (HJ : st_jobs s' = l1 ++ l2) by apply F.
  assert (Hu : ~ In (j_id y) (map j_id (l1 ++ l2))).
  { pose proof (i_unique _ I0) as Hu. rewrite Hl in Hu. unfold unique_ids in Hu.
    rewrite map_app in *. simpl in Hu. now apply NoDup_remove_2 in Hu. }
  rewrite HJ. split; [now rewrite <- Hid|]. split; [|split; [|split]].
  - rewrite (Ho _ _ _ F). unfold outcome_of. simpl. rewrite dget_ddel_same; auto.
    now apply inv_nodup.
  - intros z Hz. rewrite Hl, !in_app_iff. simpl. split; [tauto|].
    intros [G|[G|G]]; auto. congruence.
  - intros k Hk. rewrite (Ho _ _ _ F). unfold outcome_of. simpl. now rewrite dget_ddel_other.
  - intros ->. now injection H as _ <-.
Qed.
Print Assumptions C08_removing_a_job.

Example C08_case : in_step ex_run_log /\
  exists y, snd (ex_op (OpAdd (JTree (mk_job "lib" "other" 9 "shell" [] [] NoProg) []) true)
                  ex_run_log) = Some (XDuplicate ex_lib y).
Proof.
  split.
  - apply (C08_jobs_and_states_in_step get_dependency_set ex_eval ex_records).
    apply reach_op; [apply ex_run_pkg_reachable|].
    apply (ex_sensible _ ex_log); [eauto|simpl; auto|reflexivity].
  - eexists. vm_compute. reflexivity.
Qed.

(** Removing a job that is on the run list raises KeyError and leaves the run
    list pointing at a job the session no longer has; every later refreshing
    operation then raises too. *)
Theorem C08_removing_a_running_job_refuted :
  exists s j s', reachable get_dependency_set ex_eval ex_records s /\
    sensible s (OpRemove j true) /\ In j (st_run s) /\
    ex_op (OpRemove j true) s = (s', Some (XKeyError (j_id j))) /\
    In j (st_run s') /\ ~ In j (st_jobs s') /\
    snd (ex_op (OpAdd (JTree (mk_job "new" "s9" 9 "shell" [] [] NoProg) []) true) s') =
      Some (XKeyError (j_id j)).
Proof.
  exists ex_selected, ex_lib. eexists.
  split; [apply ex_selected_reachable|]. split.
  - intros x Hx. change (In x ex_jobs) in Hx. simpl in Hx.
    intuition (subst; auto; discriminate).
  - split; [vm_compute; auto|]. split; [vm_compute; reflexivity|].
    split; [vm_compute; auto|]. split; [|vm_compute; reflexivity].
    vm_compute. intuition discriminate.
Qed.
Print Assumptions C08_removing_a_running_job_refuted.
