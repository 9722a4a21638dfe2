(** Ordinary use leads to sessions that can be resumed, and so does resuming. *)
From Coq Require Import Ascii String List Relations Bool NArith ZArith Arith Lia.
From Verif Require Import ScanModel JsonModel IologModel PathModel Base BaseFacts JobModel
  SolverModel SolverSpec SolverProofs SessionModel SessionSpec SelectProofs SessionProofs
  HistoryProofs ResumeModel ResumeSpec ResumeCodec ResumeSolve ResumeProofs
  ResumeRestore ResumeAny.
Import ListNotations.
Local Open Scope nat_scope.
Local Open Scope list_scope.

(** ** Wanting a job twice changes nothing *)

Section Twice.
  Variable deps_of : job -> list (dep_type * name).

  Lemma visit_all_app fuel jm l1 : forall st l2,
    visit_all deps_of fuel jm st (l1 ++ l2) =
    match visit_all deps_of fuel jm st l1 with
    | SOk st' => visit_all deps_of fuel jm st' l2
    | SErr e => SErr e
    | SFuel => SFuel
    end.
  Proof.
    induction l1 as [|j l1 IH]; intros st l2; cbn [app visit_all]; auto.
    destruct (visit deps_of fuel jm st j None); auto.
  Qed.

  Lemma visit_all_black fuel jm st l :
    (forall j, In j l -> dget (j_id j) (fst st) = Some Black) ->
    visit_all deps_of (S fuel) jm st l = SOk st.
  Proof.
    induction l as [|j l IH]; cbn [visit_all]; intros H; auto.
    cbn [visit]. rewrite (H j (or_introl eq_refl)). apply IH. intros x Hx. apply H. cbn. auto.
  Qed.

  Lemma resolve_twice J A V L : resolve deps_of J (Some (A ++ V)) = SOk L ->
    resolve deps_of J (Some (A ++ A ++ V)) = SOk L.
  Proof.
    unfold resolve. destruct (get_job_map J) as [jm| |] eqn:E; try discriminate.
    apply get_job_map_ok in E. destruct E as [Hjm _].
    rewrite (visit_all_app _ _ A _ (A ++ V)), (visit_all_app _ _ A _ V).
    destruct (visit_all deps_of (S (S (length J))) jm _ A) as [st| |] eqn:Ea; try discriminate.
    destruct (visit_all_ok deps_of J jm Hjm (S (S (length J))) A _ st (fun _ => True) (SolverProofs.Inv_init deps_of J)
      (top_closed deps_of J)) as [(HI & _) Hin]; auto.
    { apply Forall_forall. auto. }
    intros H. rewrite visit_all_app, visit_all_black; [exact H|].
    intros j Hj. apply (inv_black _ _ _ HI). auto.
  Qed.

  Lemma select_grows fuel : forall J D P D' run P',
    select deps_of fuel J D P = SelOk D' run P' -> exists q, P' = P ++ q.
  Proof.
    induction fuel as [|fuel IH]; intros J D P D' run P'; cbn [select].
    - destruct D; [|discriminate]. intros [= _ _ <-]. exists []. now rewrite app_nil_r.
    - destruct D as [|d D].
      { intros [= _ _ <-]. exists []. now rewrite app_nil_r. }
      destruct (resolve deps_of J (Some (d :: D))) as [r|e|]; [|destruct (affected_job e)|]; try discriminate.
      + intros [= _ _ <-]. exists []. now rewrite app_nil_r.
      + intros H. apply IH in H. destruct H as [q ->]. exists ([e] ++ q). now rewrite app_assoc.
  Qed.

  Lemma select_clean fuel J D D' run : unique_ids J ->
    select deps_of fuel J D [] = SelOk D' run [] ->
    D' = D /\ resolve deps_of J (Some D) = SOk run.
  Proof.
    intros Hu. destruct fuel as [|fuel]; cbn [select].
    - destruct D; [|discriminate]. intros [= <- <-]. split; auto.
      unfold resolve. destruct (get_job_map_unique J Hu) as [jm ->]. reflexivity.
    - destruct D as [|d D].
      { intros [= <- <-]. split; auto.
        unfold resolve. destruct (get_job_map_unique J Hu) as [jm ->]. reflexivity. }
      destruct (resolve deps_of J (Some (d :: D))) as [r|e|] eqn:E; [|destruct (affected_job e)|]; try discriminate.
      + intros [= <- <-]. auto.
      + intros H. apply select_grows in H. destruct H as [q H]. destruct q; discriminate.
  Qed.
End Twice.

(** The selection of a state. *)
Definition selection (s : state) := (st_desired s, st_mandatory s, st_run s).

Section Use.
  Variable deps_of : job -> list (dep_type * name).
  Variable eval_expr : expr -> list (list resource) -> bool.
  Variable records_of : result -> list resource.
  Variable siblings : job -> list jtree.
  Variable instantiate : job -> result -> list jtree.
  Variable supplied : list job.
  Variable dir : string.

  Notation reachable := (reachable deps_of eval_expr records_of).
  Notation obtainable := (obtainable siblings instantiate supplied).

  (** What ordinary use maintains. *)
  Record UInv (s : state) : Prop := {
    u_reach : reachable s;
    u_settled : forall k js, dget k (st_map s) = Some js -> settled js;
    u_storable : forall k js r, dget k (st_map s) = Some js -> In r (js_history js) -> storable dir r;
    u_obtainable : sourced (obtainable s) s;
    u_selected : incl (st_mandatory s ++ st_desired s) (st_jobs s);
    u_run : resolve deps_of (st_jobs s) (Some (st_mandatory s ++ st_desired s)) = SOk (st_run s);
    u_requirements : forall j, In j (st_run s) -> j_prog j <> BadProg
  }.

  Lemma job_entry s j : HistoryProofs.Inv s -> In j (st_jobs s) ->
    exists js, dget (j_id j) (st_map s) = Some js /\ js_job js = j.
  Proof.
    intros I Hj. pose proof (dget_jobs_In _ _ (i_unique _ I) Hj) as G.
    rewrite <- (i_map _ I), dget_jobmap in G.
    destruct (dget (j_id j) (st_map s)) as [js|]; [|discriminate]. cbn in G. injection G as <-. eauto.
  Qed.

  Lemma keeps_jobs s s' : HistoryProofs.Inv s -> HistoryProofs.Inv s' -> keeps s s' ->
    incl (st_jobs s) (st_jobs s').
  Proof.
    intros I I' K j Hj. destruct (job_entry s j I Hj) as (js & Hg & Ej).
    destruct (K _ _ Hg) as (js' & Hg' & Ej'). rewrite <- Ej, <- Ej'. apply (Inv_entry s' _ _ I' Hg').
  Qed.

  Lemma run_incl s : incl (st_mandatory s ++ st_desired s) (st_jobs s) ->
    resolve deps_of (st_jobs s) (Some (st_mandatory s ++ st_desired s)) = SOk (st_run s) ->
    incl (st_run s) (st_jobs s).
  Proof.
    intros Hs E. pose proof (resolve_ok_inv deps_of _ _ _ E) as (_ & _ & _ & _ & _ & H).
    specialize (H (fun j => In j (st_jobs s))). rewrite !Forall_forall in H. intros j Hj. apply H; auto.
    intros a b _ [Hb _]. exact Hb.
  Qed.

  (** Jobs stay, results are only added. *)
  Definition mono (s s' : state) : Prop :=
    forall k js, dget k (st_map s) = Some js -> exists js', dget k (st_map s') = Some js' /\
      js_job js' = js_job js /\ incl (js_history js) (js_history js').

  Lemma mono_keeps s s' : mono s s' -> keeps s s'.
  Proof. intros M k js H. destruct (M k js H) as (js' & H' & E & _). eauto. Qed.

  Lemma obtainable_mono s s' x :
    (forall p r, fruitful s p r -> fruitful s' p r) -> obtainable s x -> obtainable s' x.
  Proof.
    intros M H. induction H as [i j Hi Hj|p r t j _ IH Hf Ht Hj].
    - econstructor; eauto.
    - eapply ob_generated; eauto.
  Qed.

  Lemma fruitful_mono s s' : mono s s' -> forall p r, fruitful s p r -> fruitful s' p r.
  Proof.
    intros M p r (js & Hg & Hp & Hr & Ho). destruct (M _ _ Hg) as (js' & Hg' & E & Hi).
    exists js'. split; auto. split; [congruence|]. auto.
  Qed.

  Lemma ext_mono s s' : ext s s' -> mono s s'.
  Proof.
    intros X k js H. destruct (x_old _ _ X k js H) as (js' & H' & E). unfold core in E.
    injection E as E1 E2 E3. exists js'. rewrite E3. split; auto. split; auto. apply incl_refl.
  Qed.

  Lemma UInv_grow s s' : UInv s -> reachable s' -> selection s' = selection s -> mono s s' ->
    (forall k js', dget k (st_map s') = Some js' -> settled js' /\
       forall r, In r (js_history js') -> storable dir r) ->
    sourced (obtainable s') s' -> UInv s'.
  Proof.
    intros U R Hsel M He Ho. unfold selection in Hsel. injection Hsel as H1 H2 H3.
    pose proof (Inv_reachable _ _ _ _ (u_reach _ U)) as I.
    pose proof (Inv_reachable _ _ _ _ R) as I'.
    pose proof (keeps_jobs s s' I I' (mono_keeps _ _ M)) as Hj.
    pose proof (run_incl s (u_selected _ U) (u_run _ U)) as Hr.
    split; auto.
    - intros k js H. now apply (He k).
    - intros k js r H. now apply (He k).
    - rewrite H1, H2. eapply incl_tran; [apply U|exact Hj].
    - rewrite H1, H2, H3. apply (resolve_transfer deps_of (st_jobs s)); auto.
      + apply U.
      + apply I'.
      + eapply incl_tran; eauto.
    - rewrite H3. apply U.
  Qed.

  Lemma selection_frame s s' : frame s s' -> selection s' = selection s.
  Proof. intros (H1 & H2 & H3 & H4 & H5 & H6 & H7). unfold selection. congruence. Qed.

  Lemma selection_add t b s : selection (fst (add_tree eval_expr b t s)) = selection s.
  Proof.
    apply (Q_add_tree eval_expr (fun x => selection x = selection s)); auto.
    intros x x' F E. rewrite (selection_frame _ _ F). exact E.
  Qed.

  Lemma ext_add t b s : ext s (fst (add_tree eval_expr b t s)).
  Proof.
    apply (Q_add_tree eval_expr (ext s)); auto.
    - intros x x' F E. eapply ext_trans; [exact E|now apply ext_frame].
    - intros x j Hn E. eapply ext_trans; [exact E|now apply ext_added].
    - apply ext_refl.
  Qed.

  Lemma fresh_settled js : fresh js -> settled js /\ forall r, In r (js_history js) -> storable dir r.
  Proof.
    intros [E1 E2]. unfold settled. rewrite E1, E2. split; [|intros r []]. split; [easy|]. split; auto.
    intros h1 a b h2 H. destruct h1; discriminate.
  Qed.

  Lemma ext_entries s s' : ext s s' ->
    (forall k js, dget k (st_map s) = Some js -> settled js /\
       forall r, In r (js_history js) -> storable dir r) ->
    forall k js', dget k (st_map s') = Some js' -> settled js' /\
       forall r, In r (js_history js') -> storable dir r.
  Proof.
    intros X H k js' Hk. destruct (dget k (st_map s)) as [js|] eqn:E.
    - destruct (x_old _ _ X k js E) as (js2 & H2 & Ec). assert (js2 = js') by congruence. subst js2.
      unfold core in Ec. injection Ec as E1 E2 E3. unfold settled. rewrite E2, E3. now apply (H k).
    - apply fresh_settled. now apply (x_new _ _ X k).
  Qed.

  Lemma u_entries s : UInv s -> forall k js, dget k (st_map s) = Some js -> settled js /\
       forall r, In r (js_history js) -> storable dir r.
  Proof. intros U k js H. split; [now apply (u_settled _ U k)|intros r; now apply (u_storable _ U k)]. Qed.

  Lemma UInv_add s i : UInv s -> In i supplied ->
    UInv (fst (add_tree eval_expr true (JTree i (siblings i)) s)).
  Proof.
    intros U Hi. pose proof (ext_add (JTree i (siblings i)) true s) as X.
    apply (UInv_grow s); auto.
    - apply (reach_op _ _ _ s (OpAdd (JTree i (siblings i)) true) (u_reach _ U)). exact I.
    - apply selection_add.
    - now apply ext_mono.
    - apply (ext_entries _ _ X). now apply u_entries.
    - apply sourced_add_tree.
      + intros x Hx. eapply ob_supplied; eauto.
      + intros k js Hk. apply (obtainable_mono s); [apply fruitful_mono; now apply ext_mono|].
        now apply (u_obtainable _ U k).
  Qed.

  Lemma last_In {A} (l : list A) d : l <> [] -> In (last l d) l.
  Proof.
    induction l as [|x l IH]; intros H; [congruence|]. destruct l as [|y l].
    - left. reflexivity.
    - right. change (last (x :: y :: l) d) with (last (y :: l) d). apply IH. discriminate.
  Qed.

  Lemma settled_set r js : settled js -> r <> empty_result -> settled (set_result r js) /\
    incl (js_history js) (js_history (set_result r js)) /\
    In r (js_history (set_result r js)) /\
    (forall x, In x (js_history (set_result r js)) -> x = r \/ In x (js_history js)).
  Proof.
    intros (S1 & S2 & S3) Hr. unfold set_result. destruct (result_eqb r (js_result js)) eqn:E.
    - apply result_eqb_eq in E. split; [split; auto|]. split; [apply incl_refl|]. split; auto.
      rewrite E, S3. apply last_In. intros Eh. rewrite Eh in S3. cbn in S3. congruence.
    - assert (Eh : is_hollow r = false).
      { destruct (is_hollow r) eqn:Eh; auto. apply hollow_spec in Eh. contradiction. }
      rewrite Eh. cbn [js_history]. split; [|split; [|split]].
      + unfold settled. cbn [js_history js_result]. split; [|split].
        * rewrite in_app_iff. intros [H|[H|[]]]; [auto|congruence].
        * intros h1 a b h2 H. destruct h2 as [|c h2 _] using rev_ind.
          -- assert (H' : js_history js ++ [r] = (h1 ++ [a]) ++ [b]) by (rewrite H, <- app_assoc; reflexivity).
             apply app_inj_tail in H'. destruct H' as [Hh ->].
             rewrite Hh, last_last in S3. intros ->. rewrite S3, result_eqb_refl in E. discriminate.
          -- rewrite app_comm_cons, app_comm_cons, app_assoc in H.
             apply app_inj_tail in H. destruct H as [H _]. now apply (S2 h1 a b h2).
        * now rewrite last_last.
      + apply incl_appl, incl_refl.
      + rewrite in_app_iff. cbn. auto.
      + intros x. rewrite in_app_iff. cbn. intuition.
  Qed.

  Lemma UInv_result s j r : UInv s -> In j (st_jobs s) -> r <> empty_result -> storable dir r ->
    UInv (fst (update_job_result eval_expr records_of j r (instantiate j r) s)).
  Proof.
    intros U Hj Hr Hst. pose proof (Inv_reachable _ _ _ _ (u_reach _ U)) as Is.
    destruct (job_entry s j Is Hj) as (js & Hg & Ej).
    destruct (settled_set r js (u_settled _ U _ _ Hg) Hr) as (T1 & T2 & T3 & T4).
    set (s' := fst (update_job_result eval_expr records_of j r (instantiate j r) s)).
    assert (R' : reachable s').
    { apply reach_update; [apply U|]. exists js. auto. }
    assert (X : ext (noted records_of j r js s) s' /\ selection s' = selection s).
    { unfold s', update_job_result. rewrite (observe_eq _ _ _ _ _ _ _ Hg).
      assert (Q : forall n, selection n = selection s ->
        ext n (fst (add_generated eval_expr j (instantiate j r) n)) /\
        selection (fst (add_generated eval_expr j (instantiate j r) n)) = selection s).
      { intros n Hn. apply (Q_add_generated eval_expr (fun x => ext n x /\ selection x = selection s)).
        - intros x x' F [E1 E2]. split; [eapply ext_trans; [exact E1|now apply ext_frame]|].
          rewrite (selection_frame _ _ F). exact E2.
        - intros x y Hy [E1 E2]. split; [eapply ext_trans; [exact E1|now apply ext_added]|exact E2].
        - intros x k y v Hy [E1 E2]. split; [eapply ext_trans; [exact E1|now apply (ext_via x k y)]|exact E2].
        - split; [apply ext_refl|exact Hn]. }
      assert (Hsn : selection (noted records_of j r js s) = selection s).
      { unfold noted, parse_and_store_resource. destruct (String.eqb _ _); [|reflexivity].
        destruct (r_outcome r); reflexivity. }
      set (O := if String.eqb (j_plugin j) "resource" then _ else _).
      assert (KO : ext (noted records_of j r js s) (fst O) /\ selection (fst O) = selection s).
      { unfold O. destruct (String.eqb (j_plugin j) "resource"); [destruct (r_outcome r)|].
        - now apply Q.
        - split; [apply ext_refl|exact Hsn].
        - split; [apply ext_refl|exact Hsn]. }
      destruct O as [S1 [x|]]; auto. cbn [fst] in *. destruct KO as [K1 K2].
      pose proof (recompute_frame eval_expr S1) as F. split.
      - eapply ext_trans; [exact K1|now apply ext_frame].
      - rewrite (selection_frame _ _ F). exact K2. }
    destruct X as [X Hsel].
    assert (M : mono s s').
    { intros k jk Hk. destruct (String.eqb_spec k (j_id j)) as [->|Hn].
      - assert (jk = js) by congruence. subst jk.
        destruct (x_old _ _ X (j_id j) (set_result r js)) as (js' & H' & Ec).
        { rewrite noted_map, dget_dset, String.eqb_refl. reflexivity. }
        unfold core in Ec. injection Ec as E1 E2 E3. exists js'. rewrite E1, E3, set_result_job. auto.
      - destruct (x_old _ _ X k jk) as (js' & H' & Ec).
        { rewrite noted_map, dget_dset. destruct (String.eqb_spec k (j_id j)); [contradiction|auto]. }
        unfold core in Ec. injection Ec as E1 E2 E3. exists js'. rewrite E1, E3. split; auto.
        split; [auto|apply incl_refl]. }
    assert (Hfr : r_outcome r <> None -> j_plugin j = "resource"%string -> fruitful s' j r).
    { intros Ho Hp. destruct (x_old _ _ X (j_id j) (set_result r js)) as (js' & H' & Ec).
      { rewrite noted_map, dget_dset, String.eqb_refl. reflexivity. }
      unfold core in Ec. injection Ec as E1 E2 E3. exists js'. split; auto.
      rewrite set_result_job in E1. rewrite E3. split; [congruence|]. auto. }
    assert (Hob : sourced (obtainable s') s).
    { intros k jk Hk. apply (obtainable_mono s); [now apply fruitful_mono|].
      now apply (u_obtainable _ U k). }
    apply (UInv_grow s); auto.
    - apply (ext_entries _ _ X). intros k jk Hk. rewrite noted_map, dget_dset in Hk.
      destruct (String.eqb_spec k (j_id j)).
      + injection Hk as <-. split; auto. intros x Hx. destruct (T4 x Hx) as [->|Hx']; auto.
        now apply (u_storable _ U _ _ x Hg).
      + now apply (u_entries s U k).
    - assert (Hoj : obtainable s' j).
      { pose proof (Hob (j_id j) js Hg) as G. rewrite Ej in G. exact G. }
      change (sourced (obtainable s') (fst (update_job_result eval_expr records_of j r (instantiate j r) s))).
      apply sourced_update; eauto. intros t x Ht Hx Ho Hp.
      apply (ob_generated _ _ _ _ j r t); auto.
  Qed.

  Lemma UInv_select s l1 l2 s' : UInv s -> incl (l1 ++ l2) (st_jobs s) ->
    update_desired_job_list deps_of eval_expr l2 true (update_mandatory_job_list l1 s) =
      Some (s', inr []) -> UInv s'.
  Proof.
    intros U Hi H. pose proof (Inv_reachable _ _ _ _ (u_reach _ U)) as Is.
    set (s1 := update_mandatory_job_list l1 s) in *.
    assert (R1 : reachable s1).
    { apply (reach_op _ _ _ s (OpMandatory l1) (u_reach _ U)). exact I. }
    pose proof (reach_op _ _ _ s1 (OpDesired l2 true) R1 I) as R2. cbn [exec_op] in R2.
    rewrite H in R2. cbn [fst] in R2.
    unfold update_desired_job_list in H. cbn [st_mandatory st_jobs s1 update_mandatory_job_list] in H.
    destruct (select _ _ _ _ _) as [D run P|D|] eqn:Es; try discriminate.
    destruct (recompute eval_expr _) as [s2 [x|]] eqn:Er; [discriminate|]. injection H as -> ->.
    apply select_clean in Es; [|apply Is]. destruct Es as [-> Hres].
    match type of Er with recompute _ ?x = _ => set (s0 := x) in * end.
    pose proof (recompute_frame eval_expr s0) as F. rewrite Er in F. cbn [fst] in F.
    pose proof F as (F1 & F2 & F3 & F4 & F5 & F6 & F7). cbn in F1, F3, F4, F5.
    assert (X : ext s s').
    { apply (ext_trans s s0 s'); [|now apply ext_frame]. split; auto.
      - intros k js Hk. exists js. auto.
      - intros k js' H1 H2. cbn in H1. congruence. }
    assert (Hur : unique_ids run) by (now apply resolve_ok_inv in Hres).
    split; auto.
    - intros k js Hk. now apply (ext_entries s s' X (u_entries s U) k js Hk).
    - intros k js r Hk. now apply (ext_entries s s' X (u_entries s U) k js Hk).
    - apply (sourced_frame _ s0 s' F). intros k js Hk.
      apply (obtainable_mono s); [apply fruitful_mono; now apply ext_mono|].
      now apply (u_obtainable _ U k).
    - rewrite F1, F3, F4. intros x Hx. apply Hi. rewrite !in_app_iff in *. tauto.
    - rewrite F1, F3, F4, F5. apply resolve_twice. exact Hres.
    - rewrite F5. intros j Hj Hb. destruct (recompute_ok_all eval_expr s0 s' Hur Er j Hj) as [il G].
      unfold get_inhibitor_list, requirement_inhibitors in G. rewrite Hb in G. discriminate.
  Qed.

  Lemma UInv_trim s q s' : UInv s ->
    (forall k js, dget k (st_map s) = Some js -> q (js_job js) = true -> js_history js = []) ->
    trim_job_list q s = (s', false) -> UInv s'.
  Proof.
    intros U Hq H. pose proof (Inv_reachable _ _ _ _ (u_reach _ U)) as Is.
    pose proof (reach_op _ _ _ s (OpTrim q) (u_reach _ U) I) as R2. cbn [exec_op] in R2.
    rewrite H in R2. cbn [fst] in R2. pose proof (Inv_reachable _ _ _ _ R2) as I2.
    pose proof (run_incl s (u_selected _ U) (u_run _ U)) as Hrun.
    unfold trim_job_list in H. destruct (existsb _ (filter q (st_jobs s))) eqn:Ex; [discriminate|].
    injection H as <-.
    assert (Hget : forall k, dget k (fold_left (fun m j => ddel (j_id j) m) (filter q (st_jobs s)) (st_map s))
      = if in_dec string_dec k (map j_id (filter q (st_jobs s))) then None else dget k (st_map s)).
    { intros k. apply (proj2 (dget_fold_ddel (filter q (st_jobs s)) (st_map s) k (inv_nodup s Is))). }
    assert (Hold : forall k js, dget k (fold_left (fun m j => ddel (j_id j) m) (filter q (st_jobs s)) (st_map s))
      = Some js -> dget k (st_map s) = Some js).
    { intros k js. rewrite Hget. destruct (in_dec _ _ _); [discriminate|auto]. }
    assert (Hq' : forall k js, dget k (st_map s) = Some js ->
      In k (map j_id (filter q (st_jobs s))) -> q (js_job js) = true).
    { intros k js Hk Hin. destruct (Inv_entry s k js Is Hk) as [Hj Hid].
      apply in_map_iff in Hin. destruct Hin as (x & Ex' & Hx). apply filter_In in Hx.
      destruct Hx as [Hx Hqx]. replace (js_job js) with x; auto.
      pose proof (dget_jobs_In _ _ (i_unique _ Is) Hx) as G1.
      pose proof (dget_jobs_In _ _ (i_unique _ Is) Hj) as G2.
      rewrite Ex' in G1. rewrite Hid in G2. congruence. }
    assert (Hr : incl (st_run s) (filter (fun j => negb (q j)) (st_jobs s))).
    { intros j Hj. apply filter_In. split; auto. apply negb_true_iff. apply not_true_is_false.
      intros Hqj. assert (T : existsb (fun j => smem (j_id j) (map j_id (st_run s))) (filter q (st_jobs s)) = true).
      { apply existsb_exists. exists j. split; [apply filter_In; auto|]. apply smem_In. now apply in_map. }
      congruence. }
    split; cbn [st_map st_jobs st_desired st_mandatory st_run]; auto; try apply U.
    - intros k js Hk. apply (u_settled _ U k). auto.
    - intros k js r Hk. apply (u_storable _ U k). auto.
    - intros k js Hk. cbn [st_map] in Hk. apply (obtainable_mono s).
      + intros p r (jp & Hg & Hp & Hin & Ho). exists jp. cbn [st_map]. rewrite Hget.
        destruct (in_dec _ _ _) as [Hd|_]; auto. exfalso.
        rewrite (Hq _ jp Hg (Hq' _ jp Hg Hd)) in Hin. destruct Hin.
      + apply (u_obtainable _ U k). auto.
    - intros j Hj. apply Hr. pose proof (resolve_ok_inv deps_of _ _ _ (u_run _ U)) as (_ & _ & _ & H & _).
      cbn in H. specialize (H j Hj). apply in_map_iff in H. destruct H as (x & Ex' & Hx).
      replace j with x; auto. pose proof (u_selected _ U j Hj) as Hj'. apply Hrun in Hx as Hx'.
      pose proof (dget_jobs_In _ _ (i_unique _ Is) Hx') as G1.
      pose proof (dget_jobs_In _ _ (i_unique _ Is) Hj') as G2. rewrite Ex' in G1. congruence.
    - apply (resolve_transfer deps_of (st_jobs s)); auto.
      + apply U.
      + apply I2.
  Qed.

  Lemma UInv_init units s : incl units supplied -> init_session units = SOk s -> UInv s.
  Proof.
    intros Hi H. pose proof (HistoryProofs.Inv_init units s H) as Is.
    assert (R : reachable s) by now apply (reach_init _ _ _ units).
    unfold init_session in H.
    pose proof (dedup_spec (S (length units)) units _ ltac:(lia) eq_refl) as G.
    destruct (dedup_jobs (S (length units)) units) as [jobs|e|]; try discriminate.
    injection H as <-.
    assert (Hm : forall k js, dget k (map (fun j => (j_id j, new_jstate j)) jobs) = Some js ->
      exists x, In x jobs /\ js = new_jstate x).
    { intros k js H. apply dget_In in H. apply in_map_iff in H.
      destruct H as (x & [= <- <-] & Hx). eauto. }
    split; cbn [st_map st_jobs st_desired st_mandatory st_run]; auto.
    - intros k js H. destruct (Hm k js H) as (x & _ & ->). now apply fresh_settled.
    - intros k js r H. destruct (Hm k js H) as (x & _ & ->). intros [].
    - intros k js H. destruct (Hm k js H) as (x & Hx & ->). apply (ob_supplied _ _ _ _ x).
      + apply Hi. now apply G.
      + constructor.
    - intros x [].
    - unfold resolve. destruct (get_job_map_unique jobs (i_unique _ Is)) as [jm ->]. reflexivity.
  Qed.

  Lemma used_UInv s : used deps_of eval_expr records_of siblings instantiate supplied dir s -> UInv s.
  Proof.
    induction 1 as [units s Hi H|s i s' _ IH Hi H|s j r s' _ IH Hj Hr Hst H|s l1 l2 s' _ IH Hi H|s q s' _ IH Hq H].
    - now apply (UInv_init units).
    - pose proof (UInv_add s i IH Hi) as G. rewrite H in G. exact G.
    - pose proof (UInv_result s j r IH Hj Hr Hst) as G. rewrite H in G. exact G.
    - now apply (UInv_select s l1 l2).
    - now apply (UInv_trim s q).
  Qed.
End Use.
