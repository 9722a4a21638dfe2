(** Theorems about session summaries (properties C09, C10). *)
From Coq Require Import String List Bool ZArith Permutation.
From Verif Require Import Base BaseFacts JobModel SessionModel OutcomeModel OutcomeSpec.
Import ListNotations.
Open Scope string_scope.
Open Scope list_scope.

Lemma beq_refl o : outcome_beq o o = true.
Proof. now destruct o. Qed.
Lemma beq_eq a b : outcome_beq a b = true <-> a = b.
Proof. destruct a, b; simpl; split; congruence. Qed.

(** * Verdicts *)

Lemma verdict_snoc l o c : verdict l o -> verdict (l ++ [c]) (combine o c).
Proof.
  unfold verdict. rewrite !in_app_iff. simpl.
  destruct c as [[]|]; simpl; intros H;
    (destruct H as [[H ->]|[(H1 & H2 & H3 & ->)|(H1 & H2 & H3 & ->)]]; simpl; intuition congruence).
Qed.

Lemma verdict_snoc_none l o : verdict l o -> verdict (l ++ [None]) o.
Proof.
  intros H. pose proof (verdict_snoc l o None H) as G.
  assert (combine o None = o); [|congruence].
  destruct H as [[H ->]|[(H1 & H2 & H3 & ->)|(H1 & H2 & H3 & ->)]]; reflexivity.
Qed.

Lemma verdict_nil : verdict [] OSkip.
Proof. unfold verdict. simpl. tauto. Qed.

Lemma verdict_fun l a b : verdict l a -> verdict l b -> a = b.
Proof. unfold verdict. intuition congruence. Qed.

Lemma verdict_perm l l' o : (forall x, In x l <-> In x l') -> verdict l o -> verdict l' o.
Proof. unfold verdict. intros H. rewrite !H. auto. Qed.

(** * C09 *)

(** A category is reported iff one of its jobs has an outcome, and its verdict
    is the verdict of its jobs. *)
Theorem C09_category_verdict :
  forall l c,
    match dget c (category_outcome_map l) with
    | Some o => verdict (outcomes_in_category c l) o /\
        exists e, In e l /\ en_category e = c /\ en_outcome e <> None
    | None => forall e, In e l -> en_category e = c -> en_outcome e = None
    end.
Proof.
  intros l c. unfold category_outcome_map.
  set (wanted := map en_category
      (filter (fun e => match en_outcome e with None => false | Some _ => true end) l)).
  assert (Hw : In c wanted <-> exists e, In e l /\ en_category e = c /\ en_outcome e <> None).
  { unfold wanted. rewrite in_map_iff. split.
    - intros (e & He & Hf). apply filter_In in Hf. destruct Hf as [Hf Ho].
      exists e. split; auto. split; auto. destruct (en_outcome e); congruence.
    - intros (e & Hi & He & Ho). exists e. split; auto. apply filter_In. split; auto.
      destruct (en_outcome e); congruence. }
  clearbody wanted.
  set (f := fun (m : dict outcome) e =>
    if smem (en_category e) wanted then
      let m1 := if dmem (en_category e) m then m else dset (en_category e) OSkip m in
      match dget (en_category e) m1 with
      | Some acc => dset (en_category e) (combine acc (en_outcome e)) m1
      | None => m1
      end
    else m).
  assert (G : forall pre,
    match dget c (fold_left f pre []) with
    | Some o => verdict (outcomes_in_category c pre) o /\ In c wanted
    | None => forall e, In e pre -> en_category e = c -> ~ In c wanted
    end).
  { intros pre. induction pre as [|e pre IH] using rev_ind; [simpl; tauto|].
    rewrite fold_left_app. simpl. unfold outcomes_in_category in *.
    rewrite filter_app, map_app. simpl. set (m := fold_left f pre []) in *.
    assert (Hother : en_category e <> c -> dget c (f m e) = dget c m).
    { intros Hne. unfold f. destruct (smem (en_category e) wanted); auto. cbv zeta.
      assert (Hm1 : forall m1, dget c m1 = dget c m ->
         dget c (match dget (en_category e) m1 with
            | Some acc => dset (en_category e) (combine acc (en_outcome e)) m1
            | None => m1 end) = dget c m).
      { intros m1 H1. destruct (dget (en_category e) m1); auto.
        rewrite dget_dset_other; auto. }
      apply Hm1. destruct (dmem (en_category e) m); auto. rewrite dget_dset_other; auto. }
    destruct (String.eqb_spec (en_category e) c) as [He|He].
    - unfold f. rewrite He. destruct (smem c wanted) eqn:Es.
      + apply smem_In in Es. cbv zeta.
        destruct (dmem c m) eqn:Ed.
        * apply dmem_In, dget_In_keys in Ed. destruct Ed as [acc Ea]. rewrite Ea in *.
          rewrite dget_dset_same. split; auto. simpl. now apply verdict_snoc.
        * apply dmem_false, dget_None in Ed. rewrite Ed in IH.
          rewrite !dget_dset_same. split; auto.
          replace (map en_outcome (filter (fun x => String.eqb (en_category x) c) pre))
            with (@nil (option outcome)).
          -- simpl. apply (verdict_snoc [] OSkip). apply verdict_nil.
          -- symmetry. destruct (filter _ pre) as [|x r] eqn:Ef; auto. exfalso.
             assert (Hx : In x (filter (fun x => String.eqb (en_category x) c) pre))
               by (rewrite Ef; left; auto).
             apply filter_In in Hx. destruct Hx as [Hx1 Hx2]. apply String.eqb_eq in Hx2.
             now apply (IH x Hx1 Hx2).
      + apply smem_false in Es. destruct (dget c m) as [o|] eqn:Ed; [tauto|].
        intros. exact Es.
    - rewrite Hother by auto. simpl. rewrite app_nil_r.
      destruct (dget c m); auto. intros x Hx. apply in_app_iff in Hx.
      destruct Hx as [Hx|[<-|[]]]; [apply (IH x Hx)|congruence]. }
  specialize (G l). destruct (dget c (fold_left f l [])) as [o|].
  - destruct G as [G1 G2]. split; auto. now apply Hw.
  - intros e He Hc. destruct (en_outcome e) eqn:Eo; auto. exfalso.
    apply (G e He Hc). apply Hw. exists e. split; auto. split; auto. congruence.
Qed.
Print Assumptions C09_category_verdict.

(** The order of the jobs does not matter. *)
Theorem C09_category_verdict_ignores_order :
  forall l l' c, Permutation l l' ->
    dget c (category_outcome_map l) = dget c (category_outcome_map l').
Proof.
  intros l l' c HP.
  assert (Hin : forall x, In x l <-> In x l').
  { intros x. split; apply Permutation_in; auto. now symmetry. }
  assert (Hcat : forall x, In x (outcomes_in_category c l) <-> In x (outcomes_in_category c l')).
  { intros x. unfold outcomes_in_category. rewrite !in_map_iff.
    split; intros (e & He & Hf); apply filter_In in Hf; exists e; (split; auto);
      apply filter_In; split; try apply Hin; tauto. }
  pose proof (C09_category_verdict l c) as G. pose proof (C09_category_verdict l' c) as G'.
  destruct (dget c (category_outcome_map l)) as [o|], (dget c (category_outcome_map l')) as [o'|].
  - destruct G as [G _], G' as [G' _]. f_equal. apply (verdict_perm _ _ _ Hcat) in G.
    eapply verdict_fun; eauto.
  - destruct G as (_ & e & He & Hc & Ho). elim Ho. apply G'; auto. now apply Hin.
  - destruct G' as (_ & e & He & Hc & Ho). elim Ho. apply G; auto. now apply Hin.
  - reflexivity.
Qed.
Print Assumptions C09_category_verdict_ignores_order.

(** The overall outcome of all resource (or attachment) jobs. *)
Theorem C09_plugin_verdict :
  forall plugin l, verdict (outcomes_of_plugin plugin l) (plugin_global_outcome plugin l).
Proof.
  intros p l. unfold plugin_global_outcome, outcomes_of_plugin.
  induction l as [|e l IH] using rev_ind; [apply verdict_nil|].
  rewrite fold_left_app, filter_app, map_app. simpl.
  destruct (String.eqb (en_plugin e) p); simpl.
  - destruct (en_outcome e) as [o|] eqn:Eo; simpl.
    + exact (verdict_snoc _ _ (Some o) IH).
    + exact (verdict_snoc_none _ _ IH).
  - now rewrite app_nil_r.
Qed.
Print Assumptions C09_plugin_verdict.

Theorem C09_plugin_verdict_ignores_order :
  forall plugin l l', Permutation l l' ->
    plugin_global_outcome plugin l = plugin_global_outcome plugin l'.
Proof.
  intros p l l' HP. apply (verdict_fun (outcomes_of_plugin p l')).
  - apply (verdict_perm (outcomes_of_plugin p l)); [|apply C09_plugin_verdict].
    intros x. unfold outcomes_of_plugin. rewrite !in_map_iff.
    split; intros (e & He & Hf); apply filter_In in Hf; exists e; (split; auto);
      apply filter_In; (split; [|tauto]);
      [apply (Permutation_in _ HP)|apply (Permutation_in _ (Permutation_sym HP))]; tauto.
  - apply C09_plugin_verdict.
Qed.
Print Assumptions C09_plugin_verdict_ignores_order.

(** Outcome statistics count, and mention exactly the outcomes that occur. *)
Theorem C09_stats_count :
  forall l o, oget o (get_outcome_stats l) =
    match occurrences o l with 0 => None | n => Some n end.
Proof.
  intros l o. unfold get_outcome_stats, occurrences.
  assert (Hinc : forall x d, oget o (oinc x d) =
    if outcome_beq x o then Some (match oget o d with Some n => S n | None => 1 end)
    else oget o d).
  { intros x d. induction d as [|[y n] d IH]; simpl.
    - destruct o, x; reflexivity.
    - destruct (outcome_beq x y) eqn:Exy; simpl.
      + apply beq_eq in Exy. subst y. destruct (outcome_beq o x) eqn:E.
        * apply beq_eq in E. subst x. now rewrite beq_refl.
        * destruct (outcome_beq x o) eqn:E2; auto. apply beq_eq in E2. subst.
          rewrite beq_refl in E. discriminate.
      + destruct (outcome_beq o y) eqn:E; [|exact IH].
        apply beq_eq in E. subst y. now rewrite Exy. }
  induction l as [|e l IH] using rev_ind; [reflexivity|].
  rewrite fold_left_app, filter_app, app_length. simpl.
  destruct (en_outcome e) as [x|]; simpl.
  - rewrite Hinc, IH. destruct (outcome_beq x o); simpl.
    + rewrite Nat.add_comm. simpl. destruct (length _); reflexivity.
    + rewrite Nat.add_0_r. reflexivity.
  - rewrite Nat.add_0_r. exact IH.
Qed.
Print Assumptions C09_stats_count.

(** The names of the categories that have a test (neither a resource nor an
    attachment) with an outcome; of several units with the same id the last
    one names the category. *)
Theorem C09_category_names :
  forall units l c n,
    dget c (category_map units l) = Some n <->
    (exists e, In e l /\ en_category e = c /\ en_outcome e <> None /\
       en_plugin e <> "resource" /\ en_plugin e <> "attachment") /\
    (exists before after, units = before ++ (c, n) :: after /\
       ~ In c (map fst after)).
Proof.
  intros units l c n. unfold category_map.
  set (wanted := map en_category (filter _ l)).
  assert (Hw : In c wanted <-> exists e, In e l /\ en_category e = c /\ en_outcome e <> None /\
       en_plugin e <> "resource" /\ en_plugin e <> "attachment").
  { unfold wanted. rewrite in_map_iff. split.
    - intros (e & He & Hf). apply filter_In in Hf. destruct Hf as [Hf Ho].
      apply andb_prop in Ho. destruct Ho as [Ho Hp]. apply negb_true_iff in Hp.
      apply smem_false in Hp. simpl in Hp.
      exists e. split; auto. split; auto. split; [destruct (en_outcome e); congruence|].
      intuition congruence.
    - intros (e & Hi & He & Ho & Hp1 & Hp2). exists e. split; auto. apply filter_In. split; auto.
      apply andb_true_intro. split; [destruct (en_outcome e); congruence|].
      apply negb_true_iff, smem_false. simpl. intuition congruence. }
  rewrite <- Hw. clearbody wanted. clear Hw.
  induction units as [|[k v] units IH] using rev_ind.
  - simpl. split; [discriminate|]. intros [_ (b & a & H & _)]. destruct b; discriminate.
  - rewrite fold_left_app. simpl.
    assert (Hsplit : forall x, (exists before after, units ++ [(k, v)] = before ++ (c, x) :: after /\
         ~ In c (map fst after)) <->
       (k = c /\ v = x) \/ (k <> c /\ exists before after, units = before ++ (c, x) :: after /\
         ~ In c (map fst after))).
    { intros x. split.
      - intros (b & a & H & Hn). destruct a as [|[k' v'] a] using rev_ind.
        + apply app_inj_tail in H. destruct H as [_ [= -> ->]]. auto.
        + clear IHa. rewrite app_comm_cons, app_assoc in H. apply app_inj_tail in H.
          destruct H as [-> [= <- <-]]. right. rewrite map_app, in_app_iff in Hn. simpl in Hn.
          split; [intros ->; tauto|]. exists b, a. tauto.
      - intros [[-> ->]|(Hne & b & a & -> & Hn)].
        + exists units, []. simpl. auto.
        + exists b, (a ++ [(k, v)]). rewrite <- app_assoc. split; auto.
          rewrite map_app, in_app_iff. simpl. intuition congruence. }
    rewrite Hsplit. destruct (smem k wanted) eqn:Es.
    + apply smem_In in Es. rewrite dget_dset. destruct (String.eqb_spec c k) as [->|Hne].
      * split.
        -- intros [= ->]. auto.
        -- intros [_ [[_ ->]|[H _]]]; congruence.
      * rewrite IH. intuition congruence.
    + apply smem_false in Es. rewrite IH. split.
      * intros [H1 H2]. split; auto. right. split; auto. intros ->. contradiction.
      * intros [H1 [[-> _]|[_ H2]]]; [contradiction|auto].
Qed.
Print Assumptions C09_category_names.

(** The certification map keeps exactly the matching entries, in order. *)
Theorem C09_certification_filter :
  forall outcomes statuses l e,
    In e (get_certification_status_map outcomes statuses l) <->
    In e l /\ In (en_outcome e) outcomes /\ In (en_cert e) statuses.
Proof.
  intros os ss l e. unfold get_certification_status_map.
  rewrite filter_In, andb_true_iff, existsb_exists, smem_In.
  split.
  - intros (H & (o & Ho & Hm) & Hs). split; auto. split; auto.
    destruct o as [a|], (en_outcome e) as [b|]; try discriminate; auto.
    apply beq_eq in Hm. congruence.
  - intros (H & Ho & Hs). split; auto. split; auto. exists (en_outcome e). split; auto.
    destruct (en_outcome e); auto. apply beq_refl.
Qed.
Print Assumptions C09_certification_filter.

Example C09_case :
  let l := [mk_entry "a" "audio" "shell" (Some OPass) ""; mk_entry "b" "audio" "shell" (Some OCrash) "";
            mk_entry "c" "disk" "manual" (Some OSkip) ""; mk_entry "d" "disk" "shell" (Some OPass) "";
            mk_entry "e" "net" "shell" None ""; mk_entry "f" "audio" "shell" (Some OPass) ""] in
  category_outcome_map l = [("audio", OFail); ("disk", OPass)] /\
  get_outcome_stats l = [(OPass, 3); (OCrash, 1); (OSkip, 1)].
Proof. vm_compute. auto. Qed.

(** * C10 *)

Section C10.
  Variable seconds : Type.
  Variable zero : seconds.
  Variable add : seconds -> seconds -> seconds.

  (** The sum of a list, from left to right. *)
  Definition total (l : list seconds) : seconds := fold_left add l zero.

  (** The estimates of the automated jobs. *)
  Definition automated_times (l : list (timed seconds)) : list seconds :=
    flat_map (fun j => if t_automated _ j
                       then match t_estimate _ j with Some d => [d] | None => [] end
                       else []) l.

  (** For each manual job the overhead and its estimate. *)
  Definition manual_times (overhead : seconds) (l : list (timed seconds)) : list seconds :=
    flat_map (fun j => if t_automated _ j then []
                       else overhead :: match t_estimate _ j with Some d => [d] | None => [] end) l.

  (** [unknown j]: the job makes the estimate of its kind unknown. *)
  Definition automated_unknown (j : timed seconds) : Prop :=
    t_automated _ j = true /\ t_estimate _ j = None.
  Definition manual_unknown (j : timed seconds) : Prop :=
    t_automated _ j = false /\ t_estimate _ j = None /\ t_command _ j = true.

  Lemma duration_spec overhead l :
    let (a, m) := get_estimated_duration seconds zero add overhead l in
    (forall x, a = Some x -> x = total (automated_times l) /\
       forall j, In j l -> ~ automated_unknown j) /\
    (a = None -> exists j, In j l /\ automated_unknown j) /\
    (forall x, m = Some x -> x = total (manual_times overhead l) /\
       forall j, In j l -> ~ manual_unknown j) /\
    (m = None -> exists j, In j l /\ manual_unknown j).
  Proof.
    unfold get_estimated_duration, total, automated_times, manual_times.
    induction l as [|j l IH] using rev_ind.
    - simpl. repeat split; try discriminate; try tauto; congruence.
    - rewrite fold_left_app, !flat_map_app, !fold_left_app. cbn [fold_left].
      destruct (fold_left _ l _) as [a m]. destruct IH as (H1 & H2 & H3 & H4).
      assert (Hx : forall P : timed seconds -> Prop,
        (exists x, In x l /\ P x) -> exists x, In x (l ++ [j]) /\ P x).
      { intros P (x & Hx & HP). exists x. rewrite in_app_iff. auto. }
      assert (Hj : In j (l ++ [j])) by (rewrite in_app_iff; simpl; auto).
      destruct j as [auto_ est cmd]. unfold duration_step. simpl.
      destruct auto_; [destruct a as [a|]; [destruct est as [d|]|]|
                       destruct m as [m|]; [destruct est as [d|]; [|destruct cmd]|]];
      simpl; repeat split; intros; try discriminate; try congruence;
      repeat match goal with
      | H : Some _ = Some _ |- _ => injection H as <-
      | H : In _ (_ ++ [_]) |- _ => apply in_app_iff in H; destruct H as [H|[<-|[]]]
      end;
      try solve [
        f_equal; now apply H1 | f_equal; f_equal; now apply H3 | f_equal; now apply H3
        | now apply H1 | now apply H3 | now (eapply H1; eauto) | now (eapply H3; eauto)
        | intros [? ?]; simpl in *; discriminate
        | intros (? & ? & ?); simpl in *; discriminate
        | apply Hx; auto
        | eexists; split; [exact Hj|]; repeat split ].
  Qed.
End C10.

(** For each kind of job the answer is the sum over the run list, unless some
    job makes it unknown; seconds may be any type with a zero and an addition,
    so this includes the rounding of floats. *)
Theorem C10_sum_or_unknown :
  forall (seconds : Type) (zero : seconds) add overhead run_list automated manual,
    get_estimated_duration seconds zero add overhead run_list = (automated, manual) ->
    (automated = Some (total seconds zero add (automated_times seconds run_list)) /\
       (forall j, In j run_list -> ~ automated_unknown seconds j)
     \/ automated = None /\ exists j, In j run_list /\ automated_unknown seconds j) /\
    (manual = Some (total seconds zero add (manual_times seconds overhead run_list)) /\
       (forall j, In j run_list -> ~ manual_unknown seconds j)
     \/ manual = None /\ exists j, In j run_list /\ manual_unknown seconds j).
Proof.
  intros seconds zero add oh rl a m H. pose proof (duration_spec seconds zero add oh rl) as G.
  rewrite H in G. destruct G as (G1 & G2 & G3 & G4). split.
  - destruct a as [x|]; [left|right]; auto. destruct (G1 x eq_refl) as [-> ?]. auto.
  - destruct m as [x|]; [left|right]; auto. destruct (G3 x eq_refl) as [-> ?]. auto.
Qed.
Print Assumptions C10_sum_or_unknown.

(** The English property says "None exactly when a job of that kind has no
    estimate".  For manual jobs this is false: a manual job without an estimate
    and without a command counts as the overhead alone. *)
Theorem C10_manual_unknown_refuted :
  exists run_list, (exists j, In j run_list /\ t_automated Z j = false /\ t_estimate Z j = None) /\
    get_estimated_duration Z 0%Z Z.add 30%Z run_list = (Some 0, Some 30)%Z.
Proof.
  exists [mk_timed Z false None false]. split; [|reflexivity].
  eexists. split; [left; reflexivity|]. auto.
Qed.
Print Assumptions C10_manual_unknown_refuted.

Example C10_case :
  get_estimated_duration Z 0%Z Z.add 30%Z
    [mk_timed Z true (Some 5%Z) true; mk_timed Z false (Some 7%Z) true;
     mk_timed Z true (Some 6%Z) true; mk_timed Z false None true; mk_timed Z false (Some 1%Z) false]
  = (Some 11%Z, None).
Proof. reflexivity. Qed.
