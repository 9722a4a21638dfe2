(** Proofs about the selection loop of update_desired_job_list. *)
From Coq Require Import String List Relations Operators_Properties Bool NArith
  Arith Lia.
From Verif Require Import Base BaseFacts JobModel SolverModel SolverSpec
  SolverProofs SessionModel SessionSpec.
Import ListNotations.
Open Scope list_scope.

Lemma job_remove_length a l l' : job_remove a l = Some l' -> length l = S (length l').
Proof.
  revert l'. induction l as [|x l IH]; simpl; intros l' H; [discriminate|].
  destruct (job_eqb x a).
  - injection H as <-. auto.
  - destruct (job_remove a l) as [m|]; [|discriminate].
    injection H as <-. simpl. rewrite (IH m); auto.
Qed.

Lemma job_eqb_refl a : job_eqb a a = true.
Proof. unfold job_eqb. apply String.eqb_refl. Qed.

Lemma job_remove_some a l : In a l -> exists l', job_remove a l = Some l'.
Proof.
  induction l as [|x l IH]; simpl; [tauto|].
  intros [->|H].
  - rewrite job_eqb_refl. eauto.
  - destruct (job_eqb x a); eauto.
    destruct (IH H) as [m Hm]. rewrite Hm. simpl. eauto.
Qed.

Lemma job_remove_split a l l' : job_remove a l = Some l' ->
  exists l1 x l2, l = l1 ++ x :: l2 /\ l' = l1 ++ l2 /\ job_eqb x a = true /\
    (forall y, In y l1 -> job_eqb y a = false).
Proof.
  revert l'. induction l as [|x l IH]; simpl; intros l' H; [discriminate|].
  destruct (job_eqb x a) eqn:E.
  - injection H as <-. exists [], x, l. simpl. tauto.
  - destruct (job_remove a l) as [m|]; [|discriminate].
    injection H as <-. destruct (IH m eq_refl) as (l1 & y & l2 & -> & -> & Hy & Hn).
    exists (x :: l1), y, l2. simpl. repeat split; auto.
    intros z [<-|Hz]; auto.
Qed.

Lemma job_remove_none a l : job_remove a l = None -> forall x, In x l -> job_eqb x a = false.
Proof.
  induction l as [|y l IH]; simpl; [tauto|].
  destruct (job_eqb y a) eqn:E; [discriminate|].
  destruct (job_remove a l); [discriminate|].
  intros _ x [<-|Hx]; auto.
Qed.

Lemma remove_if_present_length a l : length (remove_if_present a l) <= length l.
Proof.
  unfold remove_if_present. destruct (job_remove a l) eqn:E; auto.
  apply job_remove_length in E. lia.
Qed.

Lemma remove_if_present_lt a l : In a l -> length (remove_if_present a l) < length l.
Proof.
  intros H. destruct (job_remove_some a l H) as [m E].
  unfold remove_if_present. rewrite E. apply job_remove_length in E. lia.
Qed.

Lemma remove_if_present_incl a l : incl (remove_if_present a l) l.
Proof.
  unfold remove_if_present. destruct (job_remove a l) eqn:E; [|apply incl_refl].
  apply job_remove_split in E. destruct E as (l1 & x & l2 & -> & -> & _).
  intros y. rewrite !in_app_iff. simpl. tauto.
Qed.

Lemma unique_ids_remove a l : unique_ids l -> unique_ids (remove_if_present a l).
Proof.
  unfold remove_if_present. destruct (job_remove a l) eqn:E; auto.
  apply job_remove_split in E. destruct E as (l1 & x & l2 & -> & -> & _).
  unfold unique_ids. rewrite !map_app. simpl. apply NoDup_remove_1.
Qed.

(** Elements other than the removed one stay. *)
Lemma remove_if_present_keeps J0 a l x :
  faithful_equality J0 -> incl l J0 -> In a J0 -> x <> a -> In x l ->
  In x (remove_if_present a l).
Proof.
  intros Hf Hl Ha Hne Hx. unfold remove_if_present.
  destruct (job_remove a l) as [m|] eqn:E; auto.
  apply job_remove_split in E. destruct E as (l1 & y & l2 & -> & -> & Hy & _).
  assert (y = a).
  { apply Hf; auto.
    - apply Hl. rewrite in_app_iff. simpl. auto.
    - left. now apply String.eqb_eq. }
  subst y. rewrite in_app_iff in *. simpl in Hx. intuition congruence.
Qed.

Lemma remove_if_present_gone J0 a l :
  faithful_equality J0 -> incl l J0 -> In a J0 -> unique_ids l ->
  ~ In a (remove_if_present a l).
Proof.
  intros Hf Hl Ha Hu. unfold remove_if_present.
  destruct (job_remove a l) as [m|] eqn:E.
  - apply job_remove_split in E. destruct E as (l1 & y & l2 & -> & -> & Hy & _).
    assert (y = a).
    { apply Hf; auto.
      - apply Hl. rewrite in_app_iff. simpl. auto.
      - left. now apply String.eqb_eq. }
    subst y. unfold unique_ids in Hu. rewrite map_app in Hu. simpl in Hu.
    apply NoDup_remove_2 in Hu. intros Hi. apply Hu.
    rewrite <- map_app. now apply in_map.
  - intros Hi. apply (job_remove_none _ _ E) in Hi.
    rewrite job_eqb_refl in Hi. discriminate.
Qed.

Lemma filter_remove J0 h a l :
  faithful_equality J0 -> incl l J0 -> In a J0 -> h a = false ->
  filter h (remove_if_present a l) = filter h l.
Proof.
  intros Hf Hl Ha Hh. unfold remove_if_present.
  destruct (job_remove a l) as [m|] eqn:E; auto.
  apply job_remove_split in E. destruct E as (l1 & y & l2 & -> & -> & Hy & _).
  assert (y = a).
  { apply Hf; auto.
    - apply Hl. rewrite in_app_iff. simpl. auto.
    - left. now apply String.eqb_eq. }
  subst y. rewrite !filter_app. simpl. now rewrite Hh.
Qed.

Section Select.
  Variable deps_of : job -> list (dep_type * name).

  (** ** The affected job is always one of the jobs at hand *)

  Lemma suffix_from_incl j t : incl (suffix_from j t) t.
  Proof.
    induction t as [|x t IH]; simpl; [apply incl_refl|].
    destruct (job_eqb x j); [apply incl_refl|].
    intros y Hy. right. auto.
  Qed.

  Lemma visit_affected (P : job -> Prop) jm :
    (forall d b, dget d jm = Some b -> P b) ->
    forall fuel st j tr e, P j -> (forall t, tr = Some t -> Forall P t) ->
    visit deps_of fuel jm st j tr = SErr e ->
    (forall a, affected_job e = Some a -> P a) /\
    (affected_job e = None -> e = DepAssert \/ e = DepTypeError).
  Proof.
    intros Hjm. induction fuel as [|fuel IH]; intros st j tr e Pj Ht H; [discriminate|].
    rewrite visit_S in H.
    destruct (dget (j_id j) (fst st)) as [[]|] eqn:Ec; try discriminate.
    - assert (Ht' : Forall P (match tr with None => [j] | Some t => t end)).
      { destruct tr; auto. }
      revert H. generalize (match tr with None => [j] | Some t => t end) Ht'.
      clear Ht Ht'. intros t Ht.
      generalize (dset (j_id j) Gray (fst st), snd st). intros s H.
      assert (G : exists s, vdeps deps_of fuel jm j t (deps_of j) s = SErr e).
      { exists s. destruct (vdeps deps_of fuel jm j t (deps_of j) s); congruence. }
      clear H s. destruct G as [s G]. revert s G.
      induction (deps_of j) as [|[ty d] deps IHd]; simpl; intros s G; [discriminate|].
      destruct (dget d jm) as [next|] eqn:En.
      + destruct (visit deps_of fuel jm s next (Some (t ++ [next]))) as [s1|e1|] eqn:Ev;
          try discriminate.
        * now apply (IHd s1).
        * injection G as <-. eapply IH; [| |exact Ev].
          -- eauto.
          -- intros t' [= <-]. apply Forall_app. split; auto. constructor; eauto.
      + injection G as <-. simpl. split; [intros a [= <-]; auto | discriminate].
    - destruct tr as [t|]; injection H as <-.
      + assert (Hs : Forall P (suffix_from j t)).
        { apply Forall_forall. intros x Hx. apply suffix_from_incl in Hx.
          specialize (Ht t eq_refl). rewrite Forall_forall in Ht. auto. }
        unfold mk_cycle_error. destruct (suffix_from j t) as [|f [|g r]].
        * simpl. split; [discriminate|auto].
        * simpl. split; [discriminate|auto].
        * destruct (job_is f _).
          -- simpl. split; [|discriminate]. intros a Ha. injection Ha as <-.
             now inversion Hs.
          -- simpl. split; [discriminate|auto].
      + simpl. split; [discriminate|auto].
    - injection H as <-. simpl. split; [intros a [= <-]; auto | discriminate].
  Qed.

  Lemma resolve_affected J V e :
    resolve deps_of J (Some V) = SErr e ->
    (forall a, affected_job e = Some a -> In a J \/ In a V) /\
    (affected_job e = None -> e = DepAssert \/ e = DepTypeError).
  Proof.
    unfold resolve. destruct (get_job_map J) as [jm|e1|] eqn:E; try discriminate.
    - apply get_job_map_ok in E. destruct E as [Hjm _].
      destruct (visit_all deps_of _ jm _ V) as [st|e1|] eqn:Ev; try discriminate.
      intros [= <-]. revert Ev.
      generalize (map (fun j => (j_id j, White)) J, @nil job) as st.
      generalize (S (S (length J))) as fuel. intros fuel.
      assert (HV : forall x, In x V -> In x J \/ In x V) by auto.
      revert HV. generalize V at 1 3. intros V1.
      induction V1 as [|j V1 IH]; simpl; intros HV st H; [discriminate|].
      destruct (visit deps_of fuel jm st j None) as [s1|e2|] eqn:Ev;
        try discriminate.
      + apply (IH (fun x Hx => HV x (or_intror Hx)) s1 H).
      + injection H as <-.
        eapply (visit_affected (fun x => In x J \/ In x V) jm); [| | |exact Ev].
        * intros d b Hd. apply Hjm in Hd. tauto.
        * apply HV. auto.
        * discriminate.
    - intros [= <-]. apply get_job_map_err in E.
      destruct E as (a & b & l1 & l2 & l3 & -> & _ & ->). simpl. split; [|discriminate].
      intros x [= <-]. rewrite !in_app_iff. simpl. auto.
  Qed.

  Lemma select_terminates fuel : forall J D P,
    length J + length D < fuel -> select deps_of fuel J D P <> SelFuel.
  Proof.
    induction fuel as [|fuel IH]; intros J D P Hf; [lia|].
    simpl. destruct D as [|d D]; [discriminate|].
    destruct (resolve deps_of J (Some (d :: D))) as [run|e|] eqn:E; try discriminate.
    - destruct (affected_job e) as [a|] eqn:Ea; [|discriminate].
      apply IH. apply resolve_affected in E. destruct E as [E _].
      specialize (E a Ea). simpl in Hf.
      pose proof (remove_if_present_length a J).
      pose proof (remove_if_present_length a (d :: D)). simpl in H0.
      destruct E as [Hi|Hi].
      + apply remove_if_present_lt in Hi. lia.
      + apply remove_if_present_lt in Hi. simpl in Hi. lia.
    - now elim (resolve_terminates deps_of J (Some (d :: D))).
  Qed.

  (** ** Healthy jobs *)

  Lemma needed_trans J V a : needed deps_of J V a -> forall b,
    needed deps_of J [a] b -> needed deps_of J V b.
  Proof.
    intros Ha b Hb. induction Hb as [j [<-|[]]|x y _ IH Hd]; auto.
    eapply needed_dep; eauto.
  Qed.

  Lemma needed_single J V a : needed deps_of J V a ->
    exists d, In d V /\ needed deps_of J [d] a.
  Proof.
    induction 1 as [j Hj|a b _ (d & Hd & Hn) Hdep].
    - exists j. split; auto. apply needed_wanted. simpl. auto.
    - exists d. split; auto. eapply needed_dep; eauto.
  Qed.

  Lemma needed_mono J J' V V' a : incl J J' -> incl V V' ->
    needed deps_of J V a -> needed deps_of J' V' a.
  Proof.
    intros HJ HV H. induction H as [j Hj|a b _ IH [Hb Hd]].
    - apply needed_wanted. auto.
    - eapply needed_dep; eauto. split; auto.
  Qed.

  Lemma healthy_needed J a b : healthy deps_of J a -> needed deps_of J [a] b ->
    healthy deps_of J b.
  Proof.
    intros [Hc Ha] Hn. split.
    - intros x d Hx Hd. apply (Hc x d); auto. eapply needed_trans; eauto.
    - intros x Hx. apply Ha. eapply needed_trans; eauto.
  Qed.

  Lemma clos_trans_mono J J' a b : incl J J' ->
    clos_trans job (depends deps_of J) a b -> clos_trans job (depends deps_of J') a b.
  Proof.
    intros HJ H. induction H as [a b [Hb Hd]|a b c _ IH1 _ IH2].
    - apply t_step. split; auto.
    - eapply t_trans; eauto.
  Qed.

  Section Loop.
    Variables J0 D0 : list job.
    Hypothesis Hu0 : unique_ids J0.
    Hypothesis Hf0 : faithful_equality (J0 ++ D0).
    Hypothesis HD0 : forall j, In j D0 -> In (j_id j) (map j_id J0) -> In j J0.

    Definition good a := In a J0 /\ healthy deps_of J0 a.
    Definition unhealthy a := ~ good a.

    Lemma J0_U a : In a J0 -> In a (J0 ++ D0).
    Proof. rewrite in_app_iff. auto. Qed.
    Lemma D0_U a : In a D0 -> In a (J0 ++ D0).
    Proof. rewrite in_app_iff. auto. Qed.
    Hint Resolve J0_U D0_U : core.

    Record LInv (J D : list job) (P : list dep_error) : Prop := {
      l_J : incl J J0;
      l_uJ : unique_ids J;
      l_D : incl D D0;
      l_keep : forall x, good x -> In x J;
      l_filter : forall h, (forall j, In j (J0 ++ D0) -> h j = true -> good j) ->
        filter h D = filter h D0;
      l_report : forall j, In j D0 -> In j D \/ exists e, In e P /\ affected_job e = Some j;
      l_real : forall e, In e P -> exists a, affected_job e = Some a /\ In a (J0 ++ D0) /\ unhealthy a;
      l_cause : P <> [] -> exists d, In d D0 /\ unhealthy d;
      l_none : P = [] -> J = J0 /\ D = D0
    }.

    Lemma LInv_init : LInv J0 D0 [].
    Proof.
      split; auto; try (apply incl_refl); simpl; try tauto.
      intros x [H _]. exact H.
    Qed.

    Lemma step_error J D P e : LInv J D P ->
      resolve deps_of J (Some D) = SErr e ->
      exists a, affected_job e = Some a /\ In a (J0 ++ D0) /\ unhealthy a /\
        (exists d, In d D0 /\ unhealthy d).
    Proof.
      intros L H.
      assert (HV : forall j, In j D -> In (j_id j) (map j_id J) -> In j J).
      { intros j Hj Hi. apply in_map_iff in Hi. destruct Hi as (x & Hx1 & Hx2).
        assert (x = j); [|congruence]. apply (unique_ids_inj J0); auto.
        - now apply (l_J _ _ _ L).
        - apply HD0; [now apply (l_D _ _ _ L)|]. rewrite <- Hx1. apply in_map.
          now apply (l_J _ _ _ L). }
      assert (HfJ : faithful_equality J).
      { intros x y Hx Hy. apply Hf0; apply J0_U; now apply (l_J _ _ _ L). }
      assert (root : forall a, unhealthy a -> needed deps_of J D a ->
                exists d, In d D0 /\ unhealthy d).
      { intros a Hun Hn. apply needed_single in Hn. destruct Hn as (d & Hd & Hn).
        exists d. split; [now apply (l_D _ _ _ L)|]. intros [HdJ Hh]. apply Hun.
        assert (Hn' : needed deps_of J0 [d] a).
        { eapply needed_mono; [exact (l_J _ _ _ L)| |exact Hn]. apply incl_refl. }
        split.
        - apply (needed_in_J deps_of J0 [d]); auto. intros x [<-|[]]. exact HdJ.
        - eapply healthy_needed; [exact Hh|]. exact Hn'. }
      destruct (resolve_unknown_genuine deps_of J (Some D) e HV HfJ H)
        as [(a & b & l1 & l2 & l3 & -> & He & HJ)|[[_ G]|(j & -> & Hj & Hn)]].
      - exfalso. pose proof (l_uJ _ _ _ L) as Hu. rewrite HJ in Hu.
        unfold unique_ids in Hu. rewrite map_app in Hu. simpl in Hu.
        apply NoDup_remove_2 in Hu. apply Hu. rewrite map_app. simpl.
        rewrite He, !in_app_iff. simpl. auto.
      - simpl in G. destruct e; simpl in G; try contradiction.
        + destruct G as (Hn & Hj & Hd & Hm).
          assert (HjJ : In j J0) by now apply (l_J _ _ _ L).
          assert (Hun : unhealthy j).
          { intros [_ [Hc Ha]]. destruct (Hc j missing) as (b & Hb & He).
            - apply needed_wanted. simpl. auto.
            - now exists ty.
            - apply Hm. rewrite <- He. apply in_map. apply (l_keep _ _ _ L). split; auto.
              apply (healthy_needed J0 j); [split; auto|].
              eapply needed_dep; [apply needed_wanted; left; reflexivity|].
              split; auto. rewrite He. now exists ty. }
          exists j. simpl. split; [reflexivity|]. split; [auto|]. split; [exact Hun|].
          exact (root j Hun Hn).
        + destruct G as (HF & HFJ & f & mid & -> & Hp).
          inversion HF as [|? ? Hn _]; subst. inversion HFJ as [|? ? Hj _]; subst.
          assert (HjJ : In f J0) by now apply (l_J _ _ _ L).
          assert (Hun : unhealthy f).
          { intros [_ [_ Ha]]. apply (Ha f).
            - apply needed_wanted. simpl. auto.
            - apply (clos_trans_mono J); [exact (l_J _ _ _ L)|].
              now apply (path_clos_trans deps_of J mid). }
          exists f. simpl. split; [reflexivity|]. split; [auto|]. split; [exact Hun|].
          exact (root f Hun Hn).
      - simpl in Hj, Hn.
        assert (HjD : In j D0) by now apply (l_D _ _ _ L).
        assert (Hun : unhealthy j).
        { intros Hh. apply Hn. apply in_map. apply (l_keep _ _ _ L); auto. }
        exists j. simpl. split; [reflexivity|]. split; [auto|]. split; [exact Hun|].
        exists j. split; auto.
    Qed.

    Lemma LInv_step J D P e a : LInv J D P ->
      affected_job e = Some a -> In a (J0 ++ D0) -> unhealthy a ->
      (exists d, In d D0 /\ unhealthy d) ->
      LInv (remove_if_present a J) (remove_if_present a D) (P ++ [e]).
    Proof.
      intros L Ha HaJ Hun Hroot.
      assert (HDJ : incl D (J0 ++ D0)).
      { intros x Hx. apply D0_U. now apply (l_D _ _ _ L). }
      assert (HJJ : incl J (J0 ++ D0)).
      { intros x Hx. apply J0_U. now apply (l_J _ _ _ L). }
      split.
      - intros x Hx. apply (l_J _ _ _ L). now apply (remove_if_present_incl a).
      - apply unique_ids_remove. exact (l_uJ _ _ _ L).
      - intros x Hx. apply (l_D _ _ _ L). now apply (remove_if_present_incl a).
      - intros x Hx. apply (remove_if_present_keeps (J0 ++ D0)); auto.
        + intros ->. contradiction.
        + now apply (l_keep _ _ _ L).
      - intros h Hh. rewrite (filter_remove (J0 ++ D0)); auto.
        + now apply (l_filter _ _ _ L).
        + destruct (h a) eqn:E; auto. elim Hun. auto.
      - intros j Hj. destruct (l_report _ _ _ L j Hj) as [G|(e' & He' & G)].
        + destruct (string_dec (j_sum j) (j_sum a)) as [Es|Es].
          * assert (j = a) by (apply Hf0; auto). subst j.
            right. exists e. rewrite in_app_iff. simpl. auto.
          * left. apply (remove_if_present_keeps (J0 ++ D0)); auto. congruence.
        + right. exists e'. rewrite in_app_iff. auto.
      - intros e' He'. apply in_app_iff in He'. destruct He' as [He'|[<-|[]]].
        + now apply (l_real _ _ _ L).
        + eauto.
      - intros _. exact Hroot.
      - intros E. destruct P; discriminate.
    Qed.

    Lemma final_ok J D P run : LInv J D P ->
      resolve deps_of J (Some D) = SOk run ->
      incl D run /\ incl run J /\ unique_ids run /\ dependency_ordered deps_of run /\
      (forall j, In j run <-> needed deps_of J0 D j) /\
      (forall j, In j D -> good j).
    Proof.
      intros L H. pose proof (resolve_ok_inv deps_of J (Some D) run H)
        as (HuJ & Hur & Ho & Hin & Hids & _). simpl in Hin.
      assert (HDJ : incl D J).
      { intros j Hj. specialize (Hids _ (Hin j Hj)). apply in_map_iff in Hids.
        destruct Hids as (x & Hx1 & Hx2). assert (x = j); [|congruence].
        apply (unique_ids_inj J0); auto.
        - now apply (l_J _ _ _ L).
        - apply HD0; [now apply (l_D _ _ _ L)|]. rewrite <- Hx1. apply in_map.
          now apply (l_J _ _ _ L). }
      pose proof (resolve_exact deps_of J (Some D) run HDJ H) as Hex. simpl in Hex.
      assert (HrJ : incl run J).
      { intros x Hx. apply (needed_in_J deps_of J D HDJ). now apply Hex. }
      assert (HrJ0 : incl run J0).
      { intros x Hx. apply (l_J _ _ _ L). auto. }
      assert (closed : forall a b, In a run -> depends deps_of J0 a b -> In b run).
      { intros a b Ha [Hb Hd]. apply in_split in Ha. destruct Ha as (l1 & l2 & Hr).
        pose proof (Ho l1 a l2 Hr _ Hd) as Hi. apply in_map_iff in Hi.
        destruct Hi as (x & Hx1 & Hx2).
        assert (Hxr : In x run) by (rewrite Hr, in_app_iff; auto).
        assert (x = b); [|congruence]. apply (unique_ids_inj J0); auto. }
      assert (HDr : incl D run).
      { intros x Hx. apply Hex. now apply needed_wanted. }
      assert (sub : forall V x, incl V run -> needed deps_of J0 V x -> In x run).
      { intros V x HV Hn. induction Hn as [x Hx|x y _ IH Hd]; auto.
        eapply closed; eauto. }
      split; [exact HDr|]. split; [exact HrJ|]. split; [exact Hur|]. split; [exact Ho|].
      split.
      - intros x. split.
        + intros Hx. apply Hex in Hx. eapply needed_mono; [exact (l_J _ _ _ L)| |exact Hx].
          apply incl_refl.
        + now apply sub.
      - intros j Hj. split; [now apply HrJ0, HDr|].
        assert (Hs : forall x, needed deps_of J0 [j] x -> In x run).
        { intros x. apply sub. intros y [<-|[]]. auto. }
        split.
        + intros a d Ha Hd. apply Hs in Ha. apply in_split in Ha.
          destruct Ha as (l1 & l2 & Hr). pose proof (Ho l1 a l2 Hr _ Hd) as Hi.
          apply in_map_iff in Hi. destruct Hi as (x & Hx1 & Hx2).
          exists x. split; auto. apply HrJ0. rewrite Hr, in_app_iff. auto.
        + intros a Ha. apply Hs in Ha. now apply (ordered_acyclic deps_of J0 run).
    Qed.

    Definition select_post (D run : list job) (P : list dep_error) : Prop :=
      (exists h, D = filter h D0 /\
         forall j, In j D0 -> (h j = true <-> In j J0 /\ healthy deps_of J0 j)) /\
      unique_ids run /\ dependency_ordered deps_of run /\ incl run J0 /\
      (forall j, In j run <-> needed deps_of J0 D j) /\
      (P = [] <-> D = D0) /\
      (forall j, In j D0 -> ~ In j D -> exists e, In e P /\ affected_job e = Some j) /\
      (forall e, In e P -> exists a, affected_job e = Some a /\ In a (J0 ++ D0) /\
         ~ (In a J0 /\ healthy deps_of J0 a)).

    Lemma select_correct fuel : forall J D P,
      LInv J D P -> length J + length D < fuel ->
      exists D' run P', select deps_of fuel J D P = SelOk D' run P' /\ select_post D' run P'.
    Proof.
      induction fuel as [|fuel IH]; intros J D P L Hf; [lia|].
      simpl. destruct D as [|d D].
      - exists [], [], P. split; auto. split.
        + exists (fun _ => false). split.
          * clear. induction D0; simpl; auto.
          * intros j Hj. split; [discriminate|]. intros Hh. exfalso.
            pose proof (l_report _ _ _ L j Hj) as [[]|(e & He & Ha)].
            destruct (l_real _ _ _ L e He) as (a & Ha' & _ & Hun). unfold unhealthy, good in Hun; assert (a = j) by congruence; subst; tauto.
        + split; [constructor|]. split; [apply dependency_ordered_nil|].
          split; [intros x []|]. split; [|split; [|split]].
          * intros x. split; [intros []|]. intros Hn.
            induction Hn as [x []|? ? _ []].
          * split.
            -- intros E. now apply (l_none _ _ _ L).
            -- intros E. destruct P as [|e P]; auto. exfalso.
               destruct (l_cause _ _ _ L) as (x & Hx & _); [discriminate|].
               rewrite <- E in Hx. destruct Hx.
          * intros j Hj _. destruct (l_report _ _ _ L j Hj) as [[]|G]. exact G.
          * exact (l_real _ _ _ L).
      - destruct (resolve deps_of J (Some (d :: D))) as [run|e|] eqn:E.
        + exists (d :: D), run, P. split; auto.
          destruct (final_ok _ _ _ _ L E) as (HDr & HrJ & Hur & Ho & Hex & Hh).
          split; [|split; [|split; [|split; [|split; [|split; [|split]]]]]].
          * set (h := fun j => smem (j_id j) (map j_id run)).
            assert (Hh' : forall j, In j (J0 ++ D0) -> h j = true -> In j run).
            { intros j Hj0 Hs. assert (Hj : In j J0).
              { apply in_app_iff in Hj0. destruct Hj0 as [Hj0|Hj0]; auto.
                apply HD0; auto. apply smem_In in Hs. apply in_map_iff in Hs.
                destruct Hs as (x & Hx1 & Hx2). rewrite <- Hx1. apply in_map.
                apply (l_J _ _ _ L). auto. }
              apply smem_In in Hs. apply in_map_iff in Hs.
              destruct Hs as (x & Hx1 & Hx2). assert (x = j); [|congruence].
              apply (unique_ids_inj J0); auto. apply (l_J _ _ _ L). auto. }
            assert (Hrun : forall j, In j run -> good j).
            { intros j Hj. split; [now apply (l_J _ _ _ L), HrJ|].
              apply Hex in Hj. apply needed_single in Hj.
              destruct Hj as (x & Hx & Hn). apply (healthy_needed J0 x); auto.
              now apply Hh. }
            exists h. split.
            -- rewrite <- (l_filter _ _ _ L h).
               ++ symmetry. assert (G : forall l, incl l run -> filter h l = l).
                  { induction l as [|x l IHl]; simpl; intros Hl; auto.
                    assert (Hx : h x = true).
                    { unfold h. apply smem_In. apply in_map. apply Hl. left. auto. }
                    rewrite Hx, IHl; auto. intros y Hy. apply Hl. right. auto. }
                  now apply G.
               ++ intros j Hj Ht. apply Hrun. auto.
            -- intros j Hj. split.
               ++ intros Ht. apply Hrun. auto.
               ++ intros Hhj. unfold h. apply smem_In. apply in_map.
                  destruct (l_report _ _ _ L j Hj) as [G|(e & He & Ha)].
                  ** auto.
                  ** destruct (l_real _ _ _ L e He) as (a & Ha' & _ & Hun). unfold unhealthy, good in Hun; assert (a = j) by congruence; subst; tauto.
          * exact Hur.
          * exact Ho.
          * intros x Hx. apply (l_J _ _ _ L). auto.
          * exact Hex.
          * split.
            -- intros EP. now apply (l_none _ _ _ L).
            -- intros ED. destruct P as [|e P]; auto. exfalso.
               destruct (l_cause _ _ _ L) as (x & Hx & Hun); [discriminate|].
               rewrite <- ED in Hx. apply Hun. auto.
          * intros j Hj Hn. destruct (l_report _ _ _ L j Hj) as [G|G]; tauto.
          * exact (l_real _ _ _ L).
        + destruct (step_error _ _ _ _ L E) as (a & Ha & HaJ & Hun & Hroot).
          rewrite Ha. apply IH.
          * now apply LInv_step.
          * apply resolve_affected in E. destruct E as [E _]. specialize (E a Ha).
            pose proof (remove_if_present_length a J).
            pose proof (remove_if_present_length a (d :: D)).
            destruct E as [Hi|Hi]; apply remove_if_present_lt in Hi; lia.
        + now elim (resolve_terminates deps_of J (Some (d :: D))).
    Qed.
  End Loop.
End Select.
