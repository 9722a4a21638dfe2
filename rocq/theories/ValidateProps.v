(** * Validation: what passes, what is reported and what the verdict is *)
From Coq Require Import QArith.
From Coq Require Import Ascii String List Bool Arith Lia.
From Verif Require Import ScanModel Rfc822Model XparseModel JsonModel DurationModel FieldsModel SiblingsModel ValidateModel ValidateSpec.
From Verif Require Import Rfc822Proofs IniProofs FieldsProps SiblingsProofs ValidateProofs.
From Verif Require Import Base JobModel SolverModel SolverSpec SolverProofs SolverProps.
Import ListNotations.
Local Open Scope nat_scope.
Local Open Scope list_scope.

Section Props.
  Variable P : Type.
  Variable vformat : P -> text -> text + fault.
  Variable render : option P -> text -> text.
  Variable accessed : bool -> text -> list text + fault.
  Variable has_param : P -> text -> bool.
  Variable shlex : text -> option nat.
  Variable py_float : text -> option Q.
  Variable number_truth : text -> bool.
  Variable isfile : text -> bool.
  Variable data_path : unit_ P -> text -> text.
  Variable job_attribute : text -> bool.
  Variable program : unit_ P -> list text + fault.
  Variable imported : text -> list text + fault.
  Variable template_resource_id : unit_ P -> option text + fault.
  Variable filter_program : unit_ P -> bool + fault.
  Variable other_validators : text -> list (text * list (validator P)).
  Variable try_instance : vunit P -> (vunit P + fault) + fault.

  Notation check := (ValidateModel.check P vformat render accessed has_param shlex py_float number_truth isfile data_path
    job_attribute program imported template_resource_id filter_program other_validators try_instance).
  Notation check_all := (ValidateModel.check_all P vformat render accessed has_param shlex py_float number_truth isfile data_path
    job_attribute program imported template_resource_id filter_program other_validators try_instance).
  Notation check_alone := (ValidateModel.check_alone P vformat render accessed has_param shlex py_float number_truth isfile data_path
    job_attribute program imported template_resource_id filter_program other_validators try_instance).
  Notation check_fields := (ValidateModel.check_fields P vformat render accessed has_param shlex py_float number_truth isfile data_path
    job_attribute program imported template_resource_id filter_program other_validators).
  Notation accepted := (ValidateModel.accepted P vformat render accessed has_param shlex py_float number_truth isfile data_path
    job_attribute program imported template_resource_id filter_program other_validators try_instance).
  Notation validate := (ValidateModel.validate P vformat render accessed has_param shlex py_float number_truth isfile data_path
    job_attribute program imported template_resource_id filter_program other_validators try_instance).
  Notation validators_of := (ValidateModel.validators_of P vformat render py_float number_truth isfile data_path
    job_attribute program imported template_resource_id filter_program other_validators).
  Notation template_validators := (ValidateModel.template_validators P vformat render imported template_resource_id filter_program).
  Notation job_validators := (ValidateModel.job_validators P vformat render py_float number_truth isfile data_path
    job_attribute program imported).
  Notation run := (ValidateModel.run P vformat render accessed has_param shlex).
  Notation vunit := (vunit P).
  Notation provider := (provider P).
  Notation fresh all := (mk_context P all None).
  Notation sees := (sees P vformat render data_path program imported).
  Notation identifier := (identifier P vformat render).
  Notation kind := (kind P vformat render).
  Notation plug := (plug P vformat render).
  Notation legible := (legible P vformat render).
  Notation told := (told P vformat render).

  (** A unit whose fields can all be read *)
  Definition readable (u : vunit) : Prop := exists val, legible u val.
  (** No error was reported and nothing was raised *)
  Definition passes (g : gen) : Prop := snd g = None /\ forall i, In i (fst g) -> i_sev i <> Error.
  Definition fit (u : vunit) (w : view) : Prop :=
    well_formed P accessed has_param shlex py_float isfile job_attribute
      (jinja P (v_unit P u)) (f_params P (v_unit P u)) (f_data P (v_unit P u)) w.
  Definition connected (all : list vunit) (u : vunit) (w : view) : Prop := well_connected vunit identifier kind plug all u w.
  Definition without_parameters (u : vunit) : Prop := f_params P (v_unit P u) = None.

  (** ** What can be read *)
  Theorem C61_units_without_parameters_can_be_read : forall u, without_parameters u ->
    readable u /\ (v_cls P u = CJob -> exists w, sees u w).
  Proof.
    intros u H. split.
    - eexists. apply (plain_legible P vformat render u H).
    - intros C. eexists. apply plain_sees; assumption.
  Qed.

  Lemma readable_map : forall all, (forall x, In x all -> readable x) -> exists m, value_map P vformat render [] all = inl m.
  Proof. intros all H. apply value_map_ok. exact H. Qed.

  (** ** Jobs *)
  Theorem C61_a_job_alone_passes_exactly_when_well_formed : forall u w, v_cls P u = CJob -> sees u w ->
    (passes (check_alone u) <-> fit u w).
  Proof.
    intros u w C S. unfold ValidateModel.check_alone, ValidateModel.check_fields. rewrite C. simpl ValidateModel.validators_of.
    unfold fit. rewrite <- (job_table_clean P vformat render accessed has_param shlex py_float number_truth isfile data_path job_attribute program imported u w S).
    apply table_clean_spec.
  Qed.

  Theorem C61_a_job_passes_exactly_when_well_formed_and_connected : forall all u w, (forall x, In x all -> readable x) ->
    In u all -> v_cls P u = CJob -> sees u w ->
    (passes (fst (check u (fresh all))) <-> fit u w /\ connected all u w).
  Proof.
    intros all u w R I C S. destruct (readable_map all R) as (m & M).
    refine (job_check_clean P vformat render accessed has_param shlex py_float number_truth isfile data_path job_attribute program imported
      template_resource_id filter_program other_validators try_instance all (fresh all) m u w R (fresh_good P vformat render all m M) eq_refl C I S).
  Qed.

  Theorem C61_checking_a_job_raises_nothing : forall all u, (forall x, In x all -> readable x) -> In u all -> v_cls P u = CJob ->
    without_parameters u -> snd (fst (check u (fresh all))) = None.
  Proof.
    intros all u R I C N. destruct (readable_map all R) as (m & M).
    destruct (check_told P vformat render accessed has_param shlex py_float number_truth isfile data_path job_attribute program imported
      template_resource_id filter_program other_validators try_instance u (fresh all) m (fresh_good P vformat render all m M)) as (c & -> & _). simpl.
    apply fine_gapp.
    - unfold ValidateModel.check_alone, ValidateModel.check_fields. rewrite C. simpl ValidateModel.validators_of.
      apply fine_gcat, Forall_map. eapply Forall_impl; [|apply (job_table_fine P vformat render accessed has_param shlex py_float number_truth isfile data_path job_attribute program imported u N C)].
      intros fv H. now apply fine_gcat, Forall_map.
    - unfold told_all. rewrite C. simpl ValidateModel.validators_of. apply fine_gcat, Forall_map. unfold flat.
      pose proof (job_told_fine P vformat render py_float number_truth isfile data_path job_attribute program imported all m u R M N C I) as F.
      revert F. generalize job_validators. induction l as [|[f vs] l IH]; simpl; intros F; auto.
      apply Forall_cons_iff in F as [F1 F]. apply Forall_app. split; auto. rewrite Forall_map. exact F1.
  Qed.

  (** ** Units share what was computed from all of them *)
  Lemma in_context_broken : forall v u f c e, value_map P vformat render [] (c_units P c) = inr e -> c_cache P c = None ->
    snd (run_in_context P vformat render v u f c) = c.
  Proof.
    intros v u f [us ca] e H N. simpl in *. subst ca. unfold run_in_context, compute_shared. simpl in *. destruct v; auto; now rewrite H.
  Qed.
  Lemma run_all_broken : forall l u c e, value_map P vformat render [] (c_units P c) = inr e -> c_cache P c = None ->
    snd (run_all P vformat render l u c) = c.
  Proof.
    induction l as [|[f v] l IH]; intros u c e H N; simpl; auto.
    pose proof (in_context_broken v u f c e H N) as B. destruct (run_in_context P vformat render v u f c) as [g c']. simpl in B. subst c'.
    destruct (snd g); auto. pose proof (IH u c e H N) as B. destruct (run_all P vformat render l u c). simpl in *. auto.
  Qed.
  Theorem C61_sharing_changes_nothing : forall all us,
    fst (check_all us (fresh all)) = gcat (map (fun u => fst (check u (fresh all))) us).
  Proof.
    intros all us. destruct (value_map P vformat render [] all) as [m|e] eqn:M.
    - pose proof (fresh_good P vformat render all m M) as G.
      destruct (check_all_told P vformat render accessed has_param shlex py_float number_truth isfile data_path job_attribute program imported
        template_resource_id filter_program other_validators try_instance us _ m G) as (c & -> & _). simpl. f_equal. apply map_ext. intros u.
      destruct (check_told P vformat render accessed has_param shlex py_float number_truth isfile data_path job_attribute program imported
        template_resource_id filter_program other_validators try_instance u _ m G) as (c' & -> & _). reflexivity.
    - induction us as [|u us IH]; simpl; auto.
      assert (B : snd (check u (fresh all)) = fresh all).
      { unfold ValidateModel.check, check_together. destruct (snd (check_alone u)); auto.
        pose proof (run_all_broken (flat P (validators_of (v_cls P u))) u (fresh all) e M eq_refl) as B.
        destruct (run_all P vformat render _ u (fresh all)). simpl in *. auto. }
      destruct (check u (fresh all)) as [[l o] c']. simpl in *. subst c'. destruct o as [x|]; simpl; auto.
      rewrite <- IH. destruct (check_all us (fresh all)). reflexivity.
  Qed.

  (** ** The verdict *)
  Lemma early_spec : forall p i, In i (early_issues P p) -> i_sev i = Error /\ p_problems P p <> [].
  Proof.
    intros p i H. unfold early_issues in H. apply in_flat_map in H as (x & X & I). apply in_map_iff in I as ([k o] & <- & I).
    split; auto. intros N. now rewrite N in I.
  Qed.
  Lemma early_none : forall p, p_problems P p = [] <-> early_issues P p = [].
  Proof.
    intros p. unfold early_issues. split; [now intros ->|]. destruct (p_problems P p) as [|x l]; auto. simpl. discriminate.
  Qed.
  Lemma gcat_plain : forall (f : vunit -> gen) us, (forall u, In u us -> snd (f u) = None) ->
    gcat (map f us) = (flat_map (fun u => fst (f u)) us, None).
  Proof.
    induction us as [|u us IH]; simpl; intros H; auto. rewrite IH by auto. specialize (H u (or_introl eq_refl)).
    destruct (f u) as [l o]. simpl in *. subst o. reflexivity.
  Qed.

  Theorem C61_the_verdict : forall strict deprecated installed categories manifest p,
    let all := flat_map (p_units P) (provider_list P installed categories manifest p) in
    let said u := fst (check u (fresh all)) in
    (forall u, In u (p_units P p) -> snd (said u) = None) ->
    exists shown hidden failed,
      validate strict deprecated installed categories manifest p = Verdict shown hidden failed /\
      (failed = false <-> p_problems P p = [] /\
         forall u i, In u (p_units P p) -> In i (fst (said u)) -> i_sev i <> Error /\ (strict = true -> i_sev i = Advice)) /\
      (forall i, In i shown <->
         (In i (early_issues P p) \/ exists u, In u (p_units P p) /\ In i (fst (said u))) /\
         (i_sev i = Advice -> strict = true \/ (deprecated = true /\ i_kind i = Deprecated))) /\
      (hidden = 0 <-> forall u i, In u (p_units P p) -> In i (fst (said u)) -> In i shown).
  Proof.
    intros strict deprecated installed categories manifest p all said N. unfold ValidateModel.validate. fold all.
    rewrite C61_sharing_changes_nothing. fold said. change (fun u => fst (check u (fresh all))) with said. rewrite gcat_plain by exact N.
    cbn [gapp fst snd]. set (l := early_issues P p ++ flat_map (fun u => fst (said u)) (p_units P p)).
    assert (LI : forall i, In i l <-> (In i (early_issues P p) \/ exists u, In u (p_units P p) /\ In i (fst (said u)))).
    { intros i. unfold l. rewrite in_app_iff, in_flat_map. reflexivity. }
    assert (SH : forall i, shows strict deprecated i = true <-> (i_sev i = Advice -> strict = true \/ (deprecated = true /\ i_kind i = Deprecated))).
    { intros i. unfold shows, is_advice, is_deprecated. rewrite !orb_true_iff, negb_true_iff, andb_true_iff.
      destruct (i_sev i), (i_kind i), strict, deprecated; intuition congruence. }
    do 3 eexists. split; [reflexivity|]. split; [|split].
    - rewrite <- not_true_iff_false, existsb_exists. split.
      + intros H. assert (E : p_problems P p = []).
        { apply early_none. destruct (early_issues P p) as [|i e] eqn:E; auto. exfalso. apply H. exists i.
          assert (I : In i (early_issues P p)) by (rewrite E; now left). split; [apply (proj2 (LI i)); left; now left|].
          apply early_spec in I as [S _]. unfold fails, is_error. now rewrite S. }
        split; auto. intros u i Iu Ii. assert (K : fails strict i = false).
        { apply not_true_iff_false. intros K. apply H. exists i. split; auto. apply LI. eauto. }
        unfold fails, is_error, is_warning, is_advice in K. destruct (i_sev i), strict; simpl in K; split; intros; congruence.
      + intros [E H] (i & I & F). apply LI in I as [I|(u & Iu & Ii)].
        * apply early_spec in I as [_ I]. contradiction.
        * destruct (H u i Iu Ii) as [A B]. unfold fails, is_error, is_warning, is_advice in F. destruct (i_sev i), strict; simpl in F; try congruence. specialize (B eq_refl). discriminate.
    - intros i. rewrite filter_In, LI, SH. reflexivity.
    - assert (X : forall (f : issue -> bool) k, length k - length (filter f k) = 0 <-> forall i, In i k -> f i = true).
      { intros f k. assert (Y : length k = length (filter f k) + length (filter (fun i => negb (f i)) k)).
        { clear. induction k as [|i k IH]; simpl; auto. destruct (f i); simpl; lia. }
        split.
        - intros Z i I. destruct (f i) eqn:F; auto. assert (W : In i (filter (fun i => negb (f i)) k)) by (apply filter_In; rewrite F; auto).
          destruct (filter (fun i => negb (f i)) k); [contradiction|simpl in Y; lia].
        - intros H. assert (Z : filter (fun i => negb (f i)) k = []).
          { clear Y. induction k as [|i k IH]; simpl; auto. rewrite (H i) by now left. simpl. apply IH. intros; apply H. now right. }
          rewrite Z in Y. simpl in Y. lia. }
      rewrite X. split.
      + intros H u i Iu Ii. apply filter_In. assert (I : In i l) by (apply LI; eauto). split; auto.
      + intros H i I. apply LI in I as [I|(u & Iu & Ii)].
        * apply early_spec in I as [S _]. unfold shows, is_advice. now rewrite S.
        * apply (H u i Iu) in Ii. now apply filter_In in Ii.
  Qed.

  (** A provider that is found valid, of a name that is not installed yet, none of whose units
      has parameters; everything it may refer to can be read *)
  Lemma new_provider_in : forall installed categories manifest (p : provider), ~ In (p_name P p) (map (p_name P) installed) ->
    In p (provider_list P installed categories manifest p).
  Proof.
    intros installed categories manifest p N. unfold provider_list.
    assert (E : forallb (fun q => negb (text_eqb (p_name P q) (p_name P p))) installed = true).
    { apply forallb_forall. intros q I. apply negb_true_iff, not_true_iff_false. intros C. apply text_eqb_eq in C. apply N.
      rewrite <- C. now apply in_map. }
    rewrite E. destruct (text_eqb (p_base P p) (p_base P categories)), (text_eqb (p_base P p) (p_base P manifest));
      rewrite !in_app_iff; simpl; auto.
  Qed.
  Theorem C61_jobs_of_a_valid_provider : forall strict deprecated installed categories manifest p shown hidden,
    let all := flat_map (p_units P) (provider_list P installed categories manifest p) in
    (forall x, In x all -> readable x) -> ~ In (p_name P p) (map (p_name P) installed) ->
    validate strict deprecated installed categories manifest p = Verdict shown hidden false ->
    forall u w, In u (p_units P p) -> v_cls P u = CJob -> sees u w -> fit u w /\ connected all u w.
  Proof.
    intros strict deprecated installed categories manifest p shown hidden all R N V u w I C S.
    assert (IA : In u all) by (apply in_flat_map; exists p; split; auto using new_provider_in).
    apply (C61_a_job_passes_exactly_when_well_formed_and_connected all u w R IA C S).
    assert (A : forall u, In u (p_units P p) -> snd (fst (check u (fresh all))) = None).
    { revert V. unfold ValidateModel.validate. fold all. rewrite C61_sharing_changes_nothing.
      set (f := fun u => fst (check u (fresh all))). intros V x X.
      assert (G : snd (gcat (map f (p_units P p))) = None).
      { cbn [gapp fst snd] in V. destruct (snd (gcat (map f (p_units P p)))); [discriminate|reflexivity]. }
      revert G X. clear. induction (p_units P p) as [|y l IH]; [contradiction|]. simpl. intros G.
      destruct (f y) as [k [e|]] eqn:F; simpl in G; [discriminate|]. intros [->|X]; [fold (f x); now rewrite F|auto]. }
    destruct (C61_the_verdict strict deprecated installed categories manifest p A) as (s & h & f & V' & F & _).
    rewrite V in V'. injection V' as <- <- <-. destruct (proj1 F eq_refl) as [_ H]. split; [now apply A|].
    intros i Ii. now apply (H u i I).
  Qed.

  (** And the other way around, when it has nothing but jobs *)
  Theorem C61_a_provider_of_good_jobs_is_valid : forall deprecated installed categories manifest p,
    let all := flat_map (p_units P) (provider_list P installed categories manifest p) in
    (forall x, In x all -> readable x) -> ~ In (p_name P p) (map (p_name P) installed) -> p_problems P p = [] ->
    (forall u, In u (p_units P p) -> v_cls P u = CJob /\ exists w, sees u w /\ fit u w /\ connected all u w) ->
    exists shown hidden, validate false deprecated installed categories manifest p = Verdict shown hidden false.
  Proof.
    intros deprecated installed categories manifest p all R N L H.
    assert (PS : forall u, In u (p_units P p) -> passes (fst (check u (fresh all)))).
    { intros u I. destruct (H u I) as (C & w & S & F & K).
      assert (IA : In u all) by (apply in_flat_map; exists p; split; auto using new_provider_in).
      now apply (C61_a_job_passes_exactly_when_well_formed_and_connected all u w R IA C S). }
    destruct (C61_the_verdict false deprecated installed categories manifest p (fun u I => proj1 (PS u I))) as (s & h & f & V & F & _).
    exists s, h. rewrite V. f_equal. apply F. split; auto. intros u i I Ii. split; [now apply (PS u I)|discriminate].
  Qed.

  (** ** Resolving the dependencies of jobs that pass *)
  Definition S_ : text -> string := string_of_list_ascii.
  Definition describes (w : view) (j : job) : Prop :=
    (exists i, see_id w = Some i /\ j_id j = S_ i) /\
    (exists l, see_direct w = Some l /\ j_direct j = map S_ l) /\
    (exists l, see_after w = Some l /\ j_after j = map S_ l) /\
    (exists l, see_resources w = Some l /\ get_resource_dependencies j = Some (map S_ l)).
  Definition is_job_unit (u : vunit) : bool := match v_cls P u with CJob => true | _ => false end.

  Lemma S_inj : forall a b, S_ a = S_ b -> a = b.
  Proof. intros a b H. rewrite <- (list_ascii_of_string_of_list_ascii a), <- (list_ascii_of_string_of_list_ascii b). f_equal. exact H. Qed.
  Lemma Forall2_in_r : forall {A B} (R : A -> B -> Prop) l k b, Forall2 R l k -> In b k -> exists a, In a l /\ R a b.
  Proof. induction 1; intros [].  - subst. eauto using in_eq. - destruct IHForall2 as (a & I & ?); auto. exists a. split; auto. now right. Qed.
  Lemma Forall2_in_l : forall {A B} (R : A -> B -> Prop) l k a, Forall2 R l k -> In a l -> exists b, In b k /\ R a b.
  Proof. induction 1; intros [].  - subst. eauto using in_eq. - destruct IHForall2 as (b & I & ?); auto. exists b. split; auto. now right. Qed.
  Lemma filter_swap : forall {A} (f g : A -> bool) l, filter f (filter g l) = filter g (filter f l).
  Proof.
    induction l as [|x l IH]; simpl; auto. destruct (f x) eqn:F, (g x) eqn:G; simpl; rewrite ?F, ?G, IH; reflexivity.
  Qed.

  Theorem C61_jobs_that_pass_have_their_dependencies : forall all jobs deps_of visit e,
    (forall x, In x all -> readable x) ->
    (forall x, In x all -> kind x = Some (T "job") -> v_cls P x = CJob) ->
    Forall2 (fun u j => exists w, sees u w /\ describes w j) (filter is_job_unit all) jobs ->
    (forall u, In u all -> v_cls P u = CJob -> passes (fst (check u (fresh all)))) ->
    enumerates deps_of ->
    (forall j, In j (wanted jobs visit) -> In (j_id j) (map j_id jobs) -> In j jobs) ->
    faithful_equality jobs ->
    resolve deps_of jobs visit = SErr e ->
    match e with DepUnknown _ | DepCycle _ => True | _ => False end.
  Proof.
    intros all jobs deps_of visit e R K D PS E W FE H.
    assert (CN : forall u w, In u all -> v_cls P u = CJob -> sees u w -> connected all u w).
    { intros u w I C S. exact (proj2 (proj1 (C61_a_job_passes_exactly_when_well_formed_and_connected all u w R I C S) (PS u I C))). }
    pose proof (C03_errors_are_genuine deps_of jobs visit e W FE H) as G. destruct e as [a b|j|j d ty|l| |]; auto.
    - destruct G as (SAME & l1 & l2 & l3 & ->).
      apply Forall2_app_inv_r in D as (k1 & k2 & _ & D2 & L). inversion D2 as [|u ? k3 ? (w & S & (i & SI & JI) & _) D3]; subst.
      apply Forall2_app_inv_r in D3 as (k4 & k5 & _ & D4 & ->). inversion D4 as [|u' ? k6 ? (w' & S' & (i' & SI' & JI') & _) D5]; subst.
      assert (i' = i) by (apply S_inj; congruence). subst i'.
      assert (IU : In u (filter is_job_unit all)) by (rewrite L; apply in_or_app; right; now left).
      apply filter_In in IU as [IU CU]. unfold is_job_unit in CU. destruct (v_cls P u) eqn:C; try discriminate.
      pose proof (wc_alone _ _ _ _ _ _ _ (CN u w IU C S)) as O. rewrite SI in O. apply only_one_spec in O.
      pose proof (f_equal (fun z => length (filter (has_key P vformat render (Some i)) z)) L) as Z. simpl in Z.
      rewrite filter_swap, O, filter_app, app_length in Z. simpl in Z. unfold is_job_unit in Z. rewrite C in Z. simpl in Z.
      assert (KU : has_key P vformat render (Some i) u = true) by (apply has_key_spec; rewrite <- SI; apply (sees_id _ _ _ _ _ _ _ _ S)).
      assert (KU' : has_key P vformat render (Some i) u' = true) by (apply has_key_spec; rewrite <- SI'; apply (sees_id _ _ _ _ _ _ _ _ S')).
      rewrite KU, filter_app in Z. simpl in Z. rewrite KU' in Z. simpl in Z. rewrite app_length in Z. simpl in Z. lia.
    - destruct G as (IJ & _ & ID & MISS). apply MISS.
      destruct (Forall2_in_r _ _ _ j D IJ) as (u & IU & w & S & (_ & (ld & Ld & Jd) & (la & La & Ja) & (lr & Lr & Jr))).
      apply filter_In in IU as [IU CU]. unfold is_job_unit in CU. destruct (v_cls P u) eqn:C; try discriminate.
      pose proof (CN u w IU C S) as X.
      assert (Y : exists r x, d = S_ r /\ the_only_one vunit identifier all (Some r) x /\ kind x = Some (T "job")).
      { apply E in ID. unfold get_dependency_set in ID. rewrite Jd, Ja, Jr in ID.
        apply in_app_or in ID as [ID|ID]; [|apply in_app_or in ID as [ID|ID]]; apply in_map_iff in ID as (y & [= <- <-] & IY); apply in_map_iff in IY as (r & <- & IR).
        - destruct (wc_direct _ _ _ _ _ _ _ X) as (l & EL & Q). rewrite Ld in EL. injection EL as <-. destruct (Q r IR) as (x & O & G). eauto.
        - destruct (wc_resources _ _ _ _ _ _ _ X) as (l & EL & Q). rewrite Lr in EL. injection EL as <-. destruct (Q r IR) as (x & O & G & _). eauto.
        - destruct (wc_after _ _ _ _ _ _ _ X) as (l & EL & Q). rewrite La in EL. injection EL as <-. destruct (Q r IR) as (x & O & G). eauto. }
      destruct Y as (r & x & -> & (b & a & EA & IDX & _) & KX).
      assert (IX : In x all) by (rewrite EA; apply in_or_app; right; now left).
      assert (CX : v_cls P x = CJob) by auto.
      destruct (Forall2_in_l _ _ _ x D) as (j' & IJ' & w' & S' & ((i & SI & JI) & _)).
      { apply filter_In. split; auto. unfold is_job_unit. now rewrite CX. }
      apply in_map_iff. exists j'. split; auto. rewrite JI. f_equal. pose proof (sees_id _ _ _ _ _ _ _ _ S') as HI.
      unfold ValidateProofs.identifier in IDX. rewrite HI in IDX. congruence.
  Qed.

  (** ** Where issues are *)
  Definition about (u : vunit) (field : text) (i : issue) : Prop :=
    i_field i = field /\ hd_error (i_units i) = Some (v_obj P u) /\
    exists k, i_origin i = place P u field k /\ (i_kind i <> Syntax_error -> k = 0).
  Lemma about_report : forall u o f k s n, (k <> Syntax_error -> n = 0) ->
    forall i, In i (fst (report P vformat render u o f k s n)) -> about u f i.
  Proof.
    intros u o f k s n N i H. unfold report in H. destruct (message_fault P vformat render u); [contradiction|]. destruct H as [<-|[]].
    unfold about. simpl. eauto.
  Qed.
  Lemma about_gapp : forall u f a b, (forall i, In i (fst a) -> about u f i) -> (forall i, In i (fst b) -> about u f i) ->
    forall i, In i (fst (gapp a b)) -> about u f i.
  Proof. intros u f [l [e|]] b A B i I; simpl in *; auto. apply in_app_or in I as [I|I]; auto. Qed.
  Lemma in_gapp : forall a b i, In i (fst (gapp a b)) -> In i (fst a) \/ In i (fst b).
  Proof. intros [l [e|]] b i I; simpl in *; auto. now apply in_app_or. Qed.
  Lemma in_gcat : forall gs i, In i (fst (gcat gs)) -> exists g, In g gs /\ In i (fst g).
  Proof.
    induction gs as [|g gs IH]; simpl; intros i I; [contradiction|]. destruct g as [l [e|]]; simpl in I.
    - exists (l, Some e). auto.
    - apply in_app_or in I as [I|I]; [exists (l, None); auto|]. destruct (IH i I) as (g & G & J). eauto.
  Qed.
  Lemma about_run : forall v u f i, In i (fst (run v u f)) -> about u f i.
  Proof.
    intros v u f i H. destruct v; simpl in H;
      repeat match type of H with
        | In _ (fst (match ?x with _ => _ end)) => destruct x; try contradiction
        | In _ (fst (if ?x then _ else _)) => destruct x; try contradiction
        end; try (eapply about_report; [|eassumption]; auto; fail); try contradiction.
    - apply in_gcat in H as (g & G & J). apply in_map_iff in G as (n & <- & _). destruct (has_param _ n); [contradiction|].
      eapply about_report; [|eassumption]; auto.
    - eapply about_report; [|eassumption]. congruence.
  Qed.
  Lemma about_told : forall m v u f i, In i (fst (told m v u f)) -> about u f i.
  Proof.
    intros m v u f i H. destruct v; try contradiction; unfold ValidateProofs.told in H; simpl in H.
    - destruct (id_of P vformat render u) as [[k|]|]; try contradiction. destruct (mget P k m) as [l|]; try contradiction.
      destruct (_ <? _); [|contradiction]. eapply about_report; [|eassumption]; auto.
    - destruct (refs u) as [l|].
      + apply in_gcat in H as (g & G & J). apply in_map_iff in G as (r & <- & _). unfold reference_checked in J.
        destruct (mget P (Some r) m) as [[|x [|y q]]|]; try contradiction; try (eapply about_report; [|eassumption]; auto; fail).
        revert i J. induction constraints as [|k ks IH]; simpl; [contradiction|]. apply about_gapp; auto. intros j J.
        destruct (k_only P k u x) as [[]|]; try contradiction. destruct (k_holds P k u x) as [[]|]; try contradiction.
        eapply about_report; [|eassumption]; auto.
      + eapply about_report; [|eassumption]; auto.
  Qed.

  (** The lines of a field that is in the file are given: the first one, or one after it when a
      shell program in it cannot be read *)
  Theorem C61_issues_are_where_the_field_is : forall all u i n a b, v_cls P u = CJob -> (forall x, In x all -> readable x) ->
    In i (fst (fst (check u (fresh all)))) ->
    hd_error (i_units i) = Some (v_obj P u) /\
    (v_origin P u = Some (a, b) -> tget (i_field i) (v_offsets P u) = Some n ->
     exists k, i_origin i = Some (a + n + k, a + n + k) /\ (i_kind i <> Syntax_error -> k = 0)).
  Proof.
    intros all u i n a b C R H. destruct (readable_map all R) as (m & M).
    destruct (check_told P vformat render accessed has_param shlex py_float number_truth isfile data_path job_attribute program imported
      template_resource_id filter_program other_validators try_instance u _ m (fresh_good P vformat render all m M)) as (c & E & _).
    rewrite E in H. cbn [fst] in H.
    assert (X : exists f, about u f i).
    { unfold ValidateModel.check_alone, ValidateModel.check_fields, told_all in H. rewrite C in H. apply in_gapp in H as [I|I].
      - apply in_gcat in I as (g & G & I). apply in_map_iff in G as (fv & <- & _).
        apply in_gcat in I as (g & G & I). apply in_map_iff in G as (v & <- & _). eexists. eapply about_run. exact I.
      - apply in_gcat in I as (g & G & I). apply in_map_iff in G as (fv & <- & _). eexists. eapply about_told. exact I. }
    destruct X as (f & F & U & k & O & K). split; auto. intros VO TO. exists k. split; auto.
    rewrite O. unfold place. rewrite <- F, TO, VO. simpl. now rewrite Nat.add_assoc.
  Qed.

  (** ** Templates *)
  Theorem C61_templates_that_pass_have_their_resource : forall all u, (forall x, In x all -> readable x) -> v_cls P u = CTemplate ->
    without_parameters u -> passes (fst (check u (fresh all))) ->
    (exists t, value P vformat render u (T "template-resource") None = inl (Some t)) /\
    exists refs, template_refs P template_resource_id u = inl refs /\
      forall r, In r refs -> exists x, the_only_one vunit identifier all (Some r) x /\ kind x = Some (T "job") /\ plug x = Some (T "resource").
  Proof.
    intros all u R C N H. destruct (readable_map all R) as (m & M). pose proof (plain_legible P vformat render u N) as L.
    destruct (check_told P vformat render accessed has_param shlex py_float number_truth isfile data_path job_attribute program imported
      template_resource_id filter_program other_validators try_instance u _ m (fresh_good P vformat render all m M)) as (c & E & _).
    rewrite E in H. simpl in H. apply clean_gapp in H as [H1 H2]. split.
    - unfold ValidateModel.check_alone, ValidateModel.check_fields in H1. rewrite C in H1. apply clean_gapp in H1 as [H1 _].
      apply clean_gcat in H1. simpl ValidateModel.validators_of in H1. unfold ValidateModel.template_validators in H1.
      apply Forall_map in H1. do 2 apply Forall_cons_iff in H1 as [_ H1]. apply Forall_cons_iff in H1 as [H1 _]. cbn [fst snd] in H1.
      apply clean_gcat, Forall_map in H1. apply Forall_cons_iff in H1 as [_ H1]. apply Forall_cons_iff in H1 as [H1 _].
      unfold Present_field in H1. simpl in H1. unfold ValidateModel.judge, always, get in H1.
      change (T "template-resource") with k_t_resource.
      rewrite L in H1 by (now left). rewrite L by (now left). destruct (plain_value P vformat render u k_t_resource None); eauto.
      simpl in H1. apply (report_clean _ _ _ _ _ _ _ _ _ _ L) in H1. congruence.
    - unfold told_all in H2. rewrite C in H2. simpl ValidateModel.validators_of in H2. apply flat_clean in H2. unfold ValidateModel.template_validators in H2.
      do 2 apply Forall_cons_iff in H2 as [_ H2]. apply Forall_cons_iff in H2 as [H2 _]. cbn [fst snd] in H2.
      do 2 apply Forall_cons_iff in H2 as [_ H2]. apply Forall_cons_iff in H2 as [H2 _].
      apply (reference_clean P vformat render all m R M u _ L _ _ _ (fun x => kind x = Some w_job /\ plug x = Some w_resource)) in H2.
      + destruct H2 as (l & EL & Q). unfold opt in EL. destruct (template_refs P template_resource_id u) as [l'|]; [|discriminate].
        injection EL as ->. exists l. auto.
      + intros x val' _ L'. apply (is_resource_clean P vformat render u _ L _ x val' L').
  Qed.

  (** ** Instances: the ones that join the session *)
  Definition good_alone (u : vunit) : bool :=
    match check_alone u with (l, None) => negb (existsb is_error l) | _ => false end.
  Lemma good_alone_spec : forall u, good_alone u = true <-> passes (check_alone u).
  Proof.
    intros u. unfold good_alone, passes. destruct (check_alone u) as [l [e|]]; simpl.
    - split; [discriminate|intros [H _]; discriminate].
    - rewrite negb_true_iff, <- not_true_iff_false, existsb_exists. split.
      + intros H. split; auto. intros i I E. apply H. exists i. split; auto. unfold is_error. now rewrite E.
      + intros [_ H] (i & I & E). apply (H i I). unfold is_error in E. destruct (i_sev i); congruence.
  Qed.
  Theorem C61_instances_that_join : forall us l, accepted us = (l, None) ->
    l = filter good_alone us /\
    (forall u, In u l <-> In u us /\ passes (check_alone u)) /\
    forall u w, In u us -> v_cls P u = CJob -> sees u w -> (In u l <-> fit u w).
  Proof.
    assert (X : forall us l, accepted us = (l, None) -> l = filter good_alone us).
    { induction us as [|u us IH]; simpl; intros l H; [congruence|]. unfold good_alone. destruct (check_alone u) as [k [e|]].
      - destruct e; try discriminate. now apply IH.
      - destruct (existsb is_error k); simpl.
        + destruct (id_of P vformat render u) as [[|]|]; try discriminate. now apply IH.
        + destruct (accepted us) as [l' e']. injection H as <- ->. f_equal. now apply IH. }
    intros us l H. specialize (X us l H). split; auto.
    assert (Y : forall u, In u l <-> In u us /\ passes (check_alone u)) by (intros u; rewrite X, filter_In, good_alone_spec; reflexivity).
    split; auto. intros u w I C S. rewrite Y, (C61_a_job_alone_passes_exactly_when_well_formed u w C S). intuition.
  Qed.

  (** ** What validation does not do *)

  (** A template that cannot make any unit is as good as any other *)
  Theorem C61_templates_that_make_nothing_pass_refuted : forall u e, v_cls P u = CTemplate -> try_instance u = inl (inr e) ->
    check_alone u = check_fields u.
  Proof.
    intros u e C T. unfold ValidateModel.check_alone, message_fault. rewrite C, T. apply gapp_quiet.
  Qed.
  (** The lines of a field marked for translation are not given: those of the unit are *)
  Theorem C61_lines_of_marked_fields_refuted : forall u field n k, tget field (v_offsets P u) = None ->
    tget ("_"%char :: field) (v_offsets P u) = Some n -> place P u field k = v_origin P u.
  Proof. intros u field n k H _. unfold place. now rewrite H. Qed.
  (** Each of n problems met when loading the provider is reported n times *)
  Theorem C61_load_problems_once_refuted : forall p, length (early_issues P p) = length (p_problems P p) * length (p_problems P p).
  Proof.
    intros p. unfold early_issues. set (l := map _ (p_problems P p)). assert (E : length l = length (p_problems P p)) by apply map_length.
    assert (X : forall {A B} (k : list A) (q : list B), length (flat_map (fun _ => k) q) = length q * length k).
    { induction q; simpl; auto. rewrite app_length, IHq. reflexivity. }
    rewrite X, E. reflexivity.
  Qed.
  (** What the references of other units are checked against: a job counts as a job whatever its
      unit field says, any other unit is what that field says; the plugin is what the plugin field says if there is one *)
  Theorem C61_what_a_unit_counts_as : forall x val, legible x val ->
    kind x = (if match v_cls P x with CJob => true | _ => false end then Some (T "job") else val (T "unit") None) /\
    (forall p, val (T "plugin") None = Some p -> plug x = Some p).
  Proof.
    intros x val L. split.
    - unfold ValidateProofs.kind, unit_of. destruct (v_cls P x); [reflexivity| | |];
        change (T "unit") with k_unit; now rewrite (L k_unit None) by (unfold ordinary; cbn [In]; solve [repeat first [left; reflexivity | right]]).
    - intros p Hp. change (T "plugin") with k_plugin in Hp. unfold ValidateProofs.plug, plugin_of, plugin.
      pose proof (L k_plugin None) as X. unfold ValidateModel.value in X.
      rewrite X by (unfold ordinary; cbn [In]; solve [repeat first [left; reflexivity | right]]). unfold rbind. now rewrite Hp.
  Qed.
End Props.

(** ** Cases *)
Definition pdict : Type := Base.dict FormatModel.pval.
Definition ex_unit (ns : string) (data : list (string * string)) (params : option pdict) : unit_ pdict :=
  mk_unit _ (map (fun kv => (T (fst kv), T (snd kv))) data) [] (Some (T ns, fun t => t)) params.
(** A reader of shell programs that minds quotes only *)
Definition ex_shlex (t : text) : option nat := if Nat.even (length (filter (Ascii.eqb """"%char) t)) then None else Some 1.
(** The words between braces *)
Definition ex_accessed (_ : bool) (t : text) : list text + fault := inl (if existsb (Ascii.eqb "{"%char) t then [T "x"] else []).
Definition ex_program (u : unit_ pdict) : list text + fault :=
  match tget (T "requires") (f_data _ u) with Some t => inl [T "ns::" ++ t] | None => inl [] end.
Definition ex_check := check pdict py_vformat (fun _ t => t) ex_accessed (fun _ _ => true) ex_shlex (fun _ => Some 1%Q) (fun _ => true) (fun _ => true)
  (fun _ t => t) (fun _ => true) ex_program (fun _ => inl []) (fun _ => inl None) (fun _ => inl true) (fun _ => []) (fun _ => inr Other_error).
Definition ex_validate := validate pdict py_vformat (fun _ t => t) ex_accessed (fun _ _ => true) ex_shlex (fun _ => Some 1%Q) (fun _ => true) (fun _ => true)
  (fun _ t => t) (fun _ => true) ex_program (fun _ => inl []) (fun _ => inl None) (fun _ => inl true) (fun _ => []) (fun _ => inr Other_error).
Definition ex_accepted := accepted pdict py_vformat (fun _ t => t) ex_accessed (fun _ _ => true) ex_shlex (fun _ => Some 1%Q) (fun _ => true) (fun _ => true)
  (fun _ t => t) (fun _ => true) ex_program (fun _ => inl []) (fun _ => inl None) (fun _ => inl true) (fun _ => []) (fun _ => inr Other_error).
Definition ex_job (n : nat) (data : list (string * string)) : vunit pdict :=
  mk_vunit _ n CJob (ex_unit "ns" (data ++ [("unit"%string, "job"%string); ("flags"%string, "simple"%string)]) None) false (Some (10 * n, 10 * n + 5))
    (map (fun kv => (T (fst kv), 1)) data).
Definition ex_res : vunit pdict := ex_job 1 [("id", "res"); ("plugin", "resource"); ("command", "cat")]%string.
Definition ex_dep : vunit pdict := ex_job 2 [("id", "dep"); ("command", "true"); ("estimated_duration", "1")]%string.
Definition ex_main : vunit pdict :=
  ex_job 3 [("id", "main"); ("command", "echo ""x"""); ("depends", "dep"); ("requires", "res"); ("estimated_duration", "1")]%string.
Definition ex_cat : vunit pdict :=
  mk_vunit _ 4 (CNamed (T "category")) (ex_unit "com.canonical.plainbox" [("unit", "category"); ("id", "uncategorised")]%string None) false None [].
Definition ex_cats : provider pdict := mk_provider _ (T "categories") (T "/c") [ex_cat] [].
Definition ex_mani : provider pdict := mk_provider _ (T "manifest") (T "/m") [] [].
Definition ex_prov (us : list (vunit pdict)) : provider pdict := mk_provider _ (T "mine") (T "/p") us [].

Example C61_case_valid : ex_validate true false [] ex_cats ex_mani (ex_prov [ex_res; ex_dep; ex_main]) = Verdict [] 0 false.
Proof. vm_compute. reflexivity. Qed.
(** Advice is hidden unless validation is strict *)
Definition ex_user_verify : vunit pdict := ex_job 5 [("id", "old"); ("plugin", "user-verify"); ("command", "true")]%string.
Example C61_case_advice : exists i j,
  ex_validate false true [] ex_cats ex_mani (ex_prov [ex_user_verify]) = Verdict [i] 1 false /\
  ex_validate true false [] ex_cats ex_mani (ex_prov [ex_user_verify]) = Verdict [i; j] 0 false.
Proof. do 2 eexists. split; vm_compute; reflexivity. Qed.
(** A dependency that does not exist, and where it is said *)
Example C61_case_missing : exists i,
  ex_validate false false [] ex_cats ex_mani (ex_prov [ex_res; ex_main]) = Verdict [i] 0 true /\
  i_field i = T "depends" /\ i_kind i = Bad_reference /\ i_origin i = Some (31, 31).
Proof. eexists. split; [vm_compute; reflexivity|repeat split]. Qed.
(** A quote too many, in the second line of the field *)
Example C61_case_shell : exists i,
  ex_validate false false [] ex_cats ex_mani (ex_prov [ex_job 1 [("id", "a"); ("command", "echo """)]%string]) = Verdict [i] 0 true /\
  i_kind i = Syntax_error /\ i_origin i = Some (12, 12).
Proof. eexists. split; [vm_compute; reflexivity|repeat split]. Qed.

(** All of these units can be read *)
Example C61_case_readable : forall x, In x (flat_map (p_units _) (provider_list _ [] ex_cats ex_mani (ex_prov [ex_res; ex_dep; ex_main]))) ->
  readable pdict py_vformat (fun _ t => t) x.
Proof.
  intros x H. apply (C61_units_without_parameters_can_be_read pdict py_vformat (fun _ t => t) (fun _ t => t) ex_program (fun _ => inl [])).
  simpl in H. intuition; subst; reflexivity.
Qed.

(** Two jobs that need each other pass: validation does not look for cycles *)
Definition ex_left : vunit pdict := ex_job 6 [("id", "l"); ("command", "true"); ("depends", "r")]%string.
Definition ex_right : vunit pdict := ex_job 7 [("id", "r"); ("command", "true"); ("depends", "l")]%string.
Definition job_l : job := mk_job "ns::l" "1" 1 "shell" ["ns::r"]%string [] NoProg.
Definition job_r : job := mk_job "ns::r" "2" 2 "shell" ["ns::l"]%string [] NoProg.
Example C61_case_cycle :
  (forall u, In u [ex_left; ex_right; ex_cat] -> v_cls _ u = CJob -> fst (fst (ex_check u (mk_context _ [ex_left; ex_right; ex_cat] None))) = [] /\
     snd (fst (ex_check u (mk_context _ [ex_left; ex_right; ex_cat] None))) = None) /\
  Forall2 (fun u j => exists w, sees _ py_vformat (fun _ t => t) (fun _ t => t) ex_program (fun _ => inl []) u w /\ describes w j)
    (filter (is_job_unit pdict) [ex_left; ex_right; ex_cat]) [job_l; job_r] /\
  faithful_equality [job_l; job_r] /\
  resolve get_dependency_set [job_l; job_r] None = SErr (DepCycle [job_l; job_r; job_l]).
Proof.
  split; [|split; [|split]].
  - intros u [<-|[<-|[<-|[]]]] C; try discriminate; vm_compute; auto.
  - repeat constructor; eexists; (split; [apply plain_sees; reflexivity|]); unfold describes;
      (split; [|split; [|split]]); eexists; split; vm_compute; reflexivity.
  - intros a b Ha Hb [H|H]; simpl in Ha, Hb; repeat match goal with H : _ \/ _ |- _ => destruct H as [H|H] end;
      subst; simpl in *; try reflexivity; try discriminate; try contradiction.
  - vm_compute. reflexivity.
Qed.

(** A provider of the name of an installed one is left out of what its units are checked
    against: a new job crashes the command, *)
Theorem C61_a_name_that_is_installed_crashes_refuted : exists installed p e,
  p_units _ p <> [] /\ ex_validate false false installed ex_cats ex_mani p = Crash [] (Key_error e).
Proof.
  exists [ex_prov [ex_res]], (ex_prov [ex_res; ex_dep]), (T "ns::dep"). split; [discriminate|]. vm_compute. reflexivity.
Qed.
(** and two jobs of one name pass *)
Theorem C61_a_name_that_is_installed_hides_duplicates_refuted : exists installed p u v,
  p_units _ p = [u; v] /\ v_obj _ u <> v_obj _ v /\ v_cls _ u = CJob /\ v_cls _ v = CJob /\
  identifier _ py_vformat (fun _ t => t) u = Some (Some (T "ns::dep")) /\ identifier _ py_vformat (fun _ t => t) v = Some (Some (T "ns::dep")) /\
  ex_validate true false installed ex_cats ex_mani p = Verdict [] 0 false.
Proof.
  exists [ex_prov [ex_dep]], (ex_prov [ex_dep; ex_job 9 [("id", "dep"); ("command", "false"); ("estimated_duration", "1")]%string]).
  do 2 eexists. split; [reflexivity|]. split; [discriminate|]. split; [reflexivity|]. split; [reflexivity|].
  split; [vm_compute; reflexivity|]. split; [vm_compute; reflexivity|]. vm_compute. reflexivity.
Qed.
(** What is no identifier in the list of dependencies is no error: it is dropped *)
Theorem C61_odd_dependencies_are_reported_refuted : exists u,
  value _ py_vformat (fun _ t => t) u (T "depends") None = inl (Some (T "=")) /\
  ex_validate true false [] ex_cats ex_mani (ex_prov [u]) = Verdict [] 0 false.
Proof.
  exists (ex_job 1 [("id", "a"); ("command", "true"); ("depends", "="); ("estimated_duration", "1")]%string).
  split; vm_compute; reflexivity.
Qed.
(** Two of the fields that must not be marked for translation may be, as their validators look
    for a field of another spelling; the plugin may not *)
Definition ex_marked (field value : string) : vunit pdict :=
  ex_job 1 [("id", "a"); ("command", "true"); ("estimated_duration", "1"); ("_" ++ field, value)]%string.
Theorem C61_marked_fields_refuted :
  ex_validate true false [] ex_cats ex_mani (ex_prov [ex_marked "auto-retry" "no"]) = Verdict [] 0 false /\
  ex_validate true false [] ex_cats ex_mani (ex_prov [ex_marked "certification-status" "blocker"]) = Verdict [] 0 false /\
  exists i, ex_validate true false [] ex_cats ex_mani (ex_prov [ex_marked "plugin" "shell"]) = Verdict [i] 0 true /\ i_kind i = Unexpected_i18n.
Proof. split; [vm_compute; reflexivity|]. split; [vm_compute; reflexivity|]. eexists. split; [vm_compute; reflexivity|reflexivity]. Qed.
(** Checking an instance of a template may raise rather than report *)
Definition ex_instance (summary : string) : vunit pdict :=
  mk_vunit _ 8 CJob (ex_unit "ns" [("id", "disk-{x}"); ("plugin", "shell"); ("command", "true"); ("summary", summary)]%string (Some [("x"%string, FormatModel.PStr "1")]))
    true None [].
Theorem C61_checking_an_instance_raises_refuted :
  snd (fst (ex_check (ex_instance "Disk {y}") (mk_context _ [] None))) = Some (Missing_param (T "y")).
Proof. vm_compute. reflexivity. Qed.
Example C61_case_instances :
  ex_accepted [ex_instance "Disk {y}"; ex_instance "Disk {x}"; ex_instance "Disk"] = ([ex_instance "Disk {x}"], None).
Proof. vm_compute. reflexivity. Qed.
Example C61_case_instance_seen : exists w,
  sees pdict py_vformat (fun _ t => t) (fun _ t => t) ex_program (fun _ => inl []) (ex_instance "Disk {x}") w.
Proof.
  set (u := ex_instance "Disk {x}").
  exists (mk_view (fun n d => match value _ py_vformat (fun _ t => t) u n d with inl v => v | inr _ => None end)
    (Some (T "ns::disk-1")) (Some (T "shell")) None (Some []) (Some []) (Some []) (Some []) (Some [w_uncategorised])).
  constructor; try (vm_compute; reflexivity).
  intros n d O. cbn [see_field].
  assert (X : forall r, (r = d \/ exists v, r = Some v /\ In v (map snd (f_data _ (v_unit _ u)))) ->
    exists o, match r with None => inl None | Some v => match to_missing (insert _ py_vformat (fun _ t => t) (v_unit _ u) v) with inl v => inl (Some v) | inr e => inr e end end = @inl (option text) fault o).
  { intros r [-> | (v & -> & I)].
    - unfold ordinary in O. cbn [In] in O.
      repeat (destruct O as [<-|O]; [vm_compute; eauto|]). destruct O.
    - cbn [u ex_instance v_unit ex_unit f_data map snd In fst] in I. repeat (destruct I as [<-|I]; [vm_compute; eauto|]). destruct I. }
  assert (Y : let r := either n (f_data _ (v_unit _ u)) d in r = d \/ exists v, r = Some v /\ In v (map snd (f_data _ (v_unit _ u)))).
  { cbv zeta. unfold either. destruct (tget (UNDERSCORE :: n) (f_data _ (v_unit _ u))) as [v|] eqn:E.
    - right. exists v. split; auto. apply tget_In in E. now apply (in_map snd) in E.
    - destruct (tget n (f_data _ (v_unit _ u))) as [v|] eqn:F; auto. right. exists v. split; auto. apply tget_In in F. now apply (in_map snd) in F. }
  destruct (X _ Y) as (o & E). change (value (Base.dict FormatModel.pval) py_vformat (fun _ t => t) u n d = inl o) in E.
  etransitivity; [exact E|]. rewrite E. reflexivity.
Qed.

Print Assumptions C61_units_without_parameters_can_be_read.
Print Assumptions C61_a_job_alone_passes_exactly_when_well_formed.
Print Assumptions C61_a_job_passes_exactly_when_well_formed_and_connected.
Print Assumptions C61_checking_a_job_raises_nothing.
Print Assumptions C61_sharing_changes_nothing.
Print Assumptions C61_the_verdict.
Print Assumptions C61_jobs_of_a_valid_provider.
Print Assumptions C61_a_provider_of_good_jobs_is_valid.
Print Assumptions C61_jobs_that_pass_have_their_dependencies.
Print Assumptions C61_issues_are_where_the_field_is.
Print Assumptions C61_templates_that_pass_have_their_resource.
Print Assumptions C61_instances_that_join.
Print Assumptions C61_templates_that_make_nothing_pass_refuted.
Print Assumptions C61_lines_of_marked_fields_refuted.
Print Assumptions C61_load_problems_once_refuted.
Print Assumptions C61_a_name_that_is_installed_crashes_refuted.
Print Assumptions C61_a_name_that_is_installed_hides_duplicates_refuted.
Print Assumptions C61_odd_dependencies_are_reported_refuted.
Print Assumptions C61_marked_fields_refuted.
Print Assumptions C61_checking_an_instance_raises_refuted.
Print Assumptions C61_what_a_unit_counts_as.
