(** C69: the jobs of an application that uses the session assistant *)
From Coq Require Import String List Bool ZArith Arith Lia Relations.
From Verif Require Import Base BaseFacts JobModel SolverModel SolverSpec SolverProofs SelectProofs SessionModel SessionSpec SessionProofs HistoryProofs SessionProps
  SessrunModel SessrunSpec SessrunProofs QualModel QualSpec QualProps AsrunModel AsrunSpec.
Import ListNotations.
Open Scope string_scope.
Open Scope list_scope.

(** ** Lists in dependency order *)
Lemma split_unique (l1 l2 m1 m2 : list job) x : unique_ids (l1 ++ x :: l2) -> l1 ++ x :: l2 = m1 ++ x :: m2 -> l1 = m1.
Proof.
  revert m1. induction l1 as [|a l1 IH]; intros [|b m1] U E; cbn in *; auto.
  - injection E as <- E. subst l2. exfalso. unfold unique_ids in U. cbn in U. inversion U as [|? ? N _]. apply N. rewrite map_app. apply in_app_iff. right. now left.
  - injection E as -> E. exfalso. unfold unique_ids in U. cbn in U. inversion U as [|? ? N _]. apply N. rewrite map_app. apply in_app_iff. right. now left.
  - injection E as <- E. f_equal. apply IH; [|exact E]. unfold unique_ids in *. cbn in U. now inversion U.
Qed.
Section Ordered.
  Variable deps_of : job -> list (dep_type * name).
  Variable jobs l : list job.
  Hypothesis U : unique_ids jobs.
  Hypothesis UL : unique_ids l.
  Hypothesis O : dependency_ordered deps_of l.
  Hypothesis I : incl l jobs.
  Lemma same_id a b : In a jobs -> In b jobs -> j_id a = j_id b -> a = b.
  Proof. apply unique_ids_inj. exact U. Qed.
  Lemma earlier bf a af b : l = bf ++ a :: af -> depends deps_of jobs a b -> In b bf.
  Proof.
    intros E [Ib D]. pose proof (O bf a af E _ D) as H. apply in_map_iff in H as (y & Ey & Iy).
    assert (y = b) as <-; [|exact Iy]. apply same_id; [|exact Ib|exact Ey]. apply I. rewrite E. apply in_app_iff. now left.
  Qed.
  Lemma closed a b : In a l -> depends deps_of jobs a b -> In b l.
  Proof. intros Ia D. apply in_split in Ia as (bf & af & E). pose proof (earlier bf a af b E D) as H. rewrite E. apply in_app_iff. now left. Qed.
  Lemma needed_closed w j : incl w l -> needed deps_of jobs w j -> In j l.
  Proof. intros W N. induction N as [j Ij|a b _ IH D]; [auto|]. eapply closed; eassumption. Qed.
  Lemma earlier_trans a b : clos_trans job (depends deps_of jobs) a b -> In a l -> exists bf af, l = bf ++ a :: af /\ In b bf.
  Proof.
    intros C. induction C as [a b D|a b c _ IH1 _ IH2]; intros Ia.
    - apply in_split in Ia as (bf & af & E). exists bf, af. split; [exact E|]. eapply earlier; eassumption.
    - destruct (IH1 Ia) as (bf & af & E & Ib). assert (Ib' : In b l) by (rewrite E; apply in_app_iff; now left).
      destruct (IH2 Ib') as (bf2 & af2 & E2 & Ic). exists bf, af. split; [exact E|]. apply in_split in Ib as (x & y & Eb). subst bf.
      rewrite <- app_assoc in E. cbn in E. assert (bf2 = x) as ->. { symmetry. apply (split_unique x (y ++ a :: af) bf2 af2 b); [rewrite <- E; exact UL|now rewrite <- E]. }
      apply in_app_iff. now left.
  Qed.
  Lemma listed_healthy j : In j l -> healthy deps_of jobs j.
  Proof.
    intros Ij. assert (W : incl [j] l) by (intros x [<-|[]]; exact Ij). split.
    - intros a d N D. pose proof (needed_closed _ _ W N) as Ia. apply in_split in Ia as (bf & af & E). pose proof (O bf a af E _ D) as H.
      apply in_map_iff in H as (b & Eb & Ib). exists b. split; [|exact Eb]. apply I. rewrite E. apply in_app_iff. now left.
    - intros a N C. pose proof (needed_closed _ _ W N) as Ia. destruct (earlier_trans a a C Ia) as (bf & af & E & Ib). unfold unique_ids in UL. rewrite E, map_app in UL. cbn in UL.
      apply NoDup_remove_2 in UL. apply UL. apply in_app_iff. left. now apply in_map.
  Qed.
End Ordered.

Section Assistant.
  Variable deps_of : job -> list (dep_type * name).
  Variable eval_expr : expr -> list (list resource) -> bool.
  Hypothesis ENUM : enumerates deps_of.
  Notation choose := (choose deps_of eval_expr).
  Notation finish_bootstrap := (finish_bootstrap deps_of eval_expr).
  Notation use_alternate_selection := (use_alternate_selection deps_of eval_expr).
  Notation remove_all_filters := (remove_all_filters deps_of eval_expr).
  Notation hand_pick_jobs := (hand_pick_jobs deps_of eval_expr).
  Notation listed := (listed deps_of).

  Lemma known_sub s l : faithful_equality (st_jobs s) -> incl l (st_jobs s) -> faithful_equality (st_jobs s ++ l).
  Proof. intros F H a b Ia Ib. apply F; [apply in_app_iff in Ia as [Ia|Ia]|apply in_app_iff in Ib as [Ib|Ib]]; auto. Qed.
  (** What choosing jobs does *)
  Lemma choose_spec l b a a' x : listed (a_state a) -> incl l (st_jobs (a_state a)) -> choose l b a = (a', x) ->
    exists s keep, a' = put_state s a /\ listed s /\ st_jobs s = st_jobs (a_state a) /\ st_mandatory s = st_mandatory (a_state a) /\
      st_desired s = filter keep ((if b then st_mandatory (a_state a) else []) ++ l) /\
      (forall j, In j ((if b then st_mandatory (a_state a) else []) ++ l) -> (keep j = true <-> healthy deps_of (st_jobs (a_state a)) j)) /\
      (forall j, In j (st_run s) <-> needed deps_of (st_jobs (a_state a)) (st_desired s) j) /\
      (forall k js', dget k (st_map s) = Some js' -> exists js, dget k (st_map (a_state a)) = Some js /\ js_job js' = js_job js /\ js_result js' = js_result js /\ js_history js' = js_history js) /\
      (forall k js, dget k (st_map (a_state a)) = Some js -> exists js', dget k (st_map s) = Some js' /\ js_job js' = js_job js /\ js_result js' = js_result js /\ js_history js' = js_history js) /\
      match x with None => True | Some e => exists j, In j (st_run s) /\ j_prog j = BadProg /\ e = XProgramError j end.
  Proof.
    intros L Il C. set (s0 := a_state a) in *. set (w := (if b then st_mandatory s0 else []) ++ l).
    assert (Iw : incl w (st_jobs s0)) by (apply incl_app; [destruct b; [apply L|intros y []]|exact Il]).
    destruct (C05_selection_is_exact deps_of eval_expr s0 l b w ENUM (l_in_step _ _ L) eq_refl (known_sub _ _ (l_faithful _ _ L) Iw)) as (s & ans & E & (keep & K1 & K2) & RU & RO & RN & SB & AN).
    { intros j Ij _. now apply Iw. }
    unfold AsrunModel.choose in C. fold s0 in C. rewrite E in C. destruct SB as (B1 & B2 & B3 & B4 & B5 & B6 & B7 & B8). cbn [st_jobs st_units st_desired st_mandatory st_run st_resources st_map] in *.
    assert (Hrun : incl (st_run s) (st_jobs s0)).
    { intros j Ij. apply RN in Ij. induction Ij as [j Ij|p q _ _ [D _]]; [|exact D]. apply Iw. rewrite K1 in Ij. now apply filter_In in Ij. }
    assert (KEYS : forall k, dget k (st_map s) = None <-> dget k (st_map s0) = None).
    { intros k. rewrite !dget_None. unfold dkeys. rewrite B7. reflexivity. }
    assert (KEEP : forall k js, dget k (st_map s0) = Some js -> exists js', dget k (st_map s) = Some js' /\ js_job js' = js_job js /\ js_result js' = js_result js /\ js_history js' = js_history js).
    { intros k js K. destruct (dget k (st_map s)) as [js'|] eqn:E'; [|apply KEYS in E'; congruence]. destruct (B8 k js' E') as (js2 & K3 & J1 & J2 & J3 & _). assert (js2 = js) as -> by congruence. eauto. }
    assert (LS : listed s).
    { assert (MAP : map (fun kv => (fst kv, js_job (snd kv))) (st_map s) = map (fun kv => (fst kv, js_job (snd kv))) (st_map s0)).
      { clear - B7 B8 L. destruct (l_in_step _ _ L) as [U M].
        assert (ND : NoDup (map fst (st_map s0))).
        { apply (f_equal (map fst)) in M. rewrite !map_map in M. cbn [fst] in M. change (NoDup (map (fun x : name * jstate => fst x) (st_map s0))). rewrite M. exact U. }
        assert (B9 : forall k js', In (k, js') (st_map s) -> exists js, In (k, js) (st_map s0) /\ js_job js' = js_job js).
        { intros k js' I. assert (G : dget k (st_map s) = Some js') by (apply In_dget; [unfold dkeys; rewrite B7; exact ND|exact I]). destruct (B8 k js' G) as (js & G0 & J & _). apply dget_In in G0. eauto. }
        clear B8 M U L. revert B7 B9 ND. generalize (st_map s0) as m0. induction (st_map s) as [|[k js] m IH]; intros [|[k0 js0] m0] E B ND; cbn in *; try discriminate; auto. injection E as <- E. f_equal.
        - f_equal. destruct (B k js (or_introl eq_refl)) as (js1 & [H|H] & J); [congruence|]. exfalso. inversion ND as [|? ? N _]. apply N. now apply (in_map fst) in H.
        - inversion ND as [|? ? N ND']; subst. apply IH; auto. intros k1 js1 I1. destruct (B k1 js1 (or_intror I1)) as (js2 & [H|H] & J); [|eauto]. exfalso. injection H as <- _. apply N. rewrite <- E. now apply (in_map fst) in I1. }
      constructor; rewrite ?B1; auto; try apply L.
      - split; [rewrite B1; apply L|]. rewrite B1, MAP. apply L.
      - rewrite B4. apply L. }
    exists s, keep. assert (a' = put_state s a) as -> by (destruct ans; congruence). split; [reflexivity|]. split; [exact LS|]. split; [exact B1|]. split; [exact B4|]. split; [exact K1|].
    split; [intros j Ij; rewrite (K2 j Ij); split; [tauto|intros; split; [now apply Iw|assumption]]|]. split; [exact RN|].
    split; [intros k js' K; destruct (B8 k js' K) as (js2 & K3 & J1 & J2 & J3 & _); eauto|]. split; [exact KEEP|].
    destruct ans as [e|p]; injection C as <-; auto.
  Qed.
  Lemma select_known s quals : incl (select_jobs (st_jobs s) quals) (st_jobs s).
  Proof.
    intros j. unfold select_jobs, QualModel.select_jobs. destruct (flat_list job quals); [intros []|]. destruct (fold_left _ _ _) as [inc exc]. intros I.
    apply in_flat_map in I as (i & _ & I). destruct (nth_error _ i) eqn:E; [|destruct I]. destruct I as [<-|[]]. eapply nth_error_In. exact E.
  Qed.

  (** ** The list of a test plan: the mandatory jobs and the jobs of the plan that can run,
      and what they need, each once, each after what it needs *)
  Theorem C69_the_list_of_a_test_plan a a' : listed (a_state a) -> finish_bootstrap a = (a', None) ->
    NoDup (get_static_todo_list a') /\ dependency_ordered deps_of (st_run (a_state a')) /\ listed (a_state a') /\
    (exists wanted, (forall j, In j wanted <-> (In j (st_mandatory (a_state a)) \/ In j (st_jobs (a_state a)) /\ QualSpec.wanted job j_id (map p_include (a_plans a)) j) /\ healthy deps_of (st_jobs (a_state a)) j) /\
      forall j, In j (st_run (a_state a')) <-> needed deps_of (st_jobs (a_state a)) wanted j) /\
    mandatory_listed deps_of (a_state a') /\ a_plans a' = a_plans a /\ offered a' = true.
  Proof.
    intros L H. unfold AsrunModel.finish_bootstrap, andthen in H.
    destruct (choose (select_jobs (st_jobs (a_state a)) (map p_include (a_plans a))) true a) as [a1 [x|]] eqn:C; [discriminate|]. injection H as <-.
    apply choose_spec in C as (s & keep & -> & LS & J & M & D & K & R & _ & _ & _); [|exact L|apply select_known].
    cbn [save put_flags put_state a_state a_plans a_disk offered d_incomplete a_incomplete get_static_todo_list] in *. split; [apply LS|]. split; [apply LS|]. split; [exact LS|]. split; [|split; [|split; reflexivity]].
    - exists (st_desired s). split; [|exact R]. intros j. rewrite D, filter_In.
      assert (W : In j (st_mandatory (a_state a) ++ select_jobs (st_jobs (a_state a)) (map p_include (a_plans a))) <-> (In j (st_mandatory (a_state a)) \/ In j (st_jobs (a_state a)) /\ QualSpec.wanted job j_id (map p_include (a_plans a)) j)).
      { rewrite in_app_iff. unfold select_jobs. rewrite C17_selects_exactly by apply L. reflexivity. }
      rewrite <- W. split; intros [I1 I2]; (split; [exact I1|]); now apply (K j I1).
    - intros j Ij Hj. apply R. constructor. rewrite D. apply filter_In. rewrite M in Ij. split; [apply in_app_iff; now left|]. apply K; [apply in_app_iff; now left|]. now rewrite J in Hj.
  Qed.

  (** ** Narrowing the list *)
  Theorem C69_selecting_only_narrows sel a a' : listed (a_state a) -> mandatory_listed deps_of (a_state a) -> use_alternate_selection sel a = (a', None) ->
    listed (a_state a') /\ mandatory_listed deps_of (a_state a') /\ a_plans a' = a_plans a /\
    incl (get_static_todo_list a') (get_static_todo_list a) /\
    (forall k, In k (get_static_todo_list a) -> In k sel -> In k (get_static_todo_list a')) /\
    (forall j, In j (st_run (a_state a')) -> needed deps_of (st_jobs (a_state a)) (st_mandatory (a_state a) ++ filter (fun j => smem (j_id j) sel) (st_run (a_state a))) j).
  Proof.
    intros L ML H. unfold AsrunModel.use_alternate_selection in H.
    apply choose_spec in H as (s & keep & -> & LS & J & M & D & K & R & _ & _ & _); [|exact L|intros j I; apply filter_In in I as [I _]; now apply L].
    cbn [put_state a_state a_plans]. unfold get_static_todo_list. cbn [put_state a_state].
    assert (IN : incl (st_run s) (st_run (a_state a))).
    { intros j Ij. apply R in Ij. apply (needed_closed deps_of (st_jobs (a_state a)) (st_run (a_state a))) in Ij; [exact Ij|apply L|apply L|apply L|].
      intros x Ix. rewrite D in Ix. apply filter_In in Ix as [Ix Kx]. pose proof Ix as Ix'. apply in_app_iff in Ix as [Ix|Ix]; [|now apply filter_In in Ix]. apply ML; [exact Ix|]. now apply (K x Ix'). }
    split; [exact LS|]. split; [|split; [reflexivity|split; [|split]]].
    - intros j Ij Hj. apply R. constructor. rewrite D. apply filter_In. rewrite M in Ij. split; [apply in_app_iff; now left|]. apply K; [apply in_app_iff; now left|]. now rewrite J in Hj.
    - intros k Ik. apply in_map_iff in Ik as (j & <- & Ij). apply in_map. now apply IN.
    - intros k Ik Is. apply in_map_iff in Ik as (j & <- & Ij). apply in_map. apply R. constructor. rewrite D. apply filter_In.
      assert (W : In j (st_mandatory (a_state a) ++ filter (fun j => smem (j_id j) sel) (st_run (a_state a)))) by (apply in_app_iff; right; apply filter_In; split; [exact Ij|now apply smem_In]).
      split; [exact W|]. apply (K j W). apply (listed_healthy deps_of (st_jobs (a_state a)) (st_run (a_state a))); [apply L|apply L|apply L|apply L|exact Ij].
    - intros j Ij. apply R in Ij. induction Ij as [j Ij|p q _ IH Dp]; [constructor; rewrite D in Ij; now apply filter_In in Ij|]. eapply needed_dep; eassumption.
  Qed.
  (** Names that are not on the list make no difference *)
  Theorem C69_unknown_names_are_ignored sel sel' a : (forall k, In k (get_static_todo_list a) -> (In k sel <-> In k sel')) -> use_alternate_selection sel a = use_alternate_selection sel' a.
  Proof.
    intros H. unfold AsrunModel.use_alternate_selection. f_equal. apply filter_ext_in. intros j Ij. specialize (H (j_id j) (in_map _ _ _ Ij)).
    destruct (smem (j_id j) sel) eqn:A, (smem (j_id j) sel') eqn:B; auto.
    - apply smem_In in A. apply H in A. apply smem_In in A. congruence.
    - apply smem_In in B. apply H in B. apply smem_In in B. congruence.
  Qed.
  Section Categories.
  Variable category : job -> name.
  Notation filter_jobs_by_categories := (filter_jobs_by_categories deps_of eval_expr category).
  (** Filtering keeps the jobs of the categories *)
  Theorem C69_filtering cats a a' : listed (a_state a) -> mandatory_listed deps_of (a_state a) -> filter_jobs_by_categories cats a = (a', None) ->
    listed (a_state a') /\ mandatory_listed deps_of (a_state a') /\ incl (get_static_todo_list a') (get_static_todo_list a) /\
    (forall j, In j (st_run (a_state a)) -> In (category j) cats -> In (j_id j) (get_static_todo_list a')) /\
    (forall j, In j (st_run (a_state a')) -> needed deps_of (st_jobs (a_state a)) (st_mandatory (a_state a) ++ filter (fun j => smem (category j) cats) (st_run (a_state a))) j).
  Proof.
    intros L ML H. unfold AsrunModel.filter_jobs_by_categories in H. apply C69_selecting_only_narrows in H as (A & B & _ & C & D & E); [|assumption|assumption].
    split; [exact A|]. split; [exact B|]. split; [exact C|]. split.
    - intros j Ij Ic. apply D; [now apply in_map|]. apply in_map. apply filter_In. split; [exact Ij|now apply smem_In].
    - intros j Ij. specialize (E j Ij). clear - E L. induction E as [j Ij|p q _ IH Dp]; [|eapply needed_dep; eassumption]. constructor. apply in_app_iff in Ij as [Ij|Ij]; apply in_app_iff; [now left|right].
      apply filter_In in Ij as [Ij S]. apply filter_In. split; [exact Ij|]. apply smem_In in S. apply in_map_iff in S as (y & Ey & Iy). apply filter_In in Iy as [Iy Sy].
      assert (y = j) as <-; [|exact Sy]. apply (unique_ids_inj (st_run (a_state a))); auto. apply L.
  Qed.

  (** ** The original list *)
  Definition narrowing (a a' : asst) : Prop :=
    (exists sel x, use_alternate_selection sel a = (a', x)) \/ (exists cats x, filter_jobs_by_categories cats a = (a', x)).
  Lemma choose_frame l b a a' x : choose l b a = (a', x) -> a_plans a' = a_plans a /\ st_jobs (a_state a') = st_jobs (a_state a) /\ st_mandatory (a_state a') = st_mandatory (a_state a).
  Proof.
    unfold AsrunModel.choose. unfold update_desired_job_list. destruct (select _ _ _ _ _) as [D run P|D|]; [|intros [= <- _]; auto|intros [= <- _]; auto].
    pose proof (recompute_frame eval_expr (mk_state (st_jobs (a_state a)) (st_units (a_state a)) (st_map (a_state a)) D (st_mandatory (a_state a)) run (st_resources (a_state a)))) as F.
    destruct (recompute eval_expr _) as [s [e|]]; cbn [fst] in F; destruct F as (F1 & _ & _ & F4 & _); intros [= <- _]; cbn [put_state a_plans a_state]; auto.
  Qed.
  Lemma choose_run l b a a1 a2 a' a1' x : a_plans a2 = a_plans a -> st_jobs (a_state a2) = st_jobs (a_state a) -> st_mandatory (a_state a2) = st_mandatory (a_state a) ->
    choose l b a = (a1, None) -> choose l b a2 = (a1', x) -> a' = a1' -> st_run (a_state a') = st_run (a_state a1) /\ st_desired (a_state a') = st_desired (a_state a1).
  Proof.
    intros P J M H1 H2 ->. revert H1 H2. unfold AsrunModel.choose, update_desired_job_list. rewrite J, M. destruct (select _ _ _ _ _) as [D run Q|D|]; try discriminate.
    pose proof (recompute_frame eval_expr (mk_state (st_jobs (a_state a)) (st_units (a_state a)) (st_map (a_state a)) D (st_mandatory (a_state a)) run (st_resources (a_state a)))) as F1.
    pose proof (recompute_frame eval_expr (mk_state (st_jobs (a_state a)) (st_units (a_state a2)) (st_map (a_state a2)) D (st_mandatory (a_state a)) run (st_resources (a_state a2)))) as F2.
    destruct (recompute eval_expr (mk_state (st_jobs (a_state a)) (st_units (a_state a)) _ _ _ _ _)) as [s1 [e1|]]; [discriminate|].
    destruct (recompute eval_expr (mk_state (st_jobs (a_state a)) (st_units (a_state a2)) _ _ _ _ _)) as [s2 [e2|]]; cbn [fst] in *; intros [= <-] [= <- _]; cbn [put_state a_state];
      destruct F1 as (_ & _ & D1 & _ & R1 & _), F2 as (_ & _ & D2 & _ & R2 & _); cbn [st_run st_desired] in *; split; congruence.
  Qed.
  (** However the list was narrowed, removing the filters gives the list of the test plan *)
  Theorem C69_removing_the_filters a0 a1 a2 a3 x : finish_bootstrap a0 = (a1, None) -> clos_refl_trans asst narrowing a1 a2 -> remove_all_filters a2 = (a3, x) ->
    get_static_todo_list a3 = get_static_todo_list a1.
  Proof.
    intros H N RM. unfold AsrunModel.finish_bootstrap, andthen in H. destruct (choose _ true a0) as [b1 [e|]] eqn:C; [discriminate|]. injection H as <-.
    assert (E : a_plans a2 = a_plans a0 /\ st_jobs (a_state a2) = st_jobs (a_state a0) /\ st_mandatory (a_state a2) = st_mandatory (a_state a0)).
    { clear RM. pose proof (choose_frame _ _ _ _ _ C) as (E1 & E2 & E3). apply clos_rt_rtn1 in N. induction N as [|y z S _ IH]; [cbn; auto|]. destruct IH as (I1 & I2 & I3).
      destruct S as [(sel & w & S)|(cats & w & S)]; apply choose_frame in S as (-> & -> & ->); auto. }
    destruct E as (E1 & E2 & E3). unfold AsrunModel.remove_all_filters in RM. rewrite E1, E2 in RM.
    destruct (choose_run _ _ _ _ _ _ _ _ E1 E2 E3 C RM eq_refl) as [R _]. unfold get_static_todo_list. cbn [save put_flags a_state]. now rewrite R.
  Qed.
  End Categories.
  (** But jobs that were picked by hand are gone *)
  Theorem C69_picked_jobs_refuted patterns a a1 a2 x : a_plans a = [] -> st_mandatory (a_state a) = [] -> hand_pick_jobs patterns a = (a1, None) -> remove_all_filters a1 = (a2, x) ->
    get_static_todo_list a2 = [] /\ get_mandatory_jobs a1 = None /\ get_participating_categories a1 = None.
  Proof.
    intros P M H R. unfold AsrunModel.hand_pick_jobs, andthen in H. destruct (choose _ true a) as [b [e|]] eqn:C; [discriminate|]. injection H as <-. apply choose_frame in C as (E1 & E2 & E3).
    unfold AsrunModel.remove_all_filters, AsrunModel.choose, update_desired_job_list in R. cbn [put_flags a_plans a_state] in R. rewrite E1, P, E3, M in R. cbn in R.
    unfold get_mandatory_jobs, get_participating_categories. cbn [put_flags a_plans]. rewrite E1, P. split; [|split; reflexivity].
    injection R as <- _. reflexivity.
  Qed.
End Assistant.
Print Assumptions C69_the_list_of_a_test_plan.
Print Assumptions C69_selecting_only_narrows.
Print Assumptions C69_unknown_names_are_ignored.
Print Assumptions C69_filtering.
Print Assumptions C69_removing_the_filters.
Print Assumptions C69_picked_jobs_refuted.
