(** C42: which providers the session assistant selects. *)
From Coq Require Import String List Bool Arith Lia.
From Verif Require Import AssistantModel AssistantProps.
Import ListNotations.
Open Scope list_scope.

(** ** Specification *)
Section Spec.
Variable matches : string -> string -> bool.
(** Matched by one of the patterns. *)
Definition matched (pats : list string) (p : provider) : bool :=
  existsb (fun pat => matches pat (p_name p)) pats.
(** The providers that pattern [pat] adds when [before] are the patterns in
    front of it: those it matches that nothing selected before. *)
Definition added (available : list provider) (before : list string) (pat : string) : list provider :=
  filter (fun p => matches pat (p_name p) && negb (p_plainbox p) && negb (matched before p)) available.
(** Providers in the order of the patterns. *)
Fixpoint in_pattern_order (available : list provider) (before pats : list string) : list provider :=
  match pats with
  | [] => []
  | pat :: r => added available before pat ++ in_pattern_order available (before ++ [pat]) r
  end.
End Spec.
Definition distinct (l : list provider) : Prop := NoDup (map p_id l).

(** ** Proofs *)
Lemma NoDup_app_intro {A} (l1 l2 : list A) : NoDup l1 -> NoDup l2 -> (forall x, In x l1 -> ~ In x l2) -> NoDup (l1 ++ l2).
Proof.
  induction l1 as [|x r IH]; intros A1 A2 F; cbn; [exact A2|]. inversion A1; subst. constructor.
  - rewrite in_app_iff. intros [I|I]; [contradiction|]. apply (F x); [left; reflexivity|exact I].
  - apply IH; auto. intros y I. apply F. right. exact I.
Qed.
Lemma remove_provider_filter p l : distinct l ->
  remove_provider p l = filter (fun q => negb (Nat.eqb (p_id p) (p_id q))) l.
Proof.
  induction l as [|q r IH]; intros D; cbn; [reflexivity|].
  inversion D; subst. destruct (Nat.eqb (p_id p) (p_id q)) eqn:E; cbn.
  - apply Nat.eqb_eq in E. symmetry. rewrite <- (filter_ext_in (fun _ => true)).
    + clear. induction r; cbn; congruence.
    + intros x I. symmetry. apply negb_true_iff. apply Nat.eqb_neq. intros E2. apply H1. rewrite <- E, E2.
      apply in_map. exact I.
  - f_equal. apply IH. exact H2.
Qed.
Lemma distinct_filter f l : distinct l -> distinct (filter f l).
Proof.
  induction l as [|q r IH]; intros D; cbn; [exact D|]. inversion D; subst.
  destruct (f q); [|auto]. constructor; [|apply IH; auto].
  intros I. apply H1. apply in_map_iff in I. destruct I as (x & E & I). apply filter_In in I.
  rewrite <- E. apply in_map. tauto.
Qed.
Lemma filter_filter {A} (f g : A -> bool) l : filter f (filter g l) = filter (fun x => g x && f x) l.
Proof.
  induction l as [|x r IH]; cbn; [reflexivity|]. destruct (g x); cbn; [destruct (f x); congruence|exact IH].
Qed.
Lemma move_matching_gen pred copy : forall cand sel, distinct cand ->
  move_matching pred copy cand sel =
  (filter (fun q => negb (existsb (fun p => Nat.eqb (p_id p) (p_id q) && pred p) copy)) cand,
   sel ++ filter pred copy).
Proof.
  induction copy as [|p r IH]; intros cand sel D; cbn.
  - rewrite app_nil_r. f_equal. clear. induction cand; cbn; congruence.
  - destruct (pred p) eqn:E.
    + rewrite IH by (rewrite remove_provider_filter; auto; apply distinct_filter; auto).
      rewrite remove_provider_filter, filter_filter by auto. rewrite <- app_assoc. cbn. f_equal.
      apply filter_ext. intros q. rewrite andb_true_r, negb_orb. reflexivity.
    + rewrite IH by auto. f_equal. apply filter_ext. intros q. rewrite andb_false_r. reflexivity.
Qed.
Lemma distinct_eq l p q : distinct l -> In p l -> In q l -> p_id p = p_id q -> p = q.
Proof.
  induction l as [|x r IH]; intros D; [intros []|]. intros [->|I] [->|J] E; auto; inversion D; subst.
  - exfalso. apply H1. rewrite E. apply in_map. exact J.
  - exfalso. apply H1. rewrite <- E. apply in_map. exact I.
  - apply IH; auto.
Qed.
Lemma move_matching_spec pred l sel : distinct l ->
  move_matching pred l l sel = (filter (fun q => negb (pred q)) l, sel ++ filter pred l).
Proof.
  intros D. rewrite move_matching_gen by auto. f_equal. apply filter_ext_in. intros q I. f_equal.
  destruct (pred q) eqn:E.
  - apply existsb_exists. exists q. rewrite Nat.eqb_refl, E. auto.
  - apply not_true_is_false. intros H. apply existsb_exists in H. destruct H as (p & J & H).
    apply andb_true_iff in H. destruct H as [H1 H2]. apply Nat.eqb_eq in H1.
    assert (p = q) by (eapply distinct_eq; eauto). congruence.
Qed.

(** The candidates left after the patterns [before]. *)
Definition left_over matches av before :=
  filter (fun p => negb (p_plainbox p) && negb (matched matches before p)) av.
Lemma left_over_step matches av before pat :
  filter (fun q => negb (matches pat (p_name q))) (left_over matches av before) =
  left_over matches av (before ++ [pat]).
Proof.
  unfold left_over. rewrite filter_filter. apply filter_ext. intros q. unfold matched.
  rewrite existsb_app. cbn. rewrite orb_false_r, negb_orb, andb_assoc. reflexivity.
Qed.
Lemma left_over_added matches av before pat :
  filter (fun q => matches pat (p_name q)) (left_over matches av before) = added matches av before pat.
Proof.
  unfold left_over, added. rewrite filter_filter. apply filter_ext. intros q.
  destruct (matches pat (p_name q)); cbn; rewrite ?andb_true_r, ?andb_false_r; reflexivity.
Qed.
Lemma existsb_filter {A} (f : A -> bool) l : existsb f l = negb (match filter f l with [] => true | _ => false end).
Proof. induction l as [|x r IH]; cbn; [reflexivity|]. destruct (f x); cbn; [reflexivity|exact IH]. Qed.

Lemma match_patterns_step matches av pat r before sel : distinct av ->
  match_patterns matches (pat :: r) (left_over matches av before) sel =
  match added matches av before pat with
  | [] => (sel, false)
  | _ => match_patterns matches r (left_over matches av (before ++ [pat])) (sel ++ added matches av before pat)
  end.
Proof.
  intros D. cbn. rewrite move_matching_spec by (apply distinct_filter; auto).
  rewrite left_over_step, left_over_added, existsb_filter, left_over_added.
  destruct (added matches av before pat); cbn; [rewrite app_nil_r|]; reflexivity.
Qed.

Lemma match_patterns_ok matches av pats : forall before sel, distinct av ->
  (snd (match_patterns matches pats (left_over matches av before) sel) = true <->
   forall p1 pat p2, pats = p1 ++ pat :: p2 -> added matches av (before ++ p1) pat <> []) /\
  (snd (match_patterns matches pats (left_over matches av before) sel) = true ->
   fst (match_patterns matches pats (left_over matches av before) sel) = sel ++ in_pattern_order matches av before pats).
Proof.
  induction pats as [|pat r IH]; intros before sel D.
  - cbn. split; [|intros; rewrite app_nil_r; reflexivity]. split; [|auto].
    intros _ [|x p1] pat p2 E; discriminate.
  - rewrite match_patterns_step by auto. cbn [in_pattern_order].
    destruct (added matches av before pat) as [|x l] eqn:E.
    + cbn. split; [|discriminate]. split; [discriminate|]. intros H. specialize (H [] pat r eq_refl).
      rewrite app_nil_r in H. contradiction.
    + rewrite <- E. destruct (IH (before ++ [pat]) (sel ++ added matches av before pat) D) as [IH1 IH2].
      split.
      * rewrite IH1. split.
        -- intros H [|y p1] q p2 E2; injection E2 as -> E2; [rewrite app_nil_r, E; discriminate|].
           specialize (H p1 q p2 E2). rewrite <- app_assoc in H. exact H.
        -- intros H p1 q p2 E2. rewrite <- app_assoc. apply (H (pat :: p1) q p2). cbn. congruence.
      * intros H. rewrite IH2 by exact H. rewrite <- app_assoc. reflexivity.
Qed.
Lemma left_over_nil matches av : filter (fun q => negb (p_plainbox q)) av = left_over matches av [].
Proof. unfold left_over. apply filter_ext. intros q. cbn. rewrite andb_true_r. reflexivity. Qed.

(** What a successful call selects, in order: the built-in providers first, then
    what each pattern adds.  The call succeeds exactly when each pattern adds
    something. *)
Theorem C42_selection matches av pats sel0 : distinct av ->
  (snd (select matches av pats sel0) = true <->
   forall p1 pat p2, pats = p1 ++ pat :: p2 -> added matches av p1 pat <> []) /\
  (snd (select matches av pats sel0) = true ->
   fst (select matches av pats sel0) = sel0 ++ filter p_plainbox av ++ in_pattern_order matches av [] pats).
Proof.
  intros D. unfold select. rewrite move_matching_spec by auto. rewrite (left_over_nil matches).
  destruct (match_patterns_ok matches av pats [] (sel0 ++ filter p_plainbox av) D) as [A B].
  split; [exact A|]. intros H. rewrite B by exact H. rewrite app_assoc. reflexivity.
Qed.
Print Assumptions C42_selection.

Lemma in_pattern_order_in matches av p : forall pats before,
  In p (in_pattern_order matches av before pats) <->
  In p av /\ p_plainbox p = false /\ matched matches before p = false /\ matched matches pats p = true.
Proof.
  induction pats as [|pat r IH]; intros before; cbn.
  - split; [intros []|intros (_ & _ & _ & H); discriminate].
  - rewrite in_app_iff, IH. unfold added. rewrite filter_In, !andb_true_iff, !negb_true_iff.
    unfold matched in *. rewrite existsb_app. cbn. rewrite orb_false_r, !orb_false_iff, orb_true_iff.
    destruct (matches pat (p_name p)); intuition discriminate.
Qed.
(** Nothing is selected twice, and exactly the built-in providers and those that
    some pattern matches are. *)
Theorem C42_exactly_the_matching_ones matches av pats : distinct av ->
  snd (select matches av pats []) = true ->
  distinct (fst (select matches av pats [])) /\
  forall p, In p (fst (select matches av pats [])) <-> In p av /\ (p_plainbox p = true \/ exists pat, In pat pats /\ matches pat (p_name p) = true).
Proof.
  intros D H. destruct (C42_selection matches av pats [] D) as [_ B]. rewrite (B H). cbn. split.
  - unfold distinct. rewrite map_app.
    assert (K : forall pats before, NoDup (map p_id (in_pattern_order matches av before pats))).
    { clear H B. induction pats0 as [|pat r IH]; intros before; cbn; [constructor|].
      rewrite map_app. apply NoDup_app_intro.
      - apply distinct_filter. exact D.
      - apply IH.
      - intros i I J. apply in_map_iff in I. apply in_map_iff in J.
        destruct I as (a & <- & I). destruct J as (b & E & J).
        apply in_pattern_order_in in J. destruct J as (J1 & J2 & J3 & J4).
        apply filter_In in I. destruct I as (I1 & I2).
        assert (a = b) by (eapply distinct_eq; eauto). subst b.
        unfold matched in J3. rewrite existsb_app in J3. cbn in J3.
        destruct (matches pat (p_name a)); [|discriminate I2].
        rewrite orb_true_r in J3. discriminate. }
    apply NoDup_app_intro; [apply distinct_filter; exact D|apply K|].
    intros i I J. apply in_map_iff in I. apply in_map_iff in J.
    destruct I as (a & <- & I). destruct J as (b & E & J).
    apply in_pattern_order_in in J. apply filter_In in I. destruct I as [I1 I2].
    assert (a = b) by (eapply distinct_eq; eauto; tauto). subst b. intuition congruence.
  - intros p. rewrite in_app_iff, filter_In, in_pattern_order_in. unfold matched.
    rewrite (existsb_exists (fun pat => matches pat (p_name p)) pats). cbn.
    destruct (p_plainbox p); intuition discriminate.
Qed.
Print Assumptions C42_exactly_the_matching_ones.

(** The documentation says that ValueError means that a pattern did not match
    any provider.  That is not so: a pattern is also refused if everything it
    matches was selected already. *)
Definition p_a := mk_provider 1 false "a".
Theorem C42_useless_pattern_refuted : exists matches av pats,
  distinct av /\
  (forall pat, In pat pats -> exists p, In p av /\ matches pat (p_name p) = true) /\
  snd (select matches av pats []) = false.
Proof.
  exists String.eqb, [p_a], ["a"%string; "a"%string]. split; [repeat constructor; intros []|].
  split; [|reflexivity]. intros pat [<-|[<-|[]]]; exists p_a; cbn; auto.
Qed.
Print Assumptions C42_useless_pattern_refuted.

(** A failed call leaves its partial selection behind: after a corrected second
    call the providers are there twice and no session can be started at all. *)
Theorem C42_retry_refuted : exists h s,
  history String.eqb h s /\
  h = [(SelectProviders [p_a] ["a"%string; "zz"%string], Failed); (SelectProviders [p_a] ["a"%string], Returned)] /\
  In m_start_new_session (a_allowed s) /\
  forall r, fst (step String.eqb s (StartNewSession r)) = Failed.
Proof.
  eexists _, _. split.
  - exists false, [SelectProviders [p_a] ["a"%string; "zz"%string]; SelectProviders [p_a] ["a"%string]].
    vm_compute. reflexivity.
  - split; [reflexivity|]. split; [apply is_allowed_in; reflexivity|]. intros []; reflexivity.
Qed.
Print Assumptions C42_retry_refuted.

(** Without a failed call, starting a session does not fail for that reason. *)
Theorem C42_selection_can_be_added matches av pats : distinct av ->
  snd (select matches av pats []) = true -> add_providers (fst (select matches av pats [])) [] = true.
Proof.
  intros D H. destruct (C42_exactly_the_matching_ones matches av pats D H) as [N _].
  assert (K : forall l have, distinct l -> (forall p, In p l -> ~ In (p_id p) have) -> add_providers l have = true).
  { clear. induction l as [|p r IH]; intros have D F; cbn; [reflexivity|]. inversion D; subst.
    destruct (existsb (Nat.eqb (p_id p)) have) eqn:E.
    - exfalso. apply existsb_exists in E. destruct E as (i & I & E). apply Nat.eqb_eq in E. subst i.
      apply (F p); [left; reflexivity|exact I].
    - apply IH; [exact H2|]. intros q I [E2|J]; [|apply (F q); [right; exact I|exact J]].
      apply H1. rewrite E2. apply in_map. exact I. }
  apply K; auto.
Qed.
Print Assumptions C42_selection_can_be_added.

Example C42_case :
  fst (select String.eqb [mk_provider 0 false "b"; p_a; mk_provider 2 true "box"; mk_provider 3 false "c"]
         ["c"; "a"]%string []) = [mk_provider 2 true "box"; mk_provider 3 false "c"; p_a].
Proof. reflexivity. Qed.
