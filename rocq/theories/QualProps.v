(** Theorems about job selection (properties C17, C18). *)
From Coq Require Import String List Bool Arith Lia Sorting.Sorted.
From Verif Require Import Base BaseFacts QualModel QualSpec.
Import ListNotations.
Open Scope list_scope.

Section Proofs.
  Variable job : Type.
  Variable job_id : job -> name.
  Notation qualifier := (qualifier job).
  Notation matcher := (matcher job).

  (** * Qualifiers *)

  Lemma qualifier_ind' (P : qualifier -> Prop) :
    (forall m i, P (Simple m i)) -> (forall l, Forall P l -> P (Composite l)) ->
    forall q, P q.
  Proof.
    intros H1 H2. fix IH 1. intros [m i|l]; [apply H1|]. apply H2.
    induction l; constructor; auto.
  Qed.

  Lemma matches_iff m j : get_simple_match job job_id m j = true <-> matches job job_id m j.
  Proof. destruct m; simpl; [apply String.eqb_eq|tauto]. Qed.

  Lemma primitive_flat q m i : primitive job q m i <-> In (m, i) (get_primitive_qualifiers job q).
  Proof.
    revert m i. induction q as [m0 i0|l IH] using qualifier_ind'; intros m i; simpl.
    - split; [inversion 1; auto|]. intros [[= -> ->]|[]]. constructor.
    - rewrite in_flat_map. rewrite Forall_forall in IH. split.
      + inversion 1; subst. exists q. split; auto. now apply IH.
      + intros (q & Hq & H). apply prim_in with q; auto. now apply IH.
  Qed.

  Lemma leaves_flat q : leaves job q (get_primitive_qualifiers job q).
  Proof.
    induction q as [m0 i0|l IH] using qualifier_ind'; simpl; [constructor|].
    rewrite flat_map_concat_map. constructor. induction IH; simpl; constructor; auto.
  Qed.

  Lemma vote_min_spec a b : vote_min a b =
    match a, b with
    | EXCLUDE, _ | _, EXCLUDE => EXCLUDE
    | INCLUDE, _ | _, INCLUDE => INCLUDE
    | _, _ => IGNORE
    end.
  Proof. destruct a, b; reflexivity. Qed.

  (** The vote of a list of members. *)
  Definition vote_of (l : list vote) (v : vote) : Prop :=
    match v with
    | EXCLUDE => In EXCLUDE l
    | INCLUDE => In INCLUDE l /\ ~ In EXCLUDE l
    | IGNORE => ~ In INCLUDE l /\ ~ In EXCLUDE l
    end.

  Lemma fold_votes l : forall l0 v0, vote_of l0 v0 ->
    vote_of (l0 ++ l) (fold_left vote_min l v0).
  Proof.
    induction l as [|v l IH]; intros l0 v0 H; simpl; [now rewrite app_nil_r|].
    replace (l0 ++ v :: l) with ((l0 ++ [v]) ++ l) by (rewrite <- app_assoc; auto).
    apply IH. rewrite vote_min_spec. destruct v0, v; simpl in *; rewrite !in_app_iff; simpl; intuition congruence.
  Qed.

  Lemma composite_vote l j :
    vote_of (map (fun q => get_vote job job_id q j) l) (get_vote job job_id (Composite l) j).
  Proof.
    destruct l as [|q l]; [simpl; tauto|]. cbn [get_vote map].
    assert (E : forall v, fold_left (fun a q' => vote_min a (get_vote job job_id q' j)) l v =
       fold_left vote_min (map (fun q => get_vote job job_id q j) l) v).
    { clear. induction l; intros v; simpl; auto. }
    rewrite E. apply (fold_votes _ [get_vote job job_id q j]).
    destruct (get_vote job job_id q j); simpl; intuition congruence.
  Qed.

  Lemma vote_of_prims q j :
    (get_vote job job_id q j = EXCLUDE <-> excludes job job_id q j) /\
    (get_vote job job_id q j = INCLUDE <-> includes job job_id q j /\ ~ excludes job job_id q j).
  Proof.
    induction q as [m i|l IH] using qualifier_ind'.
    - unfold excludes, includes. cbn [get_vote]. unfold simple_vote.
      pose proof (matches_iff m j) as Hm.
      assert (E : forall b m', primitive job (Simple m i) m' b <-> m' = m /\ b = i).
      { intros b m'. split; [inversion 1; auto|]. intros [-> ->]. constructor. }
      destruct (get_simple_match job job_id m j); destruct i; split; split;
        intros H; try discriminate; try reflexivity;
        repeat match goal with
        | H : _ /\ _ |- _ => destruct H
        | H : exists _, _ |- _ => destruct H
        | H : primitive _ _ _ _ |- _ => apply E in H
        end; subst; try discriminate.
      all: first
        [ split; [exists m; split; [now apply E|now apply Hm]|];
          intros (m' & H' & _); apply E in H'; destruct H'; discriminate
        | exists m; split; [now apply E|now apply Hm]
        | exfalso; assert (false = true) by (now apply Hm); discriminate ].
    - rewrite Forall_forall in IH. pose proof (composite_vote l j) as V.
      assert (Hex : In EXCLUDE (map (fun q => get_vote job job_id q j) l) <->
                    excludes job job_id (Composite l) j).
      { rewrite in_map_iff. split.
        - intros (q & Hv & Hq). apply IH in Hv; auto. destruct Hv as (m & Hp & Hm).
          exists m. split; auto. now apply prim_in with q.
        - intros (m & Hp & Hm). inversion Hp; subst. exists q. split; auto.
          apply IH; auto. exists m. auto. }
      assert (Hin : ~ excludes job job_id (Composite l) j ->
         (In INCLUDE (map (fun q => get_vote job job_id q j) l) <->
                    includes job job_id (Composite l) j)).
      { intros Hne. rewrite in_map_iff. split.
        - intros (q & Hv & Hq). apply IH in Hv; auto. destruct Hv as [(m & Hp & Hm) _].
          exists m. split; auto. now apply prim_in with q.
        - intros (m & Hp & Hm). inversion Hp; subst. exists q. split; auto.
          apply IH; auto. split; [exists m; auto|]. intros (m' & Hp' & Hm'). apply Hne.
          exists m'. split; auto. now apply prim_in with q. }
      destruct (get_vote job job_id (Composite l) j); simpl in V; split; split; intros; try discriminate; auto; tauto.
  Qed.

  (** * Selection *)

  Lemma nmem_In i l : nmem i l = true <-> In i l.
  Proof.
    unfold nmem. rewrite existsb_exists. split.
    - intros (x & H & E). apply Nat.eqb_eq in E. congruence.
    - intros H. exists i. split; auto. apply Nat.eqb_refl.
  Qed.
  Lemma nmem_false i l : nmem i l = false <-> ~ In i l.
  Proof. rewrite <- nmem_In. destruct (nmem i l); intuition congruence. Qed.

  Variable jobs : list job.
  Hypothesis unique : NoDup (map job_id jobs).

  Notation pairs := (combine (seq 0 (length jobs)) jobs).

  Lemma in_pairs_gen (l : list job) : forall k i j,
    In (i, j) (combine (seq k (length l)) l) <-> k <= i /\ nth_error l (i - k) = Some j.
  Proof.
    induction l as [|x l IH]; intros k i j; simpl.
    - split; [tauto|]. intros [_ H]. destruct (i - k); discriminate.
    - rewrite IH. split.
      + intros [[= <- <-]|[H1 H2]]; [rewrite Nat.sub_diag; auto|].
        split; [lia|]. replace (i - k) with (S (i - S k)) by lia. exact H2.
      + intros [H1 H2]. destruct (Nat.eq_dec i k) as [->|Hne].
        * rewrite Nat.sub_diag in H2. simpl in H2. left. congruence.
        * right. split; [lia|]. replace (i - k) with (S (i - S k)) in H2 by lia. exact H2.
  Qed.

  Lemma in_pairs i j : In (i, j) pairs <-> nth_error jobs i = Some j.
  Proof. rewrite in_pairs_gen. rewrite Nat.sub_0_r. intuition lia. Qed.

  Lemma fst_pairs (l : list job) k : map fst (combine (seq k (length l)) l) = seq k (length l).
  Proof. revert k. induction l; intros k; simpl; auto. now rewrite IHl. Qed.

  Lemma nth_inj i i' j j' : nth_error jobs i = Some j -> nth_error jobs i' = Some j' ->
    job_id j = job_id j' -> i = i'.
  Proof.
    intros H H' E. rewrite NoDup_nth_error in unique. apply unique.
    - rewrite map_length. apply nth_error_Some. congruence.
    - rewrite !nth_error_map, H, H'. simpl. congruence.
  Qed.

  Lemma index_map v :
    match dget v (id_to_index_map job job_id jobs) with
    | Some i => exists j, nth_error jobs i = Some j /\ job_id j = v
    | None => forall i j, nth_error jobs i = Some j -> job_id j <> v
    end.
  Proof.
    unfold id_to_index_map.
    set (f := fun (m : dict nat) (p : nat * job) => dset (job_id (snd p)) (fst p) m).
    assert (G : forall l, match dget v (fold_left f l []) with
      | Some i => exists j, In (i, j) l /\ job_id j = v
      | None => forall i j, In (i, j) l -> job_id j <> v end).
    { induction l as [|[i j] l IH] using rev_ind; [simpl; auto|].
      rewrite fold_left_app. cbn [fold_left]. unfold f at 1. cbn [fst snd].
      rewrite dget_dset. destruct (String.eqb_spec v (job_id j)) as [->|Hne].
      - exists j. rewrite in_app_iff. simpl. auto.
      - destruct (dget v (fold_left f l [])) as [i'|].
        + destruct IH as (j' & H & E). exists j'. rewrite in_app_iff. auto.
        + intros i' j' H. apply in_app_iff in H. destruct H as [H|[[= <- <-]|[]]]; [eauto|congruence]. }
    specialize (G pairs). destruct (dget v (fold_left f pairs [])) as [i|].
    - destruct G as (j & H & E). exists j. split; auto. now apply in_pairs.
    - intros i j H. apply (G i). now apply in_pairs.
  Qed.

  (** The general path for one primitive qualifier. *)
  Definition general (q : matcher * bool) (acc : list nat * list nat) : list nat * list nat :=
    fold_left (fun acc p => record_vote acc (fst p) (simple_vote job job_id (fst q) (snd q) (snd p)))
      pairs acc.

  Lemma fold_ignore (l : list (nat * job)) m b acc :
    (forall p, In p l -> simple_vote job job_id m b (snd p) = IGNORE) ->
    fold_left (fun acc p => record_vote acc (fst p) (simple_vote job job_id m b (snd p)))
      l acc = acc.
  Proof.
    revert acc. induction l as [|p l IH]; intros [inc exc] H; simpl; auto.
    rewrite (H p (or_introl eq_refl)). simpl. apply IH. intros. apply H. now right.
  Qed.

  (** The two paths agree. *)
  Lemma process_general q acc : process job job_id jobs (id_to_index_map job job_id jobs) acc q = general q acc.
  Proof.
    destruct q as [[v|f] inclusive]; [|reflexivity]. unfold process. cbn [fst snd].
    pose proof (index_map v) as H. destruct (dget v _) as [i|].
    - destruct H as (j & Hj & Hv). rewrite Hj. unfold general.
      assert (Hp : In (i, j) pairs) by now apply in_pairs.
      assert (Hall : forall p, In p pairs -> fst p <> i ->
         simple_vote job job_id (MId v) inclusive (snd p) = IGNORE).
      { intros [i' j'] Hp' Hne. apply in_pairs in Hp'. unfold simple_vote. simpl in *.
        destruct (String.eqb_spec v (job_id j')); auto. elim Hne.
        eapply nth_inj; eauto. congruence. }
      assert (Hnd : NoDup (map fst pairs)) by (rewrite fst_pairs; apply seq_NoDup).
      apply in_split in Hp. destruct Hp as (l1 & l2 & Hp). rewrite Hp in *.
      rewrite map_app in Hnd. simpl in Hnd.
      rewrite fold_left_app. cbn [fold_left fst snd]. rewrite !fold_ignore; auto.
      + intros p Hp'. apply Hall; [apply in_app_iff; simpl; auto|]. intros E.
        apply NoDup_remove_2 in Hnd. apply Hnd. apply in_app_iff. left. rewrite <- E. now apply in_map.
      + intros p Hp'. apply Hall; [apply in_app_iff; simpl; auto|]. intros E.
        apply NoDup_remove_2 in Hnd. apply Hnd. apply in_app_iff. right. rewrite <- E. now apply in_map.
    - unfold general. cbn [fst snd]. rewrite fold_ignore; auto. intros [i j] Hp. apply in_pairs in Hp.
      apply H in Hp. unfold simple_vote. simpl. destruct (String.eqb_spec v (job_id j)); congruence.
  Qed.

  (** What the general path does. *)
  Lemma general_spec_gen q l : NoDup (map fst l) -> forall inc exc,
    exists new out, fold_left (fun acc p => record_vote acc (fst p)
        (simple_vote job job_id (fst q) (snd q) (snd p))) l (inc, exc) = (inc ++ new, out) /\
      (forall i, In i new <-> ~ In i inc /\ snd q = true /\ exists j, In (i, j) l /\ matches job job_id (fst q) j) /\
      (forall i, In i out <-> In i exc \/ (snd q = false /\ exists j, In (i, j) l /\ matches job job_id (fst q) j)) /\
      exists sel, new = map fst (filter sel l).
  Proof.
    destruct q as [m inclusive]. cbn [fst snd]. induction l as [|[i j] l IH]; intros Hnd inc exc.
    - exists [], exc. simpl. rewrite app_nil_r. split; auto. split; [firstorder|]. split; [firstorder|].
      exists (fun _ => true). reflexivity.
    - inversion Hnd as [|? ? Hi Hnd']; subst. cbn [fold_left fst snd].
      assert (Hother : forall x, In (i, x) l -> False).
      { intros x Hx. apply Hi. change i with (fst (i, x)). now apply in_map. }
      assert (Hsel : forall (b : bool) sel, map fst (filter (fun p => if Nat.eqb (fst p) i then b else sel p) ((i, j) :: l)) =
         (if b then [i] else []) ++ map fst (filter sel l)).
      { intros b sel. simpl. rewrite Nat.eqb_refl.
        assert (E : filter (fun p => if Nat.eqb (fst p) i then b else sel p) l = filter sel l).
        { apply filter_ext_in. intros [i' j'] Hp. simpl. destruct (Nat.eqb_spec i' i); auto.
          subst. exfalso. eauto. }
        rewrite E. destruct b; reflexivity. }
      unfold simple_vote at 2. pose proof (matches_iff m j) as Hm.
      destruct (get_simple_match job job_id m j) eqn:Em; [destruct inclusive|].
      + cbn [record_vote]. destruct (nmem i inc) eqn:En.
        * apply nmem_In in En. destruct (IH Hnd' inc exc) as (new & out & H1 & H2 & H3 & sel & H4).
          exists new, out. split; auto. split; [|split].
          -- intros x. rewrite H2. split.
             ++ intros (A & B & y & C & D). split; auto. split; auto. exists y. simpl. auto.
             ++ intros (A & B & y & [[= <- <-]|C] & D); [contradiction|]. split; auto. split; auto. eauto.
          -- intros x. rewrite H3. split; intros [A|(A & _)]; try discriminate; auto.
          -- exists (fun p => if Nat.eqb (fst p) i then false else sel p). rewrite Hsel. auto.
        * apply nmem_false in En. destruct (IH Hnd' (inc ++ [i]) exc) as (new & out & H1 & H2 & H3 & sel & H4).
          exists (i :: new), out. split; [rewrite H1, <- app_assoc; reflexivity|]. split; [|split].
          -- intros x. simpl. rewrite H2, in_app_iff. simpl. split.
             ++ intros [<-|(A & B & y & C & D)].
                ** split; auto. split; auto. exists j. split; auto. now apply Hm.
                ** split; [tauto|]. split; auto. exists y. auto.
             ++ intros (A & B & y & [[= <- <-]|C] & D); auto.
                destruct (Nat.eq_dec i x) as [->|Hne]; [exfalso; eauto|].
                right. split; [intuition|]. split; auto. eauto.
          -- intros x. rewrite H3. split; intros [A|(A & _)]; try discriminate; auto.
          -- exists (fun p => if Nat.eqb (fst p) i then true else sel p). rewrite Hsel. simpl. congruence.
      + cbn [record_vote]. destruct (IH Hnd' inc (i :: exc)) as (new & out & H1 & H2 & H3 & sel & H4).
        exists new, out. split; auto. split; [|split].
        * intros x. rewrite H2. split; intros (A & B & _); discriminate.
        * intros x. rewrite H3. simpl. split.
          -- intros [[<-|A]|(A & y & B & C)]; auto.
             ++ right. split; auto. exists j. split; auto. now apply Hm.
             ++ right. split; auto. exists y. auto.
          -- intros [A|(A & y & [[= <- <-]|B] & C)]; auto. right. split; auto. eauto.
        * exists (fun p => if Nat.eqb (fst p) i then false else sel p). rewrite Hsel. auto.
      + assert (Hno : ~ matches job job_id m j).
        { intros H. apply Hm in H. discriminate. }
        cbn [record_vote]. destruct (IH Hnd' inc exc) as (new & out & H1 & H2 & H3 & sel & H4).
        exists new, out. split; auto. split; [|split].
        * intros x. rewrite H2. split.
          -- intros (A & B & y & C & D). split; auto. split; auto. exists y. simpl. auto.
          -- intros (A & B & y & [[= <- <-]|C] & D); [contradiction|]. split; auto. split; auto. eauto.
        * intros x. rewrite H3. simpl. split.
          -- intros [A|(A & y & B & C)]; auto. right. split; auto. exists y. auto.
          -- intros [A|(A & y & [[= <- <-]|B] & C)]; auto; [contradiction|]. right. split; auto. eauto.
        * exists (fun p => if Nat.eqb (fst p) i then false else sel p). rewrite Hsel. auto.
  Qed.

  (** ** Invariant of the main loop *)

  Definition at_ (fl : list (matcher * bool)) (i n : nat) : Prop :=
    exists j, nth_error jobs i = Some j /\ first_at job job_id fl j n.

  Definition before_ (fl : list (matcher * bool)) (a b : nat) : Prop :=
    exists na nb, at_ fl a na /\ at_ fl b nb /\ (na < nb \/ (na = nb /\ a < b)).

  Definition hit (fl : list (matcher * bool)) (b : bool) (i : nat) : Prop :=
    exists j m, nth_error jobs i = Some j /\ In (m, b) fl /\ matches job job_id m j.

  Lemma at_snoc fl q i n : at_ fl i n -> n < length fl -> at_ (fl ++ [q]) i n.
  Proof.
    intros (j & Hj & (m & Hm1 & Hm2) & Hf) Hn. exists j. split; auto. split.
    - exists m. rewrite nth_error_app1; auto.
    - intros k m' Hk E. rewrite nth_error_app1 in E by lia. eauto.
  Qed.

  Lemma at_bound fl i n : at_ fl i n -> n < length fl.
  Proof. intros (j & Hj & (m & Hm1 & Hm2) & Hf). apply nth_error_Some. congruence. Qed.

  Lemma before_snoc fl q a b : before_ fl a b -> before_ (fl ++ [q]) a b.
  Proof.
    intros (na & nb & H1 & H2 & H3). exists na, nb.
    repeat split; auto; apply at_snoc; eauto using at_bound.
  Qed.

  Lemma SS_app {X} (R : X -> X -> Prop) l1 l2 : StronglySorted R l1 -> StronglySorted R l2 ->
    (forall a b, In a l1 -> In b l2 -> R a b) -> StronglySorted R (l1 ++ l2).
  Proof.
    intros H1 H2 H. induction H1 as [|a l1 H1 IH Ha]; auto. simpl. constructor.
    - apply IH. intros. apply H; simpl; auto.
    - apply Forall_app. split; auto. apply Forall_forall. intros b Hb. apply H; simpl; auto.
  Qed.

  Lemma SS_weaken {X} (R R' : X -> X -> Prop) l : StronglySorted R l ->
    (forall a b, In a l -> In b l -> R a b -> R' a b) -> StronglySorted R' l.
  Proof.
    intros H. induction H as [|a l H IH Ha]; intros Hi; constructor.
    - apply IH. intros. apply Hi; simpl; auto.
    - rewrite Forall_forall in *. intros b Hb. apply Hi; simpl; auto.
  Qed.

  Lemma SS_filter {X} (R : X -> X -> Prop) f l : StronglySorted R l -> StronglySorted R (filter f l).
  Proof.
    intros H. induction H as [|a l H IH Ha]; simpl; [constructor|]. destruct (f a); auto.
    constructor; auto. rewrite Forall_forall in *. intros b Hb. apply filter_In in Hb. apply Ha. tauto.
  Qed.

  Lemma SS_pairs_gen (l : list job) : forall k sel,
    StronglySorted lt (map fst (filter sel (combine (seq k (length l)) l))).
  Proof.
    induction l as [|x l IH]; intros k sel; simpl; [constructor|].
    destruct (sel (k, x)); simpl; auto. constructor; auto. apply Forall_forall. intros i Hi.
    apply in_map_iff in Hi. destruct Hi as ([i' j'] & E & Hi). apply filter_In in Hi.
    destruct Hi as [Hi _]. apply in_pairs_gen in Hi. simpl in E. lia.
  Qed.

  Record LInv (fl : list (matcher * bool)) (acc : list nat * list nat) : Prop := {
    li_inc : forall i, In i (fst acc) <-> hit fl true i;
    li_exc : forall i, In i (snd acc) <-> hit fl false i;
    li_at : forall i, In i (fst acc) -> exists n, at_ fl i n;
    li_sorted : StronglySorted (before_ fl) (fst acc)
  }.

  Lemma LInv_fold fl : LInv fl (fold_left (process job job_id jobs (id_to_index_map job job_id jobs)) fl ([], [])).
  Proof.
    induction fl as [|q fl IH] using rev_ind.
    - constructor; simpl; try constructor; try tauto; intros (j & m & _ & [] & _).
    - rewrite fold_left_app. cbn [fold_left]. rewrite process_general. unfold general.
      destruct (fold_left _ fl _) as [inc exc]. destruct IH as [H1 H2 H3 H4]. cbn [fst snd] in *.
      assert (Hnd : NoDup (map fst pairs)) by (rewrite fst_pairs; apply seq_NoDup).
      destruct (general_spec_gen q pairs Hnd inc exc) as (new & out & -> & N1 & N2 & sel & N3).
      assert (Hnew : forall i, In i new -> at_ (fl ++ [q]) i (length fl)).
      { intros i Hi. apply N1 in Hi. destruct Hi as (Hni & Hq & j & Hj & Hm). apply in_pairs in Hj.
        exists j. split; auto. destruct q as [m b]. simpl in *. subst b. split.
        - exists m. rewrite nth_error_app2, Nat.sub_diag by lia. auto.
        - intros k m' Hk E Hm'. rewrite nth_error_app1 in E by auto. apply Hni. apply H1.
          exists j, m'. split; auto. split; auto. eapply nth_error_In; eauto. }
      assert (Hold : forall i, In i inc -> exists n, n < length fl /\ at_ (fl ++ [q]) i n).
      { intros i Hi. apply H3 in Hi. destruct Hi as (n & Hn). exists n.
        split; [eapply at_bound; eauto|]. apply at_snoc; auto. eapply at_bound; eauto. }
      constructor; cbn [fst snd].
      + intros i. rewrite in_app_iff, N1, H1. unfold hit. split.
        * intros [(j & m & A & B & C)|(A & B & j & C & D)].
          -- exists j, m. rewrite in_app_iff. auto.
          -- exists j, (fst q). apply in_pairs in C. rewrite in_app_iff. split; auto. split; auto.
             right. left. destruct q. simpl in *. congruence.
        * intros (j & m & A & B & C). apply in_app_iff in B. destruct B as [B|[->|[]]]; [left; eauto|].
          destruct (in_dec Nat.eq_dec i inc) as [Hi|Hi]; [left; now apply H1|].
          right. split; [intros Hh; now apply Hi, H1|]. split; auto. exists j. split; auto. now apply in_pairs.
      + intros i. rewrite N2, H2. unfold hit. split.
        * intros [(j & m & A & B & C)|(B & j & C & D)].
          -- exists j, m. rewrite in_app_iff. auto.
          -- exists j, (fst q). apply in_pairs in C. rewrite in_app_iff. split; auto. split; auto.
             right. left. destruct q. simpl in *. congruence.
        * intros (j & m & A & B & C). apply in_app_iff in B. destruct B as [B|[->|[]]]; [left; eauto|].
          right. split; auto. exists j. split; auto. now apply in_pairs.
      + intros i Hi. apply in_app_iff in Hi. destruct Hi as [Hi|Hi].
        * apply Hold in Hi. destruct Hi as (n & _ & Hn). eauto.
        * exists (length fl). auto.
      + apply SS_app.
        * eapply SS_weaken; eauto. intros. now apply before_snoc.
        * rewrite N3 in *. eapply SS_weaken; [apply SS_pairs_gen|]. intros a b Ha Hb Hlt.
          exists (length fl), (length fl). auto.
        * intros a b Ha Hb. apply Hold in Ha. destruct Ha as (n & Hn & Ha).
          exists n, (length fl). auto.
  Qed.
End Proofs.

Arguments vote_of l v : simpl never.

(** * C18 *)

(** A qualifier excludes a job iff one of its primitive parts does; it includes
    it iff one of its parts includes it and none excludes it; else it ignores
    it. *)
Theorem C18_votes :
  forall job job_id q (j : job),
    (get_vote job job_id q j = EXCLUDE <-> excludes job job_id q j) /\
    (get_vote job job_id q j = INCLUDE <-> includes job job_id q j /\ ~ excludes job job_id q j) /\
    (get_vote job job_id q j = IGNORE <-> ~ includes job job_id q j /\ ~ excludes job job_id q j).
Proof.
  intros job job_id q j. destruct (vote_of_prims job job_id q j) as [H1 H2].
  split; auto. split; auto.
  destruct (get_vote job job_id q j) eqn:E; split; intros; try discriminate; auto; intuition congruence.
Qed.
Print Assumptions C18_votes.

(** The members' votes alone decide, whatever their order. *)
Theorem C18_composite :
  forall job job_id l (j : job),
    let votes := map (fun q => get_vote job job_id q j) l in
    (get_vote job job_id (Composite l) j = EXCLUDE <-> In EXCLUDE votes) /\
    (get_vote job job_id (Composite l) j = INCLUDE <-> In INCLUDE votes /\ ~ In EXCLUDE votes) /\
    (get_vote job job_id (Composite l) j = IGNORE <-> ~ In INCLUDE votes /\ ~ In EXCLUDE votes).
Proof.
  intros job job_id l j votes. pose proof (composite_vote job job_id l j) as V. fold votes in V.
  destruct (get_vote job job_id (Composite l) j); unfold vote_of in V;
    repeat split; intros; try discriminate; tauto.
Qed.
Print Assumptions C18_composite.

(** Flattening a qualifier does not change its vote. *)
Theorem C18_flattening :
  forall job job_id q (j : job),
    get_vote job job_id
      (Composite (map (fun p => Simple (fst p) (snd p)) (get_primitive_qualifiers job q))) j =
    get_vote job job_id q j.
Proof.
  intros job job_id q j.
  set (q' := Composite _).
  assert (P : forall m i, primitive job q' m i <-> primitive job q m i).
  { intros m i. rewrite (primitive_flat job q). unfold q'. split.
    - inversion 1 as [|x l m' i' Hx Hp]; subst. apply in_map_iff in Hx.
      destruct Hx as ([m0 i0] & <- & Hx). inversion Hp; subst. exact Hx.
    - intros H. apply prim_in with (Simple m i); [|constructor].
      apply in_map_iff. exists (m, i). auto. }
  assert (E : excludes job job_id q' j <-> excludes job job_id q j)
    by (unfold excludes; split; intros (m & H & H'); exists m; (split; auto); now apply P).
  assert (I : includes job job_id q' j <-> includes job job_id q j)
    by (unfold includes; split; intros (m & H & H'); exists m; (split; auto); now apply P).
  destruct (C18_votes job job_id q j) as (A1 & A2 & A3), (C18_votes job job_id q' j) as (B1 & B2 & B3).
  destruct (get_vote job job_id q j).
  - apply B1. apply E. now apply A1.
  - apply B2. rewrite E, I. now apply A2.
  - apply B3. rewrite E, I. now apply A3.
Qed.
Print Assumptions C18_flattening.

(** * C17 *)

Section Select.
  Variable job : Type.
  Variable job_id : job -> name.

  Lemma select_unfold jobs quals :
    let (inc, exc) := fold_left (process job job_id jobs (id_to_index_map job job_id jobs))
                        (flat_list job quals) ([], []) in
    select_jobs job job_id jobs quals =
    flat_map (fun i => match nth_error jobs i with Some j => [j] | None => [] end)
      (filter (fun i => negb (nmem i exc)) inc).
  Proof.
    unfold select_jobs. destruct (flat_list job quals) as [|q l]; [reflexivity|].
    destruct (fold_left _ (q :: l) _). reflexivity.
  Qed.

  Lemma hit_in jobs quals b i j : nth_error jobs i = Some j ->
    (hit job job_id jobs (flat_list job quals) b i <->
     exists q m, In q quals /\ primitive job q m b /\ matches job job_id m j).
  Proof.
    intros Hj. unfold hit, flat_list. split.
    - intros (j' & m & Hj' & Hin & Hm). assert (j' = j) by congruence. subst j'.
      apply in_flat_map in Hin. destruct Hin as (q & Hq & Hp). exists q, m. split; auto. split; auto.
      now apply primitive_flat.
    - intros (q & m & Hq & Hp & Hm). exists j, m. split; auto. split; auto.
      apply in_flat_map. exists q. split; auto. now apply primitive_flat.
  Qed.
End Select.

(** Exactly the wanted jobs are selected. *)
Theorem C17_selects_exactly :
  forall job job_id (jobs : list job) quals j,
    NoDup (map job_id jobs) ->
    (In j (select_jobs job job_id jobs quals) <-> In j jobs /\ wanted job job_id quals j).
Proof.
  intros job job_id jobs quals j U.
  pose proof (select_unfold job job_id jobs quals) as E.
  pose proof (LInv_fold job job_id jobs U (flat_list job quals)) as V.
  destruct (fold_left _ _ _) as [inc exc]. rewrite E. destruct V as [V1 V2 V3 V4]. cbn [fst snd] in *.
  rewrite in_flat_map. split.
  - intros (i & Hi & Hj). apply filter_In in Hi. destruct Hi as [Hi Hx].
    apply negb_true_iff, nmem_false in Hx.
    destruct (nth_error jobs i) as [j'|] eqn:Ej; [|contradiction]. destruct Hj as [->|[]].
    split; [eapply nth_error_In; eauto|]. split.
    + apply V1, (hit_in _ _ _ _ _ _ _ Ej) in Hi. destruct Hi as (q & m & Hq & Hp & Hm).
      exists q. split; auto. exists m. auto.
    + intros q Hq (m & Hp & Hm). apply Hx, V2, (hit_in _ _ _ _ _ _ _ Ej). exists q, m. auto.
  - intros (Hj & (q & Hq & m & Hp & Hm) & Hx). apply In_nth_error in Hj. destruct Hj as (i & Ej).
    exists i. rewrite Ej. split; [|now left]. apply filter_In. split.
    + apply V1, (hit_in _ _ _ _ _ _ _ Ej). exists q, m. auto.
    + apply negb_true_iff, nmem_false. intros H. apply V2, (hit_in _ _ _ _ _ _ _ Ej) in H.
      destruct H as (q' & m' & Hq' & Hp' & Hm'). apply (Hx q' Hq'). exists m'. auto.
Qed.
Print Assumptions C17_selects_exactly.

(** The selected jobs are in the order of the first primitive qualifier that
    includes them, those of the same qualifier in the order of the job list; in
    particular no job is selected twice. *)
Theorem C17_order :
  forall job job_id (jobs : list job) quals,
    NoDup (map job_id jobs) ->
    exists ls, Forall2 (leaves job) quals ls /\
    StronglySorted (fun a b => exists na nb,
        first_at job job_id (concat ls) a na /\ first_at job job_id (concat ls) b nb /\
        (na < nb \/ na = nb /\ exists x y z, jobs = x ++ a :: y ++ b :: z))
      (select_jobs job job_id jobs quals).
Proof.
  intros job job_id jobs quals U. exists (map (get_primitive_qualifiers job) quals). split.
  { clear. induction quals; simpl; constructor; auto. apply leaves_flat. }
  rewrite <- flat_map_concat_map. fold (flat_list job quals).
  pose proof (select_unfold job job_id jobs quals) as E.
  pose proof (LInv_fold job job_id jobs U (flat_list job quals)) as V.
  destruct (fold_left _ _ _) as [inc exc]. rewrite E. destruct V as [_ _ _ V4]. cbn [fst snd] in *.
  clear E. apply (SS_filter _ (fun i => negb (nmem i exc))) in V4.
  assert (Hp : forall (l : list job) a b ja jb, a < b -> nth_error l a = Some ja -> nth_error l b = Some jb ->
     exists x y z, l = x ++ ja :: y ++ jb :: z).
  { intros l a b ja jb Hlt Ha Hb. apply nth_error_split in Ha. destruct Ha as (x & r & -> & <-).
    rewrite nth_error_app2 in Hb by lia. replace (b - length x) with (S (b - length x - 1)) in Hb by lia.
    simpl in Hb. apply nth_error_split in Hb. destruct Hb as (y & z & -> & _). exists x, y, z. reflexivity. }
  induction V4 as [|a l V4 IH Ha]; simpl; [constructor|].
  destruct (nth_error jobs a) as [ja|] eqn:Ea; [|exact IH]. simpl. constructor; auto.
  rewrite Forall_forall in *. intros jb Hb. apply in_flat_map in Hb. destruct Hb as (b & Hb & Hjb).
  destruct (nth_error jobs b) as [jb'|] eqn:Eb; [|contradiction]. destruct Hjb as [->|[]].
  apply Ha in Hb. destruct Hb as (na & nb & (j1 & A1 & A2) & (j2 & B1 & B2) & C).
  assert (j1 = ja) by congruence. assert (j2 = jb) by congruence. subst j1 j2.
  exists na, nb. split; auto. split; auto. destruct C as [C|[-> C]]; auto. right. split; auto. eapply Hp; eauto.
Qed.
Print Assumptions C17_order.

Theorem C17_each_once :
  forall job job_id (jobs : list job) quals,
    NoDup (map job_id jobs) -> NoDup (map job_id (select_jobs job job_id jobs quals)).
Proof.
  intros job job_id jobs quals U. destruct (C17_order job job_id jobs quals U) as (ls & _ & S0).
  assert (F : forall j a b, first_at job job_id (concat ls) j a -> first_at job job_id (concat ls) j b -> a = b).
  { intros j a b ((m & A1 & A2) & A3) ((m' & B1 & B2) & B3).
    destruct (Nat.lt_trichotomy a b) as [H|[H|H]]; auto; exfalso; [eapply B3|eapply A3]; eauto. }
  assert (Hin : forall j, In j (select_jobs job job_id jobs quals) -> In j jobs).
  { intros j Hj. now apply C17_selects_exactly in Hj. }
  assert (Inj : forall a b, In a jobs -> In b jobs -> job_id a = job_id b -> a = b).
  { clear -U. intros a b Ha Hb E. apply in_split in Ha. destruct Ha as (x & y & ->).
    rewrite map_app in U. simpl in U. apply NoDup_remove_2 in U. apply in_app_iff in Hb.
    destruct Hb as [Hb|[Hb|Hb]]; auto; elim U; apply in_app_iff; [left|right]; rewrite E; now apply in_map. }
  induction S0 as [|a l S0 IH Ha]; simpl; constructor.
  - intros H. apply in_map_iff in H. destruct H as (b & Eb & Hb).
    assert (b = a) by (apply Inj; auto; apply Hin; simpl; auto). subst b.
    rewrite Forall_forall in Ha. specialize (Ha a Hb).
    destruct Ha as (na & nb & H1 & H2 & [H|[_ (x & y & z & ->)]]).
    + pose proof (F _ _ _ H1 H2). lia.
    + rewrite map_app in U. simpl in U. apply NoDup_remove_2 in U. apply U.
      rewrite map_app, !in_app_iff. simpl. auto.
  - apply IH. intros j Hj. apply Hin. now right.
Qed.
Print Assumptions C17_each_once.

(** The fast path for exact identifiers agrees with the general one. *)
Theorem C17_fast_path_agrees :
  forall job job_id (jobs : list job) quals,
    NoDup (map job_id jobs) ->
    let slow := fix slow (q : qualifier job) :=
      match q with
      | Simple (MId v) i => Simple (MPred (fun j => String.eqb v (job_id j))) i
      | Simple m i => Simple m i
      | Composite l => Composite (map slow l)
      end in
    select_jobs job job_id jobs (map slow quals) = select_jobs job job_id jobs quals.
Proof.
  intros job job_id jobs quals U slow.
  set (s := fun p : matcher job * bool => match p with
     | (MId v, i) => (MPred (fun j => String.eqb v (job_id j)), i) | p => p end).
  assert (Hs : forall q, get_primitive_qualifiers job (slow q) = map s (get_primitive_qualifiers job q)).
  { induction q as [[v|f] i|l IH] using qualifier_ind'; [reflexivity|reflexivity|].
    simpl. induction IH as [|q l Hq _ IH]; simpl; auto. rewrite map_app, Hq, IH. reflexivity. }
  assert (Hf : flat_list job (map slow quals) = map s (flat_list job quals)).
  { unfold flat_list. induction quals as [|q l IH]; simpl; auto. now rewrite map_app, Hs, IH. }
  pose proof (select_unfold job job_id jobs quals) as E.
  pose proof (select_unfold job job_id jobs (map slow quals)) as E'.
  rewrite Hf in E'.
  assert (Hp : forall fl acc, fold_left (process job job_id jobs (id_to_index_map job job_id jobs)) (map s fl) acc =
     fold_left (process job job_id jobs (id_to_index_map job job_id jobs)) fl acc).
  { induction fl as [|q fl IH]; intros acc; simpl; auto. rewrite IH. f_equal.
    rewrite !process_general by auto. destruct q as [[v|f] i]; reflexivity. }
  rewrite Hp in E'. destruct (fold_left _ (flat_list job quals) _). congruence.
Qed.
Print Assumptions C17_fast_path_agrees.

(** With repeated identifiers the fast path takes the last such job only, the
    general path all of them. *)
Theorem C17_duplicate_identifiers_refuted :
  exists (jobs : list (name * nat)) v,
    select_jobs _ fst jobs [Simple (MId v) true] <>
    select_jobs _ fst jobs [Simple (MPred (fun j => String.eqb v (fst j))) true].
Proof.
  exists [("a", 1); ("a", 2)]%string, "a"%string. vm_compute. discriminate.
Qed.
Print Assumptions C17_duplicate_identifiers_refuted.

Example C17_case :
  let jobs := ["a"; "b"; "c"; "d"]%string in
  NoDup (map (fun x : name => x) jobs) /\
  select_jobs name (fun x => x) jobs
    [Simple (MId "c"%string) true;
     Composite [Simple (MPred (fun j => negb (String.eqb j "b"))) true; Simple (MId "d"%string) false]]
  = ["c"; "a"]%string.
Proof.
  split; [|reflexivity]. simpl.
  repeat (constructor; [simpl; intuition discriminate|]). constructor.
Qed.
