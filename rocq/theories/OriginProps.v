(** * C83: places in files are in order *)
From Coq Require Import String Ascii List Bool Arith ZArith Lia.
From Verif Require Import ScanModel Rfc822Model Rfc822Proofs OriginModel OriginSpec.
Import ListNotations.
Local Open Scope list_scope.

(** ** Texts *)

Lemma text_gt_spec a b : text_gt a b = true <-> before b a.
Proof.
  revert b. induction a as [|x a IH]; intros b.
  - split; [discriminate|]. intros [(c & r & E)|(p & x & y & r & s & _ & E & _)].
    + destruct b; discriminate.
    + destruct p; discriminate.
  - destruct b as [|y b].
    + split; [intros _; left; exists x, a; reflexivity|reflexivity].
    + cbn [text_gt]. destruct (Ascii.eqb_spec x y) as [->|N].
      * rewrite IH. split.
        -- intros [(c & r & ->)|(p & u & v & r & s & -> & -> & L)]; [left; exists c, r; reflexivity|].
           right. exists (y :: p), u, v, r, s. auto.
        -- intros [(c & r & E)|(p & u & v & r & s & E & E' & L)].
           ++ injection E as ->. left. eauto.
           ++ destruct p as [|z p]; cbn in E, E'; injection E; injection E'; intros; subst; [lia|].
              right. exists p, u, v, r, s. auto.
      * rewrite Nat.ltb_lt. split.
        -- intros L. right. exists [], y, x, b, a. auto.
        -- intros [(c & r & E)|(p & u & v & r & s & E & E' & L)].
           ++ injection E as -> _. congruence.
           ++ destruct p as [|z p]; cbn in E, E'; injection E; injection E'; intros; subst; [exact L|congruence].
Qed.
Lemma text_gt_irrefl a : text_gt a a = false.
Proof. induction a as [|x a IH]; [reflexivity|]. cbn. now rewrite Ascii.eqb_refl. Qed.
Lemma nat_of_ascii_inj x y : nat_of_ascii x = nat_of_ascii y -> x = y.
Proof. intros H. rewrite <- (ascii_nat_embedding x), <- (ascii_nat_embedding y). now f_equal. Qed.
Lemma text_gt_total a : forall b, a <> b -> text_gt a b = negb (text_gt b a).
Proof.
  induction a as [|x a IH]; intros [|y b] N; try reflexivity; [congruence|]. cbn [text_gt].
  rewrite (Ascii.eqb_sym y x). destruct (Ascii.eqb_spec x y) as [->|D]; [apply IH; congruence|].
  destruct (Nat.ltb_spec (nat_of_ascii y) (nat_of_ascii x)), (Nat.ltb_spec (nat_of_ascii x) (nat_of_ascii y)); cbn; auto; exfalso; [lia|].
  apply D, nat_of_ascii_inj. lia.
Qed.
Lemma text_gt_trans a : forall b c, text_gt a b = true -> text_gt b c = true -> text_gt a c = true.
Proof.
  induction a as [|x a IH]; intros [|y b] [|z c] A B; try discriminate; try reflexivity. cbn [text_gt] in *.
  destruct (Ascii.eqb_spec x y) as [->|D].
  - destruct (Ascii.eqb_spec y z) as [->|D']; [eapply IH; eauto|exact B].
  - destruct (Ascii.eqb_spec y z) as [->|D'].
    + destruct (Ascii.eqb_spec x z); [congruence|exact A].
    + rewrite Nat.ltb_lt in *. destruct (Ascii.eqb_spec x z) as [->|]; [lia|]. apply Nat.ltb_lt. lia.
Qed.

Lemma text_eqb_neq a b : a <> b -> text_eqb a b = false.
Proof. intros N. apply not_true_is_false. now rewrite text_eqb_eq. Qed.

(** ** Equality *)

Lemma line_eqb_spec a b : line_eqb a b = true <-> a = b.
Proof. destruct a, b; cbn; try rewrite Z.eqb_eq; split; congruence. Qed.
Lemma name_eqb_spec a b : name_eqb a b = true <-> a = b.
Proof. destruct a, b; cbn; try rewrite text_eqb_eq; split; congruence. Qed.
Lemma source_eq_spec a b : op_source_eq a b = true <-> same_source a b.
Proof.
  unfold op_source_eq, operator.
  destruct a as [|[] n|c|n v], b as [|[] m|d|m w]; cbn; try (split; congruence); rewrite ?andb_true_iff, ?text_eqb_eq, ?name_eqb_spec;
    split; intros H; repeat match goal with X : _ /\ _ |- _ => destruct X | |- _ /\ _ => split end; congruence.
Qed.
Lemma source_ne_spec a b : op_source_ne a b = negb (op_source_eq a b).
Proof.
  unfold op_source_eq, op_source_ne, operator, source_ne. destruct a as [|[] n|c|n v], b as [|[] m|d|m w]; reflexivity.
Qed.

(** Two places are equal exactly when they are the same lines of the same source; in particular
    equality is an equivalence. *)
Theorem C83_equal a b : origin_eq a b = true <-> same a b.
Proof. unfold origin_eq, same. rewrite !andb_true_iff, source_eq_spec, !line_eqb_spec. tauto. Qed.
Print Assumptions C83_equal.
Theorem C83_equivalence a b c : same a a /\ (same a b -> same b a) /\ (same a b -> same b c -> same a c).
Proof.
  unfold same. repeat match goal with |- _ /\ _ => split end; auto.
  - destruct (o_source a); reflexivity.
  - intros (A & B & C). repeat split; auto. destruct (o_source a), (o_source b); cbn in *; congruence.
  - intros (A & B & C) (D & E & F). repeat split; try congruence. destruct (o_source a), (o_source b), (o_source c); cbn in *; congruence.
Qed.
Print Assumptions C83_equivalence.

(** ** Lines of files *)

Lemma line_gtb_eqb s s' : line_eqb (Some s) (Some s') = false -> Z.gtb s s' = negb (Z.gtb s' s).
Proof. cbn. intros H. apply Z.eqb_neq in H. rewrite !Z.gtb_ltb. destruct (Z.ltb_spec s' s), (Z.ltb_spec s s'); auto; lia. Qed.
Lemma file_gt py py' f f' s s' e e' :
  origin_gt (mk_origin (From_file py f) (Some s) (Some e)) (mk_origin (From_file py' f') (Some s') (Some e')) =
  Says (if text_eqb f f' then if Z.eqb s s' then Z.gtb e e' else Z.gtb s s' else text_gt f f').
Proof.
  unfold origin_gt. cbn [o_source o_start o_end line_eqb].
  replace (op_source_eq (From_file py f) (From_file py' f')) with (text_eqb f f').
  2:{ unfold op_source_eq, operator. destruct py, py'; cbn; auto. apply Bool.eq_iff_eq_true. rewrite !text_eqb_eq. split; congruence. }
  destruct (text_eqb f f') eqn:E.
  - destruct (Z.eqb_spec s s') as [->|N]; [|reflexivity]. destruct (Z.eqb_spec e e') as [->|M]; [|reflexivity].
    now rewrite Z.gtb_ltb, Z.ltb_irrefl.
  - unfold op_source_gt, operator. destruct py, py'; cbn [derived source_gt ask final]; try reflexivity.
    unfold source_lt, lt_from_gt. cbn [source_gt]. rewrite source_ne_spec.
    replace (op_source_eq (From_file true f') (From_file false f)) with false.
    2:{ symmetry. apply not_true_is_false. rewrite source_eq_spec. cbn. intros ->. rewrite text_eqb_refl in E. discriminate. }
    cbn [negb]. rewrite andb_true_r. cbn [ask final]. f_equal. symmetry. apply text_gt_total. intros ->. rewrite text_eqb_refl in E. discriminate.
Qed.
Lemma earlier_eq f f' s s' e e' :
  (if text_eqb f f' then if Z.eqb s s' then Z.gtb e e' else Z.gtb s s' else text_gt f f') = true <->
  before f' f \/ f' = f /\ (s' < s)%Z \/ f' = f /\ s' = s /\ (e' < e)%Z.
Proof.
  assert (I : ~ before f f) by (rewrite <- text_gt_spec, text_gt_irrefl; discriminate).
  destruct (text_eqb f f') eqn:E.
  - apply text_eqb_eq in E as <-. destruct (Z.eqb_spec s s') as [<-|N]; rewrite Z.gtb_ltb, Z.ltb_lt.
    + split; [intros H; right; right; auto|]. intros [H|[[_ H]|(_ & _ & H)]]; [contradiction|lia|exact H].
    + split; [intros H; right; left; auto|]. intros [H|[[_ H]|(_ & H & _)]]; [contradiction|exact H|congruence].
  - rewrite text_gt_spec. split; [auto|]. intros [H|[[-> _]|(-> & _)]]; auto; rewrite text_eqb_refl in E; discriminate.
Qed.
Lemma file_earlier a b : in_file a -> in_file b -> exists r, origin_gt a b = Says r /\ (r = true <-> earlier b a).
Proof.
  intros (f & s & e & py & ->) (f' & s' & e' & py' & ->). eexists. split; [apply file_gt|]. rewrite earlier_eq. split.
  - intros H. exists f', s', e', f, s, e. repeat split; [now exists py'|now exists py|exact H].
  - intros (a1 & b1 & c1 & a2 & b2 & c2 & [p E1] & [p' E2] & X). injection E1; injection E2; intros; subst. exact X.
Qed.

(** The four operators on lines of files, whether Python or not, say what is earlier *)
Theorem C83_files a b : in_file a -> in_file b -> exists g l ge le,
  origin_gt a b = Says g /\ origin_lt a b = Says l /\ origin_ge a b = Says ge /\ origin_le a b = Says le /\
  (g = true <-> earlier b a) /\ (l = true <-> earlier a b) /\
  (ge = true <-> earlier b a \/ same a b) /\ (le = true <-> earlier a b \/ same a b).
Proof.
  intros A B. destruct (file_earlier a b A B) as (g & G & G'). destruct (file_earlier b a B A) as (l & L & L').
  assert (R : l = negb g && negb (origin_eq a b) /\ (g = true -> origin_eq a b = false)).
  { destruct A as (f & s & e & py & ->), B as (f' & s' & e' & py' & ->). rewrite file_gt in G, L. injection G as <-. injection L as <-.
    assert (Q : origin_eq (mk_origin (From_file py f) (Some s) (Some e)) (mk_origin (From_file py' f') (Some s') (Some e')) =
                text_eqb f f' && Z.eqb s s' && Z.eqb e e').
    { apply Bool.eq_iff_eq_true. rewrite C83_equal. unfold same. cbn [o_source o_start o_end same_source]. rewrite !andb_true_iff, text_eqb_eq, !Z.eqb_eq. split; intros H; [|repeat split; f_equal; tauto].
      destruct H as (-> & [= ->] & [= ->]). auto. }
    rewrite Q. destruct (text_eqb f f') eqn:E.
    - apply text_eqb_eq in E as <-. rewrite text_eqb_refl. cbn [andb]. rewrite (Z.eqb_sym s' s). destruct (Z.eqb_spec s s') as [<-|N]; cbn [andb negb].
      + destruct (Z.eqb_spec e e') as [<-|M]; rewrite ?Z.gtb_ltb, ?Z.ltb_irrefl; cbn; [split; auto; discriminate|]. rewrite andb_true_r. split; auto.
        rewrite <- !Z.gtb_ltb. apply line_gtb_eqb. cbn. apply Z.eqb_neq. congruence.
      + rewrite andb_true_r. split; auto. apply line_gtb_eqb. cbn. apply Z.eqb_neq. congruence.
    - cbn [andb negb]. rewrite andb_true_r. assert (D : f <> f') by (intros ->; rewrite text_eqb_refl in E; discriminate).
      replace (text_eqb f' f) with false; [|symmetry; apply text_eqb_neq; congruence]. split; auto. apply text_gt_total. congruence. }
  destruct R as [R1 R2]. unfold origin_lt, origin_ge, origin_le, lt_from_gt, ge_from_gt, le_from_gt. rewrite G.
  exists g, (negb g && negb (origin_eq a b)), (g || origin_eq a b), (negb g). rewrite <- R1. repeat match goal with |- _ /\ _ => split end; auto.
  - rewrite orb_true_iff, C83_equal, G'. reflexivity.
  - rewrite <- L', <- C83_equal, R1. destruct g, (origin_eq a b); cbn; intuition discriminate.
Qed.
Print Assumptions C83_files.

(** It is an order: of two places in files exactly one is earlier or they are the same *)
Theorem C83_order a b c : in_file a -> in_file b ->
  (earlier a b \/ same a b \/ earlier b a) /\ ~ (earlier a b /\ same a b) /\ ~ (earlier a b /\ earlier b a) /\ ~ (same a b /\ earlier b a) /\
  (earlier a b -> earlier b c -> earlier a c).
Proof.
  intros A B. destruct (C83_files a b A B) as (g & l & ge & le & G & L & GE & LE & G1 & L1 & GE1 & LE1).
  rewrite <- G1, <- L1, <- C83_equal. unfold origin_lt, lt_from_gt in L. rewrite G in L. injection L as <-.
  unfold origin_le, le_from_gt in LE. rewrite G in LE. injection LE as <-. rewrite <- L1, <- C83_equal in LE1.
  assert (GS : g = true -> origin_eq a b = false).
  { intros ->. destruct (origin_eq a b); [|reflexivity]. destruct LE1 as [_ LE1]. discriminate LE1. now right. }
  repeat match goal with |- _ /\ _ => split end.
  - destruct g, (origin_eq a b); cbn; auto.
  - destruct g, (origin_eq a b); cbn; intuition discriminate.
  - destruct g, (origin_eq a b); cbn; intuition discriminate.
  - intros [E ->]. rewrite GS in E by reflexivity. discriminate.
  - rewrite L1. intros (f & s & e & f' & s' & e' & F1 & F2 & H) (f1 & s1 & e1 & f2 & s2 & e2 & F3 & F4 & H').
    destruct F2 as [p2 ->], F3 as [p3 E3]. injection E3; intros; subst f1 s1 e1 p3. exists f, s, e, f2, s2, e2. split; [exact F1|]. split; [exact F4|].
    destruct H as [H|[[-> H]|(-> & -> & H)]], H' as [H'|[[<- H']|(<- & <- & H')]]; auto.
    + left. rewrite <- text_gt_spec in *. eapply text_gt_trans; eauto.
    + right. left. split; auto. lia.
    + right. right. repeat split; auto. lia.
Qed.
Print Assumptions C83_order.

(** ** Other places *)

(** Comparing with any of the four operators raises TypeError exactly when the places are not
    comparable; equality never raises, and the operators agree with each other. *)
Theorem C83_comparable a b :
  (comparable a b <-> exists g, origin_gt a b = Says g) /\
  (forall g, origin_gt a b = Says g ->
     origin_le a b = Says (negb g) /\ origin_ge a b = Says (g || origin_eq a b) /\ origin_lt a b = Says (negb g && negb (origin_eq a b)) /\
     (g = true -> origin_eq a b = false)) /\
  (~ comparable a b -> origin_gt a b = Type_error /\ origin_lt a b = Type_error /\ origin_ge a b = Type_error /\ origin_le a b = Type_error).
Proof.
  assert (D : comparable a b /\ (exists g, origin_gt a b = Says g /\ (g = true -> origin_eq a b = false)) \/ ~ comparable a b /\ origin_gt a b = Type_error).
  { unfold comparable, origin_gt, origin_eq. pose proof (source_eq_spec (o_source a) (o_source b)) as S.
    destruct (op_source_eq (o_source a) (o_source b)) eqn:SE.
    - pose proof (proj1 S eq_refl) as SS. destruct (line_eqb (o_start a) (o_start b)) eqn:E1.
      + apply line_eqb_spec in E1. destruct (line_eqb (o_end a) (o_end b)) eqn:E2.
        * apply line_eqb_spec in E2. left. split; [|exists false; split; auto; discriminate]. left. auto.
        * assert (N2 : o_end a <> o_end b) by (intros H; apply line_eqb_spec in H; congruence).
          destruct (o_end a) as [x|], (o_end b) as [y|]; cbn [line_gt].
          -- left. split; [|eexists; split; [reflexivity|auto]]. left. split; auto. right. split; auto. right. split; discriminate.
          -- right. split; [|reflexivity]. unfold given. intuition congruence.
          -- right. split; [|reflexivity]. unfold given. intuition congruence.
          -- congruence.
      + assert (N1 : o_start a <> o_start b) by (intros H; apply line_eqb_spec in H; congruence).
        destruct (o_start a) as [x|], (o_start b) as [y|]; cbn [line_gt].
        * left. split; [|eexists; split; [reflexivity|auto]]. left. split; auto. left. split; auto. split; discriminate.
        * right. split; [|reflexivity]. unfold given. intuition congruence.
        * right. split; [|reflexivity]. unfold given. intuition congruence.
        * congruence.
    - assert (NS : ~ same_source (o_source a) (o_source b)) by (rewrite <- S; discriminate). clear S.
      destruct (o_source a) as [|p n|c|n v], (o_source b) as [|q m|d|m w];
        try solve [right; split; [intros [[X _]|[_ X]]; [exact (NS X)|exact X]|first [destruct p; reflexivity|destruct q; reflexivity|reflexivity]]]; try solve [exfalso; exact (NS eq_refl)].
      + left. split; [right; auto|]. unfold op_source_gt, operator. destruct p, q; cbn; eauto.
      + unfold op_source_gt, operator. cbn. destruct n as [n|], m as [m|]; cbn;
          try (right; split; [unfold given; intros [[X _]|[_ [X Y]]]; congruence|reflexivity]).
        left. split; [right; split; auto; split; discriminate|]. destruct (text_gt n m); cbn; eauto. }
  assert (E : forall x, origin_gt a b = Says x \/ origin_gt a b = Type_error -> True) by auto.
  unfold origin_le, origin_ge, origin_lt, le_from_gt, ge_from_gt, lt_from_gt. destruct D as [[C (g & G & GE)]|[C G]]; rewrite G.
  - split; [split; eauto|]. split; [|contradiction]. intros g' [= <-]. auto.
  - split; [split; [contradiction|intros [g [=]]]|]. split; [intros g [=]|auto].
Qed.
Print Assumptions C83_comparable.

(** Of two comparable places at most one is later, unless both come from the command line *)
Theorem C83_antisymmetric a b : (forall n v m w, o_source a = From_arg n v -> o_source b = From_arg m w -> n = m) ->
  origin_gt a b = Says true -> origin_gt b a <> Says true.
Proof.
  intros NA. unfold origin_gt.
  assert (SYM : op_source_eq (o_source b) (o_source a) = op_source_eq (o_source a) (o_source b)).
  { apply Bool.eq_iff_eq_true. rewrite !source_eq_spec. destruct (o_source a), (o_source b); cbn; split; congruence. }
  assert (LS : forall x y, line_eqb y x = line_eqb x y) by (intros [x|] [y|]; cbn; auto using Z.eqb_sym).
  assert (LG : forall x y, line_gt x y = Says true -> line_gt y x <> Says true).
  { intros [x|] [y|]; cbn; try discriminate. rewrite !Z.gtb_ltb. intros [= H] [= H']. rewrite Z.ltb_lt in *. lia. }
  rewrite SYM, (LS (o_start a)), (LS (o_end a)).
  destruct (op_source_eq (o_source a) (o_source b)) eqn:SE.
  - destruct (line_eqb (o_start a) (o_start b)); auto. destruct (line_eqb (o_end a) (o_end b)); [discriminate|auto].
  - assert (NS : ~ same_source (o_source a) (o_source b)) by (rewrite <- source_eq_spec, SE; discriminate).
    destruct (o_source a) as [|p n|c|n v], (o_source b) as [|q m|d|m w]; try discriminate; try (destruct p; discriminate); try (destruct q; discriminate); unfold op_source_gt, operator.
    + cbn in NS. assert (TG := text_gt_total n m NS). assert (NE : op_source_eq (From_file p n) (From_file q m) = false) by exact SE.
      destruct p, q; cbn [derived source_gt ask final]; unfold source_lt, lt_from_gt; cbn [source_gt ask final]; rewrite ?source_ne_spec, ?SYM, ?NE; cbn [negb]; rewrite ?andb_true_r; cbn [ask final];
        intros [= H] [= H']; rewrite ?negb_true_iff in *; rewrite ?H, ?H' in TG; cbn in TG; congruence.
    + specialize (NA n v m w eq_refl eq_refl) as ->. destruct m as [m|]; cbn; [|discriminate]. rewrite text_gt_irrefl. cbn.
      intros [= H] [= H']. rewrite text_gt_total in H by (intros ->; now apply NS). rewrite H' in H. discriminate.
Qed.
Print Assumptions C83_antisymmetric.

(** ** Moving *)

(** Moving a place keeps what it is and its length, moving twice is moving by the sum, and moving
    by nothing does nothing. *)
Theorem C83_moved o n m : (o_start o = None <-> o_end o = None) -> exists o',
  with_offset n o = Some o' /\ with_offset m o' = with_offset (n + m) o /\ with_offset 0 o = Some o /\
  mode_of o' = mode_of o /\ o_source o' = o_source o /\
  (forall s e, o_start o = Some s -> o_end o = Some e -> o_start o' = Some (s + n)%Z /\ o_end o' = Some (e + n)%Z).
Proof.
  intros W. destruct o as [src [s|] [e|]]; cbn [o_start o_end] in W; try (exfalso; intuition congruence).
  - exists (mk_origin src (Some (s + n)%Z) (Some (e + n)%Z)). unfold with_offset, mode_of. cbn [o_start o_end o_source line_eqb].
    assert (R : Z.eqb (s + n) (e + n) = Z.eqb s e) by (apply Bool.eq_iff_eq_true; rewrite !Z.eqb_eq; lia).
    rewrite R, !Z.add_0_r, !Z.add_assoc. destruct (Z.eqb s e); repeat match goal with |- _ /\ _ => split end; auto; intros s' e' [= <-] [= <-]; auto.
  - exists (mk_origin src None None). cbn. repeat split; congruence.
Qed.
Print Assumptions C83_moved.
(** The place of one line or of the file *)
Theorem C83_narrowed o : mode_of (just_file o) = Whole_file /\ o_source (just_file o) = o_source o /\
  (o_start o <> None -> mode_of (just_line o) = Single_line) /\ o_source (just_line o) = o_source o /\ o_start (just_line o) = o_start o.
Proof.
  repeat split; auto. intros H. unfold mode_of, just_line. cbn [o_start o_end]. destruct (o_start o) as [s|]; [|congruence]. cbn. now rewrite Z.eqb_refl.
Qed.
Print Assumptions C83_narrowed.
(** Shortening names keeps lines, and places that were equal *)
Theorem C83_relative rel a b : same a b -> same (relative_to rel a) (relative_to rel b) /\
  o_start (relative_to rel a) = o_start a /\ o_end (relative_to rel a) = o_end a.
Proof.
  intros (S & A & B). unfold same, relative_to. cbn. repeat split; auto.
  destruct (o_source a), (o_source b); cbn in *; congruence.
Qed.
Print Assumptions C83_relative.

(** ** Cases *)
Definition TT (s : string) : text := list_ascii_of_string s.
Arguments TT s%string_scope.
Example C83_case_files : in_file (mk_origin (From_file false (TT "b.pxu")) (Some 3%Z) (Some 9%Z)) /\
  origin_gt (mk_origin (From_file false (TT "b.pxu")) (Some 3%Z) (Some 9%Z)) (mk_origin (From_file true (TT "a.py")) (Some 12%Z) (Some 12%Z)) = Says true.
Proof. split; [repeat eexists|reflexivity]. Qed.
Example C83_case_moved : with_offset 4 (mk_origin Unknown (Some 3%Z) (Some 9%Z)) = Some (mk_origin Unknown (Some 7%Z) (Some 13%Z)).
Proof. reflexivity. Qed.

(** ** What one may expect that is not so *)

(** Two arguments of the command line may each be later than the other, and neither earlier *)
Theorem C83_arguments_in_order_refuted : exists a b,
  origin_gt a b = Says true /\ origin_gt b a = Says true /\ origin_lt a b = Says false /\ origin_lt b a = Says false /\ origin_eq a b = false.
Proof.
  exists (mk_origin (From_arg (Some (TT "a")) (TT "2")) None None), (mk_origin (From_arg (Some (TT "b")) (TT "1")) None None).
  repeat split; reflexivity.
Qed.
(** Two arguments without a name cannot be compared *)
Theorem C83_arguments_comparable_refuted : forall v w, v <> w ->
  origin_gt (mk_origin (From_arg None v) None None) (mk_origin (From_arg None w) None None) = Type_error.
Proof.
  intros v w N. unfold origin_gt. cbn [o_source]. replace (op_source_eq _ _) with false; [reflexivity|].
  symmetry. apply not_true_is_false. rewrite source_eq_spec. cbn. congruence.
Qed.
(** A file and a line of it cannot be compared, nor can the outputs of two jobs, nor two kinds of
    sources *)
Theorem C83_any_two_comparable_refuted :
  (forall f l, origin_gt (mk_origin f None None) (mk_origin f (Some l) (Some l)) = Type_error) /\
  (forall c d s e, c <> d -> origin_gt (mk_origin (From_job c) s e) (mk_origin (From_job d) s e) = Type_error) /\
  (forall p n s e, origin_gt (mk_origin Unknown s e) (mk_origin (From_file p n) s e) = Type_error).
Proof.
  split; [|split].
  - intros f l. unfold origin_gt. cbn [o_source o_start o_end line_eqb]. replace (op_source_eq f f) with true; [reflexivity|].
    symmetry. apply source_eq_spec. destruct f; reflexivity.
  - intros c d s e N. unfold origin_gt. cbn [o_source]. replace (op_source_eq _ _) with false; [reflexivity|].
    symmetry. apply not_true_is_false. rewrite source_eq_spec. cbn. congruence.
  - reflexivity.
Qed.
(** A place with only one end cannot be moved *)
Theorem C83_can_be_moved_refuted : (exists o, with_offset 1 o = None) /\
  forall n o, with_offset n o = None <-> (o_start o = None <-> o_end o <> None).
Proof.
  split; [now exists (mk_origin Unknown (Some 3%Z) None)|].
  intros n [src [s|] [e|]]; unfold with_offset, mode_of; cbn [o_start o_end o_source line_eqb].
  - destruct (s =? e)%Z; split; try discriminate; intros [_ H]; discriminate H; discriminate.
  - split; auto. intros _. split; [discriminate|]. intros H. now destruct H.
  - split; auto. intros _. split; [discriminate|reflexivity].
  - split; [discriminate|]. intros [H _]. exfalso. now apply H.
Qed.
Theorem C83_just_line_is_a_line_refuted : forall f, mode_of (just_line (mk_origin f None None)) = Whole_file.
Proof. reflexivity. Qed.
Print Assumptions C83_arguments_in_order_refuted.
Print Assumptions C83_arguments_comparable_refuted.
Print Assumptions C83_any_two_comparable_refuted.
Print Assumptions C83_can_be_moved_refuted.
Print Assumptions C83_just_line_is_a_line_refuted.
