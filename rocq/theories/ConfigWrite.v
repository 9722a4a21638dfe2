(** Proofs about configuration objects: writing and reading back. *)
From Coq Require Import String Ascii List Bool Arith ZArith Lia Permutation DecimalString DecimalPos DecimalZ.
From Verif Require Import ScanModel Rfc822Model Rfc822Spec Rfc822Proofs IniModel ConfigModel ConfigSpec IniProofs IniMerge ConfigProofs.
Import ListNotations.
Local Open Scope nat_scope.
Local Open Scope list_scope.

(** ** Texts of values *)

Definition starts_tight (t : text) : Prop := match t with [] => True | c :: _ => isspace c = false end.

Lemma strip_tight t : starts_tight t -> starts_tight (rev t) -> strip t = t.
Proof.
  intros A B. unfold strip. rewrite lstrip_id by exact A. unfold rstrip. rewrite lstrip_id by exact B.
  apply rev_involutive.
Qed.

Lemma split_nl_line t : ~ In NL t -> split_nl t = [t].
Proof.
  induction t as [|c t IH]; intros H; [reflexivity|]. cbn [split_nl].
  rewrite IH by (intros Hin; apply H; now right).
  destruct (Ascii.eqb c NL) eqn:E; [|reflexivity]. apply Ascii.eqb_eq in E. subst. exfalso. apply H. now left.
Qed.

Lemma writable_line t : ~ In NL t -> starts_tight t -> starts_tight (rev t) -> writable t.
Proof.
  intros H A B. unfold writable. rewrite split_nl_line by exact H. split; [now apply strip_tight|].
  split; [constructor|now left].
Qed.

Lemma set_ok_plain v : ~ In PCT v -> set_ok v = true.
Proof.
  intros H. unfold set_ok.
  assert (E : drop_pairs v = v).
  { induction v as [|c v IH]; [reflexivity|]. cbn [drop_pairs].
    assert (Ascii.eqb c PCT = false) as Hc by (apply Ascii.eqb_neq; intros ->; apply H; now left).
    rewrite Hc. cbn [andb]. destruct v; [reflexivity|]. f_equal. apply IH. intros Hin. apply H. now right. }
  rewrite E. clear E. induction v as [|c v IH]; [reflexivity|]. cbn [references_only].
  assert (Ascii.eqb c PCT = false) as -> by (apply Ascii.eqb_neq; intros ->; apply H; now left).
  apply IH. intros Hin. apply H. now right.
Qed.

(** Words and lists *)

Lemma word_char_not_nl c : word_char c -> c <> NL.
Proof. intros (H & _) ->. discriminate H. Qed.
Lemma word_starts w : word w -> exists c r, w = c :: r /\ isspace c = false.
Proof. intros [N H]. destruct w as [|c r]; [congruence|]. exists c, r. split; auto. apply (H c). now left. Qed.
Lemma word_rev w : word w -> word (rev w).
Proof.
  intros [N H]. split.
  - destruct w; [congruence|]. cbn. destruct (rev w); discriminate.
  - intros c Hc. apply H. now apply in_rev.
Qed.

Lemma join_list_cons w l : l <> [] -> join_list (w :: l) = w ++ T ", " ++ join_list l.
Proof. destruct l; [congruence|reflexivity]. Qed.

Lemma join_list_chars l c : Forall word l -> In c (join_list l) -> word_char c \/ c = ","%char \/ c = " "%char.
Proof.
  induction l as [|w l IH]; intros H Hc; [destruct Hc|]. inversion H as [|? ? Hw Hl]; subst.
  destruct l as [|w' l'].
  - left. now apply Hw.
  - rewrite join_list_cons in Hc by discriminate. apply in_app_or in Hc. destruct Hc as [Hc|Hc]; [left; now apply Hw|].
    apply in_app_or in Hc. destruct Hc as [Hc|Hc]; [|auto]. cbn in Hc. intuition.
Qed.

Lemma join_list_starts l : Forall word l -> starts_tight (join_list l).
Proof.
  intros H. destruct l as [|w l]; [exact I|]. inversion H as [|? ? Hw Hl]; subst.
  destruct (word_starts w Hw) as (c & r & -> & Hc). destruct l; exact Hc.
Qed.

Lemma join_list_ends l : Forall word l -> starts_tight (rev (join_list l)).
Proof.
  induction l as [|w l IH]; intros H; [exact I|]. inversion H as [|? ? Hw Hl]; subst. specialize (IH Hl).
  destruct l as [|w' l'].
  - destruct (word_starts _ (word_rev w Hw)) as (c & r & E & Hc). cbn [join_list]. rewrite E. exact Hc.
  - rewrite join_list_cons by discriminate. rewrite !rev_app_distr.
    destruct (rev (join_list (w' :: l'))) as [|c r] eqn:E; [|exact IH].
    exfalso. apply (f_equal (@rev ascii)) in E. rewrite rev_involutive in E. cbn in E.
    inversion Hl as [|? ? Hw' _]; subst. destruct (word_starts w' Hw') as (c & r & -> & _). destruct l'; discriminate.
Qed.

Definition comma_space (c : ascii) : ascii := if Ascii.eqb c "," then " "%char else c.

Lemma comma_word w : word w -> map comma_space w = w.
Proof.
  intros [_ H]. induction w as [|c w IH]; [reflexivity|]. cbn [map]. f_equal.
  - unfold comma_space. destruct (Ascii.eqb c ",") eqn:E; [|reflexivity]. apply Ascii.eqb_eq in E.
    destruct (H c (or_introl eq_refl)) as (_ & _ & _ & _ & Hc & _). congruence.
  - apply IH. intros x Hx. apply H. now right.
Qed.

Lemma word_char_shlex c : word_char c -> shblank c = false /\ shquote c = false /\ Ascii.eqb c backslash = false.
Proof.
  intros (A & B & C & D & _). unfold shblank, shquote. repeat split.
  - destruct (Ascii.eqb c " ") eqn:E; [apply Ascii.eqb_eq in E; subst; discriminate A|].
    destruct (Ascii.eqb c "009") eqn:E1; [apply Ascii.eqb_eq in E1; subst; discriminate A|].
    destruct (Ascii.eqb c "010") eqn:E2; [apply Ascii.eqb_eq in E2; subst; discriminate A|].
    destruct (Ascii.eqb c "013") eqn:E3; [apply Ascii.eqb_eq in E3; subst; discriminate A|]. reflexivity.
  - apply Ascii.eqb_neq in B. apply Ascii.eqb_neq in C. now rewrite B, C.
  - now apply Ascii.eqb_neq.
Qed.

Lemma shlex_word w : (forall c, In c w -> word_char c) -> forall tok rest,
  shlex SWord tok false (w ++ rest) = shlex SWord (rev w ++ tok) false rest.
Proof.
  induction w as [|c w IH]; intros H tok rest; [reflexivity|]. cbn [app shlex].
  destruct (word_char_shlex c (H c (or_introl eq_refl))) as (A & B & C). rewrite A, B, C.
  rewrite IH by (intros x Hx; apply H; now right). cbn [rev]. now rewrite <- app_assoc.
Qed.

Lemma shlex_start w rest : word w ->
  shlex SSpace [] false (w ++ rest) = shlex SWord (rev w) false rest.
Proof.
  intros [N H]. destruct w as [|c w]; [congruence|]. cbn [app shlex].
  destruct (word_char_shlex c (H c (or_introl eq_refl))) as (A & B & C). rewrite A, B, C.
  rewrite shlex_word by (intros x Hx; apply H; now right). reflexivity.
Qed.

Lemma list_round_trip l : Forall word l -> convert_to_list (join_list l) = Some l.
Proof.
  unfold convert_to_list. change (fun c : ascii => if (c =? ",")%char then " "%char else c) with comma_space.
  induction l as [|w l IH]; intros H; [reflexivity|]. inversion H as [|? ? Hw Hl]; subst. specialize (IH Hl).
  assert (R : exists c r, rev w = c :: r).
  { destruct (word_starts _ (word_rev w Hw)) as (c & r & E & _). eauto. }
  destruct R as (c & r & R).
  destruct l as [|w' l'].
  - cbn [join_list]. rewrite comma_word by exact Hw. rewrite <- (app_nil_r w), shlex_start by exact Hw. rewrite app_nil_r.
    cbn [shlex]. rewrite R. rewrite <- R, rev_involutive. reflexivity.
  - rewrite join_list_cons by discriminate. rewrite !map_app, comma_word by exact Hw.
    rewrite shlex_start by exact Hw. change (map comma_space (T ", ")) with (T "  "). cbn [T list_ascii_of_string app].
    cbn [shlex]. change (shblank " ") with true. cbn iota. rewrite R. rewrite <- R, rev_involutive.
    cbn [shlex] in IH. now rewrite IH.
Qed.

(** Numbers *)

Lemma uint_digits d : forall c, In c (list_ascii_of_string (NilEmpty.string_of_uint d)) -> is_digit c = true.
Proof. induction d; cbn; intros c H; [destruct H|..]; (destruct H as [<-|H]; [reflexivity|auto]). Qed.

Lemma no_underscores_digits t : forall b, (b = true \/ t <> []) -> (forall c, In c t -> is_digit c = true) ->
  no_underscores b t = Some t.
Proof.
  induction t as [|c t IH]; intros b Hb H; cbn [no_underscores].
  - destruct Hb as [->|Hb]; [reflexivity|congruence].
  - rewrite (H c (or_introl eq_refl)). rewrite IH; [reflexivity|now left|]. intros x Hx. apply H. now right.
Qed.

Lemma zero_digits d c : In c (list_ascii_of_string (NilZero.string_of_uint d)) -> is_digit c = true.
Proof. destruct d; try (apply uint_digits). cbn. intros [<-|[]]. reflexivity. Qed.
Lemma zero_nonempty d : list_ascii_of_string (NilZero.string_of_uint d) <> [].
Proof. destruct d; discriminate. Qed.

Lemma digits_value_uint d : d <> Decimal.Nil ->
  digits_value (list_ascii_of_string (NilZero.string_of_uint d)) = Some (Z.of_uint d).
Proof.
  intros N. unfold digits_value. rewrite no_underscores_digits; [|right; apply zero_nonempty|apply zero_digits].
  rewrite string_of_list_ascii_of_string.
  pose proof (NilZero.isi (Decimal.Pos d)) as H. cbn [NilZero.string_of_int] in H. rewrite H; [reflexivity|congruence|congruence].
Qed.

Lemma digit_head t : t <> [] -> (forall c, In c t -> is_digit c = true) -> exists c r, t = c :: r /\
  isspace c = false /\ c <> "-"%char /\ c <> "+"%char.
Proof.
  intros N H. destruct t as [|c r]; [congruence|]. exists c, r. specialize (H c (or_introl eq_refl)).
  split; [reflexivity|]. destruct c as [[] [] [] [] [] [] [] []]; try discriminate H; repeat split; try reflexivity; discriminate.
Qed.

Lemma digit_ends t : (forall c, In c t -> is_digit c = true) -> starts_tight t.
Proof.
  intros H. destruct t as [|c r]; [exact I|]. destruct (digit_head (c :: r)) as (c' & r' & [= -> ->] & Hc & _); auto. discriminate.
Qed.

Lemma to_int_not_nil z : match Z.to_int z with Decimal.Pos d => d <> Decimal.Nil | Decimal.Neg d => d <> Decimal.Nil end.
Proof.
  destruct z; cbn; try discriminate; apply DecimalPos.Unsigned.to_uint_nonnil.
Qed.

Lemma int_shape z : exists d, d <> Decimal.Nil /\
  (int_str z = list_ascii_of_string (NilZero.string_of_uint d) /\ z = Z.of_uint d \/
   int_str z = "-"%char :: list_ascii_of_string (NilZero.string_of_uint d) /\ z = Z.opp (Z.of_uint d)).
Proof.
  unfold int_str, T. pose proof (DecimalZ.of_to z) as E. pose proof (to_int_not_nil z) as N.
  destruct (Z.to_int z) as [d|d]; exists d; (split; [exact N|]); [left|right]; (split; [reflexivity|]); now rewrite <- E.
Qed.

Lemma int_tight z : ~ In NL (int_str z) /\ ~ In PCT (int_str z) /\ starts_tight (int_str z) /\ starts_tight (rev (int_str z)).
Proof.
  destruct (int_shape z) as (d & N & [[E _]|[E _]]); rewrite E.
  - split; [|split; [|split]].
    + intros H. apply zero_digits in H. discriminate.
    + intros H. apply zero_digits in H. discriminate.
    + apply digit_ends. intros c Hc. eapply zero_digits; eauto.
    + apply digit_ends. intros c Hc. apply in_rev in Hc. eapply zero_digits; eauto.
  - split; [|split; [|split]].
    + intros [H|H]; [discriminate|]. apply zero_digits in H. discriminate.
    + intros [H|H]; [discriminate|]. apply zero_digits in H. discriminate.
    + reflexivity.
    + cbn [rev]. destruct (digit_head (rev (list_ascii_of_string (NilZero.string_of_uint d)))) as (c & r & E' & Hc & _).
      * intros H. apply (zero_nonempty d). apply (f_equal (@rev ascii)) in H. now rewrite rev_involutive in H.
      * intros c Hc. apply in_rev in Hc. eapply zero_digits; eauto.
      * rewrite E'. exact Hc.
Qed.

Lemma int_round_trip z : to_int (int_str z) = Some z.
Proof.
  unfold to_int. destruct (int_tight z) as (_ & _ & A & B). rewrite strip_tight by assumption.
  destruct (int_shape z) as (d & N & [[E Ez]|[E Ez]]); rewrite E.
  - destruct (digit_head (list_ascii_of_string (NilZero.string_of_uint d)) (zero_nonempty d)) as (c & r & E' & Hc & H1 & H2).
    { intros c Hc. eapply zero_digits; eauto. }
    pose proof (digits_value_uint d N) as D. rewrite E' in *.
    assert (X : match c :: r with "-"%char :: r0 => option_map Z.opp (digits_value r0) | "+"%char :: r0 => digits_value r0 | r0 => digits_value r0 end = digits_value (c :: r)).
    { destruct c as [[] [] [] [] [] [] [] []]; try reflexivity; congruence. }
    rewrite X, D. now rewrite Ez.
  - rewrite digits_value_uint by exact N. cbn. now rewrite Ez.
Qed.

Section W.
  Variable to_float : text -> option text.
  Variable whole_ok : config -> bool.

  Lemma storable_text k v : storable to_float k v ->
    writable (value_str v) /\ ~ In PCT (value_str v) /\ denotes to_float k (value_str v) v.
  Proof.
    intros H. destruct H as [t W P|b|z|r W P F|l L]; cbn [value_str].
    - repeat split; auto. constructor.
    - destruct b.
      + split; [|split].
        * apply writable_line; cbn; try reflexivity. intuition discriminate.
        * cbn. intuition discriminate.
        * apply d_true. cbn. tauto.
      + split; [|split].
        * apply writable_line; cbn; try reflexivity. intuition discriminate.
        * cbn. intuition discriminate.
        * apply d_false. cbn. tauto.
    - destruct (int_tight z) as (A & B & C & D). split; [now apply writable_line|]. split; auto.
      constructor. apply int_round_trip.
    - repeat split; auto. now constructor.
    - split; [|split].
      + apply writable_line; [|now apply join_list_starts|now apply join_list_ends].
        intros H. apply join_list_chars in H; auto. destruct H as [H|[H|H]]; try discriminate. now apply word_char_not_nl in H.
      + intros H. apply join_list_chars in H; auto. destruct H as [H|[H|H]]; try discriminate.
        destruct H as (_ & _ & _ & _ & _ & H). congruence.
      + constructor. now apply list_round_trip.
  Qed.
End W.
