(** * Facts about JSON texts: reading back what was written *)

From Coq Require Import Ascii String List Bool Arith Lia.
From Verif Require Import ScanModel Rfc822Model JsonModel.
Import ListNotations.
Local Open Scope nat_scope.
Local Open Scope list_scope.

(** ** Induction and equations *)

Section JsonInd.
  Variable P : json -> Prop.
  Hypothesis HNull : P JNull.
  Hypothesis HBool : forall b, P (JBool b).
  Hypothesis HNum : forall t, P (JNum t).
  Hypothesis HStr : forall t, P (JStr t).
  Hypothesis HList : forall l, (forall v, In v l -> P v) -> P (JList l).
  Hypothesis HObj : forall l, (forall k v, In (k, v) l -> P v) -> P (JObj l).
  Fixpoint json_induction (v : json) : P v.
  Proof.
    assert (L : forall l : list json, forall x, In x l -> P x).
    { fix go 1. intros [|y l] x H; [destruct H|]. destruct H as [<-|H].
      - apply json_induction.
      - exact (go l x H). }
    assert (O : forall l : list (text * json), forall k x, In (k, x) l -> P x).
    { fix go 1. intros [|[k0 y] l] k x H; [destruct H|]. destruct H as [E|H].
      - injection E as _ <-. apply json_induction.
      - exact (go l k x H). }
    destruct v.
    - apply HNull.
    - apply HBool.
    - apply HNum.
    - apply HStr.
    - apply HList, L.
    - apply HObj, O.
  Defined.
End JsonInd.

(** The items after the first one. *)
Fixpoint more_items (l : list json) : text :=
  match l with
  | [] => []
  | v :: l => ch 44 :: dumps v ++ more_items l
  end.
Fixpoint more_fields (l : list (text * json)) : text :=
  match l with
  | [] => []
  | (k, v) :: l => ch 44 :: dump_string k ++ ch 58 :: dumps v ++ more_fields l
  end.

Lemma dumps_list v l :
  dumps (JList (v :: l)) = ch 91 :: (dumps v ++ more_items l) ++ [ch 93].
Proof. reflexivity. Qed.
Lemma dumps_obj k v l :
  dumps (JObj ((k, v) :: l)) =
  ch 123 :: (dump_string k ++ ch 58 :: dumps v ++ more_fields l) ++ [ch 125].
Proof. reflexivity. Qed.

(** ** Characters *)

Lemma parse_escaped c rest :
  parse_chars (escape_char c ++ rest) =
  match parse_chars rest with Some (s, r) => Some (c :: s, r) | None => None end.
Proof.
  destruct c as [[] [] [] [] [] [] [] []]; reflexivity.
Qed.

Lemma parse_dumped s rest :
  parse_chars (flat_map escape_char s ++ ch 34 :: rest) = Some (s, rest).
Proof.
  induction s as [|c s IH]; [reflexivity|].
  cbn [flat_map]. rewrite <- app_assoc, parse_escaped, IH. reflexivity.
Qed.

Lemma dump_string_app s rest :
  dump_string s ++ rest = ch 34 :: flat_map escape_char s ++ ch 34 :: rest.
Proof. unfold dump_string. cbn [app]. rewrite <- app_assoc. reflexivity. Qed.

Lemma parse_string_dumped s rest :
  parse_string (dump_string s ++ rest) = Some (s, rest).
Proof.
  unfold parse_string. rewrite dump_string_app.
  change (skip (ch 34 :: ?t)) with (ch 34 :: t). 
  change (nat_of_ascii (ch 34) =? 34) with true. cbv iota.
  apply parse_dumped.
Qed.

Lemma numchar_plain c : numchar c = true ->
  jblank c = false /\ (nat_of_ascii c =? 34) = false /\ (nat_of_ascii c =? 91) = false /\
  (nat_of_ascii c =? 123) = false /\ (nat_of_ascii c =? 110) = false /\
  (nat_of_ascii c =? 116) = false /\ (nat_of_ascii c =? 102) = false /\
  (nat_of_ascii c =? 93) = false /\ (nat_of_ascii c =? 125) = false.
Proof.
  intros H.
  assert (B : implb (numchar c) (forallb (fun b => negb b)
    (jblank c :: map (fun n => nat_of_ascii c =? n) [34; 91; 123; 110; 116; 102; 93; 125])) = true).
  { clear H. destruct c as [[] [] [] [] [] [] [] []]; reflexivity. }
  rewrite H in B. cbn [implb forallb map] in B.
  repeat (apply andb_true_iff in B as [?H B]; apply negb_true_iff in H0).
  repeat match goal with H : negb _ = true |- _ => apply negb_true_iff in H end.
  auto 10.
Qed.

Definition no_number (t : text) : Prop :=
  match t with c :: _ => numchar c = false | [] => True end.

Lemma number_app tok rest : forallb numchar tok = true -> no_number rest ->
  number (tok ++ rest) = (tok, rest).
Proof.
  induction tok as [|c tok IH]; intros G N.
  - cbn [app]. destruct rest as [|d rest]; [reflexivity|]. cbn [number].
    simpl in N. rewrite N. reflexivity.
  - cbn [forallb] in G. apply andb_true_iff in G as [G1 G2]. cbn [app number].
    rewrite G1, (IH G2 N). reflexivity.
Qed.

(** The first character of a value: no blank and no closing bracket. *)
Definition opens (t : text) : Prop :=
  match t with
  | c :: _ => jblank c = false /\ (nat_of_ascii c =? 93) = false /\
              (nat_of_ascii c =? 125) = false
  | [] => False
  end.

Lemma dumps_opens v rest : good v -> opens (dumps v ++ rest).
Proof.
  intros G. destruct G as [|[]|tok [N F]|s|l _|l _].
  - repeat split.
  - repeat split.
  - repeat split.
  - destruct tok as [|c tok]; [congruence|]. cbn [forallb] in F.
    apply andb_true_iff in F as [F _]. apply numchar_plain in F. cbn [dumps app opens]. tauto.
  - repeat split.
  - repeat split.
  - repeat split.
Qed.

Lemma skip_opens t : opens t -> skip t = t.
Proof.
  destruct t as [|c t]; [reflexivity|]. intros [B _]. cbn [skip]. rewrite B. reflexivity.
Qed.

(** ** Reading a dumped value *)

Lemma literal_word w v rest : literal w v (w ++ rest) = Some (v, rest).
Proof.
  induction w as [|c w IH]; [reflexivity|]. cbn [app literal].
  rewrite Ascii.eqb_refl. exact IH.
Qed.

Definition needs_end (v : json) (rest : text) : Prop :=
  match v with JNum _ => no_number rest | _ => True end.

Lemma needs_end_close v rest : no_number rest -> needs_end v rest.
Proof. destruct v; simpl; auto. Qed.

Definition reads (v : json) : Prop :=
  forall f rest, length (dumps v) <= f -> needs_end v rest ->
  parse_value f (dumps v ++ rest) = Some (v, rest).

Lemma parse_items_dumped l : forall v f rest,
  (forall x, In x (v :: l) -> good x /\ reads x) ->
  length (dumps v ++ more_items l) < f ->
  parse_items f (dumps v ++ more_items l ++ ch 93 :: rest) = Some (v :: l, rest).
Proof.
  induction l as [|w l IH]; intros v f rest H L.
  - cbn [more_items] in *. rewrite app_nil_r in L. cbn [app].
    destruct f as [|f]; [lia|]. cbn [parse_items].
    rewrite (proj2 (H v (or_introl eq_refl))) by (try lia; apply needs_end_close; reflexivity).
    reflexivity.
  - cbn [more_items] in *. cbn [app]. destruct f as [|f]; [lia|]. cbn [parse_items].
    rewrite app_length in L. cbn [length] in L.
    rewrite (proj2 (H v (or_introl eq_refl))) by (try lia; apply needs_end_close; reflexivity).
    change (skip (ch 44 :: ?t)) with (ch 44 :: t).
    change (nat_of_ascii (ch 44) =? 93) with false.
    change (nat_of_ascii (ch 44) =? 44) with true. cbv iota beta.
    rewrite <- app_assoc, IH; [reflexivity| |lia].
    intros x X. apply H. right. exact X.
Qed.

Lemma parse_fields_dumped l : forall k v f rest,
  (forall k' x, In (k', x) ((k, v) :: l) -> good x /\ reads x) ->
  length (dump_string k ++ ch 58 :: dumps v ++ more_fields l) < f ->
  parse_fields f (dump_string k ++ ch 58 :: dumps v ++ more_fields l ++ ch 125 :: rest)
  = Some ((k, v) :: l, rest).
Proof.
  induction l as [|[k1 w] l IH]; intros k v f rest H L;
    (destruct f as [|f]; [lia|]); cbn [parse_fields];
    rewrite parse_string_dumped;
    change (skip (ch 58 :: ?t)) with (ch 58 :: t);
    change (nat_of_ascii (ch 58) =? 58) with true; cbv iota beta;
    rewrite app_length in L; cbn [length] in L; rewrite app_length in L.
  - cbn [more_fields app].
    rewrite (proj2 (H k v (or_introl eq_refl))) by (try lia; apply needs_end_close; reflexivity).
    reflexivity.
  - cbn [more_fields length app] in *.
    rewrite (proj2 (H k v (or_introl eq_refl))) by (try lia; apply needs_end_close; reflexivity).
    change (skip (ch 44 :: ?t)) with (ch 44 :: t).
    change (nat_of_ascii (ch 44) =? 125) with false.
    change (nat_of_ascii (ch 44) =? 44) with true. cbv iota beta.
    rewrite <- app_assoc. cbn [app]. rewrite <- app_assoc. rewrite IH; [reflexivity| |lia].
    intros k' x X. apply (H k'). right. exact X.
Qed.

Lemma dumps_reads v : good v -> reads v.
Proof.
  induction v as [|b|tok|s|l IH|l IH] using json_induction; intros G f rest L E;
    (destruct f as [|f]; [exfalso|]).
  - simpl in L. lia.
  - reflexivity.
  - destruct b; simpl in L; lia.
  - destruct b; reflexivity.
  - inversion G as [| |? [N F]| | |]; subst. destruct tok; [congruence|simpl in L; lia].
  - inversion G as [| |? [N F]| | |]; subst. destruct tok as [|c tok]; [congruence|].
    assert (C := F). cbn [forallb] in C. apply andb_true_iff in C as [C _].
    destruct (numchar_plain _ C) as (B & H1 & H2 & H3 & H4 & H5 & H6 & _).
    cbn [dumps app parse_value skip]. rewrite B. cbv iota zeta.
    rewrite H1, H2, H3, H4, H5, H6, C.
    change (c :: tok ++ rest) with ((c :: tok) ++ rest).
    rewrite (number_app (c :: tok) rest F E). reflexivity.
  - simpl in L. lia.
  - cbn [dumps]. rewrite dump_string_app. cbn [parse_value].
    change (skip (ch 34 :: ?t)) with (ch 34 :: t).
    change (nat_of_ascii (ch 34) =? 34) with true. cbv iota beta zeta.
    rewrite parse_dumped. reflexivity.
  - simpl in L. lia.
  - destruct l as [|v l]; [reflexivity|].
    inversion G as [| | | |? GL|]; subst. rewrite dumps_list in *.
    cbn [app]. rewrite <- !app_assoc. cbn [app]. cbn [parse_value].
    change (skip (ch 91 :: ?t)) with (ch 91 :: t).
    change (nat_of_ascii (ch 91) =? 34) with false.
    change (nat_of_ascii (ch 91) =? 91) with true. cbv iota beta zeta.
    assert (O := dumps_opens v (more_items l ++ ch 93 :: rest) (GL v (or_introl eq_refl))).
    rewrite (skip_opens _ O).
    destruct (dumps v ++ more_items l ++ ch 93 :: rest) as [|d t2] eqn:D; [destruct O|].
    destruct O as (_ & O & _). rewrite O. rewrite <- D, parse_items_dumped; [reflexivity| |].
    + intros x X. split; [apply GL, X|]. apply IH; auto.
    + cbn [length] in L. rewrite app_length in L. cbn [length] in L. lia.
  - simpl in L. lia.
  - destruct l as [|[k v] l]; [reflexivity|].
    inversion G as [| | | | |? GL]; subst. rewrite dumps_obj in *.
    cbn [app]. rewrite <- !app_assoc. cbn [app]. rewrite <- !app_assoc. cbn [parse_value].
    change (skip (ch 123 :: ?t)) with (ch 123 :: t).
    change (nat_of_ascii (ch 123) =? 34) with false.
    change (nat_of_ascii (ch 123) =? 91) with false.
    change (nat_of_ascii (ch 123) =? 123) with true. cbv iota beta zeta.
    rewrite dump_string_app at 1.
    change (skip (ch 34 :: ?t)) with (ch 34 :: t).
    change (nat_of_ascii (ch 34) =? 125) with false. cbv iota beta.
    rewrite parse_fields_dumped; [reflexivity| |].
    + intros k' x X. split; [apply (GL k'), X|]. apply (IH k'); auto. apply (GL k'), X.
    + cbn [length] in L. rewrite app_length in L. cbn [length] in L. lia.
Qed.

Theorem loads_dumps v : good v -> loads (dumps v) = Some v.
Proof.
  intros G. unfold loads.
  rewrite <- (app_nil_r (dumps v)) at 2.
  rewrite dumps_reads; auto. apply needs_end_close. exact I.
Qed.

Theorem dumps_injective v w : good v -> good w -> dumps v = dumps w -> v = w.
Proof.
  intros G H E. apply loads_dumps in G, H. congruence.
Qed.

(** Two objects written one after the other can be told apart. *)
Theorem dumps_prefix_free v w rest rest' :
  good v -> good w ->
  no_number rest -> no_number rest' ->
  dumps v ++ rest = dumps w ++ rest' -> v = w /\ rest = rest'.
Proof.
  intros G H N N' E.
  assert (A := dumps_reads v G (length (dumps v) + length (dumps w)) rest).
  assert (B := dumps_reads w H (length (dumps v) + length (dumps w)) rest').
  rewrite E in A. rewrite A in B by (try lia; apply needs_end_close; auto).
  assert (X : Some (v, rest) = Some (w, rest')) by (apply B; [lia|apply needs_end_close; auto]).
  injection X as -> ->. auto.
Qed.

(** ** Reading more than was needed changes nothing

    A value other than a number that was read from a text is also read from every
    longer text. *)

Definition ended (v : json) (r : text) : Prop :=
  match v with JNum _ => r <> [] | _ => True end.

Lemma skip_app t q c r : skip t = c :: r -> skip (t ++ q) = c :: r ++ q.
Proof.
  induction t as [|d t IH]; [discriminate|]. cbn [skip app].
  destruct (jblank d); auto. intros E. injection E as -> ->. reflexivity.
Qed.

Lemma parse_chars_app n : forall t q s r, length t <= n ->
  parse_chars t = Some (s, r) -> parse_chars (t ++ q) = Some (s, r ++ q).
Proof.
  induction n as [|n IH]; intros t q s r L H.
  - destruct t; [discriminate|simpl in L; lia].
  - destruct t as [|c t1]; [discriminate|]. cbn [parse_chars app] in *. cbn [length] in L.
    destruct (nat_of_ascii c =? 34). { injection H as <- <-. reflexivity. }
    destruct (nat_of_ascii c =? 92).
    + destruct t1 as [|e t2]; [discriminate|]. cbn [app]. cbn [length] in L.
      assert (K : forall x, 
        match parse_chars t2 with Some (s, r) => Some (ch x :: s, r) | None => None end
          = Some (s, r) ->
        match parse_chars (t2 ++ q) with Some (s, r) => Some (ch x :: s, r) | None => None end
          = Some (s, r ++ q)).
      { intros x E. destruct (parse_chars t2) as [[s' r']|] eqn:D; [|discriminate].
        injection E as <- <-. rewrite (IH t2 q s' r'); auto. lia. }
      cbv zeta in *.
      destruct (nat_of_ascii e =? 34); auto.
      destruct (nat_of_ascii e =? 92); auto.
      destruct (nat_of_ascii e =? 47); auto.
      destruct (nat_of_ascii e =? 110); auto.
      destruct (nat_of_ascii e =? 114); auto.
      destruct (nat_of_ascii e =? 116); auto.
      destruct (nat_of_ascii e =? 102); auto.
      destruct (nat_of_ascii e =? 98); auto.
      destruct (nat_of_ascii e =? 117); [|discriminate].
      destruct t2 as [|h1 [|h2 [|h3 [|h4 t3]]]]; try discriminate. cbn [app].
      destruct (unhex4 h1 h2 h3 h4) as [x|]; [|discriminate].
      destruct (x <? 256); [|discriminate].
      destruct (parse_chars t3) as [[s' r']|] eqn:D; [|discriminate].
      injection H as <- <-. rewrite (IH t3 q s' r'); auto. cbn [length] in L. lia.
    + destruct (nat_of_ascii c <? 32); [discriminate|].
      destruct (parse_chars t1) as [[s' r']|] eqn:D; [|discriminate].
      injection H as <- <-. rewrite (IH t1 q s' r'); auto. lia.
Qed.

Lemma number_more t q : forall tok c r, number t = (tok, c :: r) ->
  number (t ++ q) = (tok, c :: r ++ q).
Proof.
  induction t as [|d t IH]; intros tok c r H; [discriminate|]. cbn [number app] in *.
  destruct (numchar d).
  - destruct (number t) as [a b] eqn:E. injection H as <- ->.
    rewrite (IH _ _ _ eq_refl). reflexivity.
  - injection H as <- <- <-. reflexivity.
Qed.

Lemma literal_app w v t q : forall x r, literal w v t = Some (x, r) ->
  literal w v (t ++ q) = Some (x, r ++ q).
Proof.
  revert t. induction w as [|c w IH]; intros t x r H.
  - destruct t; injection H as <- <-; destruct q; reflexivity.
  - destruct t as [|d t]; [discriminate|]. cbn [literal app] in *.
    destruct (Ascii.eqb c d); [|discriminate]. apply IH, H.
Qed.

Lemma literal_value w v t x r : literal w v t = Some (x, r) -> x = v.
Proof.
  revert t. induction w as [|c w IH]; intros t H.
  - destruct t; injection H as <- <-; reflexivity.
  - destruct t as [|d t]; [discriminate|]. cbn [literal] in H.
    destruct (Ascii.eqb c d); [|discriminate]. apply (IH _ H).
Qed.

Lemma parse_more f :
  (forall t q v r, parse_value f t = Some (v, r) -> ended v r ->
     parse_value f (t ++ q) = Some (v, r ++ q)) /\
  (forall t q l r, parse_items f t = Some (l, r) ->
     parse_items f (t ++ q) = Some (l, r ++ q)) /\
  (forall t q l r, parse_fields f t = Some (l, r) ->
     parse_fields f (t ++ q) = Some (l, r ++ q)).
Proof.
  induction f as [|f (IV & II & IF)]; [repeat split; discriminate|].
  split; [|split].
  - intros t q v r H E. cbn [parse_value] in *.
    destruct (skip t) as [|c t1] eqn:K; [discriminate|].
    rewrite (skip_app _ _ _ _ K). cbv zeta in *.
    destruct (nat_of_ascii c =? 34).
    { destruct (parse_chars t1) as [[s r']|] eqn:D; [|discriminate].
      injection H as <- <-. rewrite (parse_chars_app _ t1 q s r' (le_n _) D). reflexivity. }
    destruct (nat_of_ascii c =? 91).
    { destruct (skip t1) as [|d t2] eqn:K1; [discriminate|].
      rewrite (skip_app _ _ _ _ K1).
      destruct (nat_of_ascii d =? 93). { injection H as <- <-. reflexivity. }
      destruct (parse_items f t1) as [[l r']|] eqn:D; [|discriminate].
      injection H as <- <-. rewrite (II _ _ _ _ D). reflexivity. }
    destruct (nat_of_ascii c =? 123).
    { destruct (skip t1) as [|d t2] eqn:K1; [discriminate|].
      rewrite (skip_app _ _ _ _ K1).
      destruct (nat_of_ascii d =? 125). { injection H as <- <-. reflexivity. }
      destruct (parse_fields f t1) as [[l r']|] eqn:D; [|discriminate].
      injection H as <- <-. rewrite (IF _ _ _ _ D). reflexivity. }
    destruct (nat_of_ascii c =? 110). { apply (literal_app _ _ (c :: t1)), H. }
    destruct (nat_of_ascii c =? 116). { apply (literal_app _ _ (c :: t1)), H. }
    destruct (nat_of_ascii c =? 102). { apply (literal_app _ _ (c :: t1)), H. }
    destruct (numchar c); [|discriminate].
    destruct (number (c :: t1)) as [tok r'] eqn:D. injection H as <- <-.
    simpl in E. destruct r' as [|e r']; [congruence|].
    change (c :: t1 ++ q) with ((c :: t1) ++ q).
    rewrite (number_more _ q _ _ _ D). reflexivity.
  - intros t q l r H. cbn [parse_items] in *.
    destruct (parse_value f t) as [[v r0]|] eqn:D; [|discriminate].
    destruct (skip r0) as [|d r1] eqn:K; [discriminate|].
    rewrite (IV _ q _ _ D).
    2:{ destruct v; simpl; auto. intros ->. discriminate. }
    rewrite (skip_app _ _ _ _ K).
    destruct (nat_of_ascii d =? 93). { injection H as <- <-. reflexivity. }
    destruct (nat_of_ascii d =? 44); [|discriminate].
    destruct (parse_items f r1) as [[l' r2]|] eqn:D2; [|discriminate].
    injection H as <- <-. rewrite (II _ _ _ _ D2). reflexivity.
  - intros t q l r H. cbn [parse_fields] in *. unfold parse_string in *.
    destruct (skip t) as [|c t1] eqn:K; [discriminate|].
    rewrite (skip_app _ _ _ _ K).
    destruct (nat_of_ascii c =? 34); [|discriminate].
    destruct (parse_chars t1) as [[s r0]|] eqn:DC; [|discriminate].
    rewrite (parse_chars_app _ t1 q s r0 (le_n _) DC).
    destruct (skip r0) as [|e r1] eqn:K0; [discriminate|].
    rewrite (skip_app _ _ _ _ K0).
    destruct (nat_of_ascii e =? 58); [|discriminate].
    destruct (parse_value f r1) as [[v r2]|] eqn:D; [|discriminate].
    destruct (skip r2) as [|d r3] eqn:K2; [discriminate|].
    rewrite (IV _ q _ _ D).
    2:{ destruct v; simpl; auto. intros ->. discriminate. }
    rewrite (skip_app _ _ _ _ K2).
    destruct (nat_of_ascii d =? 125). { injection H as <- <-. reflexivity. }
    destruct (nat_of_ascii d =? 44); [|discriminate].
    destruct (parse_fields f r3) as [[l' r4]|] eqn:D2; [|discriminate].
    injection H as <- <-. rewrite (IF _ _ _ _ D2). reflexivity.
Qed.

Lemma parse_fuel f :
  (forall t x, parse_value f t = Some x -> parse_value (S f) t = Some x) /\
  (forall t x, parse_items f t = Some x -> parse_items (S f) t = Some x) /\
  (forall t x, parse_fields f t = Some x -> parse_fields (S f) t = Some x).
Proof.
  induction f as [|f (IV & II & IF)]; [repeat split; discriminate|].
  split; [|split].
  - intros t x H.
    remember (S f) as g. cbn [parse_value]. subst g. cbn [parse_value] in H.
    destruct (skip t) as [|c t1]; [discriminate|]. cbv zeta in *.
    destruct (nat_of_ascii c =? 34); auto.
    destruct (nat_of_ascii c =? 91).
    { destruct (skip t1) as [|d t2]; [discriminate|].
      destruct (nat_of_ascii d =? 93); auto.
      destruct (parse_items f t1) as [[l r]|] eqn:D; [|discriminate].
      rewrite (II _ _ D). exact H. }
    destruct (nat_of_ascii c =? 123); auto.
    destruct (skip t1) as [|d t2]; [discriminate|].
    destruct (nat_of_ascii d =? 125); auto.
    destruct (parse_fields f t1) as [[l r]|] eqn:D; [|discriminate].
    rewrite (IF _ _ D). exact H.
  - intros t x H.
    remember (S f) as g. cbn [parse_items]. subst g. cbn [parse_items] in H.
    destruct (parse_value f t) as [[v r0]|] eqn:D; [|discriminate]. rewrite (IV _ _ D).
    destruct (skip r0) as [|d r1]; [discriminate|].
    destruct (nat_of_ascii d =? 93); auto.
    destruct (nat_of_ascii d =? 44); auto.
    destruct (parse_items f r1) as [[l r]|] eqn:D2; [|discriminate].
    rewrite (II _ _ D2). exact H.
  - intros t x H.
    remember (S f) as g. cbn [parse_fields]. subst g. cbn [parse_fields] in H.
    destruct (parse_string t) as [[k r0]|]; [|discriminate].
    destruct (skip r0) as [|e r1]; [discriminate|].
    destruct (nat_of_ascii e =? 58); [|discriminate].
    destruct (parse_value f r1) as [[v r2]|] eqn:D; [|discriminate]. rewrite (IV _ _ D).
    destruct (skip r2) as [|d r3]; [discriminate|].
    destruct (nat_of_ascii d =? 125); auto.
    destruct (nat_of_ascii d =? 44); auto.
    destruct (parse_fields f r3) as [[l r]|] eqn:D2; [|discriminate].
    rewrite (IF _ _ D2). exact H.
Qed.

Lemma parse_value_fuel f g t x : f <= g ->
  parse_value f t = Some x -> parse_value g t = Some x.
Proof.
  induction 1; auto. intros H0. apply parse_fuel. auto.
Qed.

(** A list that was cut short is never read as anything. *)
Theorem loads_cut l p q : good (JList l) -> dumps (JList l) = p ++ q -> q <> [] ->
  loads p = None.
Proof.
  intros G E Q. unfold loads.
  destruct (parse_value (S (length p)) p) as [[v r]|] eqn:P; [|reflexivity].
  destruct (skip r) as [|c r'] eqn:K; [|reflexivity]. exfalso.
  assert (A := dumps_reads _ G (length (dumps (JList l))) [] (le_n _) I).
  rewrite app_nil_r in A.
  assert (En : ended v r \/ exists tok, v = JNum tok).
  { destruct v; simpl; eauto. }
  destruct En as [En|[tok ->]].
  - apply (proj1 (parse_more _) _ q) in P; auto.
    apply (parse_value_fuel _ (S (length p) + length (dumps (JList l)))) in P; [|lia].
    apply (parse_value_fuel _ (S (length p) + length (dumps (JList l)))) in A; [|lia].
    rewrite E in *. rewrite P in A. injection A as _ A. apply app_eq_nil in A as [_ ->]. auto.
  - assert (H : exists t, p = ch 91 :: t \/ p = []).
    { destruct p as [|c p]; [exists []; auto|]. exists p. left.
      destruct l as [|v l]; [|rewrite dumps_list in E]; cbn [dumps app] in E; injection E as <- _; reflexivity. }
    destruct H as [t [-> | ->]]; [|discriminate].
    cbn [parse_value] in P. change (skip (ch 91 :: t)) with (ch 91 :: t) in P.
    change (nat_of_ascii (ch 91) =? 34) with false in P.
    change (nat_of_ascii (ch 91) =? 91) with true in P. cbv iota beta zeta in P.
    destruct (skip t) as [|d t2]; [discriminate|].
    destruct (nat_of_ascii d =? 93); [discriminate|].
    destruct (parse_items (length (ch 91 :: t)) t) as [[l' r0]|]; discriminate.
Qed.

(** Nothing that is written contains a line break. *)
Lemma escape_no_nl c : ~ In NL (escape_char c).
Proof.
  assert (B : forallb (fun d => negb (Ascii.eqb d NL)) (escape_char c) = true).
  { destruct c as [[] [] [] [] [] [] [] []]; reflexivity. }
  rewrite forallb_forall in B. intros H. apply B in H. discriminate.
Qed.

Lemma dump_string_no_nl s : ~ In NL (dump_string s).
Proof.
  unfold dump_string. intros [H|H]; [discriminate|].
  apply in_app_iff in H as [H|[H|[]]]; [|discriminate].
  apply in_flat_map in H as (c & _ & H). apply (escape_no_nl _ H).
Qed.

Theorem dumps_one_line v : good v -> ~ In NL (dumps v).
Proof.
  induction v as [|b|tok|s|l IH|l IH] using json_induction; intros G.
  - intros H. repeat (destruct H as [H|H]; [discriminate H|]); exact H.
  - destruct b; intros H; repeat (destruct H as [H|H]; [discriminate H|]); exact H.
  - inversion G as [| |? [N F]| | |]; subst. intros H. cbn [dumps] in H.
    rewrite forallb_forall in F. apply F in H. discriminate.
  - apply dump_string_no_nl.
  - inversion G as [| | | |? GL|]; subst. destruct l as [|v l].
    { intros [H|[H|[]]]; discriminate. }
    rewrite dumps_list. intros [H|H]; [discriminate|].
    apply in_app_iff in H as [H|[H|[]]]; [|discriminate].
    apply in_app_iff in H as [H|H].
    { apply (IH v); simpl; auto. apply GL. simpl. auto. }
    assert (A : forall x, In x l -> ~ In NL (dumps x)).
    { intros x X. apply IH; simpl; auto. apply GL. simpl. auto. }
    clear IH G GL. induction l as [|w l IHl]; [exact H|].
    destruct H as [H|H]; [discriminate|]. apply in_app_iff in H as [H|H].
    { apply (A w); simpl; auto. }
    apply IHl; auto. intros x X. apply A. simpl. auto.
  - inversion G as [| | | | |? GL]; subst. destruct l as [|[k v] l].
    { intros [H|[H|[]]]; discriminate. }
    rewrite dumps_obj. intros [H|H]; [discriminate|].
    apply in_app_iff in H as [H|[H|[]]]; [|discriminate].
    apply in_app_iff in H as [H|H]; [apply (dump_string_no_nl _ H)|].
    destruct H as [H|H]; [discriminate|]. apply in_app_iff in H as [H|H].
    { apply (IH k v); simpl; auto. apply (GL k). simpl. auto. }
    assert (A : forall k' x, In (k', x) l -> ~ In NL (dumps x)).
    { intros k' x X. apply (IH k'); simpl; auto. apply (GL k'). simpl. auto. }
    clear IH G GL. induction l as [|[k1 w] l IHl]; [exact H|].
    destruct H as [H|H]; [discriminate|].
    apply in_app_iff in H as [H|H]; [apply (dump_string_no_nl _ H)|].
    destruct H as [H|H]; [discriminate|]. apply in_app_iff in H as [H|H].
    { apply (A k1 w); simpl; auto. }
    apply IHl; auto. intros k' x X. apply (A k'). simpl. auto.
Qed.
