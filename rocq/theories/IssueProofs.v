(** Values and the lines they come from. *)
From Coq Require Import Ascii List Bool Arith Lia.
From Verif Require Import ScanModel Rfc822Model Rfc822Spec Rfc822Proofs Rfc822Origin IssueModel IssueSpec.
Import ListNotations.
Local Open Scope nat_scope.
Local Open Scope list_scope.

Definition slice (lines : list text) (a b : nat) : list text := map (line_at lines) (List.seq a (b - a)).
Definition noncomment (l : text) : bool := negb (comment l).
Definition conts (lines : list text) (i j : nat) : list text :=
  map (@tl ascii) (filter noncomment (slice lines (S i) j)).

Lemma slice_S lines a b : a <= b -> slice lines a (S b) = slice lines a b ++ [line_at lines b].
Proof.
  intros H. unfold slice. replace (S b - a) with (S (b - a)) by lia. rewrite seq_S, map_app. simpl.
  replace (a + (b - a)) with b by lia. reflexivity.
Qed.
Lemma slice_empty lines a b : b <= a -> slice lines a b = [].
Proof. intros H. unfold slice. replace (b - a) with 0 by lia. reflexivity. Qed.
Lemma conts_comment lines i j : i < j -> comment (line_at lines j) = true ->
  conts lines i (S j) = conts lines i j.
Proof.
  intros H C. unfold conts. rewrite slice_S by lia. rewrite filter_app. simpl. unfold noncomment at 2.
  rewrite C. simpl. rewrite app_nil_r. reflexivity.
Qed.
Lemma conts_line lines i j : i < j -> comment (line_at lines j) = false ->
  conts lines i (S j) = conts lines i j ++ [tl (line_at lines j)].
Proof.
  intros H C. unfold conts. rewrite slice_S by lia. rewrite filter_app, map_app. simpl.
  unfold noncomment at 2. rewrite C. reflexivity.
Qed.

Section Values.
  Variable lines : list text.

  (** Field [k] of a record that starts at [st] and ends at [en]: written at line
      [i], and its value goes on up to line [j]. *)
  Definition written (st en : nat) (k : text) (off i j : nat) (first : text) : Prop :=
    key_line lines i k first /\ st <= i <= en /\ i < j /\
    off = i - st + (if blank first then 1 else 0) /\
    (forall m, i < m < j -> comment (line_at lines m) = true \/
       continues (line_at lines m) = true /\ blank (line_at lines m) = false /\ m <= en).

  Definition vinv (n : nat) (s : state) : Prop :=
    forall k off, In (k, off) (r_offsets (s_rec s)) ->
    exists st en i j first,
      r_start (s_rec s) = Some st /\ r_end (s_rec s) = Some en /\ 1 <= st /\
      written st en k off i j first /\ j <= n /\
      In (k, normalize (raw_value first (conts lines i j))) (pend s) /\
      (s_key s = Some k -> j = n /\ concat (s_values s) = raw_value first (conts lines i j)).

  Definition value_right (r : record) : Prop :=
    forall k off, In (k, off) (r_offsets r) ->
    exists st en i j first,
      r_start r = Some st /\ r_end r = Some en /\ 1 <= st /\ written st en k off i j first /\
      j <= S (length lines) /\ In (k, normalize (raw_value first (conts lines i j))) (r_data r).

  Lemma written_later st en en' k off i j first : en <= en' ->
    written st en k off i j first -> written st en' k off i j first.
  Proof.
    intros H [A [B [C [D F]]]]. split; [exact A|]. split; [lia|]. split; [exact C|]. split; [exact D|].
    intros m Hm. destruct (F m Hm) as [G|[G1 [G2 G3]]]; [left; exact G|right]. split; [exact G1|]. split; [exact G2|lia].
  Qed.

  Lemma step_vinv n l s s' y : inv n s -> oinv lines n s -> vinv n s -> 1 <= n <= length lines -> line_at lines n = l ->
    step n l s = inl (s', y) ->
    vinv (S n) s' /\ match y with Some r => value_right r | None => True end.
  Proof.
    intros I O V Hn L. pose proof O as [O1 O2]. rewrite step_cases by exact I.
    destruct (comment l) eqn:Hc.
    { intros [= <- <-]. split; [|exact Logic.I]. intros k off Hin.
      destruct (V k off Hin) as (st & en & i & j & first & A & B & B1 & W & D & P & K).
      destruct (option_map (text_eqb k) (s_key s)) as [[|]|] eqn:Q.
      - destruct (s_key s) as [k1|] eqn:Ek; [|discriminate]. injection Q as Q. apply text_eqb_eq in Q. subst k1.
        destruct (K eq_refl) as [-> K2].
        exists st, en, i, (S n), first. destruct W as [W1 [W2 [W3 [W4 W5]]]].
        rewrite conts_comment by (rewrite ?L; auto; lia).
        split; [exact A|]. split; [exact B|]. split; [exact B1|]. split.
        + split; [exact W1|]. split; [exact W2|]. split; [lia|]. split; [exact W4|].
          intros m Hm. destruct (Nat.eq_dec m n) as [->|Hne]; [left; rewrite L; exact Hc|apply W5; lia].
        + split; [lia|]. split; [exact P|]. intros _. split; [reflexivity|exact K2].
      - exists st, en, i, j, first. repeat (split; [assumption|]). split; [lia|]. split; [exact P|].
        intros E. rewrite E in Q. injection Q as Q. rewrite text_eqb_refl in Q. discriminate.
      - exists st, en, i, j, first. repeat (split; [assumption|]). split; [lia|]. split; [exact P|].
        intros E. rewrite E in Q. discriminate. }
    destruct (blank l) eqn:Hb.
    { intros [= <- <-]. split; [intros k off []|].
      destruct (nonempty (pend s)); [|exact Logic.I].
      intros k off Hin. destruct (commit_same s) as [C1 [C2 C3]]. rewrite C1 in Hin.
      destruct (V k off Hin) as (st & en & i & j & first & A & B & B1 & W & D & P & K).
      exists st, en, i, j, first. rewrite C2, C3. repeat (split; [assumption|]). split; [lia|exact P]. }
    destruct (continues l) eqn:Hk.
    { destruct (s_key s) as [k|] eqn:Ek; [|discriminate]. intros [= <- <-]. split; [|exact Logic.I].
      intros k' off Hin. cbn in Hin.
      destruct (V k' off Hin) as (st & en & i & j & first & A & B & B1 & W & D & P & K).
      rewrite A in O2. destruct O2 as [en0 [E1 [E2 [E3 _]]]]. assert (en0 = en) by congruence. subst en0.
      assert (Pend : pend (after_cont n l s) = r_data (s_rec s) ++ [(k, normalize (concat (s_values s) ++ tl l))]).
      { rewrite (pend_some (S n) _ k); [|apply inv_after_cont, I|exact Ek].
        cbn. rewrite concat_app. cbn. rewrite app_nil_r. reflexivity. }
      destruct (text_eqb k' k) eqn:Q.
      - apply text_eqb_eq in Q. subst k'. destruct (K Ek) as [-> K2].
        exists st, n, i, (S n), first. destruct W as [W1 [W2 [W3 [W4 W5]]]].
        rewrite conts_line by (rewrite ?L; auto; lia). rewrite L.
        assert (RV : raw_value first (conts lines i n ++ [tl l]) = concat (s_values s) ++ tl l).
        { rewrite K2. unfold raw_value. rewrite concat_app. cbn. rewrite app_nil_r, app_assoc. reflexivity. }
        split; [exact A|]. split; [reflexivity|]. split; [exact B1|]. split.
        + split; [exact W1|]. split; [lia|]. split; [lia|]. split; [exact W4|].
          intros m Hm. destruct (Nat.eq_dec m n) as [->|Hne].
          * right. rewrite L. auto.
          * destruct (W5 m) as [G|[G1 [G2 G3]]]; [lia|left; exact G|right]. split; [exact G1|]. split; [exact G2|lia].
        + split; [lia|]. split.
          * rewrite Pend, RV. apply in_or_app. right. left. reflexivity.
          * intros _. split; [reflexivity|]. cbn. rewrite concat_app. cbn. rewrite app_nil_r. symmetry. exact RV.
      - assert (NE : k' <> k). { intros ->. rewrite text_eqb_refl in Q. discriminate. }
        exists st, n, i, j, first. split; [exact A|]. split; [reflexivity|]. split; [exact B1|].
        split; [eapply written_later; [|exact W]; lia|]. split; [lia|]. split.
        + rewrite Pend. rewrite (pend_some n s k I Ek) in P. apply in_app_or in P as [P|[P|[]]].
          * apply in_or_app. left. exact P.
          * exfalso. apply NE. congruence.
        + cbn. rewrite Ek. intros E. exfalso. apply NE. congruence. }
    destruct (split_colon l) as [[k v]|] eqn:Es; [|discriminate].
    destruct in_dec as [H|H]; [discriminate|]. intros [= <- <-]. split; [|exact Logic.I].
    destruct (after_key_shape n k v s) as [st [Est [S1 [S2 S3]]]].
    destruct (inv_after_key n k v s I H) as [I' [K1 [K2 K3]]].
    assert (F : ~ In (strip k) (map fst (r_offsets (s_rec s)))) by (rewrite O1; exact H).
    assert (Pend : pend (after_key n k v s) =
      pend s ++ [(strip k, normalize (concat (if blank v then [] else [lstrip v])))]).
    { rewrite (pend_some (S n) _ (strip k)); auto. rewrite K3, K2. reflexivity. }
    assert (RV : concat (if blank v then [] else [lstrip v]) = raw_value v []).
    { unfold raw_value. destruct (blank v); cbn; rewrite ?app_nil_r; reflexivity. }
    intros k' off Hin. rewrite S3, tset_fresh in Hin by exact F. apply in_app_or in Hin as [Hin|Hin].
    - destruct (V k' off Hin) as (st' & en & i & j & first & A & B & B1 & W & D & P & K).
      rewrite A in Est. subst st'.
      rewrite A in O2. destruct O2 as [en0 [E1 [E2 [E3 _]]]]. assert (en0 = en) by congruence. subst en0.
      exists st, n, i, j, first. split; [exact S1|]. split; [exact S2|]. split; [exact B1|].
      split; [eapply written_later; [|exact W]; lia|]. split; [lia|]. split.
      + rewrite Pend. apply in_or_app. left. exact P.
      + rewrite K1. intros E. exfalso. apply F. injection E as ->. change k' with (fst (k', off)). apply in_map, Hin.
    - destruct Hin as [Hin|[]]. injection Hin as <- <-.
      assert (B : 1 <= st <= n).
      { destruct (r_start (s_rec s)) as [x|]; [destruct O2 as [en [E1 [E2 [E3 _]]]]; lia|lia]. }
      exists st, n, n, (S n), v. split; [exact S1|]. split; [exact S2|]. split; [lia|]. split.
      + split; [|split; [lia|]].
        * split; [apply Hn|]. rewrite L. split; [exact Hc|]. split; [exact Hk|]. exists k. auto.
        * split; [lia|]. split; [reflexivity|]. intros m Hm. lia.
      + assert (CE : conts lines n (S n) = []) by (unfold conts; rewrite slice_empty by lia; reflexivity).
        rewrite CE, <- RV. split; [lia|]. split.
        * rewrite Pend. apply in_or_app. right. left. reflexivity.
        * intros _. rewrite K2. auto.
  Qed.

  Lemma gen_values ls : forall n s rs P, lines = P ++ ls -> length P + 1 = n -> inv n s -> oinv lines n s ->
    vinv n s -> gen n ls s = inl rs -> Forall value_right rs.
  Proof.
    induction ls as [|l ls IH]; intros n s rs P E L I O V H.
    - cbn [gen] in H. injection H as <-. destruct (r_data (s_rec (commit s))) eqn:Ep; [constructor|].
      constructor; [|constructor].
      intros k off Hin. destruct (commit_same s) as [C1 [C2 C3]]. rewrite C1 in Hin.
      destruct (V k off Hin) as (st & en & i & j & first & A & B & B1 & W & D & Q & K).
      exists st, en, i, j, first. rewrite C2, C3. repeat (split; [assumption|]). split; [rewrite E, app_nil_r; lia|exact Q].
    - cbn [gen] in H. destruct (step n l s) as [[s' y]|e] eqn:St; [|discriminate].
      destruct (gen (S n) ls s') as [rs'|e] eqn:G; [|discriminate]. injection H as <-.
      assert (La : line_at lines n = l).
      { unfold line_at. rewrite E, <- L. replace (length P + 1 - 1) with (length P) by lia. apply nth_middle. }
      destruct (step_oinv lines n l s s' y I O) as [O' _]; auto; [lia|].
      destruct (step_vinv n l s s' y I O V) as [V' Y]; auto; [rewrite E, app_length; simpl; lia|].
      assert (R : Forall value_right rs').
      { apply (IH (S n) s' rs' (P ++ [l])); auto.
        - rewrite <- app_assoc. exact E.
        - rewrite app_length. simpl. lia.
        - eapply step_inv; eauto. }
      destruct y as [r|]; [constructor; auto|exact R].
  Qed.
End Values.

Lemma load_values lines rs : load lines = inl rs -> Forall (value_right lines) rs.
Proof.
  intros H. apply (gen_values lines lines 1 new_state rs []); auto.
  - apply inv_new.
  - apply oinv_new.
  - intros k off [].
Qed.

(** * Lines of a normalised value *)

Lemma split_nl_app x y :
  split_nl (x ++ y) = removelast (split_nl x) ++ (last (split_nl x) [] ++ hd [] (split_nl y)) :: tl (split_nl y).
Proof.
  induction x as [|c x IH]; simpl.
  - pose proof (split_nl_ne y). destruct (split_nl y); [contradiction|reflexivity].
  - rewrite IH. pose proof (split_nl_ne x) as N. destruct (split_nl x) as [|a l] eqn:E; [contradiction|].
    destruct (Ascii.eqb c NL).
    + simpl. reflexivity.
    + destruct l as [|b l]; simpl; reflexivity.
Qed.

Lemma nth_removelast {A} (l : list A) d m : S m < length l -> nth m (removelast l) d = nth m l d.
Proof.
  revert m. induction l as [|a [|b l] IH]; simpl in *; intros m H; try lia.
  destruct m as [|m]; [reflexivity|]. apply IH. lia.
Qed.
Lemma removelast_length {A} (l : list A) : length (removelast l) = length l - 1.
Proof. induction l as [|a [|b l] IH]; simpl in *; auto. rewrite IH. lia. Qed.
Lemma last_nth {A} (l : list A) d : last l d = nth (length l - 1) l d.
Proof. induction l as [|a [|b l] IH]; simpl in *; auto. rewrite IH. rewrite Nat.sub_0_r. reflexivity. Qed.

Lemma blank_line_of t l : blank t = true -> In l (split_nl t) -> blank l = true.
Proof.
  intros H. revert l. induction t as [|c t IH]; simpl; intros l.
  - intros [<-|[]]. reflexivity.
  - unfold blank in H. simpl in H. apply andb_prop in H as [H1 H2].
    specialize (IH H2). destruct (Ascii.eqb c NL).
    + intros [<-|Hl]; [reflexivity|apply IH, Hl].
    + destruct (split_nl t) as [|a r]; simpl.
      * intros [<-|[]]. unfold blank. simpl. rewrite H1. reflexivity.
      * intros [<-|Hl]; [|apply IH; right; exact Hl]. unfold blank. simpl. rewrite H1. apply IH. left. reflexivity.
Qed.

(** Stripping a text whose first line is not blank keeps its lines, up to the
    white space around them. *)
Lemma strip_lines t m : blank (hd [] (split_nl t)) = false -> m < length (split_nl (strip t)) ->
  strip (nth m (split_nl (strip t)) []) = strip (nth m (split_nl t) []) /\
  exists m', m <= m' /\ m' < length (split_nl t) /\ blank (nth m' (split_nl t) []) = false.
Proof.
  intros Hd Hm. destruct (strip_split t) as [a [b [Ha [Hb E]]]].
  assert (Na : split_nl a = [a]).
  { destruct (in_dec ascii_dec NL a) as [Hin|Hin]; [|apply split_nl_line, Hin].
    exfalso. apply in_split in Hin as [a1 [a2 ->]].
    rewrite E, <- app_assoc in Hd. cbn [app] in Hd.
    destruct (in_dec ascii_dec NL a1) as [Hin|Hin].
    - rewrite split_nl_app in Hd. pose proof (split_nl_ne a1) as N1.
      destruct (split_nl a1) as [|x [|y r]] eqn:E1; [contradiction| |].
      + assert (Q : join_nl (split_nl a1) = a1) by apply join_split. rewrite E1 in Q. cbn in Q. subst x.
        apply (split_nl_no_nl a1 a1); [rewrite E1; left; reflexivity|exact Hin].
      + cbn [hd removelast app] in Hd. rewrite blank_app in Ha. apply andb_prop in Ha as [Ha _].
        rewrite (blank_line_of a1 x Ha) in Hd; [discriminate|rewrite E1; left; reflexivity].
    - rewrite split_nl_cons in Hd by exact Hin. cbn [hd] in Hd. rewrite blank_app in Ha.
      apply andb_prop in Ha as [Ha _]. congruence. }
  assert (U : strip (strip t) = strip t) by apply strip_idem.
  set (u := strip t) in *. clearbody u.
  assert (Lines : split_nl t = removelast ((a ++ hd [] (split_nl u)) :: tl (split_nl u)) ++
     (last ((a ++ hd [] (split_nl u)) :: tl (split_nl u)) [] ++ hd [] (split_nl b)) :: tl (split_nl b)).
  { rewrite E, app_assoc, split_nl_app. rewrite (split_nl_app a u), Na. cbn [removelast last app]. reflexivity. }
  pose proof (split_nl_ne u) as Nu. destruct (split_nl u) as [|h r] eqn:Eu; [contradiction|].
  cbn [hd tl] in Lines. set (us := (a ++ h) :: r) in *.
  assert (Len : length us = length (h :: r)) by reflexivity.
  assert (Same : strip (nth m (h :: r) []) = strip (nth m us [])).
  { destruct m as [|m]; cbn; [|reflexivity]. symmetry. apply strip_app_l, Ha. }
  assert (Hdb : blank (hd [] (split_nl b)) = true).
  { pose proof (split_nl_ne b) as Nb. destruct (split_nl b) as [|x q] eqn:Eb; [contradiction|].
    apply (blank_line_of b); [exact Hb|]. rewrite Eb. left. reflexivity. }
  assert (At : forall k, k < length us -> nth k (split_nl t) [] = nth k us [] ++ (if Nat.eqb (S k) (length us) then hd [] (split_nl b) else [])).
  { intros k Hk. rewrite Lines. destruct (Nat.eqb_spec (S k) (length us)) as [Ek|Ek].
    - rewrite app_nth2; rewrite removelast_length; [|lia]. replace (k - (length us - 1)) with 0 by lia. cbn [nth].
      rewrite last_nth. replace (length us - 1) with k by lia. reflexivity.
    - rewrite app_nth1; [|rewrite removelast_length; lia]. rewrite app_nil_r. apply (@nth_removelast text). change (S k < length us). clear - Hk Ek. clearbody us. lia. }
  split.
  - rewrite Same, (At m) by exact Hm. destruct (Nat.eqb (S m) (length us)); [|rewrite app_nil_r; reflexivity].
    symmetry. apply strip_app_r, Hdb.
  - assert (Bt : blank t = false).
    { destruct (blank t) eqn:Bt; auto. exfalso.
      pose proof (split_nl_ne t) as Nt. destruct (split_nl t) as [|x q] eqn:Et; [contradiction|].
      assert (HE : blank x = true) by (apply (blank_line_of t); [exact Bt|rewrite Et; left; reflexivity]).
      cbn [hd] in Hd. congruence. }
    (* some line at or after m is not blank: the last line of the stripped text *)
    exists (length us - 1). split; [cbn [length] in *; lia|].
    assert (Lt : length us <= length (split_nl t)).
    { rewrite Lines, app_length, removelast_length. cbn [length]. lia. }
    split; [cbn [length] in *; lia|].
    rewrite At by (cbn [length]; lia). rewrite blank_app. apply andb_false_intro1.
    assert (Bu : blank u = false).
    { destruct (blank u) eqn:Bu; auto. rewrite E, !blank_app, Ha, Hb, Bu in Bt. discriminate. }
    destruct (exists_last (l := u)) as [x [c Eq]].
    { intros ->. discriminate Bu. }
    assert (Hc : isspace c = false).
    { apply (stripped_last x c). rewrite <- Eq. exact U. }
    assert (Nc : ~ In NL [c]).
    { intros [->|[]]. vm_compute in Hc. discriminate. }
    assert (Lu : last (h :: r) [] = last (split_nl x) [] ++ [c]).
    { rewrite <- Eu, Eq, split_nl_app, (split_nl_line [c] Nc). cbn [hd tl]. apply last_last. }
    rewrite <- last_nth. unfold us. destruct r as [|r0 r].
    + cbn [last] in *. rewrite Lu, app_assoc, blank_app. apply andb_false_intro2. unfold blank. simpl. rewrite Hc. reflexivity.
    + change (last ((a ++ h) :: r0 :: r) []) with (last (h :: r0 :: r) []). rewrite Lu, blank_app.
      apply andb_false_intro2. unfold blank. simpl. rewrite Hc. reflexivity.
Qed.

Lemma isblank_isspace c : isblank c = true -> isspace c = true.
Proof.
  unfold isblank. rewrite orb_true_iff, !Ascii.eqb_eq. intros [->| ->]; reflexivity.
Qed.
Lemma forallb_blank l : forallb isblank l = true -> blank l = true.
Proof.
  unfold blank. rewrite !forallb_forall. intros H c Hc. apply isblank_isspace, H, Hc.
Qed.
Lemma leading_blank l : forallb isblank (leading l) = true.
Proof. induction l as [|c l IH]; simpl; auto. destruct (isblank c) eqn:E; simpl; rewrite ?E; auto. Qed.
Lemma common_prefix_blank a b : forallb isblank a = true -> forallb isblank (common_prefix a b) = true.
Proof.
  revert b. induction a as [|x a IH]; intros b H; simpl; auto. destruct b as [|y b]; auto.
  simpl in H. apply andb_prop in H as [H1 H2]. destruct (Ascii.eqb x y); simpl; auto. rewrite H1. simpl. auto.
Qed.
Lemma margin_blank ls m : margin ls = Some m -> forallb isblank m = true.
Proof.
  unfold margin.
  assert (G : forall acc, (forall a, acc = Some a -> forallb isblank a = true) ->
    forall m, fold_left (fun m l => match l with
      | [] => m
      | _ => match m with None => Some (leading l) | Some m => Some (common_prefix m (leading l)) end end) ls acc
      = Some m -> forallb isblank m = true).
  { induction ls as [|l ls IH]; simpl; intros acc Ha m' H; [eauto|].
    eapply IH; [|exact H]. intros a. destruct l; [apply Ha|].
    destruct acc as [x|]; intros [= <-].
    - apply common_prefix_blank, Ha. reflexivity.
    - apply (leading_blank (a0 :: l)). }
  intros H. eapply G; [|exact H]. discriminate.
Qed.
Lemma drop_prefix_app p t r : drop_prefix p t = Some r -> t = p ++ r.
Proof.
  revert t. induction p as [|x p IH]; simpl; intros t H; [congruence|].
  destruct t as [|y t]; [discriminate|]. destruct (Ascii.eqb_spec x y) as [->|]; [|discriminate].
  f_equal. apply IH, H.
Qed.

Lemma dedent_length ls : length (dedent_lines ls) = length ls.
Proof.
  unfold dedent_lines. destruct (margin _) as [[|c m]|]; rewrite ?map_length; reflexivity.
Qed.
Lemma nth_map_nil (f : text -> text) ls m : f [] = [] -> nth m (map f ls) [] = f (nth m ls []).
Proof. intros H. rewrite <- H at 1. apply map_nth. Qed.
Lemma dedent_nth ls m : strip (nth m (dedent_lines ls) []) = strip (nth m ls []) /\
  blank (nth m (dedent_lines ls) []) = blank (nth m ls []).
Proof.
  assert (B : forall l, strip (if forallb isblank l then [] else l) = strip l /\
    blank (if forallb isblank l then [] else l) = blank l).
  { intros l. destruct (forallb isblank l) eqn:E; auto. apply forallb_blank in E.
    split; [symmetry; apply strip_nil, E|symmetry; exact E]. }
  unfold dedent_lines. match goal with |- context [margin ?x] => set (ls' := x) end.
  assert (N : strip (nth m ls' []) = strip (nth m ls []) /\ blank (nth m ls' []) = blank (nth m ls [])).
  { unfold ls'. rewrite nth_map_nil by reflexivity. apply B. }
  destruct (margin ls') as [[|c mg]|] eqn:M; [exact N| |exact N].
  rewrite nth_map_nil by reflexivity. destruct N as [N1 N2].
  apply margin_blank, forallb_blank in M.
  assert (G : forall x : text, strip match drop_prefix (c :: mg) x with Some r => r | None => x end = strip x /\
    blank match drop_prefix (c :: mg) x with Some r => r | None => x end = blank x).
  { intros x. destruct (drop_prefix (c :: mg) x) as [r|] eqn:D; [|auto]. apply drop_prefix_app in D. subst x.
    rewrite strip_app_l by exact M. rewrite blank_app, M. auto. }
  destruct (G (nth m ls' [])) as [G1 G2]. rewrite <- N1, <- N2. split; [exact G1|exact G2].
Qed.

Lemma undot_nth l : strip (undot l) = strip l /\ blank (undot l) = blank l \/
  strip l = [DOT] /\ blank (undot l) = true.
Proof.
  unfold undot. destruct (rev l) as [|c r] eqn:E; [left; auto|].
  destruct (Ascii.eqb c DOT && forallb isspace r)%bool eqn:Q; [|left; auto].
  right. apply andb_prop in Q as [Q1 Q2]. apply Ascii.eqb_eq in Q1. subst c.
  assert (L : l = rev r ++ [DOT]). { rewrite <- (rev_involutive l), E. reflexivity. }
  split; [|rewrite blank_rev; exact Q2].
  rewrite L. rewrite strip_app_l by (rewrite blank_rev; exact Q2). reflexivity.
Qed.

(** Lines of a stream end in NL, but for the last one. *)
Inductive pieces : list text -> Prop :=
| p_nil : pieces []
| p_last w : ~ In NL w -> pieces [w]
| p_cons w ls : ~ In NL w -> pieces ls -> pieces ((w ++ [NL]) :: ls).

Lemma pieces_split ls m : pieces ls ->
  (m < length ls -> strip (nth m (split_nl (concat ls)) []) = strip (nth m ls [])) /\
  (length ls <= m -> blank (nth m (split_nl (concat ls)) []) = true).
Proof.
  intros P. revert m. induction P as [|w Hw|w ls Hw P IH]; intros m.
  - simpl. split; [lia|]. destruct m as [|[|m]]; reflexivity.
  - cbn [concat length]. rewrite app_nil_r, split_nl_line by exact Hw. split.
    + intros H. replace m with 0 by lia. reflexivity.
    + intros H. destruct m as [|[|m]]; [lia| |]; reflexivity.
  - cbn [concat length]. rewrite <- app_assoc. cbn [app]. rewrite split_nl_cons by exact Hw.
    destruct m as [|m]; cbn [nth].
    + split; [|lia]. intros _. symmetry. apply strip_app_r. reflexivity.
    + destruct (IH m) as [I1 I2]. split; intros H; [apply I1|apply I2]; lia.
Qed.

Lemma stream_pieces t : pieces (stream_lines t).
Proof.
  unfold stream_lines. assert (G : forall acc, ~ In NL acc -> pieces (stream_lines_aux acc t)).
  { induction t as [|c t IH]; intros acc Ha; cbn [stream_lines_aux].
    - destruct acc as [|a acc]; [constructor|]. apply p_last. rewrite <- in_rev. exact Ha.
    - destruct (Ascii.eqb_spec c NL) as [->|Hc].
      + cbn [rev]. apply p_cons; [rewrite <- in_rev; exact Ha|]. apply IH. intros [].
      + apply IH. intros [->|H]; [apply Hc; reflexivity|apply Ha, H]. }
  apply G. intros [].
Qed.

(** A part of the lines of a stream, each shortened at its front. *)
Definition suffix (a b : text) : Prop := exists p, b = p ++ a.
Lemma pieces_tail w ls : pieces (w :: ls) -> pieces ls.
Proof. intros H. inversion H; subst; auto. constructor. Qed.
Lemma pieces_skip ls n : pieces ls -> pieces (skipn n ls).
Proof.
  revert n. induction ls as [|w ls IH]; intros [|n] H; cbn [skipn]; auto. apply IH. eapply pieces_tail, H.
Qed.
Lemma pieces_firstn ls n : pieces ls -> pieces (firstn n ls).
Proof.
  revert n. induction ls as [|w ls IH]; intros [|n] H; cbn [firstn]; auto; try constructor.
  inversion H; subst.
  - rewrite firstn_nil. constructor. auto.
  - constructor; auto.
Qed.
Lemma pieces_filter f ls : pieces ls -> pieces (filter f ls).
Proof.
  intros H. induction H as [|w Hw|w ls Hw P IH]; cbn [filter]; [constructor| |].
  - destruct (f w); constructor; auto.
  - destruct (f (w ++ [NL])); auto. constructor; auto.
Qed.
Lemma suffix_in a b c : suffix a b -> In c a -> In c b.
Proof. intros [p ->] H. apply in_or_app. right. exact H. Qed.
Lemma suffix_nl a w : suffix a (w ++ [NL]) -> a <> [] -> exists v, a = v ++ [NL] /\ suffix v w.
Proof.
  intros [p E] N. destruct (exists_last N) as [v [c ->]]. rewrite app_assoc in E.
  apply app_inj_tail in E as [E ->]. exists v. split; [reflexivity|]. exists p. exact E.
Qed.
Lemma pieces_map (f : text -> text) ls : pieces ls -> Forall (fun l => suffix (f l) l /\ f l <> []) ls ->
  pieces (map f ls).
Proof.
  intros H. induction H as [|w Hw|w ls Hw P IH]; cbn [map]; intros F; inversion_clear F as [|? ? F1 F2].
  - constructor.
  - constructor. intros Hin. apply Hw. eapply suffix_in; [apply F1|exact Hin].
  - destruct F1 as [F1 F3]. destruct (suffix_nl _ _ F1 F3) as [v [-> V]]. constructor; [|apply IH, F2].
    intros Hin. apply Hw. eapply suffix_in; [exact V|exact Hin].
Qed.

Lemma slice_eq lines a b : 1 <= a -> b <= S (length lines) ->
  slice lines a b = firstn (b - a) (skipn (a - 1) lines).
Proof.
  intros Ha Hb. unfold slice. remember (b - a) as n. revert a b Ha Hb Heqn.
  induction n as [|n IH]; intros a b Ha Hb Heqn; [reflexivity|].
  cbn [List.seq map]. rewrite (IH (S a) b) by lia.
  assert (Hl : a - 1 < length lines) by lia.
  unfold line_at at 1. replace (S a - 1) with (S (a - 1)) by lia.
  remember (a - 1) as q. clear - Hl.
  revert q Hl. induction lines as [|l lines IHl]; intros q Hl; cbn [length] in Hl; [lia|].
  destruct q as [|q]; [reflexivity|]. cbn [nth skipn]. rewrite IHl by lia. reflexivity.
Qed.

Lemma dedent_in ls x : In x (dedent_lines ls) -> exists l, In l ls /\ forall c, In c x -> In c l.
Proof.
  unfold dedent_lines.
  assert (B : forall y, In y (map (fun l : text => if forallb isblank l then [] else l) ls) ->
    exists l, In l ls /\ forall c, In c y -> In c l).
  { intros y Hy. apply in_map_iff in Hy as [l [<- Hl]]. exists l. split; [exact Hl|].
    intros c. destruct (forallb isblank l); [intros []|auto]. }
  destruct (margin _) as [[|c0 mg]|]; [apply B| |apply B].
  intros Hx. apply in_map_iff in Hx as [y [<- Hy]]. destruct (B y Hy) as [l [Hl HB]].
  exists l. split; [exact Hl|]. intros c Hc. apply HB.
  destruct (drop_prefix (c0 :: mg) y) as [r|] eqn:D; [|exact Hc].
  apply drop_prefix_app in D. subst y. apply in_or_app. right. exact Hc.
Qed.
Lemma undot_in l c : In c (undot l) -> In c l.
Proof.
  unfold undot. destruct (rev l) as [|d r] eqn:E; auto.
  destruct (Ascii.eqb d DOT && forallb isspace r)%bool; auto.
  intros H. apply in_rev. rewrite E. right. apply in_rev. exact H.
Qed.

Lemma value_lines P m : pieces P -> blank (hd [] P) = false -> strip (hd [] P) <> [DOT] ->
  m < length (split_nl (normalize (concat P))) ->
  m < length P /\ says (nth m P []) (nth m (split_nl (normalize (concat P))) []).
Proof.
  intros HP Hb Hd. set (raw := concat P).
  assert (P0 : forall k, k < length P -> strip (nth k (split_nl raw) []) = strip (nth k P [])).
  { intros k. apply (pieces_split P k HP). }
  assert (P1 : forall k, length P <= k -> blank (nth k (split_nl raw) []) = true).
  { intros k. apply (pieces_split P k HP). }
  assert (NP : 0 < length P). { destruct P; [discriminate Hb|cbn; lia]. }
  assert (H0 : hd [] P = nth 0 P []) by (destruct P; reflexivity).
  assert (BS : forall a b : text, strip a = strip b -> blank a = blank b).
  { intros a b E. destruct (blank b) eqn:Eb.
    - apply strip_nil in Eb. apply strip_nil. congruence.
    - destruct (blank a) eqn:Ea; auto. apply strip_nil in Ea. rewrite Ea in E. symmetry in E. apply strip_nil in E. congruence. }
  assert (Hn : forall X : list text, hd [] X = nth 0 X []) by (intros [|? ?]; reflexivity).
  unfold normalize. destruct (Nat.ltb 1 (count_nl raw)).
  - set (U := map undot (split_nl raw)). set (X := dedent_lines U).
    assert (LX : length X = length (split_nl raw)).
    { unfold X, U. rewrite dedent_length, map_length. reflexivity. }
    assert (NX : X <> []).
    { pose proof (split_nl_ne raw). destruct X; [|discriminate]. destruct (split_nl raw); [contradiction|discriminate LX]. }
    assert (SX : split_nl (join_nl X) = X).
    { apply split_join; [exact NX|]. intros l Hl Hin. destruct (dedent_in U l Hl) as [u [Hu Hc]].
      apply in_map_iff in Hu as [w [<- Hw]]. apply (split_nl_no_nl raw w Hw). apply undot_in, Hc, Hin. }
    assert (AX : forall k, strip (nth k X []) = strip (undot (nth k (split_nl raw) [])) /\
                           blank (nth k X []) = blank (undot (nth k (split_nl raw) []))).
    { intros k. destruct (dedent_nth U k) as [D1 D2]. unfold X. rewrite D1, D2. unfold U.
      rewrite nth_map_nil by reflexivity. auto. }
    assert (HdX : blank (hd [] (split_nl (join_nl X))) = false).
    { rewrite SX, Hn. destruct (AX 0) as [_ ->].
      destruct (undot_nth (nth 0 (split_nl raw) [])) as [[_ ->]|[D _]].
      - rewrite (BS _ _ (P0 0 NP)), <- H0. exact Hb.
      - exfalso. apply Hd. rewrite H0, <- (P0 0 NP). exact D. }
    intros Hm. destruct (strip_lines (join_nl X) m HdX Hm) as [S1 [m' [M1 [M2 M3]]]].
    rewrite SX in S1, M2, M3.
    assert (Hlt : m < length P).
    { destruct (le_lt_dec (length P) m') as [Hle|Hlt]; [|lia]. exfalso.
      destruct (AX m') as [_ A2]. rewrite A2 in M3.
      destruct (undot_nth (nth m' (split_nl raw) [])) as [[_ U2]|[_ U2]].
      - rewrite U2, (P1 m' Hle) in M3. discriminate.
      - congruence. }
    split; [exact Hlt|]. unfold says. rewrite S1. destruct (AX m) as [A1 A2]. rewrite A1.
    destruct (undot_nth (nth m (split_nl raw) [])) as [[U1 _]|[U1 U2]].
    + left. rewrite U1. symmetry. apply P0, Hlt.
    + right. split; [rewrite <- (P0 m Hlt); exact U1|].
      rewrite (BS _ _ S1), A2. exact U2.
  - assert (HdR : blank (hd [] (split_nl raw)) = false).
    { rewrite Hn, (BS _ _ (P0 0 NP)), <- H0. exact Hb. }
    intros Hm. destruct (strip_lines raw m HdR Hm) as [S1 [m' [M1 [M2 M3]]]].
    assert (Hlt : m < length P).
    { destruct (le_lt_dec (length P) m') as [Hle|Hlt]; [|lia]. rewrite (P1 m' Hle) in M3. discriminate. }
    split; [exact Hlt|]. left. rewrite S1. symmetry. apply P0, Hlt.
Qed.

Lemma lstrip_suffix l : suffix (lstrip l) l.
Proof. destruct (lstrip_split l) as [w [_ E]]. exists w. exact E. Qed.
Lemma split_colon_suffix l a b : split_colon l = Some (a, b) -> suffix b l.
Proof.
  revert a b. induction l as [|c l IH]; simpl; [discriminate|]. intros a b.
  destruct (Ascii.eqb c COLON).
  - intros [= <- <-]. exists [c]. reflexivity.
  - destruct (split_colon l) as [[x y]|]; [|discriminate]. intros [= <- <-].
    destruct (IH x y eq_refl) as [p ->]. exists (c :: p). reflexivity.
Qed.
Lemma suffix_trans a b c : suffix a b -> suffix b c -> suffix a c.
Proof. intros [p ->] [q ->]. exists (q ++ p). apply app_assoc. Qed.

(** The lines a value is made of. *)
Definition parts (lines : list text) (i j : nat) (first : text) : list text :=
  (if blank first then [] else [lstrip first]) ++ conts lines i j.
Lemma parts_raw lines i j first : concat (parts lines i j first) = raw_value first (conts lines i j).
Proof. unfold parts, raw_value. destruct (blank first); reflexivity. Qed.

Lemma pieces_conts lines i j : pieces lines -> 1 <= i -> j <= S (length lines) ->
  (forall m, i < m < j -> comment (line_at lines m) = true \/
     continues (line_at lines m) = true /\ blank (line_at lines m) = false) ->
  pieces (conts lines i j).
Proof.
  intros P Hi Hj H. unfold conts. apply pieces_map.
  - apply pieces_filter. rewrite slice_eq by lia. apply pieces_firstn, pieces_skip, P.
  - rewrite Forall_forall. intros l Hl. apply filter_In in Hl as [Hl C]. unfold slice in Hl.
    apply in_map_iff in Hl as [m [<- Hm]]. apply in_seq in Hm.
    destruct (H m) as [Q|[Q1 Q2]]; [lia| |].
    + unfold noncomment in C. rewrite Q in C. discriminate.
    + unfold continues, starts_with in Q1. destruct (line_at lines m) as [|c r]; [discriminate|]. cbn [tl]. split.
      * exists [c]. reflexivity.
      * intros ->. apply Ascii.eqb_eq in Q1. subst c. discriminate Q2.
Qed.

Lemma pieces_parts lines i j first k : pieces lines -> key_line lines i k first -> i < j ->
  j <= S (length lines) ->
  (forall m, i < m < j -> comment (line_at lines m) = true \/
     continues (line_at lines m) = true /\ blank (line_at lines m) = false) ->
  pieces (parts lines i j first).
Proof.
  intros P [K1 [K2 [K3 [w [K4 K5]]]]] Hij Hj H.
  assert (C : pieces (conts lines i j)) by (apply pieces_conts; auto).
  unfold parts. destruct (blank first) eqn:B; [exact C|]. cbn [app].
  assert (Sf : suffix (lstrip first) (line_at lines i)).
  { eapply suffix_trans; [apply lstrip_suffix|]. eapply split_colon_suffix, K4. }
  assert (Nf : lstrip first <> []). { intros E. apply lstrip_nil in E. congruence. }
  assert (Q : pieces (line_at lines i :: filter noncomment (slice lines (S i) j))).
  { assert (Q : pieces (filter noncomment (slice lines i j))).
    { apply pieces_filter. rewrite slice_eq by lia. apply pieces_firstn, pieces_skip, P. }
    assert (E : slice lines i j = line_at lines i :: slice lines (S i) j).
    { unfold slice. replace (j - i) with (S (j - S i)) by lia. reflexivity. }
    rewrite E in Q. cbn [filter] in Q. unfold noncomment at 1 in Q. rewrite K2 in Q. exact Q. }
  unfold conts in *. remember (filter noncomment (slice lines (S i) j)) as fs.
  remember (line_at lines i) as li. clear Heqfs Heqli.
  remember (li :: fs) as all eqn:Ea. destruct Q as [|x Hx|x ls Hx Hls]; [discriminate| |]; injection Ea as Ex Er.
  - subst. cbn [map]. apply p_last. intros Hin. apply Hx. eapply suffix_in; [exact Sf|exact Hin].
  - rewrite <- Ex in Sf. destruct (suffix_nl _ _ Sf Nf) as [v [-> V]]. apply p_cons; [|exact C].
    intros Hin. apply Hx. eapply suffix_in; [exact V|exact Hin].
Qed.

Lemma filter_all {A} (f : A -> bool) l : (forall x, In x l -> f x = true) -> filter f l = l.
Proof.
  induction l as [|a l IH]; intros H; [reflexivity|]. cbn [filter]. rewrite (H a) by (left; reflexivity).
  f_equal. apply IH. intros x Hx. apply H. right. exact Hx.
Qed.
Lemma slice_length lines a b : length (slice lines a b) = b - a.
Proof. unfold slice. rewrite map_length, seq_length. reflexivity. Qed.
Lemma slice_split lines a b c : a <= b -> b <= c -> slice lines a c = slice lines a b ++ slice lines b c.
Proof.
  intros H1 H2. unfold slice. rewrite <- map_app. f_equal.
  replace (c - a) with ((b - a) + (c - b)) by lia. rewrite seq_app. replace (a + (b - a)) with b by lia. reflexivity.
Qed.
Lemma slice_nth lines a b m : m < b - a -> nth m (slice lines a b) [] = line_at lines (a + m).
Proof.
  intros H. unfold slice. rewrite nth_indep with (d' := line_at lines 0) by (rewrite map_length, seq_length; exact H).
  rewrite map_nth, seq_nth by exact H. reflexivity.
Qed.

(** Without a comment line above it, line [m] of the value is [m] lines below. *)
Lemma parts_nth lines i j first m : i < j ->
  (forall n, i < n < j -> comment (line_at lines n) = true \/
     continues (line_at lines n) = true /\ blank (line_at lines n) = false) ->
  (forall n, i < n -> n <= (if blank first then S i else i) + m -> comment (line_at lines n) = false) ->
  m < length (parts lines i j first) ->
  (if blank first then S i else i) + m < j /\
  strip (nth m (parts lines i j first) []) =
    strip (written_line lines i first ((if blank first then S i else i) + m)).
Proof.
  intros Hij HC H Hm.
  (* the continuation line number q *)
  assert (G : forall q, (forall n, i < n -> n <= S i + q -> comment (line_at lines n) = false) ->
     q < length (conts lines i j) -> S i + q < j /\ nth q (conts lines i j) [] = tl (line_at lines (S i + q))).
  { clear H Hm m. intros q H Hq.
    assert (Hlt : S i + q < j).
    { destruct (le_lt_dec j (S i + q)) as [Hle|Hlt]; [exfalso|exact Hlt].
      unfold conts in Hq. rewrite filter_all in Hq.
      - rewrite map_length, slice_length in Hq. lia.
      - intros x Hx. unfold slice in Hx. apply in_map_iff in Hx as [n [<- Hn]]. apply in_seq in Hn.
        unfold noncomment. rewrite H by lia. reflexivity. }
    split; [exact Hlt|]. unfold conts. rewrite (slice_split lines (S i) (S (S i + q)) j) by lia.
    rewrite filter_app, map_app.
    rewrite (filter_all noncomment (slice lines (S i) (S (S i + q)))).
    - rewrite app_nth1 by (rewrite map_length, slice_length; lia).
      rewrite nth_map_nil by reflexivity. rewrite slice_nth by lia. reflexivity.
    - intros x Hx. unfold slice in Hx. apply in_map_iff in Hx as [n [<- Hn]]. apply in_seq in Hn.
      unfold noncomment. rewrite H by lia. reflexivity. }
  assert (ST : forall n, i < n < j -> comment (line_at lines n) = false ->
    strip (tl (line_at lines n)) = strip (line_at lines n)).
  { intros n Hn C. destruct (HC n Hn) as [Q|[Q _]]; [congruence|]. unfold continues, starts_with in Q.
    destruct (line_at lines n) as [|c r]; [reflexivity|]. cbn [tl]. apply Ascii.eqb_eq in Q. subst c.
    symmetry. apply (strip_app_l [SP] r). reflexivity. }
  unfold parts in *. unfold written_line. destruct (blank first) eqn:B.
  - cbn [app] in *. destruct (G m H Hm) as [G1 G2]. split; [exact G1|]. rewrite G2.
    destruct (Nat.eqb_spec (S i + m) i) as [E|_]; [lia|].
    apply ST; [lia|]. apply H; lia.
  - cbn [app length] in *. destruct m as [|m].
    + rewrite Nat.add_0_r, Nat.eqb_refl. split; [exact Hij|]. cbn [nth]. apply strip_lstrip.
    + cbn [nth]. destruct (G m) as [G1 G2]; [intros n Hn1 Hn2; apply H; lia|lia|].
      replace (i + S m) with (S i + m) by lia. split; [exact G1|]. rewrite G2.
      destruct (Nat.eqb_spec (S i + m) i) as [E|_]; [lia|].
      apply ST; [lia|]. apply H; lia.
Qed.
