From Coq Require Import String Ascii List Bool Arith NArith Lia.
From Verif Require Import ScanModel Rfc822Model JsonModel IologModel IniModel ExportModel Utf8Model Utf8Spec.
Import ListNotations.
Local Open Scope N_scope.
Local Open Scope list_scope.

Lemma byte_lt x : N_of_ascii x < 256.
Proof. apply N_ascii_bounded. Qed.
Lemma b_byte x : b (N_of_ascii x) = x.
Proof. apply ascii_N_embedding. Qed.
Lemma byte_b n : n < 256 -> N_of_ascii (b n) = n.
Proof. apply N_ascii_embedding. Qed.

Lemma split64 c q r : c = q * 64 + r -> r < 64 -> c / 64 = q /\ c mod 64 = r.
Proof. intros E H. split; [symmetry; apply (N.div_unique c 64 q r); lia|symmetry; apply (N.mod_unique c 64 q r); lia]. Qed.
Lemma div4096 c : c / 4096 = c / 64 / 64.
Proof. rewrite N.div_div by lia. reflexivity. Qed.
Lemma div262144 c : c / 262144 = c / 64 / 64 / 64.
Proof. rewrite !N.div_div by lia. reflexivity. Qed.
Lemma dm64 c : c = c / 64 * 64 + c mod 64 /\ c mod 64 < 64.
Proof. split; [rewrite N.mul_comm; apply N.div_mod; lia|apply N.mod_lt; lia]. Qed.

Ltac bools :=
  repeat match goal with
  | H : (_ && _)%bool = true |- _ => apply andb_true_iff in H; destruct H
  | H : (_ <? _) = true |- _ => apply N.ltb_lt in H
  | H : (_ <? _) = false |- _ => apply N.ltb_ge in H
  | H : (_ <=? _) = true |- _ => apply N.leb_le in H
  | H : (_ <=? _) = false |- _ => apply N.leb_gt in H
  | H : (_ =? _) = true |- _ => apply N.eqb_eq in H
  | H : (_ =? _) = false |- _ => apply N.eqb_neq in H
  | H : negb _ = true |- _ => apply negb_true_iff in H
  end.

Lemma cont_spec c : continuation c = true <-> 128 <= c <= 191.
Proof. unfold continuation. rewrite andb_true_iff, !N.leb_le. tauto. Qed.
Lemma second3_spec c1 c2 : second3 c1 c2 = true <->
  128 <= c2 <= 191 /\ ~ (c2 < 160 /\ c1 = 224) /\ ~ (160 <= c2 /\ c1 = 237).
Proof.
  unfold second3. rewrite andb_true_iff, cont_spec, negb_true_iff. destruct (N.ltb_spec c2 160); rewrite N.eqb_neq; intuition lia.
Qed.
Lemma second4_spec c1 c2 : second4 c1 c2 = true <->
  128 <= c2 <= 191 /\ ~ (c2 < 144 /\ c1 = 240) /\ ~ (144 <= c2 /\ c1 = 244).
Proof.
  unfold second4. rewrite andb_true_iff, cont_spec, negb_true_iff. destruct (N.ltb_spec c2 144); rewrite N.eqb_neq; intuition lia.
Qed.

(** Case analysis on [next]. *)
Ltac nexts H :=
  repeat match type of H with
  | context [if ?c then _ else _] => destruct c eqn:?; try discriminate H
  | context [match ?r with [] => _ | _ :: _ => _ end] => destruct r; try discriminate H
  end.

Lemma next_app s r : next s <> HMore -> next (s ++ r) = next s.
Proof.
  intros N. destruct s as [|b1 r1]; [now destruct N|]. cbn [app next] in *.
  repeat match goal with
  | |- context [if ?c then _ else _] => destruct c; try reflexivity
  end;
  (destruct r1 as [|b2 r2]; [now destruct N|]); cbn [app] in *;
  repeat match goal with
  | |- context [if ?c then _ else _] => destruct c; try reflexivity
  end;
  (destruct r2 as [|b3 r3]; [now destruct N|]); cbn [app] in *;
  repeat match goal with
  | |- context [if ?c then _ else _] => destruct c; try reflexivity
  end;
  (destruct r3 as [|b4 r4]; [now destruct N|]); cbn [app] in *; reflexivity.
Qed.

Lemma next_size s n : (exists c, next s = HChar c n) \/ next s = HBad n -> (1 <= n <= length s)%nat.
Proof.
  intros H. unfold next in H. destruct s as [|b1 r1]; [destruct H as [[c H]|H]; discriminate|].
  cbv zeta in H. destruct H as [[c H]|H]; nexts H; injection H as; subst; cbn [length]; lia.
Qed.

Lemma next_char s c n : next s = HChar c n -> scalar c /\ firstn n s = utf8 c.
Proof.
  unfold next. destruct s as [|b1 r1]; [discriminate|]. cbv zeta. intros H. pose proof (byte_lt b1) as B1.
  nexts H; injection H as <- <-.
  - bools. split; [left; lia|]. unfold utf8. destruct (N.ltb_spec (N_of_ascii b1) 128); [|lia]. cbn [firstn]. now rewrite b_byte.
  - match goal with H : continuation _ = true |- _ => apply cont_spec in H end. bools.
    match goal with |- context [N_of_ascii ?x - 128] => set (c2 := N_of_ascii x) in * end.
    set (c1 := N_of_ascii b1) in *. set (c := (c1 - 192) * 64 + (c2 - 128)).
    destruct (split64 c (c1 - 192) (c2 - 128)) as [D M]; [reflexivity|lia|].
    split; [left; lia|]. unfold utf8. destruct (N.ltb_spec c 128); [lia|]. destruct (N.ltb_spec c 2048); [|lia].
    rewrite D, M. cbn [firstn]. replace (192 + (c1 - 192)) with c1 by lia. replace (128 + (c2 - 128)) with c2 by lia.
    unfold c1, c2. now rewrite !b_byte.
  - match goal with H : second3 _ _ = true |- _ => apply second3_spec in H end.
    match goal with H : continuation _ = true |- _ => apply cont_spec in H end. bools.
    match goal with |- context [_ + (N_of_ascii ?x - 128) * 64 + (N_of_ascii ?y - 128)] =>
      set (c2 := N_of_ascii x) in *; set (c3 := N_of_ascii y) in * end.
    set (c1 := N_of_ascii b1) in *. set (c := (c1 - 224) * 4096 + (c2 - 128) * 64 + (c3 - 128)).
    destruct (split64 c ((c1 - 224) * 64 + (c2 - 128)) (c3 - 128)) as [D M]; [unfold c; lia|lia|].
    destruct (split64 ((c1 - 224) * 64 + (c2 - 128)) (c1 - 224) (c2 - 128)) as [D' M']; [reflexivity|lia|].
    assert (G : 2048 <= c < 65536) by (unfold c; lia).
    split; [unfold scalar, c; lia|]. unfold utf8. destruct (N.ltb_spec c 128); [lia|]. destruct (N.ltb_spec c 2048); [lia|].
    destruct (N.ltb_spec c 65536); [|lia]. rewrite div4096, D, M, D', M'. cbn [firstn].
    replace (224 + (c1 - 224)) with c1 by lia. replace (128 + (c2 - 128)) with c2 by lia. replace (128 + (c3 - 128)) with c3 by lia.
    unfold c1, c2, c3. now rewrite !b_byte.
  - match goal with H : second4 _ _ = true |- _ => apply second4_spec in H end.
    repeat match goal with H : continuation _ = true |- _ => apply cont_spec in H end. bools.
    match goal with |- context [_ + (N_of_ascii ?x - 128) * 4096 + (N_of_ascii ?y - 128) * 64 + (N_of_ascii ?z - 128)] =>
      set (c2 := N_of_ascii x) in *; set (c3 := N_of_ascii y) in *; set (c4 := N_of_ascii z) in * end.
    set (c1 := N_of_ascii b1) in *. set (c := (c1 - 240) * 262144 + (c2 - 128) * 4096 + (c3 - 128) * 64 + (c4 - 128)).
    destruct (split64 c ((c1 - 240) * 4096 + (c2 - 128) * 64 + (c3 - 128)) (c4 - 128)) as [D M]; [unfold c; lia|lia|].
    destruct (split64 ((c1 - 240) * 4096 + (c2 - 128) * 64 + (c3 - 128)) ((c1 - 240) * 64 + (c2 - 128)) (c3 - 128)) as [D' M']; [lia|lia|].
    destruct (split64 ((c1 - 240) * 64 + (c2 - 128)) (c1 - 240) (c2 - 128)) as [D'' M'']; [reflexivity|lia|].
    assert (G : 65536 <= c < 1114112) by (unfold c; lia).
    split; [unfold scalar; lia|]. unfold utf8. destruct (N.ltb_spec c 128); [lia|]. destruct (N.ltb_spec c 2048); [lia|].
    destruct (N.ltb_spec c 65536); [lia|]. rewrite div262144, div4096, D, M, D', M', D'', M''. cbn [firstn].
    replace (240 + (c1 - 240)) with c1 by lia. replace (128 + (c2 - 128)) with c2 by lia. replace (128 + (c3 - 128)) with c3 by lia.
    replace (128 + (c4 - 128)) with c4 by lia.
    unfold c1, c2, c3, c4. now rewrite !b_byte.
Qed.

Lemma next_utf8 c : scalar c -> next (utf8 c) = HChar c (length (utf8 c)).
Proof.
  intros S. unfold utf8.
  destruct (dm64 c) as [E0 L0]. destruct (dm64 (c / 64)) as [E1 L1]. destruct (dm64 (c / 64 / 64)) as [E2 L2].
  rewrite div4096, div262144.
  set (d := c / 64) in *. set (r := c mod 64) in *. set (e := d / 64) in *. set (s := d mod 64) in *.
  set (f := e / 64) in *. set (t := e mod 64) in *. clearbody d r e s f t.
  destruct (N.ltb_spec c 128) as [H|H].
  - cbn [next length]. rewrite byte_b by lia. destruct (N.ltb_spec c 128); [reflexivity|lia].
  - destruct (N.ltb_spec c 2048) as [H1|H1].
    + cbn [next length]. rewrite !byte_b by lia. 
      destruct (N.ltb_spec (192 + d) 128); [lia|]. destruct (N.ltb_spec (192 + d) 194); [lia|].
      destruct (N.ltb_spec (192 + d) 224); [|lia].
      replace (continuation (128 + r)) with true by (symmetry; apply cont_spec; lia). f_equal. lia.
    + destruct (N.ltb_spec c 65536) as [H2|H2].
      * cbn [next length]. rewrite !byte_b by lia.
        destruct (N.ltb_spec (224 + e) 128); [lia|]. destruct (N.ltb_spec (224 + e) 194); [lia|].
        destruct (N.ltb_spec (224 + e) 224); [lia|]. destruct (N.ltb_spec (224 + e) 240); [|lia].
        replace (second3 (224 + e) (128 + s)) with true.
        2:{ symmetry. apply second3_spec. unfold scalar in S. lia. }
        replace (continuation (128 + r)) with true by (symmetry; apply cont_spec; lia). f_equal. lia.
      * unfold scalar in S. cbn [next length]. rewrite !byte_b by lia.
        destruct (N.ltb_spec (240 + f) 128); [lia|]. destruct (N.ltb_spec (240 + f) 194); [lia|].
        destruct (N.ltb_spec (240 + f) 224); [lia|]. destruct (N.ltb_spec (240 + f) 240); [lia|]. destruct (N.ltb_spec (240 + f) 245); [|lia].
        replace (second4 (240 + f) (128 + t)) with true.
        2:{ symmetry. apply second4_spec. lia. }
        replace (continuation (128 + r)) with true by (symmetry; apply cont_spec; lia).
        replace (continuation (128 + s)) with true by (symmetry; apply cont_spec; lia). f_equal. lia.
Qed.

Lemma next_more_starts s : s <> [] -> next s = HMore -> starts s.
Proof.
  intros Ne H.
  assert (X : exists f c, next (s ++ f) = HChar c (length (s ++ f))).
  { assert (K : continuation 128 = true) by reflexivity.
    assert (K0 : forall n, n < 256 -> N_of_ascii (b n) = n) by apply byte_b.
    destruct s as [|b1 r1]; [congruence|]. cbn [next] in H. cbv zeta in H.
    destruct (N_of_ascii b1 <? 128) eqn:A1; [discriminate|]. destruct (N_of_ascii b1 <? 194) eqn:A2; [discriminate|].
    destruct (N_of_ascii b1 <? 224) eqn:A3.
    { destruct r1; [|nexts H]. exists [b 128]. eexists. cbn [app next length]. rewrite A1, A2, A3, K0, K by lia. reflexivity. }
    destruct (N_of_ascii b1 <? 240) eqn:A4.
    { destruct r1 as [|b2 r2].
      - exists [b (if N_of_ascii b1 =? 224 then 160 else 128); b 128]. eexists. cbn [app next length]. rewrite A1, A2, A3, A4.
        cbv zeta. rewrite (K0 128) by lia. rewrite K. 
        replace (second3 (N_of_ascii b1) (N_of_ascii (b (if N_of_ascii b1 =? 224 then 160 else 128)))) with true; [reflexivity|].
        symmetry. apply second3_spec. destruct (N.eqb_spec (N_of_ascii b1) 224); rewrite K0 by lia; lia.
      - destruct (second3 (N_of_ascii b1) (N_of_ascii b2)) eqn:S2; [|discriminate]. destruct r2; [|nexts H].
        exists [b 128]. eexists. cbn [app next length]. rewrite A1, A2, A3, A4, S2. cbv zeta. rewrite K0, K by lia. reflexivity. }
    destruct (N_of_ascii b1 <? 245) eqn:A5; [|discriminate]. destruct r1 as [|b2 r2].
    - exists [b (if N_of_ascii b1 =? 240 then 144 else 128); b 128; b 128]. eexists. cbn [app next length]. rewrite A1, A2, A3, A4, A5.
      cbv zeta. rewrite (K0 128) by lia. rewrite K.
      replace (second4 (N_of_ascii b1) (N_of_ascii (b (if N_of_ascii b1 =? 240 then 144 else 128)))) with true; [reflexivity|].
      symmetry. apply second4_spec. destruct (N.eqb_spec (N_of_ascii b1) 240); rewrite K0 by lia; lia.
    - destruct (second4 (N_of_ascii b1) (N_of_ascii b2)) eqn:S2; [|discriminate]. destruct r2 as [|b3 r3].
      + exists [b 128; b 128]. eexists. cbn [app next length]. rewrite A1, A2, A3, A4, A5, S2. cbv zeta. rewrite K0, K by lia. reflexivity.
      + destruct (continuation (N_of_ascii b3)) eqn:S3; [|discriminate]. destruct r3; [|nexts H].
        exists [b 128]. eexists. cbn [app next length]. rewrite A1, A2, A3, A4, A5, S2, S3. cbv zeta. rewrite K0, K by lia. reflexivity. }
  destruct X as (f & c & X). apply next_char in X as [Sc X]. rewrite firstn_all in X. exists c, f. split; [assumption|]. now rewrite X.
Qed.

(** A beginning of a character is not an error. *)
Lemma starts_not_bad s n : starts s -> next s <> HBad n.
Proof.
  intros (c & r & S & E) H. pose proof (next_utf8 c S) as X. rewrite E, next_app in X; congruence.
Qed.

Lemma next_bad s n : next s = HBad n -> ill_formed (firstn n s) (skipn n s).
Proof.
  intros H. split.
  - intros c r' S E. rewrite firstn_skipn in E. pose proof (next_utf8 c S) as X.
    assert (Y : next (utf8 c ++ r') = next (utf8 c)) by (apply next_app; congruence). congruence.
  - assert (C : (n = 1%nat /\ next (firstn 1 s) = HBad 1) \/
                (firstn n s <> [] /\ next (firstn n s) = HMore /\ (n < length s)%nat /\ next (firstn (Datatypes.S n) s) = HBad n)).
    { pose proof H as H0. unfold next in H. destruct s as [|b1 r1]; [discriminate|]. cbv zeta in H.
      nexts H; injection H as <-; cbn [firstn next length]; cbv zeta;
        repeat match goal with X : _ = true |- _ => rewrite X | X : _ = false |- _ => rewrite X end;
        try (left; split; reflexivity); right; (split; [discriminate|]); (split; [reflexivity|]); (split; [cbn; lia|reflexivity]). }
    destruct C as [[-> C]|(Ne & C & L & D)].
    + right. split.
      * destruct s; [discriminate H|reflexivity].
      * intros X. apply (starts_not_bad _ 1 X C).
    + left. split; [assumption|]. split; [now apply next_more_starts|].
      intros y z E Ly X. rewrite firstn_skipn in E. rewrite firstn_length_le in Ly by lia.
      assert (Y : y = firstn (Datatypes.S n) s ++ skipn (Datatypes.S n) y).
      { rewrite <- (firstn_skipn (Datatypes.S n) y) at 1. f_equal. rewrite E, firstn_app.
        replace (Datatypes.S n - length y)%nat with 0%nat by lia. cbn [firstn]. now rewrite app_nil_r. }
      apply (starts_not_bad y n X). rewrite Y, next_app; congruence.
Qed.

(** A character that is not complete, at the end. *)
Lemma last_bad s : s <> [] -> next s = HMore -> ill_formed s [].
Proof.
  intros Ne H. split.
  - intros c r' S E. rewrite app_nil_r in E. subst s. pose proof (next_utf8 c S) as X.
    rewrite next_app in H; congruence.
  - left. split; [assumption|]. split; [now apply next_more_starts|].
    intros y z E L _. rewrite app_nil_r in E. subst s. rewrite app_length in L. lia.
Qed.

(** ** The loop *)

Lemma decode_loop_fuel strict hold f : forall s f', (length s <= f)%nat -> (length s <= f')%nat ->
  decode_loop strict hold f s = decode_loop strict hold f' s.
Proof.
  induction f as [|f IH]; intros s f' L L'.
  - destruct s; [|cbn in L; lia]. destruct f'; reflexivity.
  - destruct s as [|x s]; [destruct f'; reflexivity|]. destruct f' as [|f']; [cbn in L'; lia|]. cbn [decode_loop].
    assert (Sk : forall n, (1 <= n)%nat -> (length (skipn n (x :: s)) <= f)%nat /\ (length (skipn n (x :: s)) <= f')%nat).
    { intros n Hn. rewrite skipn_length. cbn [length] in *. lia. }
    destruct (next (x :: s)) as [c n|n|] eqn:N; [| |reflexivity].
    + destruct (next_size (x :: s) n) as [Hn _]; [eauto|]. rewrite (IH _ f'); [reflexivity|apply Sk; assumption..].
    + destruct (hold && truncated_surrogate (x :: s))%bool; [reflexivity|].
      destruct strict; [reflexivity|]. destruct (next_size (x :: s) n) as [Hn _]; [eauto|].
      rewrite (IH _ f'); [reflexivity|apply Sk; assumption..].
Qed.
Definition dech (strict hold : bool) (s : bytes) := decode_loop strict hold (length s) s.
Definition dec (strict : bool) (s : bytes) := dech strict false s.
Lemma dech_eq strict hold s : dech strict hold s =
  match s with
  | [] => (Some [], [])
  | _ =>
      match next s with
      | HMore => (Some [], s)
      | HChar c n => match dech strict hold (skipn n s) with (Some t, l) => (Some (c :: t), l) | (None, l) => (None, l) end
      | HBad n => if hold && truncated_surrogate s then (Some [], s) else if strict then (None, s)
                  else match dech strict hold (skipn n s) with (Some t, l) => (Some (FFFD :: t), l) | (None, l) => (None, l) end
      end
  end.
Proof.
  destruct s as [|x s]; [reflexivity|]. unfold dech at 1. cbn [length decode_loop].
  assert (Sk : forall n, (1 <= n)%nat -> decode_loop strict hold (length s) (skipn n (x :: s)) = dech strict hold (skipn n (x :: s))).
  { intros n Hn. apply decode_loop_fuel; [|lia]. rewrite skipn_length. cbn [length]. lia. }
  destruct (next (x :: s)) as [c n|n|] eqn:N; [| |reflexivity].
  + destruct (next_size (x :: s) n) as [Hn _]; [eauto|]. now rewrite Sk.
  + destruct (hold && truncated_surrogate (x :: s))%bool; [reflexivity|].
    destruct strict; [reflexivity|]. destruct (next_size (x :: s) n) as [Hn _]; [eauto|]. now rewrite Sk.
Qed.
Lemma dec_eq strict s : dec strict s =
  match s with
  | [] => (Some [], [])
  | _ =>
      match next s with
      | HMore => (Some [], s)
      | HChar c n => match dec strict (skipn n s) with (Some t, l) => (Some (c :: t), l) | (None, l) => (None, l) end
      | HBad n => if strict then (None, s)
                  else match dec strict (skipn n s) with (Some t, l) => (Some (FFFD :: t), l) | (None, l) => (None, l) end
      end
  end.
Proof. unfold dec at 1. now rewrite dech_eq. Qed.

(** Decoding in two steps is decoding at once. *)
Lemma dec_app strict hold r : forall n s, (length s <= n)%nat ->
  match dech strict hold s with
  | (Some t, l) => match dec strict (l ++ r) with
                   | (Some t', l') => dec strict (s ++ r) = (Some (t ++ t'), l')
                   | (None, _) => fst (dec strict (s ++ r)) = None
                   end
  | (None, _) => fst (dec strict (s ++ r)) = None
  end.
Proof.
  assert (Same : forall s, match dec strict (s ++ r) with
                   | (Some t', l') => dec strict (s ++ r) = (Some ([] ++ t'), l')
                   | (None, _) => fst (dec strict (s ++ r)) = None
                   end).
  { intros s. destruct (dec strict (s ++ r)) as [[t'|] l']; reflexivity. }
  induction n as [|n IH]; intros s L.
  - destruct s; [|cbn in L; lia]. apply (Same []).
  - destruct s as [|x s]; [apply (Same [])|]. rewrite (dech_eq strict hold (x :: s)).
    destruct (next (x :: s)) as [c k|k|] eqn:N.
    + destruct (next_size (x :: s) k) as [Hn Hk]; [eauto|].
      assert (E : dec strict ((x :: s) ++ r) = match dec strict (skipn k (x :: s) ++ r) with (Some t, l) => (Some (c :: t), l) | (None, l) => (None, l) end).
      { rewrite dec_eq. cbn [app]. change (x :: s ++ r) with ((x :: s) ++ r). rewrite next_app, N by congruence.
        rewrite skipn_app. replace (k - length (x :: s))%nat with 0%nat by lia. reflexivity. }
      rewrite E. assert (Lk : (length (skipn k (x :: s)) <= n)%nat) by (rewrite skipn_length; cbn [length] in *; lia).
      specialize (IH (skipn k (x :: s)) Lk). destruct (dech strict hold (skipn k (x :: s))) as [[t|] l].
      * destruct (dec strict (l ++ r)) as [[t'|] l']; [now rewrite IH|].
        destruct (dec strict (skipn k (x :: s) ++ r)) as [[u|] l2]; [discriminate IH|reflexivity].
      * destruct (dec strict (skipn k (x :: s) ++ r)) as [[u|] l2]; [discriminate IH|reflexivity].
    + destruct (hold && truncated_surrogate (x :: s))%bool; [apply Same|].
      destruct (next_size (x :: s) k) as [Hn Hk]; [eauto|].
      assert (E : dec strict ((x :: s) ++ r) = if strict then (None, (x :: s) ++ r) else match dec strict (skipn k (x :: s) ++ r) with (Some t, l) => (Some (FFFD :: t), l) | (None, l) => (None, l) end).
      { rewrite dec_eq. cbn [app]. change (x :: s ++ r) with ((x :: s) ++ r). rewrite next_app, N by congruence.
        rewrite skipn_app. replace (k - length (x :: s))%nat with 0%nat by lia. reflexivity. }
      rewrite E. destruct strict; [reflexivity|].
      assert (Lk : (length (skipn k (x :: s)) <= n)%nat) by (rewrite skipn_length; cbn [length] in *; lia).
      specialize (IH (skipn k (x :: s)) Lk). destruct (dech false hold (skipn k (x :: s))) as [[t|] l].
      * destruct (dec false (l ++ r)) as [[t'|] l']; [now rewrite IH|].
        destruct (dec false (skipn k (x :: s) ++ r)) as [[u|] l2]; [discriminate IH|reflexivity].
      * destruct (dec false (skipn k (x :: s) ++ r)) as [[u|] l2]; [discriminate IH|reflexivity].
    + apply Same.
Qed.

Definition full (strict : bool) (s : bytes) : option ustr :=
  match dec strict s with
  | (Some t, []) => Some t
  | (Some t, _) => if strict then None else Some (t ++ [FFFD])
  | (None, _) => None
  end.

Lemma iterdecode_full newer strict chunks : forall buffer,
  option_map (@concat N) (iterdecode newer strict buffer chunks) = full strict (buffer ++ concat chunks).
Proof.
  induction chunks as [|c chunks IH]; intros buffer.
  - cbn [iterdecode concat]. unfold decode, full, dec, dech. rewrite app_nil_r. cbn [negb]. rewrite andb_false_r.
    destruct (decode_loop strict false (length buffer) buffer) as [[t|] l].
    + destruct l as [|x l].
      * destruct t; cbn; rewrite ?app_nil_r; reflexivity.
      * destruct strict; [reflexivity|]. destruct (t ++ [FFFD]) eqn:E; [reflexivity|]. rewrite <- E. cbn. now rewrite app_nil_r.
    + reflexivity.
  - cbn [iterdecode concat]. unfold decode. cbn [negb]. rewrite andb_true_r. fold (dech strict newer (buffer ++ c)).
    pose proof (dec_app strict newer (concat chunks) (length (buffer ++ c)) (buffer ++ c) (le_n _)) as A.
    rewrite app_assoc. unfold full.
    assert (Hop : forall t l,
      option_map (@concat N) (match iterdecode newer strict l chunks with
                          | Some ts => Some (match t with [] => ts | _ => t :: ts end)
                          | None => None end) =
      match full strict (l ++ concat chunks) with Some u => Some (t ++ u) | None => None end).
    { intros t l. rewrite <- IH. destruct (iterdecode newer strict l chunks) as [ts|]; [|reflexivity]. cbn. destruct t; reflexivity. }
    destruct (dech strict newer (buffer ++ c)) as [[t|] l].
    + transitivity (match full strict (l ++ concat chunks) with Some u => Some (t ++ u) | None => None end);
        [destruct l; apply Hop; reflexivity|].
      unfold full. destruct (dec strict (l ++ concat chunks)) as [[t'|] l'].
      * rewrite A. destruct l'; [reflexivity|]. destruct strict; [reflexivity|]. now rewrite app_assoc.
      * destruct (dec strict ((buffer ++ c) ++ concat chunks)) as [[u|] l2]; [discriminate A|reflexivity].
    + destruct (dec strict ((buffer ++ c) ++ concat chunks)) as [[u|] l2]; [discriminate A|reflexivity].
Qed.

(** ** Replacing *)

Lemma full_reads : forall n s, (length s <= n)%nat -> exists t, full false s = Some t /\ reads s t.
Proof.
  induction n as [|n IH]; intros s L; unfold full; rewrite dec_eq.
  - destruct s; [|cbn in L; lia]. exists []. split; [reflexivity|constructor].
  - destruct s as [|x s]; [exists []; split; [reflexivity|constructor]|].
    destruct (next (x :: s)) as [c k|k|] eqn:E.
    + destruct (next_size (x :: s) k) as [Hn Hk]; [eauto|]. destruct (IH (skipn k (x :: s))) as (t & F & R).
      { rewrite skipn_length. cbn [length] in *. lia. }
      exists (c :: t). destruct (next_char _ _ _ E) as [S U]. split.
      * unfold full in F. destruct (dec false (skipn k (x :: s))) as [[u|] [|y l]]; try discriminate F; injection F as <-; reflexivity.
      * rewrite <- (firstn_skipn k (x :: s)). rewrite U. now apply reads_char.
    + destruct (next_size (x :: s) k) as [Hn Hk]; [eauto|]. destruct (IH (skipn k (x :: s))) as (t & F & R).
      { rewrite skipn_length. cbn [length] in *. lia. }
      exists (FFFD :: t). split.
      * unfold full in F. destruct (dec false (skipn k (x :: s))) as [[u|] [|y l]]; try discriminate F; injection F as <-; reflexivity.
      * rewrite <- (firstn_skipn k (x :: s)). apply reads_bad; [now apply next_bad|assumption].
    + exists [FFFD]. split; [reflexivity|]. rewrite <- (app_nil_r (x :: s)). apply reads_bad; [|constructor].
      apply last_bad; [discriminate|assumption].
Qed.

Lemma utf8_not_nil c : utf8 c <> [].
Proof. unfold utf8. repeat match goal with |- context [if ?c then _ else _] => destruct c end; discriminate. Qed.
Lemma utf8_prefix c c' r r' : scalar c -> scalar c' -> utf8 c ++ r = utf8 c' ++ r' -> c = c' /\ r = r'.
Proof.
  intros S S' E. assert (X : next (utf8 c ++ r) = next (utf8 c)) by (apply next_app; rewrite next_utf8 by assumption; discriminate).
  assert (X' : next (utf8 c' ++ r') = next (utf8 c')) by (apply next_app; rewrite next_utf8 by assumption; discriminate).
  rewrite E, X', !next_utf8 in X by assumption. injection X as -> _. split; [reflexivity|]. now apply app_inv_head in E.
Qed.
Lemma ill_formed_len x r y r' : x ++ r = y ++ r' -> ill_formed x r -> ill_formed y r' -> x = y /\ r = r'.
Proof.
  intros E [_ A] [_ B].
  assert (L : length x = length y).
  { destruct (Nat.lt_trichotomy (length x) (length y)) as [L|[L|L]]; [|assumption|].
    - exfalso. destruct A as [(Nx & Sx & Mx)|[Lx Sx]].
      + destruct B as [(Ny & Sy & My)|[Ly Sy]]; [now apply (Mx y r' E L)|].
        destruct x; [congruence|]. cbn in L. lia.
      + destruct B as [(Ny & Sy & My)|[Ly Sy]]; [|lia].
        apply Sx. destruct Sy as (c & w & Sc & Ec). 
        destruct x as [|a [|a' x]]; try discriminate Lx. destruct y as [|d y]; [congruence|]. cbn in E. injection E as <- _.
        exists c, (y ++ w). split; [assumption|]. now rewrite Ec.
    - exfalso. destruct B as [(Nx & Sx & Mx)|[Lx Sx]].
      + destruct A as [(Ny & Sy & My)|[Ly Sy]]; [now apply (Mx x r (eq_sym E) L)|].
        destruct y; [congruence|]. cbn in L. lia.
      + destruct A as [(Ny & Sy & My)|[Ly Sy]]; [|lia].
        apply Sx. destruct Sy as (c & w & Sc & Ec).
        destruct y as [|a [|a' y]]; try discriminate Lx. destruct x as [|d x]; [congruence|]. cbn in E. injection E as -> _.
        exists c, (x ++ w). split; [assumption|]. now rewrite Ec. }
  split.
  - apply (f_equal (firstn (length x))) in E. rewrite !firstn_app, firstn_all, L, firstn_all, Nat.sub_diag in E.
    cbn [firstn] in E. now rewrite !app_nil_r in E.
  - apply (f_equal (skipn (length x))) in E. rewrite !skipn_app, skipn_all, L, skipn_all, Nat.sub_diag in E. exact E.
Qed.
Lemma ill_formed_not_nil x r : ill_formed x r -> x <> [].
Proof. intros [_ [(N & _)|[L _]]]; [assumption|]. destruct x; [discriminate|congruence]. Qed.

(** There is one way to read bytes. *)
Lemma reads_fun s t : reads s t -> forall t', reads s t' -> t = t'.
Proof.
  induction 1 as [|c r t S R IH|x r t I R IH]; intros t' R'.
  - inversion R' as [|c' r' u S' Q E|x' r' u I' Q E]; subst; [reflexivity| |].
    + exfalso. apply app_eq_nil in E as [E _]. now apply utf8_not_nil in E.
    + exfalso. apply app_eq_nil in E as [E _]. now apply ill_formed_not_nil in I'.
  - inversion R' as [E|c' r' u S' Q E|x' r' u I' Q E]; subst.
    + exfalso. symmetry in E. apply app_eq_nil in E as [E _]. now apply utf8_not_nil in E.
    + destruct (utf8_prefix _ _ _ _ S' S E) as [-> ->]. f_equal. auto.
    + exfalso. destruct I' as [I' _]. apply (I' c r S). assumption.
  - inversion R' as [E|c' r' u S' Q E|x' r' u I' Q E]; subst.
    + exfalso. symmetry in E. apply app_eq_nil in E as [E _]. now apply ill_formed_not_nil in I.
    + exfalso. destruct I as [I _]. apply (I c' r' S'). now symmetry.
    + destruct (ill_formed_len _ _ _ _ E I' I) as [_ ->]. f_equal. auto.
Qed.

Lemma reads_utf8 t : Forall scalar t -> reads (utf8_text t) t.
Proof. induction 1; [constructor|]. unfold utf8_text. cbn [map concat]. now apply reads_char. Qed.

(** ** Strict *)

Lemma full_strict : forall n s, (length s <= n)%nat ->
  (forall t, full true s = Some t -> Forall scalar t /\ utf8_text t = s) /\
  (full true s = None -> forall t, Forall scalar t -> utf8_text t <> s).
Proof.
  induction n as [|n IH]; intros s L; unfold full; rewrite dec_eq.
  - destruct s; [|cbn in L; lia]. split; [|discriminate]. intros t E. injection E as <-. split; [constructor|reflexivity].
  - destruct s as [|x s]; [split; [|discriminate]; intros t E; injection E as <-; split; [constructor|reflexivity]|].
    assert (Head : forall t, Forall scalar t -> utf8_text t = x :: s ->
      exists c u, t = c :: u /\ scalar c /\ Forall scalar u /\ x :: s = utf8 c ++ utf8_text u /\ next (x :: s) = HChar c (length (utf8 c))).
    { intros [|c u] F E; [discriminate|]. exists c, u. inversion F; subst. unfold utf8_text in E. cbn [map concat] in E.
      repeat split; auto. rewrite <- E, next_app; rewrite next_utf8 by assumption; congruence. }
    destruct (next (x :: s)) as [c k|k|] eqn:E.
    + destruct (next_size (x :: s) k) as [Hn Hk]; [eauto|]. destruct (next_char _ _ _ E) as [S U].
      destruct (IH (skipn k (x :: s))) as [A B]; [rewrite skipn_length; cbn [length] in *; lia|]. unfold full in A, B.
      split.
      * intros t H.
        assert (exists u, t = c :: u /\ full true (skipn k (x :: s)) = Some u).
        { unfold full. destruct (dec true (skipn k (x :: s))) as [[u|] [|y l]]; try discriminate H. injection H as <-. eauto. }
        destruct H0 as (u & -> & F). unfold full in F. destruct (A u F) as [Fu Eu]. split; [now constructor|].
        unfold utf8_text in *. cbn [map concat]. rewrite Eu, <- U. apply firstn_skipn.
      * intros H t F Eq. destruct (Head t F Eq) as (c' & u & -> & S' & Fu & E2 & E3). injection E3 as -> ->.
        assert (N : full true (skipn (length (utf8 c')) (x :: s)) = None).
        { unfold full. destruct (dec true (skipn (length (utf8 c')) (x :: s))) as [[v|] [|y l]]; auto; discriminate H. }
        unfold full in N. apply (B N u Fu). rewrite E2, skipn_app, skipn_all, Nat.sub_diag. reflexivity.
    + split; [discriminate|]. intros _ t F Eq. destruct (Head t F Eq) as (c' & u & _ & _ & _ & _ & E3). discriminate.
    + split; [discriminate|]. intros _ t F Eq. destruct (Head t F Eq) as (c' & u & _ & _ & _ & _ & E3). discriminate.
Qed.

(** ** Control characters *)

Lemma control_dropped c : control c = true <-> dropped c.
Proof.
  unfold control, dropped. cbn [In].
  destruct (N.leb_spec c 31), (N.eqb_spec c 10), (N.eqb_spec c 13), (N.eqb_spec c 9), (N.eqb_spec c 11),
    (N.leb_spec 127 c), (N.leb_spec c 159); cbn; split; intros; try discriminate; try lia; try reflexivity;
    (split; [lia|intros [X|[X|[X|[X|[]]]]]; lia]) || (exfalso; destruct H6; intuition lia) || intuition lia.
Qed.
Lemma remove_controls_spec t u : remove_controls t = u <-> without_controls t u.
Proof.
  split.
  - intros <-. unfold remove_controls. induction t as [|c t IH]; cbn [filter]; [constructor|].
    destruct (control c) eqn:C; cbn [negb].
    + apply wc_drop; [now apply control_dropped|assumption].
    + apply wc_keep; [|assumption]. intros D. apply control_dropped in D. congruence.
  - induction 1 as [|c t u D W IH|c t u D W IH]; [reflexivity| |]; unfold remove_controls; cbn [filter]; fold (remove_controls t).
    + apply control_dropped in D. rewrite D. exact IH.
    + destruct (control c) eqn:C; [apply control_dropped in C; contradiction|]. cbn [negb]. now rewrite IH.
Qed.
Lemma remove_controls_concat ts : concat (map remove_controls ts) = remove_controls (concat ts).
Proof.
  induction ts as [|t ts IH]; [reflexivity|]. cbn [map concat]. unfold remove_controls in *. now rewrite filter_app, IH.
Qed.
