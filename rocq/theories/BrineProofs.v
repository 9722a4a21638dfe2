(** Proofs about values as bytes. *)
From Coq Require Import String Ascii List Bool Arith NArith ZArith Lia Permutation.
From Verif Require Import ScanModel IologModel IniModel Utf8Model Utf8Spec ConfigModel ConfigWrite SheetProofs BrineModel BrineSpec.
Import ListNotations.
Local Open Scope N_scope.
Local Open Scope list_scope.

(** ** Induction over values *)
Section Ind.
  Variable P : val -> Prop.
  Hypothesis Hnone : P VNone. Hypothesis Hni : P VNotImplemented. Hypothesis Hell : P VEllipsis.
  Hypothesis Hbool : forall b, P (VBool b). Hypothesis Hint : forall z, P (VInt z).
  Hypothesis Hfloat : forall x, P (VFloat x). Hypothesis Hcomplex : forall x y, P (VComplex x y).
  Hypothesis Hbytes : forall s, P (VBytes s). Hypothesis Hstr : forall t, P (VStr t).
  Hypothesis Htuple : forall l, Forall P l -> P (VTuple l).
  Hypothesis Hfset : forall l, Forall P l -> P (VFset l).
  Hypothesis Hslice : forall a b c, P a -> P b -> P c -> P (VSlice a b c).
  Hypothesis Hother : forall n, P (VOther n).
  Fixpoint val_rect' (v : val) : P v :=
    let go := fix go (l : list val) : Forall P l :=
      match l with [] => Forall_nil P | x :: l => Forall_cons x (val_rect' x) (go l) end in
    match v with
    | VNone => Hnone | VNotImplemented => Hni | VEllipsis => Hell
    | VBool b => Hbool b | VInt z => Hint z | VFloat x => Hfloat x | VComplex x y => Hcomplex x y
    | VBytes s => Hbytes s | VStr t => Hstr t
    | VTuple l => Htuple l (go l) | VFset l => Hfset l (go l)
    | VSlice a b c => Hslice a b c (val_rect' a) (val_rect' b) (val_rect' c)
    | VOther n => Hother n
    end.
End Ind.

(** ** Numbers of a fixed size *)
Lemma bind_ok {A B} (a : res A) (f : A -> res B) b : bind a f = Ok b <-> exists x, a = Ok x /\ f x = Ok b.
Proof.
  destruct a as [a|e|]; cbn; split; try discriminate; try (intros (x & H & _); discriminate); [eauto|].
  intros (x & H & E). injection H as <-. exact E.
Qed.
Lemma byte_back n : n < 256 -> N_of_ascii (byte n) = n.
Proof. apply N_ascii_embedding. Qed.
Lemma pack_length k : forall n, length (pack k n) = k.
Proof. induction k as [|k IH]; intros n; cbn; [reflexivity|]. rewrite app_length, IH. cbn. lia. Qed.
Lemma unpack_pack k : forall n, n < 256 ^ N.of_nat k -> unpack_all (pack k n) = n.
Proof.
  induction k as [|k IH]; intros n H.
  - cbn in *. lia.
  - cbn [pack]. unfold unpack_all in *. rewrite fold_left_app. cbn [fold_left].
    rewrite IH.
    + rewrite byte_back by (apply N.mod_lt; lia). rewrite (N.div_mod n 256) at 3 by lia. lia.
    + apply N.div_lt_upper_bound; [lia|]. rewrite Nat2N.inj_succ, N.pow_succ_r' in H. exact H.
Qed.
Lemma pack_size_ok k n p : pack_size k n = Ok p <-> n < 256 ^ N.of_nat k /\ p = pack k n.
Proof.
  unfold pack_size. destruct (N.ltb_spec n (256 ^ N.of_nat k)); split; try discriminate.
  - intros E. injection E as <-. now split.
  - intros [_ ->]. reflexivity.
  - intros [H' _]. lia.
Qed.
Lemma unpack_size_pack k n : n < 256 ^ N.of_nat k -> unpack_size k (pack k n) = Ok n.
Proof. intros H. unfold unpack_size. rewrite pack_length, Nat.eqb_refl. now rewrite unpack_pack. Qed.
Lemma read_app n a r : N.of_nat (length a) = n -> read n (a ++ r) = (a, r).
Proof.
  intros <-. unfold read. rewrite app_length, N.min_l by lia. rewrite Nat2N.id.
  rewrite firstn_app, Nat.sub_diag, firstn_all, skipn_app, Nat.sub_diag, skipn_all. cbn. now rewrite app_nil_r.
Qed.
Lemma read_pack k n r : read (N.of_nat k) (pack k n ++ r) = (pack k n, r).
Proof. apply read_app. now rewrite pack_length. Qed.
Lemma read_length n s d r : read n s = (d, r) -> s = d ++ r.
Proof. unfold read. intros H. injection H as <- <-. symmetry. apply firstn_skipn. Qed.

(** ** Texts *)
Lemma encode_char_spec c s : c < 1114112 -> (encode_char c = Some s <-> scalar c /\ s = utf8 c).
Proof.
  intros H. unfold encode_char, utf8, scalar, Utf8Spec.b, byte.
  destruct (N.ltb_spec c 128); [split; [intros E; injection E as <-; split; [lia|reflexivity]|now intros [_ ->]]|].
  destruct (N.ltb_spec c 2048); [split; [intros E; injection E as <-; split; [lia|reflexivity]|now intros [_ ->]]|].
  destruct (N.leb_spec 55296 c), (N.ltb_spec c 57344); cbn [andb];
    try (split; [discriminate|intros [? _]; lia]).
  all: destruct (N.ltb_spec c 65536); split; try (intros E; injection E as <-; split; [lia|reflexivity]); now intros [_ ->].
Qed.
Lemma encode_spec t : Forall (fun c => c < 1114112) t -> forall s, encode t = Some s <-> Forall scalar t /\ s = utf8_text t.
Proof.
  induction t as [|c t IH]; intros F s.
  - cbn. split; [intros E; injection E as <-; now split|now intros [_ ->]].
  - inversion F as [|? ? Hc Ht]; subst. cbn [encode]. split.
    + destruct (encode_char c) as [a|] eqn:A; [|discriminate]. destruct (encode t) as [b|] eqn:B; [|discriminate].
      intros E. injection E as <-. apply encode_char_spec in A as [A ->]; [|exact Hc]. destruct (proj1 (IH Ht b) eq_refl) as [B' ->].
      split; [now constructor|reflexivity].
    + intros [S ->]. inversion S as [|? ? Sc St]; subst.
      assert (A : encode_char c = Some (utf8 c)) by (apply encode_char_spec; auto).
      assert (B : encode t = Some (utf8_text t)) by (apply IH; auto).
      rewrite A, B. reflexivity.
Qed.

(** ** Parts *)
Lemma inside_trans a b c : inside a b -> inside b c -> inside a c.
Proof.
  intros H K. induction K as [|l x I K IH|l x I K IH|x y z w I K IH]; [exact H| | |];
    [eapply in_tuple|eapply in_fset|eapply in_slice]; eauto.
Qed.
Lemma inside_tuple w l : inside w (VTuple l) <-> w = VTuple l \/ exists x, In x l /\ inside w x.
Proof.
  split; [intros H; inversion H; subst; eauto|]. intros [-> |(x & I & H)]; [constructor|eapply in_tuple; eauto].
Qed.
Lemma inside_fset w l : inside w (VFset l) <-> w = VFset l \/ exists x, In x l /\ inside w x.
Proof.
  split; [intros H; inversion H; subst; eauto|]. intros [-> |(x & I & H)]; [constructor|eapply in_fset; eauto].
Qed.
Lemma inside_slice w a b c : inside w (VSlice a b c) <-> w = VSlice a b c \/ inside w a \/ inside w b \/ inside w c.
Proof.
  split.
  - intros H; inversion H as [| | |? ? ? x I K]; subst; [now left|right]. destruct I as [<- |[<- |[<- |[]]]]; auto.
  - intros [-> |[H|[H|H]]]; [constructor| | |]; eapply in_slice; eauto; cbn; auto.
Qed.
Lemma plain_sub w v : inside w v -> plain v -> plain w.
Proof. intros I P n H. apply (P n). eapply inside_trans; eauto. Qed.
Lemma proper_sub se sh w v : inside w v -> proper se sh v -> proper se sh w.
Proof. intros I P u H. apply P. eapply inside_trans; eauto. Qed.
Lemma sendable_sub w v : inside w v -> sendable v -> sendable w.
Proof. intros I P u H. apply P. eapply inside_trans; eauto. Qed.
Lemma in_parts_tuple l x : In x l -> inside x (VTuple l).
Proof. intros I. eapply in_tuple; [exact I|constructor]. Qed.
Lemma in_parts_fset l x : In x l -> inside x (VFset l).
Proof. intros I. eapply in_fset; [exact I|constructor]. Qed.
Lemma in_parts_slice a b c x : In x [a; b; c] -> inside x (VSlice a b c).
Proof. intros I. eapply in_slice; [exact I|constructor]. Qed.

Lemma dumpable_spec v : dumpable v = true <-> plain v.
Proof.
  unfold plain. induction v using val_rect'; cbn [dumpable];
    try (split; [|reflexivity]; intros _ k K; inversion K; fail).
  - rewrite forallb_forall. rewrite Forall_forall in H. split.
    + intros A n K. apply inside_tuple in K as [K|(x & I & K)]; [discriminate|]. apply (proj1 (H x I) (A x I) n K).
    + intros A x I. apply (H x I). intros n K. apply (A n). eapply in_tuple; eauto.
  - rewrite forallb_forall. rewrite Forall_forall in H. split.
    + intros A n K. apply inside_fset in K as [K|(x & I & K)]; [discriminate|]. apply (proj1 (H x I) (A x I) n K).
    + intros A x I. apply (H x I). intros n K. apply (A n). eapply in_fset; eauto.
  - rewrite !andb_true_iff, IHv1, IHv2, IHv3. split.
    + intros [[A B] C] n K. apply inside_slice in K as [K|[K|[K|K]]]; [discriminate|firstorder..].
    + intros A. repeat split; intros n K; apply (A n); apply inside_slice; auto.
  - split; [discriminate|]. intros A. exfalso. apply (A n). constructor.
Qed.

(** ** Writing *)
Definition items := fix items (l : list val) : res bytes :=
  match l with
  | [] => Ok []
  | x :: l => bind (dump x) (fun a => bind (items l) (fun b => Ok (a ++ b)))
  end.
Lemma dump_tuple l : dump (VTuple l) = bind (dump_tuple_head (length l)) (fun h => bind (items l) (fun s => Ok (h ++ s))).
Proof. reflexivity. Qed.
Lemma dump_fset l : dump (VFset l) = bind (dump_tuple_head (length l)) (fun h => bind (items l) (fun s => Ok (TAG_FSET :: h ++ s))).
Proof. reflexivity. Qed.
Lemma dump_slice a b c : exists t, dump_tuple_head 3 = Ok [t] /\ dump (VSlice a b c) =
  bind (items [a; b; c]) (fun s => Ok (TAG_SLICE :: t :: s)).
Proof.
  eexists. split; [reflexivity|]. cbn. destruct (dump a) as [x|e|]; cbn; try reflexivity.
  destruct (dump b) as [y|e|]; cbn; try reflexivity. destruct (dump c) as [z|e|]; cbn; try reflexivity.
  now rewrite app_nil_r.
Qed.
Lemma items_ok l : (exists s, items l = Ok s) <-> forall x, In x l -> exists s, dump x = Ok s.
Proof.
  induction l as [|y l IH]; cbn [items].
  - split; [intros _ x []|eauto].
  - split.
    + intros [s H]. apply bind_ok in H as (a & A & H). apply bind_ok in H as (b & B & H).
      intros x [<- |I]; [eauto|]. apply IH; eauto.
    + intros H. destruct (H y (or_introl eq_refl)) as [a A]. destruct (proj2 IH (fun x I => H x (or_intror I))) as [b B].
      rewrite A, B. cbn. eauto.
Qed.
Lemma pow4 : 256 ^ N.of_nat 4 = 2 ^ 32. Proof. reflexivity. Qed.
Lemma pow8 : 256 ^ N.of_nat 8 = 2 ^ 64. Proof. reflexivity. Qed.
Lemma pow1 : 256 ^ N.of_nat 1 = 256. Proof. reflexivity. Qed.
Lemma packs k n f (b : bytes) : bind (pack_size k n) f = Ok b <-> n < 256 ^ N.of_nat k /\ f (pack k n) = Ok b.
Proof.
  rewrite bind_ok. split.
  - intros (x & H & E). apply pack_size_ok in H as [H ->]. now split.
  - intros [H E]. exists (pack k n). split; [now apply pack_size_ok|exact E].
Qed.
Lemma dump_bytes_ok s : (exists d, dump_bytes s = Ok d) <-> N.of_nat (length s) < 2 ^ 32.
Proof.
  unfold dump_bytes. cbv zeta.
  repeat (match goal with |- context [if ?n =? ?k then _ else _] => destruct (N.eqb_spec n k); [split; [lia|eauto]|] end).
  destruct (N.ltb_spec (N.of_nat (length s)) 256) as [L|L].
  - split; [lia|]. intros _. eexists. apply packs. rewrite pow1. split; [exact L|reflexivity].
  - split.
    + intros [d H]. apply packs in H. rewrite pow4 in H. tauto.
    + intros H. eexists. apply packs. rewrite pow4. split; [exact H|reflexivity].
Qed.
Lemma dump_head_ok n : (exists d, dump_tuple_head n = Ok d) <-> N.of_nat n < 2 ^ 32.
Proof.
  unfold dump_tuple_head. cbv zeta.
  repeat (match goal with |- context [if ?n =? ?k then _ else _] => destruct (N.eqb_spec n k); [split; [lia|eauto]|] end).
  destruct (N.ltb_spec (N.of_nat n) 256) as [L|L].
  - split; [lia|]. intros _. eexists. apply packs. rewrite pow1. split; [exact L|reflexivity].
  - split.
    + intros [d H]. apply packs in H. rewrite pow4 in H. tauto.
    + intros H. eexists. apply packs. rewrite pow4. split; [exact H|reflexivity].
Qed.
Lemma short_int z : (-48 <= z < 160)%Z -> N.of_nat (length (int_str z)) < 2 ^ 32.
Proof.
  intros H. assert (E : exists k, (k < 208)%nat /\ z = (Z.of_nat k - 48)%Z) by (exists (Z.to_nat (z + 48)); lia).
  destruct E as (k & K & ->). 
  assert (A : forallb (fun k => N.of_nat (length (int_str (Z.of_nat k - 48)%Z)) <? 2 ^ 32) (List.seq 0 208) = true) by reflexivity.
  rewrite forallb_forall in A. apply N.ltb_lt, A, in_seq. lia.
Qed.
Lemma dump_int_ok z : (exists d, dump_int z = Ok d) <-> N.of_nat (length (int_str z)) < 2 ^ 32.
Proof.
  unfold dump_int, imm_int.
  destruct (Z.leb_spec (-48) z), (Z.ltb_spec z 160); cbn [andb];
    [split; [intros _; now apply short_int|eauto]|..].
  all: cbv zeta; destruct (N.ltb_spec (N.of_nat (length (int_str z))) 256) as [L|L];
    [split; [lia|]; intros _; eexists; apply packs; rewrite pow1; split; [exact L|reflexivity]|].
  all: split; [intros [d D]; apply packs in D; rewrite pow4 in D; tauto|].
  all: intros D; eexists; apply packs; rewrite pow4; split; [exact D|reflexivity].
Qed.
Lemma dump_ok se sh v : proper se sh v -> (exists s, dump v = Ok s) <-> plain v /\ sendable v.
Proof.
  induction v using val_rect'; intros P.
  1-4: (split; [intros _; split; [intros k K; inversion K|intros w K; inversion K; exact I]|intros _; cbn; eauto]).
  - split.
    + intros H. split; [intros k K; inversion K|]. intros w K. inversion K; subst. now apply dump_int_ok.
    + intros [_ S]. apply dump_int_ok. apply (S (VInt z)). constructor.
  - split; [intros _; split; [intros k K; inversion K|intros w K; inversion K; exact I]|]. intros _.
    eexists. cbn [dump]. apply packs. rewrite pow8. split; [|reflexivity]. apply (P (VFloat x)). constructor.
  - split; [intros _; split; [intros k K; inversion K|intros w K; inversion K; exact I]|]. intros _.
    destruct (P (VComplex x y) (in_self _)) as [A B].
    eexists. cbn [dump]. apply packs. rewrite pow8. split; [exact A|]. apply packs. rewrite pow8. split; [exact B|reflexivity].
  - split.
    + intros H. split; [intros k K; inversion K|]. intros w K. inversion K; subst. now apply dump_bytes_ok.
    + intros [_ S]. apply dump_bytes_ok. apply (S (VBytes s)). constructor.
  - pose proof (encode_spec t (P (VStr t) (in_self _))) as E. cbn [dump]. split.
    + intros [s H]. split; [intros k K; inversion K|]. intros w K. inversion K; subst.
      destruct (encode t) as [u|] eqn:Eu; [|discriminate]. destruct (proj1 (E u) eq_refl) as [F ->].
      split; [exact F|]. apply dump_bytes_ok. apply bind_ok in H as (d & D & _). eauto.
    + intros [_ S]. destruct (S (VStr t) (in_self _)) as [F L].
      rewrite (proj2 (E (utf8_text t)) (conj F eq_refl)). apply dump_bytes_ok in L as [d D]. rewrite D. cbn. eauto.
  - rewrite Forall_forall in H. rewrite dump_tuple. split.
    + intros [s D]. apply bind_ok in D as (h & A & D). apply bind_ok in D as (i & B & D).
      assert (K : forall x, In x l -> plain x /\ sendable x).
      { intros x I. apply H; [exact I|eapply proper_sub; [|exact P]; now apply in_parts_tuple|]. apply (proj1 (items_ok l)); eauto. }
      split.
      * intros n C. apply inside_tuple in C as [C|(x & I & C)]; [discriminate|]. apply (proj1 (K x I) n C).
      * intros w C. apply inside_tuple in C as [-> |(x & I & C)]; [apply dump_head_ok; eauto|]. apply (proj2 (K x I) w C).
    + intros [A B]. destruct (proj2 (dump_head_ok (length l)) (B (VTuple l) (in_self _))) as [h ->].
      destruct (proj2 (items_ok l)) as [s ->]; [|cbn; eauto]. intros x I. pose proof (in_parts_tuple l x I) as J. apply H; [exact I|eapply proper_sub; eauto|].
      split; [eapply plain_sub; eauto|eapply sendable_sub; eauto].
  - rewrite Forall_forall in H. rewrite dump_fset. split.
    + intros [s D]. apply bind_ok in D as (h & A & D). apply bind_ok in D as (i & B & D).
      assert (K : forall x, In x l -> plain x /\ sendable x).
      { intros x I. apply H; [exact I|eapply proper_sub; [|exact P]; now apply in_parts_fset|]. apply (proj1 (items_ok l)); eauto. }
      split.
      * intros n C. apply inside_fset in C as [C|(x & I & C)]; [discriminate|]. apply (proj1 (K x I) n C).
      * intros w C. apply inside_fset in C as [-> |(x & I & C)]; [apply dump_head_ok; eauto|]. apply (proj2 (K x I) w C).
    + intros [A B]. destruct (proj2 (dump_head_ok (length l)) (B (VFset l) (in_self _))) as [h ->].
      destruct (proj2 (items_ok l)) as [s ->]; [|cbn; eauto]. intros x I. pose proof (in_parts_fset l x I) as J. apply H; [exact I|eapply proper_sub; eauto|].
      split; [eapply plain_sub; eauto|eapply sendable_sub; eauto].
  - destruct (dump_slice v1 v2 v3) as (t & _ & ->). split.
    + intros [s D]. apply bind_ok in D as (i & B & D).
      assert (K : forall x, In x [v1; v2; v3] -> plain x /\ sendable x).
      { intros x I. pose proof (proper_sub _ _ _ _ (in_parts_slice v1 v2 v3 x I) P) as Px.
        pose proof (proj1 (items_ok _) (ex_intro _ _ B) x I) as Dx.
        destruct I as [<- |[<- |[<- |[]]]]; auto; [now apply IHv1|now apply IHv2|now apply IHv3]. }
      split.
      * intros n C. inversion C as [| | |? ? ? x I C']; subst. apply (proj1 (K x I) n C').
      * intros w C. inversion C as [| | |? ? ? x I C']; subst; [exact Logic.I|]. apply (proj2 (K x I) w C').
    + intros [A B]. destruct (proj2 (items_ok [v1; v2; v3])) as [s ->]; [|cbn; eauto].
      intros x I. pose proof (in_parts_slice v1 v2 v3 x I) as J.
      assert (Px := proper_sub _ _ _ _ J P). assert (Ax := plain_sub _ _ J A). assert (Bx := sendable_sub _ _ J B).
      destruct I as [<- |[<- |[<- |[]]]]; [apply IHv1|apply IHv2|apply IHv3]; auto.
  - split; [intros [s D]; discriminate|]. intros [A _]. exfalso. apply (A n). constructor.
Qed.
