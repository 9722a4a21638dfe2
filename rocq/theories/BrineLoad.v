(** Proofs about reading values back. *)
From Coq Require Import String Ascii List Bool Arith NArith ZArith Lia Permutation.
From Verif Require Import ScanModel IologModel IniModel Utf8Model Utf8Spec ConfigModel ConfigWrite SheetProofs BrineModel BrineSpec BrineProofs.
Import ListNotations.
Local Open Scope N_scope.
Local Open Scope list_scope.

Scheme same_ind2 := Induction for same Sort Prop with sames_ind2 := Induction for sames Sort Prop.
Lemma sames_forall l m : sames l m <-> Forall2 same l m.
Proof. split; induction 1; constructor; auto. Qed.
Lemma same_refl v : plain v -> same v v.
Proof.
  induction v using val_rect'; intros P; try (apply same_atom; constructor).
  - apply same_tuple, sames_forall. rewrite Forall_forall in H.
    assert (K : forall x, In x l -> same x x) by (intros x I; apply H; [exact I|]; exact (plain_sub _ _ (in_parts_tuple l x I) P)).
    clear H P. induction l as [|x l IH]; constructor; [apply K; now left|]. apply IH. intros y I. apply K. now right.
  - apply same_fset with (m := l); [|reflexivity]. apply sames_forall. rewrite Forall_forall in H.
    assert (K : forall x, In x l -> same x x) by (intros x I; apply H; [exact I|]; exact (plain_sub _ _ (in_parts_fset l x I) P)).
    clear H P. induction l as [|x l IH]; constructor; [apply K; now left|]. apply IH. intros y I. apply K. now right.
  - apply same_slice; [apply IHv1|apply IHv2|apply IHv3]; (refine (plain_sub _ _ (in_parts_slice v1 v2 v3 _ _) P); cbn; auto).
  - exfalso. apply (P n). constructor.
Qed.
Lemma forall2_perm {A B} (R : A -> B -> Prop) l l' : Permutation l l' -> forall m, Forall2 R l m -> exists m', Permutation m m' /\ Forall2 R l' m'.
Proof.
  intros P. induction P as [|x l l' P IH|x y l|l1 l2 l3 P1 IH1 P2 IH2]; intros m F.
  - inversion F; subst. exists []. split; constructor.
  - inversion F as [|? z ? k H F']; subst. destruct (IH _ F') as (k' & Q & F''). exists (z :: k'). split; [now constructor|now constructor].
  - inversion F as [|? z ? k H F']; subst. inversion F' as [|? z' ? k' H' F'']; subst. exists (z' :: z :: k'). split; [constructor|]. repeat constructor; auto.
  - destruct (IH1 _ F) as (k & Q & F'). destruct (IH2 _ F') as (k' & Q' & F''). exists k'. split; [now transitivity k|exact F''].
Qed.
Lemma forall2_sym {A} (R : A -> A -> Prop) l m : Forall2 (fun x y => R y x) l m -> Forall2 R m l.
Proof. induction 1; constructor; auto. Qed.
Lemma same_sym v w : same v w -> same w v.
Proof.
  intros H. induction H as [v A|l m F IH|l m m' F IH P|a b c a' b' c' A IHA B IHB C IHC| |x y l m E IHE F IHF] using same_ind2
    with (P0 := fun l m _ => Forall2 same m l).
  - now apply same_atom.
  - apply same_tuple. now apply sames_forall.
  - destruct (forall2_perm _ _ _ P _ IH) as (l' & Q & F'). apply same_fset with (m := l'); [now apply sames_forall|]. now symmetry.
  - now apply same_slice.
  - constructor.
  - now constructor.
Qed.
Lemma same_trans v : forall w x, same v w -> same w x -> same v x.
Proof.
  assert (T2 : forall l : list val, Forall (fun v => forall w x, same v w -> same w x -> same v x) l ->
    forall m k, Forall2 same l m -> Forall2 same m k -> Forall2 same l k).
  { induction 1 as [|y l Hy Hl IH]; intros m k F G; inversion F; subst; inversion G; subst; constructor; eauto. }
  induction v using val_rect'; intros w u H1 H2; try (inversion H1; subst; exact H2).
  - inversion H1 as [v A|? m F| |]; subst; [inversion A|]. inversion H2 as [v A|? k G| |]; subst; [inversion A|].
    apply same_tuple. apply sames_forall in F, G. apply sames_forall. eauto.
  - inversion H1 as [v A| |? m m' F P|]; subst; [inversion A|]. inversion H2 as [v A| |? k k' G Q|]; subst; [inversion A|].
    apply sames_forall in F, G. destruct (forall2_perm _ _ _ (Permutation_sym P) _ G) as (k1 & R & G').
    apply same_fset with (m := k1); [apply sames_forall; eauto|]. transitivity k; [now symmetry|exact Q].
  - inversion H1 as [v A| | |? ? ? ? ? ? A B C]; subst; [inversion A|]. inversion H2 as [v A'| | |? ? ? ? ? ? A' B' C']; subst; [inversion A'|].
    apply same_slice; eauto.
Qed.

Lemma imm_tags n : n < 32 -> imm_loader (byte n) = None.
Proof. intros H. unfold imm_loader. rewrite byte_back by lia. destruct (N.leb_spec 32 n); [lia|reflexivity]. Qed.
Lemma imm_back z c : imm_int z = Some c -> imm_loader c = Some z.
Proof.
  unfold imm_int. destruct (Z.leb_spec (-48) z), (Z.ltb_spec z 160); cbn [andb]; try discriminate.
  intros E. injection E as <-. unfold imm_loader. rewrite byte_back by lia.
  destruct (N.leb_spec 32 (Z.to_N (z + 80))); [|lia]. destruct (N.ltb_spec (Z.to_N (z + 80)) 240); [|lia]. cbn [andb].
  f_equal. lia.
Qed.

Lemma Ok_inj {A} (a b : A) : Ok a = Ok b -> a = b.
Proof. now inversion 1. Qed.

Section L.
  Variable se : val -> val -> bool.
  Variable order : list val -> list val.
  Variable sh : bool.
  Variable to_integer : val -> res val.
  Notation ld := (load_stream se order sh to_integer).
  Notation lds := (load_items se order sh to_integer).

  (** *** The pieces *)
  Lemma ld_imm f z c s : imm_int z = Some c -> ld (S f) (c :: s) = Ok (VInt z, s).
  Proof. intros H. cbn [load_stream]. now rewrite (imm_back _ _ H). Qed.
  Lemma ld_int1 f s : ld (S f) (TAG_INT_L1 :: s) = load_int 1 s. Proof. reflexivity. Qed.
  Lemma ld_int4 f s : ld (S f) (TAG_INT_L4 :: s) = load_int 4 s. Proof. reflexivity. Qed.
  Lemma load_int_ok k n d s z : N.of_nat (length d) = n -> n < 256 ^ N.of_nat k -> to_int d = Some z ->
    load_int k ((pack k n ++ d) ++ s) = Ok (VInt z, s).
  Proof.
    intros L H E. unfold load_int. rewrite <- app_assoc, read_pack, unpack_size_pack by exact H. cbn [bind].
    rewrite read_app by exact L. now rewrite E.
  Qed.
  Lemma ld_dump_int z d s f : dump_int z = Ok d -> ld (S f) (d ++ s) = Ok (VInt z, s).
  Proof.
    unfold dump_int. destruct (imm_int z) as [c|] eqn:E.
    - intros H. injection H as <-. now apply ld_imm.
    - cbv zeta. destruct (N.ltb_spec (N.of_nat (length (int_str z))) 256) as [L|L]; intros H; apply packs in H as [H K]; apply Ok_inj in K as <-.
      + rewrite <- app_comm_cons, ld_int1. apply load_int_ok; [reflexivity|exact H|apply int_round_trip].
      + rewrite <- app_comm_cons, ld_int4. apply load_int_ok; [reflexivity|exact H|apply int_round_trip].
  Qed.
  Lemma load_bytes_ok k n d s : N.of_nat (length d) = n -> n < 256 ^ N.of_nat k ->
    load_bytes k ((pack k n ++ d) ++ s) = Ok (VBytes d, s).
  Proof.
    intros L H. unfold load_bytes. rewrite <- app_assoc, read_pack, unpack_size_pack by exact H. cbn [bind].
    now rewrite read_app by exact L.
  Qed.
  Lemma ld_str1 f s : ld (S f) (TAG_STR1 :: s) = let (d, s) := read 1 s in Ok (VBytes d, s). Proof. reflexivity. Qed.
  Lemma ld_str2 f s : ld (S f) (TAG_STR2 :: s) = let (d, s) := read 2 s in Ok (VBytes d, s). Proof. reflexivity. Qed.
  Lemma ld_str3 f s : ld (S f) (TAG_STR3 :: s) = let (d, s) := read 3 s in Ok (VBytes d, s). Proof. reflexivity. Qed.
  Lemma ld_str4 f s : ld (S f) (TAG_STR4 :: s) = let (d, s) := read 4 s in Ok (VBytes d, s). Proof. reflexivity. Qed.
  Lemma ld_strl1 f s : ld (S f) (TAG_STR_L1 :: s) = load_bytes 1 s. Proof. reflexivity. Qed.
  Lemma ld_strl4 f s : ld (S f) (TAG_STR_L4 :: s) = load_bytes 4 s. Proof. reflexivity. Qed.
  Lemma ld_dump_bytes b d s f : dump_bytes b = Ok d -> ld (S f) (d ++ s) = Ok (VBytes b, s).
  Proof.
    unfold dump_bytes. cbv zeta.
    destruct (N.eqb_spec (N.of_nat (length b)) 0) as [E|_].
    { intros H. injection H as <-. destruct b; [reflexivity|cbn in E; lia]. }
    destruct (N.eqb_spec (N.of_nat (length b)) 1) as [E|_].
    { intros H. injection H as <-. rewrite <- app_comm_cons, ld_str1, read_app by exact E. reflexivity. }
    destruct (N.eqb_spec (N.of_nat (length b)) 2) as [E|_].
    { intros H. injection H as <-. rewrite <- app_comm_cons, ld_str2, read_app by exact E. reflexivity. }
    destruct (N.eqb_spec (N.of_nat (length b)) 3) as [E|_].
    { intros H. injection H as <-. rewrite <- app_comm_cons, ld_str3, read_app by exact E. reflexivity. }
    destruct (N.eqb_spec (N.of_nat (length b)) 4) as [E|_].
    { intros H. injection H as <-. rewrite <- app_comm_cons, ld_str4, read_app by exact E. reflexivity. }
    destruct (N.ltb_spec (N.of_nat (length b)) 256) as [L|L]; intros H; apply packs in H as [H K]; apply Ok_inj in K as <-.
    - rewrite <- app_comm_cons, ld_strl1. now apply load_bytes_ok.
    - rewrite <- app_comm_cons, ld_strl4. now apply load_bytes_ok.
  Qed.
  Definition as_tuple (r : res (list val * bytes)) : res (val * bytes) := bind r (fun '(l, s) => Ok (VTuple l, s)).
  Lemma ld_tup1 f s : ld (S f) (TAG_TUP1 :: s) = as_tuple (lds f 1 s). Proof. reflexivity. Qed.
  Lemma ld_tup2 f s : ld (S f) (TAG_TUP2 :: s) = as_tuple (lds f 2 s). Proof. reflexivity. Qed.
  Lemma ld_tup3 f s : ld (S f) (TAG_TUP3 :: s) = as_tuple (lds f 3 s). Proof. reflexivity. Qed.
  Lemma ld_tup4 f s : ld (S f) (TAG_TUP4 :: s) = as_tuple (lds f 4 s). Proof. reflexivity. Qed.
  Lemma ld_tupl1 f s : ld (S f) (TAG_TUP_L1 :: s) = let (h, s) := read (N.of_nat 1) s in bind (unpack_size 1 h) (fun l => as_tuple (lds f l s)). Proof. reflexivity. Qed.
  Lemma ld_tupl4 f s : ld (S f) (TAG_TUP_L4 :: s) = let (h, s) := read (N.of_nat 4) s in bind (unpack_size 4 h) (fun l => as_tuple (lds f l s)). Proof. reflexivity. Qed.
  Lemma ld_head n h s f : dump_tuple_head n = Ok h -> (1 <= f)%nat -> ld (S f) (h ++ s) = as_tuple (lds f (N.of_nat n) s).
  Proof.
    unfold dump_tuple_head. cbv zeta. intros H F.
    destruct (N.eqb_spec (N.of_nat n) 0) as [E|_].
    { injection H as <-. rewrite E. destruct f; [lia|reflexivity]. }
    destruct (N.eqb_spec (N.of_nat n) 1) as [E|_]. { injection H as <-. rewrite E. reflexivity. }
    destruct (N.eqb_spec (N.of_nat n) 2) as [E|_]. { injection H as <-. rewrite E. reflexivity. }
    destruct (N.eqb_spec (N.of_nat n) 3) as [E|_]. { injection H as <-. rewrite E. reflexivity. }
    destruct (N.eqb_spec (N.of_nat n) 4) as [E|_]. { injection H as <-. rewrite E. reflexivity. }
    destruct (N.ltb_spec (N.of_nat n) 256) as [L|L]; apply packs in H as [H K]; apply Ok_inj in K as <-.
    - rewrite <- app_comm_cons, ld_tupl1, read_pack, unpack_size_pack by exact H. reflexivity.
    - rewrite <- app_comm_cons, ld_tupl4, read_pack, unpack_size_pack by exact H. reflexivity.
  Qed.
  Lemma head_nonempty n h : dump_tuple_head n = Ok h -> (1 <= length h)%nat.
  Proof.
    unfold dump_tuple_head. cbv zeta.
    repeat (match goal with |- context [if ?n =? ?k then _ else _] => destruct (N.eqb_spec n k); [intros H; injection H as <-; cbn; lia|] end).
    destruct (N.ltb_spec (N.of_nat n) 256); intros H'; apply packs in H' as [_ K]; apply Ok_inj in K as <-; cbn; lia.
  Qed.
  Lemma dump_nonempty v d : dump v = Ok d -> (1 <= length d)%nat.
  Proof.
    destruct v; try (intros H; cbn in H; injection H as <-; cbn; lia).
    - cbn [dump]. unfold dump_int. destruct (imm_int z); [intros H; injection H as <-; cbn; lia|]. cbv zeta.
      destruct (N.ltb_spec (N.of_nat (length (int_str z))) 256); intros H'; apply packs in H' as [_ K]; apply Ok_inj in K as <-; cbn; lia.
    - cbn [dump]. intros H. apply packs in H as [_ K]. apply Ok_inj in K as <-. cbn. lia.
    - cbn [dump]. intros H. apply packs in H as [_ K]. apply packs in K as [_ K]. apply Ok_inj in K as <-. cbn. lia.
    - cbn [dump]. unfold dump_bytes. cbv zeta.
      repeat (match goal with |- context [if ?n =? ?k then _ else _] => destruct (N.eqb_spec n k); [intros H; injection H as <-; cbn; lia|] end).
      destruct (N.ltb_spec (N.of_nat (length s)) 256); intros H'; apply packs in H' as [_ K]; apply Ok_inj in K as <-; cbn; lia.
    - cbn [dump]. destruct (encode t); [|discriminate]. intros H. apply bind_ok in H as (x & _ & H). injection H as <-. cbn. lia.
    - rewrite dump_tuple. intros H. apply bind_ok in H as (h & A & H). apply bind_ok in H as (i & _ & H). injection H as <-.
      apply head_nonempty in A. rewrite app_length. lia.
    - rewrite dump_fset. intros H. apply bind_ok in H as (h & A & H). apply bind_ok in H as (i & _ & H). injection H as <-. cbn. lia.
    - destruct (dump_slice v1 v2 v3) as (t & _ & ->). intros H. apply bind_ok in H as (i & _ & H). injection H as <-. cbn. lia.
    - discriminate.
  Qed.

  Lemma lds_step f n s : lds (S f) n s = if n =? 0 then Ok ([], s)
    else bind (ld f s) (fun '(v, s) => bind (lds f (n - 1) s) (fun '(l, s) => Ok (v :: l, s))).
  Proof. reflexivity. Qed.

  (** *** Sets *)
  Hypothesis order_ok : forall l, Permutation (order l) l.
  Hypothesis respects : forall a a' b b', same a a' -> same b b' -> se a b = se a' b'.

  Lemma hash_plain v : sh = true \/ (forall a b c, ~ inside (VSlice a b c) v) -> hashable sh v = true.
  Proof.
    induction v using val_rect'; intros K; try reflexivity; cbn [hashable].
    - apply forallb_forall. intros x I. rewrite Forall_forall in H. apply H; [exact I|].
      destruct K as [K|K]; [now left|right]. intros a b c C. apply (K a b c). eapply in_tuple; eauto.
    - destruct K as [K|K]; [|exfalso; apply (K v1 v2 v3); constructor].
      rewrite IHv1, IHv2, IHv3 by (now left). now rewrite K.
  Qed.
  Lemma inside_same v w : same v w -> forall u, inside u w -> exists u', inside u' v /\ same u' u.
  Proof.
    intros H. induction H as [v A|l m F IH|l m m' F IH P|a b c a' b' c' A IHA B IHB C IHC| |x y l m E IHE F IHF] using same_ind2
      with (P0 := fun l m _ => forall y, In y m -> exists x, In x l /\ same x y /\ forall u, inside u y -> exists u', inside u' x /\ same u' u).
    - intros u I. exists u. destruct A; inversion I; subst; split; constructor; constructor.
    - intros u I. apply inside_tuple in I as [-> |(x & I & K)].
      + exists (VTuple l). split; [constructor|now apply same_tuple].
      + destruct (IH _ I) as (z & Iz & _ & G). destruct (G u K) as (u' & G1 & G2). exists u'. split; [eapply in_tuple; eauto|exact G2].
    - intros u I. apply inside_fset in I as [-> |(x & I & K)].
      + exists (VFset l). split; [constructor|now apply same_fset with (m := m)].
      + apply (Permutation_in _ (Permutation_sym P)) in I.
        destruct (IH _ I) as (z & Iz & _ & G). destruct (G u K) as (u' & G1 & G2). exists u'. split; [eapply in_fset; eauto|exact G2].
    - intros u I. apply inside_slice in I as [-> |[I|[I|I]]].
      + exists (VSlice a b c). split; [constructor|now apply same_slice].
      + destruct (IHA _ I) as (u' & G1 & G2). exists u'. split; [apply inside_slice; auto|exact G2].
      + destruct (IHB _ I) as (u' & G1 & G2). exists u'. split; [apply inside_slice; auto|exact G2].
      + destruct (IHC _ I) as (u' & G1 & G2). exists u'. split; [apply inside_slice; auto|exact G2].
    - intros y [].
    - intros z [<- |I]; [exists x; split; [now left|split; [exact E|exact IHE]]|].
      destruct (IHF _ I) as (k & Ik & G). exists k. split; [now right|exact G].
  Qed.
  Lemma distinct_id l : forall seen, ForallOrdPairs (fun x y => se x y = false) (seen ++ l) -> distinct se seen l = l.
  Proof.
    induction l as [|x l IH]; intros seen F; [reflexivity|]. cbn [distinct].
    assert (E : existsb (fun y => se y x) seen = false).
    { clear IH. induction seen as [|y seen IH]; [reflexivity|]. cbn in F. inversion F as [|? ? A B]; subst.
      cbn [existsb]. rewrite Forall_forall in A. rewrite (A x) by (apply in_or_app; right; now left). apply IH, B. }
    rewrite E. f_equal. apply IH. now rewrite <- app_assoc.
  Qed.
  Lemma pairs_same l m : Forall2 same l m -> ForallOrdPairs (fun x y => se x y = false) l -> ForallOrdPairs (fun x y => se x y = false) m.
  Proof.
    induction 1 as [|x y l m E F IH]; intros P; [constructor|]. inversion P as [|? ? A B]; subst. constructor; [|auto].
    clear IH B P. induction F as [|x' y' l m E' F IH]; [constructor|]. inversion A as [|? ? A1 A2]; subst. constructor; [|auto].
    now rewrite <- (respects x y x' y').
  Qed.
  Lemma frozenset_ok l m : proper se sh (VFset l) -> Forall2 same l m ->
    exists k, frozenset se order sh m = Ok (VFset k) /\ Permutation m k.
  Proof.
    intros P F. destruct (P _ (in_self _)) as [D H]. unfold frozenset.
    assert (E : forallb (hashable sh) m = true).
    { apply forallb_forall. intros y I. apply hash_plain. destruct H as [H|H]; [now left|right]. intros a b c K.
      assert (G : exists x, In x l /\ same x y).
      { clear - F I. induction F as [|x z l m E F IH]; [destruct I|]. destruct I as [<- |I]; [exists x; split; [now left|exact E]|].
        destruct (IH I) as (k & ? & ?). exists k. split; [now right|assumption]. }
      destruct G as (x & Ix & S). destruct (inside_same _ _ S _ K) as (u' & G1 & G2).
      inversion G2 as [v A| | |]; subst; [inversion A|]. apply (H x _ _ _ Ix G1). }
    rewrite E. eexists. split; [reflexivity|]. symmetry. rewrite distinct_id; [apply order_ok|]. now apply (pairs_same l).
  Qed.

  (** *** A value and what follows it *)
  Definition reads_back (v : val) : Prop := proper se sh v -> forall d, dump v = Ok d ->
    forall f s, (2 * length d <= f)%nat -> exists w, same v w /\ ld f (d ++ s) = Ok (w, s).
  Lemma items_back l : Forall reads_back l -> (forall x, In x l -> proper se sh x) -> forall d, items l = Ok d ->
    forall f s, (2 * length d + 1 <= f)%nat -> exists m, Forall2 same l m /\ lds f (N.of_nat (length l)) (d ++ s) = Ok (m, s).
  Proof.
    induction 1 as [|x l Hx Hl IH]; intros P d D f s F.
    - cbn in D. injection D as <-. exists []. split; [constructor|]. destruct f; [lia|reflexivity].
    - cbn [items] in D. apply bind_ok in D as (a & A & D). apply bind_ok in D as (b & B & D). injection D as <-.
      destruct f as [|f]; [lia|]. pose proof (dump_nonempty _ _ A) as L. rewrite app_length in F.
      destruct (Hx (P x (or_introl eq_refl)) a A f (b ++ s)) as (w & W & E); [lia|].
      destruct (IH (fun y I => P y (or_intror I)) b B f s) as (m & M & G); [lia|].
      exists (w :: m). split; [now constructor|]. rewrite lds_step, <- app_assoc, E. cbn [bind length].
      replace (N.of_nat (S (length l)) =? 0) with false by (symmetry; apply N.eqb_neq; lia).
      replace (N.of_nat (S (length l)) - 1) with (N.of_nat (length l)) by lia. rewrite G. reflexivity.
  Qed.
  Lemma all_read_back v : reads_back v.
  Proof.
    induction v as [| | |b|z|x|x y|w|t|l H|l H|v1 v2 v3 IHv1 IHv2 IHv3|n] using val_rect'; intros P d D f s F; (destruct f as [|f]; [pose proof (dump_nonempty _ _ D); lia|]).
    - apply Ok_inj in D as <-. exists VNone. split; [apply same_atom; constructor|reflexivity].
    - apply Ok_inj in D as <-. exists VNotImplemented. split; [apply same_atom; constructor|reflexivity].
    - apply Ok_inj in D as <-. exists VEllipsis. split; [apply same_atom; constructor|reflexivity].
    - apply Ok_inj in D as <-. exists (VBool b). split; [apply same_atom; constructor|]. destruct b; reflexivity.
    - exists (VInt z). split; [apply same_atom; constructor|]. now apply ld_dump_int.
    - exists (VFloat x). split; [apply same_atom; constructor|]. cbn [dump] in D. apply packs in D as [H D]. apply Ok_inj in D as <-.
      change (ld (S f) ((TAG_FLOAT :: pack 8 x) ++ s)) with (let (d, s) := read 8 (pack 8 x ++ s) in bind (unpack_size 8 d) (fun x => Ok (VFloat x, s))).
      rewrite read_app by (now rewrite pack_length). rewrite unpack_size_pack by exact H. reflexivity.
    - exists (VComplex x y). split; [apply same_atom; constructor|]. cbn [dump] in D. apply packs in D as [H D]. apply packs in D as [H' D]. apply Ok_inj in D as <-.
      change (ld (S f) ((TAG_COMPLEX :: pack 8 x ++ pack 8 y) ++ s)) with
        (let (d, s) := read 16 ((pack 8 x ++ pack 8 y) ++ s) in bind (unpack_size 16 d) (fun _ => Ok (VComplex (unpack_all (firstn 8 d)) (unpack_all (skipn 8 d)), s))).
      rewrite read_app by (now rewrite app_length, !pack_length). unfold unpack_size at 1. rewrite app_length, !pack_length. cbn [Nat.eqb Nat.add bind].
      rewrite firstn_app, skipn_app, !pack_length. rewrite firstn_all2 by (now rewrite pack_length). rewrite skipn_all2 by (now rewrite pack_length).
      cbn [Nat.sub firstn skipn app]. rewrite app_nil_r, !unpack_pack by assumption. reflexivity.
    - exists (VBytes w). split; [apply same_atom; constructor|]. now apply ld_dump_bytes.
    - exists (VStr t). split; [apply same_atom; constructor|]. cbn [dump] in D.
      destruct (encode t) as [u|] eqn:E; [|discriminate]. apply bind_ok in D as (e & D & K). apply Ok_inj in K as <-.
      apply (encode_spec t (P (VStr t) (in_self _))) in E as [Sc ->].
      assert (L : (1 <= length e)%nat) by (apply (dump_nonempty (VBytes (utf8_text t))); exact D).
      cbn [length] in F. destruct f as [|f]; [lia|].
      assert (X : ld (S f) (e ++ s) = Ok (VBytes (utf8_text t), s)) by (now apply ld_dump_bytes).
      change (ld (S (S f)) ((TAG_UNICODE :: e) ++ s)) with (bind (ld (S f) (e ++ s)) (fun '(obj, s) =>
                    match obj with
                    | VBytes d => match fst (decode true true true d) with Some t => Ok (VStr t, s) | None => Raised UnicodeDecodeError end
                    | _ => Raised AttributeError
                    end)).
      rewrite X. cbn [bind]. rewrite (proj2 (strict_decode (utf8_text t) t)) by (now split). reflexivity.
    - rewrite dump_tuple in D. apply bind_ok in D as (h & A & D). apply bind_ok in D as (i & B & D). apply Ok_inj in D as <-.
      pose proof (head_nonempty _ _ A) as L. rewrite app_length in F.
      destruct (items_back l H (fun x I => proper_sub _ _ _ _ (in_parts_tuple l x I) P) i B f s) as (m & M & E); [lia|].
      exists (VTuple m). split; [now apply same_tuple, sames_forall|]. rewrite <- app_assoc, (ld_head _ _ _ _ A) by lia. rewrite E. reflexivity.
    - rewrite dump_fset in D. apply bind_ok in D as (h & A & D). apply bind_ok in D as (i & B & D). apply Ok_inj in D as <-.
      pose proof (head_nonempty _ _ A) as L. cbn [length] in F. rewrite app_length in F. destruct f as [|f]; [lia|].
      destruct (items_back l H (fun x I => proper_sub _ _ _ _ (in_parts_fset l x I) P) i B f s) as (m & M & E); [lia|].
      destruct (frozenset_ok l m P M) as (k & K & Q).
      exists (VFset k). split; [apply same_fset with (m := m); [now apply sames_forall|exact Q]|].
      change (ld (S (S f)) ((TAG_FSET :: h ++ i) ++ s)) with (bind (ld (S f) ((h ++ i) ++ s)) (fun '(obj, s) => bind (elements obj) (fun l => bind (frozenset se order sh l) (fun v => Ok (v, s))))).
      rewrite <- app_assoc, (ld_head _ _ _ _ A) by lia. rewrite E. cbn [as_tuple bind elements]. rewrite K. reflexivity.
    - destruct (dump_slice v1 v2 v3) as (t & T & G). rewrite G in D. apply bind_ok in D as (i & B & D). apply Ok_inj in D as <-.
      cbn [length] in F. destruct f as [|f]; [lia|].
      destruct (items_back [v1; v2; v3] (Forall_cons _ IHv1 (Forall_cons _ IHv2 (Forall_cons _ IHv3 (Forall_nil _))))
        (fun x I => proper_sub _ _ _ _ (in_parts_slice v1 v2 v3 x I) P) i B f s) as (m & M & E); [lia|].
      inversion M as [|? a ? ? Ma M1]; subst. inversion M1 as [|? b ? ? Mb M2]; subst. inversion M2 as [|? c ? ? Mc M3]; subst. inversion M3; subst.
      exists (VSlice a b c). split; [now apply same_slice|].
      change (ld (S (S f)) ((TAG_SLICE :: t :: i) ++ s)) with (bind (ld (S f) ([t] ++ (i ++ s))) (fun '(obj, s) => bind (elements obj) (fun l =>
                    match l with [a; b; c] => Ok (VSlice a b c, s) | _ => Raised ValueError end))).
      rewrite (ld_head _ _ _ _ T) by lia. change (N.of_nat (length [v1; v2; v3])) with (N.of_nat 3) in E. rewrite E. reflexivity.
    - discriminate.
  Qed.
End L.
