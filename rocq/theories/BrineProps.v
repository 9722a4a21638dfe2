(** * C77: a value sent as bytes arrives as the same value *)
From Coq Require Import String Ascii List Bool Arith NArith ZArith Lia Permutation.
From Verif Require Import ScanModel IologModel IniModel Utf8Model Utf8Spec ConfigModel SheetProofs BrineModel BrineSpec BrineProofs BrineLoad.
Import ListNotations.
Local Open Scope N_scope.
Local Open Scope list_scope.

Section P.
  Variable same_element : val -> val -> bool.
  Variable order : list val -> list val.
  Variable slices_hash : bool.
  Variable to_integer : val -> res val.
  Notation loads := (load same_element order slices_hash to_integer).
  Notation ld := (load_stream same_element order slices_hash to_integer).
  Notation lds := (load_items same_element order slices_hash to_integer).
  (** sets are iterated in some order; int() gives numbers or raises *)
  Hypothesis order_ok : forall l, Permutation (order l) l.
  Hypothesis to_integer_ok : forall v, match to_integer v with Ok w => exists z, w = VInt z | Raised _ => True | Out_of_fuel => False end.

  (** ** Whatever the bytes are *)
  Hypothesis symmetric : forall a b, same_element a b = same_element b a.
  Definition sound (v : val) : Prop := plain v /\ proper same_element slices_hash v.
  Lemma sound_sub w v : inside w v -> sound v -> sound w.
  Proof. intros I [A B]. split; [exact (plain_sub _ _ I A)|exact (proper_sub _ _ _ _ I B)]. Qed.
  Lemma sound_int z : sound (VInt z).
  Proof. split; [intros n K; inversion K|]. intros w K. inversion K; subst. exact I. Qed.
  Lemma sound_bytes s : sound (VBytes s).
  Proof. split; [intros n K; inversion K|]. intros w K. inversion K; subst. exact I. Qed.
  Lemma sound_str t : Forall (fun c => c < 1114112) t -> sound (VStr t).
  Proof. intros F. split; [intros n K; inversion K|]. intros w K. inversion K; subst. exact F. Qed.
  Lemma sound_elements v l : sound v -> elements v = Ok l -> Forall sound l.
  Proof.
    intros P. destruct v; cbn; try discriminate; intros E; apply Ok_inj in E as <-; apply Forall_forall; intros x I.
    - apply in_map_iff in I as (c & <- & _). apply sound_int.
    - apply in_map_iff in I as (c & <- & I). apply sound_str. constructor; [|constructor].
      pose proof (proj2 P _ (in_self _)) as F. cbn in F. rewrite Forall_forall in F. exact (F c I).
    - exact (sound_sub _ _ (in_parts_tuple l0 x I) P).
    - exact (sound_sub _ _ (in_parts_fset l0 x I) P).
  Qed.
  Lemma distinct_in l : forall seen x, In x (distinct same_element seen l) -> In x l.
  Proof.
    induction l as [|y l IH]; intros seen x I; [exact I|]. cbn [distinct] in I.
    destruct (existsb _ seen); [right; eauto|]. destruct I as [-> |I]; [now left|right; eauto].
  Qed.
  Notation apart := (fun x y => same_element x y = false).
  Lemma distinct_apart l : forall seen, ForallOrdPairs apart (distinct same_element seen l) /\
    Forall (fun x => Forall (fun y => same_element y x = false) seen) (distinct same_element seen l).
  Proof.
    induction l as [|x l IH]; intros seen; [split; constructor|]. cbn [distinct].
    destruct (existsb _ seen) eqn:E; [apply IH|]. destruct (IH (seen ++ [x])) as [A B]. split.
    - constructor; [|exact A]. rewrite Forall_forall in *. intros y I. specialize (B y I). rewrite Forall_forall in B. apply B, in_or_app. right. now left.
    - constructor.
      + rewrite Forall_forall. intros y I. destruct (same_element y x) eqn:S; [|reflexivity]. rewrite <- E. symmetry. apply existsb_exists. eauto.
      + rewrite Forall_forall in *. intros y I. specialize (B y I). rewrite Forall_forall in *. intros z J. apply B, in_or_app. now left.
  Qed.
  Lemma apart_perm l m : Permutation l m -> ForallOrdPairs apart l -> ForallOrdPairs apart m.
  Proof.
    induction 1 as [|x l m P IH|x y l|l1 l2 l3 P1 IH1 P2 IH2]; intros F; [constructor| | |auto].
    - inversion F as [|? ? A B]; subst. constructor; [|auto]. rewrite Forall_forall in *. intros z I. apply A. eapply Permutation_in; [symmetry; exact P|exact I].
    - inversion F as [|? ? A B]; subst. inversion B as [|? ? C D]; subst. inversion A as [|? ? A1 A2]; subst.
      constructor; [constructor; [now rewrite symmetric|exact C]|]. now constructor.
  Qed.
  Lemma sound_tuple l : Forall sound l -> sound (VTuple l).
  Proof.
    intros F. rewrite Forall_forall in F. split.
    - intros n K. apply inside_tuple in K as [K|(x & I & K)]; [discriminate|]. exact (proj1 (F x I) n K).
    - intros w K. apply inside_tuple in K as [-> |(x & I & K)]; [exact I|]. exact (proj2 (F x I) w K).
  Qed.
  Lemma hashable_no_slice v : slices_hash = false -> hashable slices_hash v = true -> proper same_element slices_hash v ->
    forall a b c, ~ inside (VSlice a b c) v.
  Proof.
    intros E. induction v as [| | |b|z|x|x y|w|t|l H|l H|v1 v2 v3 IHv1 IHv2 IHv3|n] using val_rect'; intros Hh P a0 b0 c0 K; try (inversion K; fail).
    - apply inside_tuple in K as [K|(x & I & K)]; [discriminate|]. cbn [hashable] in Hh. rewrite forallb_forall in Hh. rewrite Forall_forall in H.
      exact (H x I (Hh x I) (proper_sub _ _ _ _ (in_parts_tuple l x I) P) _ _ _ K).
    - destruct (P _ (in_self _)) as [_ [Q|Q]]; [congruence|]. apply inside_fset in K as [K|(x & I & K)]; [discriminate|]. exact (Q x _ _ _ I K).
    - cbn [hashable] in Hh. rewrite E in Hh. discriminate.
  Qed.
  Lemma sound_frozenset l v : Forall sound l -> frozenset same_element order slices_hash l = Ok v -> sound v.
  Proof.
    unfold frozenset. destruct (forallb _ l) eqn:Hh; [|discriminate]. intros F E. apply Ok_inj in E as <-.
    rewrite Forall_forall in F. rewrite forallb_forall in Hh.
    assert (G : forall x, In x (order (distinct same_element [] l)) -> In x l).
    { intros x I. apply (Permutation_in _ (order_ok _)), distinct_in in I. exact I. }
    split.
    - intros n K. apply inside_fset in K as [K|(x & I & K)]; [discriminate|]. exact (proj1 (F x (G x I)) n K).
    - intros w K. apply inside_fset in K as [-> |(x & I & K)]; [|exact (proj2 (F x (G x I)) w K)]. split.
      + apply (apart_perm (distinct same_element [] l)); [symmetry; apply order_ok|]. apply distinct_apart.
      + destruct slices_hash eqn:S; [now left|right]. intros x a b c I. rewrite <- S in *.
        apply hashable_no_slice; [exact S|apply Hh, G, I|apply F, G, I].
  Qed.
  Lemma unpack_bound s : unpack_all s < 256 ^ N.of_nat (length s).
  Proof.
    unfold unpack_all. induction s as [|c s IH] using rev_ind; [reflexivity|].
    rewrite fold_left_app, app_length. cbn [fold_left length].
    replace (length s + 1)%nat with (S (length s)) by lia. rewrite Nat2N.inj_succ, N.pow_succ_r'.
    pose proof (N_ascii_bounded c). lia.
  Qed.
  Lemma sound_simple v : v = VNone \/ v = VNotImplemented \/ v = VEllipsis \/ v = VBool true \/ v = VBool false -> sound v.
  Proof. intros [-> |[-> |[-> |[-> | ->]]]]; (split; [intros n K; inversion K|intros w K; inversion K; subst; exact I]). Qed.
  Definition good1 (s : bytes) (r : res (val * bytes)) : Prop :=
    match r with Ok (v, s') => sound v /\ (length s' < length s)%nat | Raised _ => True | Out_of_fuel => False end.
  Definition good2 (s : bytes) (r : res (list val * bytes)) : Prop :=
    match r with Ok (l, s') => Forall sound l /\ (length s' <= length s)%nat | Raised _ => True | Out_of_fuel => False end.
  Lemma read_len n s d r : read n s = (d, r) -> (length r <= length s)%nat.
  Proof. intros H. apply read_length in H. rewrite H, app_length. lia. Qed.
  Lemma good_loads f : (forall s, (2 * length s + 1 <= f)%nat -> good1 s (ld f s)) /\
    (forall n s, (2 * length s + 2 <= f)%nat -> good2 s (lds f n s)).
  Proof.
    induction f as [|f [IH1 IH2]]; [split; intros; lia|]. split.
    - intros s F. destruct s as [|tag s]; [exact I|]. cbn [length] in F.
      assert (A : forall s1, (length s1 <= length s)%nat -> good1 s1 (ld f s1)) by (intros s1 L; apply IH1; lia).
      assert (B : forall n s1, (length s1 <= length s)%nat -> good2 s1 (lds f n s1)) by (intros n s1 L; apply IH2; lia).
      assert (Bt : forall n s1, (length s1 <= length s)%nat -> good1 (tag :: s) (bind (lds f n s1) (fun '(l, s) => Ok (VTuple l, s)))).
      { intros n s1 L. specialize (B n s1 L). destruct (lds f n s1) as [[l s2]|e|]; cbn in *; [|exact I|exact B].
        destruct B as [B1 B2]. split; [now apply sound_tuple|lia]. }
      assert (Bz : forall k, good1 (tag :: s) (let (h, s) := read (N.of_nat k) s in bind (unpack_size k h) (fun l => bind (lds f l s) (fun '(l, s) => Ok (VTuple l, s))))).
      { intros k. destruct (read (N.of_nat k) s) as [h s1] eqn:R. apply read_len in R. unfold unpack_size.
        destruct (Nat.eqb (length h) k); cbn [bind]; [now apply Bt|exact I]. }
      assert (Pr : forall n, good1 (tag :: s) (let (d, s) := read n s in Ok (VBytes d, s))).
      { intros n. destruct (read n s) as [d s1] eqn:R. apply read_len in R. cbn [good1]. split; [apply sound_bytes|cbn; lia]. }
      assert (Pb : forall k, good1 (tag :: s) (load_bytes k s)).
      { intros k. unfold load_bytes. destruct (read (N.of_nat k) s) as [h s1] eqn:R. apply read_len in R. unfold unpack_size.
        destruct (Nat.eqb (length h) k); cbn [bind]; [|exact I]. destruct (read _ s1) as [d s2] eqn:R2. apply read_len in R2.
        cbn [good1]. split; [apply sound_bytes|cbn; lia]. }
      assert (Pi : forall k, good1 (tag :: s) (load_int k s)).
      { intros k. unfold load_int. destruct (read (N.of_nat k) s) as [h s1] eqn:R. apply read_len in R. unfold unpack_size.
        destruct (Nat.eqb (length h) k); cbn [bind]; [|exact I]. destruct (read _ s1) as [d s2] eqn:R2. apply read_len in R2.
        destruct (to_int d); cbn [good1]; [|exact I]. split; [apply sound_int|cbn; lia]. }
      specialize (A s (le_n _)).
      cbn [load_stream]. destruct (imm_loader tag); [cbn [good1]; split; [apply sound_int|cbn; lia]|].
      cbv zeta.
      repeat (match goal with |- good1 _ (if Ascii.eqb tag ?c then _ else _) => destruct (Ascii.eqb tag c) end;
        [try (cbn [good1]; split; [first [apply sound_bytes|apply sound_tuple; constructor|apply sound_simple; tauto]|cbn; lia]; fail);
         try apply Pr; try apply Pb; try apply Pi; try (apply Bt; lia); try apply Bz|]); try exact I.
      + destruct (ld f s) as [[v s1]|e|]; cbn [bind]; [|exact I|exact A]. destruct A as [A1 A2].
        pose proof (to_integer_ok v) as T. destruct (to_integer v) as [w|e|]; cbn [bind]; [|exact I|exact T].
        destruct T as [z ->]. cbn [good1]. split; [apply sound_int|cbn; lia].
      + destruct (read 8 s) as [d s1] eqn:R. apply read_len in R. unfold unpack_size.
        destruct (Nat.eqb_spec (length d) 8) as [L|L]; cbn [bind good1]; [|exact I]. split; [|cbn; lia].
        split; [intros n K; inversion K|]. intros w K. inversion K; subst. pose proof (unpack_bound d) as U. now rewrite L in U.
      + destruct (read 16 s) as [d s1] eqn:R. apply read_len in R. unfold unpack_size.
        destruct (Nat.eqb_spec (length d) 16) as [L|L]; cbn [bind good1]; [|exact I]. split; [|cbn; lia].
        split; [intros n K; inversion K|]. intros w K. inversion K; subst. split.
        * pose proof (unpack_bound (firstn 8 d)) as U. rewrite firstn_length, L in U. exact U.
        * pose proof (unpack_bound (skipn 8 d)) as U. rewrite skipn_length, L in U. exact U.
      + destruct (ld f s) as [[v s1]|e|]; cbn [bind]; [|exact I|exact A]. destruct A as [A1 A2].
        destruct v; try exact I. destruct (fst (decode true true true s0)) as [t|] eqn:U; cbn [good1]; [|exact I]. split; [|cbn; lia].
        apply sound_str. apply strict_decode in U as [U _]. eapply Forall_impl; [|exact U]. intros c [C|C]; lia.
      + destruct (ld f s) as [[v s1]|e|]; cbn [bind]; [|exact I|exact A]. destruct A as [A1 A2].
        destruct (elements v) as [l|e|] eqn:E; cbn [bind]; [|exact I|destruct v; discriminate].
        apply (sound_elements _ _ A1) in E. destruct l as [|a [|b [|c [|? ?]]]]; try exact I.
        cbn [good1]. split; [|cbn; lia]. rewrite Forall_forall in E. split.
        * intros n K. inversion K as [| | |? ? ? x HI K']; subst. exact (proj1 (E x HI) n K').
        * intros w K. inversion K as [| | |? ? ? x HI K']; subst; [exact I|]. exact (proj2 (E x HI) w K').
      + destruct (ld f s) as [[v s1]|e|]; cbn [bind]; [|exact I|exact A]. destruct A as [A1 A2].
        destruct (elements v) as [l|e|] eqn:E; cbn [bind]; [|exact I|destruct v; discriminate].
        apply (sound_elements _ _ A1) in E. destruct (frozenset same_element order slices_hash l) as [w|e|] eqn:G; cbn [bind]; [|exact I|unfold frozenset in G; destruct (forallb _ l); discriminate].
        apply sound_frozenset in G; [|exact E]. cbn [good1]. split; [exact G|cbn; lia].
    - intros n s F. rewrite lds_step. destruct (N.eqb_spec n 0); [cbn [good2]; split; [constructor|lia]|].
      specialize (IH1 s). destruct (ld f s) as [[v s1]|e|]; cbn [bind]; [|exact I|apply IH1; lia].
      destruct IH1 as [P L]; [lia|]. specialize (IH2 (n - 1) s1).
      destruct (lds f (n - 1) s1) as [[l s2]|e|]; cbn [bind]; [|exact I|apply IH2; lia].
      destruct IH2 as [Q M]; [lia|]. cbn [good2]. split; [now constructor|lia].
  Qed.

  (** Whatever bytes arrive, reading them ends, and it gives a value made of the listed
      types only, such as Python can have, or one of the exceptions. *)
  Theorem C77_any_bytes s : (exists v, loads s = Ok v /\ plain v /\ proper same_element slices_hash v) \/ exists e, loads s = Raised e.
  Proof.
    unfold load. destruct (good_loads (2 * length s + 2)) as [G _]. specialize (G s ltac:(lia)).
    destruct (ld (2 * length s + 2) s) as [[v s1]|e|]; cbn [bind].
    - left. exists v. split; [reflexivity|apply G].
    - right. eauto.
    - destruct G.
  Qed.

  (** ** What was written *)
  (** equal values are the same elements of sets *)
  Hypothesis respects : forall a a' b b', same a a' -> same b b' -> same_element a b = same_element a' b'.

  (** A value that was written is read back as the same value: every part in its place,
      frozensets with the same elements; and nothing behind it is touched. *)
  Theorem C77_round_trip v d : proper same_element slices_hash v -> dump v = Ok d ->
    (exists w, same v w /\ loads d = Ok w) /\
    forall rest, exists w f, same v w /\ ld f (d ++ rest) = Ok (w, rest).
  Proof.
    intros P D. pose proof (all_read_back same_element order slices_hash to_integer order_ok respects v P d D) as R. split.
    - destruct (R (2 * length d + 2)%nat []) as (w & S & E); [lia|]. rewrite app_nil_r in E.
      exists w. split; [exact S|]. unfold load. rewrite E. reflexivity.
    - intros rest. destruct (R (2 * length d)%nat rest (le_n _)) as (w & S & E). eauto.
  Qed.

  (** Values that differ are written differently, and none is the beginning of another. *)
  Theorem C77_unambiguous v w d e r r' : proper same_element slices_hash v -> proper same_element slices_hash w ->
    dump v = Ok d -> dump w = Ok e -> d ++ r = e ++ r' -> same v w /\ d = e /\ r = r'.
  Proof.
    intros Pv Pw D E H.
    pose proof (all_read_back same_element order slices_hash to_integer order_ok respects v Pv d D) as Rv.
    pose proof (all_read_back same_element order slices_hash to_integer order_ok respects w Pw e E) as Rw.
    destruct (Rv (2 * length d + 2 * length e)%nat r) as (x & Sx & Lx); [lia|].
    destruct (Rw (2 * length d + 2 * length e)%nat r') as (y & Sy & Ly); [lia|].
    rewrite H, Ly in Lx. apply Ok_inj in Lx. injection Lx as -> ->.
    split; [eapply same_trans; [exact Sx|now apply same_sym]|]. split; [|reflexivity]. now apply app_inv_tail in H.
  Qed.

  (** What can be written *)
  Theorem C77_dumpable v : dumpable v = true <-> plain v.
  Proof. apply dumpable_spec. Qed.
  Theorem C77_what_can_be_dumped v : proper same_element slices_hash v ->
    ((exists d, dump v = Ok d) <-> dumpable v = true /\ sendable v).
  Proof. intros P. rewrite C77_dumpable. now apply (dump_ok same_element slices_hash). Qed.
End P.
Print Assumptions C77_any_bytes.
Print Assumptions C77_round_trip.
Print Assumptions C77_unambiguous.
Print Assumptions C77_dumpable.
Print Assumptions C77_what_can_be_dumped.

(** ** What is not so *)

(** That a value is dumpable does not mean that it can be dumped: a text with a lone
    surrogate is, and cannot. *)
Theorem C77_dumpable_is_enough_refuted :
  ~ (forall v, dumpable v = true -> exists d, dump v = Ok d).
Proof. intros H. destruct (H (VStr [55296]) eq_refl) as [d D]. discriminate. Qed.
(** Bytes that were cut off can be read as another value. *)
Theorem C77_truncation_is_noticed_refuted se order sh ti :
  ~ (forall v d n, dump v = Ok d -> (n < length d)%nat -> exists e, load se order sh ti (firstn n d) = Raised e).
Proof.
  intros H. destruct (H (VBytes (T "hello")) (TAG_STR_L1 :: byte 5 :: T "hello") 4%nat eq_refl) as [e E]; [cbn; lia|].
  vm_compute in E. discriminate.
Qed.
Print Assumptions C77_dumpable_is_enough_refuted.
Print Assumptions C77_truncation_is_noticed_refuted.

(** ** A case: the example in the module *)
Definition X_value : val := VTuple [VBytes (T "he"); VInt 7; VStr (map N_of_ascii (T "llo")); VInt 8; VTuple []; VInt 900; VNone; VBool true;
  VEllipsis; VFloat 4625816062258262835; VComplex 4623507967449235456 4625816062258262835;
  VSlice (VInt 1) (VInt 2) (VInt 3); VFset [VInt 5; VInt 6; VInt 7]; VNotImplemented].
Definition hex_digit (n : N) : ascii := ascii_of_N (if n <? 10 then 48 + n else 87 + n).
Definition hex (s : bytes) : text := flat_map (fun c => [hex_digit (N_of_ascii c / 16); hex_digit (N_of_ascii c mod 16)]) s.
Example C77_case_written : exists d, dump X_value = Ok d /\
  hex d = T "140e0b686557080c6c6c6f580216033930300003061840323333333333331b402a000000000000403233333333333319125152531a1255565705".
Proof. eexists. split; [vm_compute; reflexivity|]. vm_compute. reflexivity. Qed.
Definition X_same (a b : val) : bool :=
  match a, b with VInt x, VInt y => Z.eqb x y | VNone, VNone => true | VBool x, VBool y => Bool.eqb x y | _, _ => false end.
Example C77_case_hypotheses : forall a a' b b', same a a' -> same b b' -> X_same a b = X_same a' b'.
Proof.
  intros a a' b b' A B. inversion A as [v Av| | |]; subst; inversion B as [w Bw| | |]; subst; cbn; try reflexivity; inversion Av; reflexivity.
Qed.
Example C77_case_proper : proper X_same false X_value /\ sendable X_value.
Proof.
  assert (S1 : forall w, inside w X_value -> w = X_value \/ In w [VBytes (T "he"); VInt 7; VStr (map N_of_ascii (T "llo")); VInt 8; VTuple []; VInt 900; VNone; VBool true;
    VEllipsis; VFloat 4625816062258262835; VComplex 4623507967449235456 4625816062258262835;
    VSlice (VInt 1) (VInt 2) (VInt 3); VFset [VInt 5; VInt 6; VInt 7]; VNotImplemented; VInt 1; VInt 2; VInt 3; VInt 5; VInt 6; VInt 7]).
  { intros w H. unfold X_value in H. apply inside_tuple in H as [H|(x & I & H)]; [now left|right].
    repeat (destruct I as [<- |I]; [try (inversion H; subst; cbn; tauto)|]); try destruct I.
    - inversion H as [| | |? ? ? x I H']; subst; [cbn; tauto|].
      repeat (destruct I as [<- |I]; [inversion H'; subst; cbn; tauto|]). destruct I.
    - inversion H as [| |? x I H'|]; subst; [cbn; tauto|].
      repeat (destruct I as [<- |I]; [inversion H'; subst; cbn; tauto|]). destruct I. }
  split; intros w H; apply S1 in H; (destruct H as [-> |H]; [vm_compute; try exact I; reflexivity|]);
    repeat (destruct H as [<- |H]; [try exact I; try (vm_compute; reflexivity)|]); try destruct H.
  - repeat constructor.
  - split; reflexivity.
  - split; [repeat constructor|]. right. intros x a b c I K. repeat (destruct I as [<- |I]; [inversion K|]). destruct I.
  - split; [|reflexivity]. repeat constructor; left; reflexivity.
Qed.
Example C77_case_read : forall ti, exists d w, dump X_value = Ok d /\ load X_same (fun l => rev l) false ti d = Ok w /\
  same X_value w /\ w <> X_value.
Proof.
  intros ti. destruct C77_case_written as (d & D & _).
  destruct (C77_round_trip X_same (fun l => rev l) false ti (fun l => Permutation_sym (Permutation_rev l)) C77_case_hypotheses X_value d (proj1 C77_case_proper) D) as [(w & S & E) _].
  exists d, w. split; [exact D|]. split; [exact E|]. split; [exact S|].
  intros ->. vm_compute in D. apply Ok_inj in D. subst d. vm_compute in E. discriminate.
Qed.
