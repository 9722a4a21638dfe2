(** * Checksums identify units (C36) *)

From Coq Require Import Ascii String List Bool Arith Lia Permutation Sorted.
From Verif Require Import ScanModel Rfc822Model Rfc822Proofs JsonModel JsonProofs ChecksumModel.
Import ListNotations.
Local Open Scope nat_scope.
Local Open Scope list_scope.

(** ** The order of texts *)

Lemma nat_of_ascii_inj a b : nat_of_ascii a = nat_of_ascii b -> a = b.
Proof.
  intros H. rewrite <- (ascii_nat_embedding a), <- (ascii_nat_embedding b), H. reflexivity.
Qed.

Lemma text_leb_total a : forall b, text_leb a b = false -> text_leb b a = true.
Proof.
  induction a as [|x a IH]; intros [|y b] H; try discriminate; try reflexivity.
  cbn [text_leb] in *. destruct (nat_of_ascii x <? nat_of_ascii y) eqn:L; [discriminate|].
  apply Nat.ltb_ge in L. destruct (Nat.eqb_spec (nat_of_ascii x) (nat_of_ascii y)) as [E|E].
  - rewrite E, Nat.ltb_irrefl, Nat.eqb_refl. apply IH, H.
  - assert (K : (nat_of_ascii y <? nat_of_ascii x) = true) by (apply Nat.ltb_lt; lia).
    rewrite K. reflexivity.
Qed.

Lemma text_leb_antisym a : forall b, text_leb a b = true -> text_leb b a = true -> a = b.
Proof.
  induction a as [|x a IH]; intros [|y b] H K; try discriminate; try reflexivity.
  cbn [text_leb] in *.
  destruct (Nat.ltb_spec (nat_of_ascii x) (nat_of_ascii y)) as [L|L].
  - destruct (Nat.ltb_spec (nat_of_ascii y) (nat_of_ascii x)); [lia|].
    destruct (Nat.eqb_spec (nat_of_ascii y) (nat_of_ascii x)); [lia|discriminate].
  - destruct (Nat.eqb_spec (nat_of_ascii x) (nat_of_ascii y)) as [E|E]; [|discriminate].
    rewrite E, Nat.ltb_irrefl, Nat.eqb_refl in K. apply nat_of_ascii_inj in E as ->.
    f_equal. apply IH; auto.
Qed.

Lemma text_leb_trans a : forall b c, text_leb a b = true -> text_leb b c = true -> text_leb a c = true.
Proof.
  induction a as [|x a IH]; intros [|y b] [|z c] H K; try discriminate; try reflexivity.
  cbn [text_leb] in *.
  destruct (Nat.ltb_spec (nat_of_ascii x) (nat_of_ascii z)) as [L|L]; [reflexivity|].
  destruct (Nat.ltb_spec (nat_of_ascii x) (nat_of_ascii y)) as [L1|L1].
  - destruct (Nat.ltb_spec (nat_of_ascii y) (nat_of_ascii z)) as [L2|L2]; [lia|].
    destruct (Nat.eqb_spec (nat_of_ascii y) (nat_of_ascii z)); [lia|discriminate].
  - destruct (Nat.eqb_spec (nat_of_ascii x) (nat_of_ascii y)) as [E1|E1]; [|discriminate].
    destruct (Nat.ltb_spec (nat_of_ascii y) (nat_of_ascii z)) as [L2|L2]; [lia|].
    destruct (Nat.eqb_spec (nat_of_ascii y) (nat_of_ascii z)) as [E2|E2]; [|discriminate].
    assert (E : nat_of_ascii x = nat_of_ascii z) by congruence.
    rewrite E, Nat.eqb_refl. eauto.
Qed.

(** ** Sorting *)

Section Sort.
  Context {A : Type}.
  Implicit Types l : list (text * A).

  Definition le_item (x y : text * A) : Prop := text_leb (fst x) (fst y) = true.

  Lemma insert_perm x l : Permutation (insert x l) (x :: l).
  Proof.
    induction l as [|y l IH]; [reflexivity|]. cbn [insert].
    destruct (text_leb (fst x) (fst y)); [reflexivity|].
    rewrite IH. apply perm_swap.
  Qed.
  Lemma sorted_perm l : Permutation (sorted_items l) l.
  Proof.
    induction l as [|x l IH]; [reflexivity|]. cbn [sorted_items].
    rewrite insert_perm, IH. reflexivity.
  Qed.
  Lemma insert_sorted x l : StronglySorted le_item l -> StronglySorted le_item (insert x l).
  Proof.
    induction 1 as [|y l HS IH F]; [repeat constructor|]. cbn [insert].
    destruct (text_leb (fst x) (fst y)) eqn:E.
    - constructor; [constructor; auto|]. constructor; [exact E|].
      eapply Forall_impl; [|exact F]. intros z Z. unfold le_item in *. eapply text_leb_trans; eauto.
    - constructor; [exact IH|]. rewrite Forall_forall in *. intros z Z.
      apply (Permutation_in _ (insert_perm x l)) in Z. destruct Z as [<-|Z]; [|auto].
      apply text_leb_total, E.
  Qed.
  Lemma sorted_sorted l : StronglySorted le_item (sorted_items l).
  Proof. induction l; [constructor|]. cbn [sorted_items]. apply insert_sorted. assumption. Qed.

  Lemma sorted_unique l : forall l', StronglySorted le_item l -> StronglySorted le_item l' ->
    NoDup (map fst l) -> Permutation l l' -> l = l'.
  Proof.
    induction l as [|x l IH]; intros l' HS HS' N P.
    - apply Permutation_nil in P. auto.
    - destruct l' as [|y l']; [symmetry in P; apply Permutation_nil in P; discriminate|].
      assert (E : x = y).
      { assert (Y : In y (x :: l)) by (apply (Permutation_in y (Permutation_sym P)); left; reflexivity).
        assert (X : In x (y :: l')) by (apply (Permutation_in x P); left; reflexivity).
        destruct Y as [Y|Y]; [exact Y|]. destruct X as [X|X]; [symmetry; exact X|].
        exfalso. apply StronglySorted_inv in HS as [_ F]. apply StronglySorted_inv in HS' as [_ F'].
        rewrite Forall_forall in F, F'.
        assert (K : fst x = fst y) by (apply text_leb_antisym; [apply F, Y|apply F', X]).
        cbn [map] in N. apply NoDup_cons_iff in N as [N _]. apply N. rewrite K.
        apply in_map, Y. }
      subst y. f_equal. apply Permutation_cons_inv in P.
      apply StronglySorted_inv in HS as [HS _]. apply StronglySorted_inv in HS' as [HS' _].
      cbn [map] in N. apply NoDup_cons_iff in N as [_ N]. auto.
  Qed.

  Lemma sorted_same l l' : NoDup (map fst l) -> Permutation l l' -> sorted_items l = sorted_items l'.
  Proof.
    intros N P. apply sorted_unique; try apply sorted_sorted.
    - apply (Permutation_NoDup (l := map fst l)); [|exact N].
      symmetry. apply Permutation_map, sorted_perm.
    - rewrite !sorted_perm. exact P.
  Qed.
End Sort.

(** ** C36 *)

(** The JSON value of a field: its own, or its text for a symbol. *)
Inductive shows : fvalue -> json -> Prop :=
| shows_plain : forall j, shows (Plain j) j
| shows_symbol : forall s, shows (Sym s) (JStr s).

(** Units that dictionaries can hold: the keys are different and the values have a
    JSON text. *)
Definition proper_items (l : list (text * fvalue)) : Prop :=
  NoDup (map fst l) /\ forall k v j, In (k, v) l -> shows v j -> good j.
Definition proper (u : unitdef) : Prop :=
  proper_items (u_data u) /\
  match u_parameters u with None => True | Some p => proper_items p end.

(** Two units with the same definition: the same fields with the same values in any
    order, the same namespace and the same parameters (also in any order).  Symbols
    count as their text and a provider without a namespace counts as none. *)
Definition same_items (l l' : list (text * fvalue)) : Prop :=
  forall k j, (exists v, In (k, v) l /\ shows v j) <-> (exists v, In (k, v) l' /\ shows v j).
Definition effective_namespace (u : unitdef) : text :=
  match u_namespace u with Some ns => ns | None => [] end.
Definition same_parameters (p p' : option (list (text * fvalue))) : Prop :=
  match p, p' with
  | None, None => True
  | Some l, Some l' => same_items l l'
  | _, _ => False
  end.
Definition same_definition (u u' : unitdef) : Prop :=
  same_items (u_data u) (u_data u') /\
  effective_namespace u = effective_namespace u' /\
  same_parameters (u_parameters u) (u_parameters u').

Definition no_namespace_field (u : unitdef) : Prop := ~ In k_namespace (map fst (u_data u)).

Lemma shows_jvalue v j : shows v j <-> jvalue v = j.
Proof.
  split; [destruct 1; reflexivity|]. intros <-. destruct v; constructor.
Qed.
Lemma in_jitems l k j : In (k, j) (jitems l) <-> exists v, In (k, v) l /\ shows v j.
Proof.
  unfold jitems. rewrite in_map_iff. split.
  - intros ([k' v] & E & H). simpl in E. injection E as <- <-. exists v. rewrite shows_jvalue. auto.
  - intros (v & H & E). apply shows_jvalue in E as <-. exists (k, v). auto.
Qed.
Lemma jitems_keys l : map fst (jitems l) = map fst l.
Proof. unfold jitems. rewrite map_map. reflexivity. Qed.
Lemma jitems_insert x l : jitems (insert x l) = insert (fst x, jvalue (snd x)) (jitems l).
Proof.
  induction l as [|y l IH]; [reflexivity|]. cbn [insert jitems map fst].
  destruct (text_leb (fst x) (fst y)); [reflexivity|]. cbn [map]. fold (jitems (insert x l)). fold (jitems l).
  rewrite IH. reflexivity.
Qed.
Lemma jitems_sorted l : jitems (sorted_items l) = sorted_items (jitems l).
Proof.
  induction l as [|x l IH]; [reflexivity|]. cbn [sorted_items].
  rewrite jitems_insert, IH. reflexivity.
Qed.

Lemma same_items_perm l l' : NoDup (map fst l) -> NoDup (map fst l') ->
  same_items l l' <-> Permutation (jitems l) (jitems l').
Proof.
  intros N N'. rewrite <- jitems_keys in N, N'. apply NoDup_map_inv in N, N'.
  split.
  - intros H. apply NoDup_Permutation; auto. intros [k j]. rewrite !in_jitems. apply H.
  - intros P k j. rewrite <- !in_jitems. split; apply Permutation_in; [|symmetry]; exact P.
Qed.

Lemma same_items_sorted l l' : NoDup (map fst l) -> NoDup (map fst l') ->
  same_items l l' <-> jitems (sorted_items l) = jitems (sorted_items l').
Proof.
  intros N N'. rewrite same_items_perm by assumption. rewrite !jitems_sorted. split.
  - intros P. apply sorted_same; [rewrite jitems_keys; exact N|exact P].
  - intros E. rewrite <- (sorted_perm (jitems l)), E. apply sorted_perm.
Qed.

Lemma tset_absent {A} k (v : A) l : ~ In k (map fst l) -> tset k v l = l ++ [(k, v)].
Proof.
  induction l as [|[k' v'] l IH]; [reflexivity|]. intros H. cbn [tset map fst] in *.
  unfold text_eqb. destruct (list_eq_dec ascii_dec k k') as [->|E].
  - exfalso. apply H. left. reflexivity.
  - cbn [app]. f_equal. apply IH. intros K. apply H. right. exact K.
Qed.

Lemma tset_jitems k v l : jitems (tset k v l) = tset k (jvalue v) (jitems l).
Proof.
  induction l as [|[k' v'] l IH]; [reflexivity|]. cbn [tset jitems map fst snd].
  destruct (text_eqb k k'); [reflexivity|]. cbn [map]. fold (jitems (tset k v l)).
  rewrite IH. reflexivity.
Qed.

Lemma with_namespace_jitems u : 
  jitems (with_namespace (u_namespace u) (sorted_items (u_data u))) =
  match effective_namespace u with
  | [] => jitems (sorted_items (u_data u))
  | ns => tset k_namespace (JStr ns) (jitems (sorted_items (u_data u)))
  end.
Proof.
  unfold with_namespace, effective_namespace. destruct (u_namespace u) as [[|c ns]|]; auto.
  apply tset_jitems.
Qed.

(** The order of the fields does not matter: units with the same definition have the
    same canonical text and so, with any hash function, the same checksum. *)
Theorem C36_same_definition u u' : proper u -> proper u' -> same_definition u u' ->
  canonical u = canonical u'.
Proof.
  intros [[N _] P] [[N' _] P'] (H1 & H2 & H3). unfold canonical.
  rewrite !with_namespace_jitems, H2.
  apply same_items_sorted in H1; auto. rewrite H1. f_equal.
  destruct (u_parameters u) as [p|], (u_parameters u') as [p'|]; try destruct H3; auto.
  destruct P as [P _], P' as [P' _]. apply same_items_sorted in H3; auto. rewrite H3. reflexivity.
Qed.
Print Assumptions C36_same_definition.

Lemma good_fields l : (forall k v j, In (k, v) l -> shows v j -> good j) ->
  good (JObj (jitems l)).
Proof.
  intros H. constructor. intros k j I'. apply in_jitems in I' as (v & I' & E). eauto.
Qed.

Lemma in_tset {A} k (v : A) l x : In x (tset k v l) -> In x l \/ snd x = v.
Proof.
  induction l as [|[k' v'] l IH].
  - intros [<-|[]]. right. reflexivity.
  - cbn [tset]. destruct (text_eqb k k').
    + intros [<-|H]; [right; reflexivity|left; right; exact H].
    + intros [<-|H]; [left; left; reflexivity|]. destruct (IH H); auto. left. right. assumption.
Qed.

Lemma good_sorted l : proper_items l -> good (JObj (jitems (sorted_items l))).
Proof.
  intros [_ G]. apply good_fields. intros k v j I'. apply (G k v j).
  apply (Permutation_in _ (sorted_perm l)), I'.
Qed.

Lemma good_namespace ns l : proper_items l ->
  good (JObj (jitems (with_namespace ns (sorted_items l)))).
Proof.
  intros [_ G]. apply good_fields. intros k v j I' SV. unfold with_namespace in I'.
  assert (B : forall v, In (k, v) (sorted_items l) -> shows v j -> good j).
  { intros w W. apply (G k w). apply (Permutation_in _ (sorted_perm l)), W. }
  destruct ns as [[|c ns]|]; [eauto| |eauto].
  apply in_tset in I' as [I'|I']; [eauto|]. simpl in I'. subst v. inversion SV. constructor.
Qed.

(** The canonical text splits in one way only. *)
Lemma canonical_parts u u' : proper u -> proper u' -> canonical u = canonical u' ->
  jitems (with_namespace (u_namespace u) (sorted_items (u_data u))) =
  jitems (with_namespace (u_namespace u') (sorted_items (u_data u'))) /\
  option_map (fun p => jitems (sorted_items p)) (u_parameters u) =
  option_map (fun p => jitems (sorted_items p)) (u_parameters u').
Proof.
  intros [D P] [D' P'] E. unfold canonical in E.
  apply dumps_prefix_free in E.
  - destruct E as [E1 E2]. split; [congruence|].
    destruct (u_parameters u) as [p|], (u_parameters u') as [p'|].
    + apply dumps_injective in E2; try apply good_sorted; auto. injection E2 as E2.
      simpl. congruence.
    + discriminate.
    + discriminate.
    + reflexivity.
  - apply good_namespace, D.
  - apply good_namespace, D'.
  - destruct (u_parameters u); reflexivity.
  - destruct (u_parameters u'); reflexivity.
Qed.

(** Units with the same canonical text have the same definition, unless they have a
    field that is called namespace. *)
Theorem C36_identifies u u' : proper u -> proper u' ->
  no_namespace_field u -> no_namespace_field u' ->
  canonical u = canonical u' -> same_definition u u'.
Proof.
  intros P P' F F' E. destruct (canonical_parts u u' P P' E) as [E1 E2].
  destruct P as [[N _] Q], P' as [[N' _] Q']. rewrite !with_namespace_jitems in E1.
  assert (A : forall x, no_namespace_field x -> ~ In k_namespace (map fst (jitems (sorted_items (u_data x))))).
  { intros x X H. apply X. rewrite jitems_keys in H.
    apply (Permutation_in _ (Permutation_map fst (sorted_perm (u_data x)))), H. }
  assert (B := A u F). assert (B' := A u' F').
  assert (AB : jitems (sorted_items (u_data u)) = jitems (sorted_items (u_data u')) /\
               effective_namespace u = effective_namespace u').
  { destruct (effective_namespace u) as [|c ns], (effective_namespace u') as [|c' ns'].
    - auto.
    - exfalso. rewrite tset_absent in E1 by exact B'. apply B. rewrite E1, map_app.
      apply in_app_iff. right. left. reflexivity.
    - exfalso. rewrite tset_absent in E1 by exact B. apply B'. rewrite <- E1, map_app.
      apply in_app_iff. right. left. reflexivity.
    - rewrite !tset_absent in E1 by assumption. apply app_inj_tail in E1 as [E1 E3].
      split; [exact E1|]. injection E3 as <- <-. reflexivity. }
  destruct AB as [AB1 AB2]. split; [apply same_items_sorted; auto|]. split; [exact AB2|].
  destruct (u_parameters u) as [p|], (u_parameters u') as [p'|]; try discriminate E2; [|exact I].
  simpl in E2. injection E2 as E2. destruct Q as [Q _], Q' as [Q' _].
  apply same_items_sorted; auto.
Qed.
Print Assumptions C36_identifies.

(** With a hash function that tells these two texts apart the checksum tells the
    units apart. *)
Theorem C36_checksum sha256 u u' : proper u -> proper u' ->
  no_namespace_field u -> no_namespace_field u' ->
  (sha256 (canonical u) = sha256 (canonical u') -> canonical u = canonical u') ->
  (checksum sha256 u = checksum sha256 u' <-> same_definition u u').
Proof.
  intros P P' F F' H. unfold checksum. split.
  - intros E. apply C36_identifies; auto.
  - intros E. f_equal. apply C36_same_definition; auto.
Qed.
Print Assumptions C36_checksum.

(** Any change of one field, of the namespace or of the parameters changes the
    canonical text.  In particular a unit without parameters never has the text of an
    instance of a template, even one without parameters. *)
Theorem C36_change_field u k v : proper u -> no_namespace_field u ->
  k <> k_namespace -> (forall j, shows v j -> good j) ->
  (forall w j, In (k, w) (u_data u) -> shows w j -> ~ shows v j) ->
  canonical (mk_unitdef (tset k v (u_data u)) (u_namespace u) (u_parameters u)) <> canonical u.
Proof.
  intros [[N G] Q] F K GV H E.
  assert (TK : forall x, In x (map fst (tset k v (u_data u))) <-> x = k \/ In x (map fst (u_data u))).
  { intros x. clear. induction (u_data u) as [|[k' v'] l IH]; cbn [tset map fst In]; [intuition|].
    unfold text_eqb. destruct (list_eq_dec ascii_dec k k') as [->|D]; cbn [map fst In]; [intuition|].
    rewrite IH. intuition. }
  assert (IK : In (k, v) (tset k v (u_data u))).
  { clear. induction (u_data u) as [|[k' v'] l IH]; cbn [tset]; [left; reflexivity|].
    unfold text_eqb. destruct (list_eq_dec ascii_dec k k') as [->|D]; [left; reflexivity|right; exact IH]. }
  assert (NT : NoDup (map fst (tset k v (u_data u)))).
  { clear - N. induction (u_data u) as [|[k' v'] l IH]; cbn [tset]; [repeat constructor; simpl; tauto|].
    cbn [map fst] in N. apply NoDup_cons_iff in N as [N1 N2].
    unfold text_eqb. destruct (list_eq_dec ascii_dec k k') as [->|D]; cbn [map fst].
    - constructor; auto.
    - constructor; [|apply IH, N2]. intros X. apply N1.
      assert (T : forall x, In x (map fst (tset k v l)) -> x = k \/ In x (map fst l)).
      { clear. intros x. induction l as [|[a b] l IHl]; cbn [tset map fst In]; [intuition|].
        unfold text_eqb. destruct (list_eq_dec ascii_dec k a) as [->|D']; cbn [map fst In]; intuition. }
      apply T in X as [X|X]; [congruence|exact X]. }
  apply C36_identifies in E.
  - destruct E as [E _]. destruct (proj1 (E k (jvalue v))) as (w & W1 & W2).
    + exists v. split; [exact IK|]. apply shows_jvalue. reflexivity.
    + apply (H w _ W1 W2). apply shows_jvalue. reflexivity.
  - split; [|exact Q]. split; [exact NT|]. cbn. intros k' w j W SV.
    apply in_tset in W as [W|W]; [eauto|]. simpl in W. subst w. apply GV, SV.
  - split; [split|]; assumption.
  - unfold no_namespace_field. cbn [u_data]. rewrite TK. intros [X|X]; [congruence|apply (F X)].
  - exact F.
Qed.
Print Assumptions C36_change_field.

(** The reservation about the field is needed: a unit that has a field called
    namespace can have the text of a unit of a provider with that namespace, and a
    change of that field goes unnoticed. *)
Definition tx := list_ascii_of_string.
Definition plain (s : string) : fvalue := Plain (JStr (tx s)).
Definition unit_a : unitdef := mk_unitdef [(tx "id", plain "x")] (Some (tx "com.example")) None.
Definition unit_b : unitdef :=
  mk_unitdef [(tx "namespace", plain "com.example"); (tx "id", plain "x")] None None.
Definition unit_c : unitdef :=
  mk_unitdef [(tx "namespace", plain "other"); (tx "id", plain "x")] (Some (tx "com.example")) None.
Theorem C36_namespace_field_refuted :
  exists u u', proper u /\ proper u' /\ ~ same_definition u u' /\
  forall sha256, checksum sha256 u = checksum sha256 u'.
Proof.
  exists unit_a, unit_b.
  assert (P : forall l, In l [u_data unit_a; u_data unit_b] -> proper_items l).
  { intros l [<-|[<-|[]]]; (split; [vm_compute; repeat constructor; vm_compute; intuition discriminate|]);
      intros k v j H; repeat (destruct H as [H|H]; [injection H as <- <-; intros X; inversion X; constructor|]); destruct H. }
  split; [split; [apply P; simpl; auto|exact I]|].
  split; [split; [apply P; simpl; auto|exact I]|]. split.
  - intros (_ & H & _). discriminate.
  - intros sha256. unfold checksum. f_equal.
Qed.
Print Assumptions C36_namespace_field_refuted.
Example unit_c_too : canonical unit_c = canonical unit_a.
Proof. vm_compute. reflexivity. Qed.

(** A unit with an awkward text, from a template, with its fields in two orders. *)
Definition unit_d : unitdef :=
  mk_unitdef [(tx "plugin", Sym (tx "shell")); (tx "id", plain "x"); (tx "command", Plain (JStr [ch 34; ch 10; ch 233]))]
    (Some (tx "com.example")) (Some [(tx "b", plain "2"); (tx "a", plain "1")]).
Definition unit_e : unitdef :=
  mk_unitdef [(tx "command", Plain (JStr [ch 34; ch 10; ch 233])); (tx "plugin", plain "shell"); (tx "id", plain "x")]
    (Some (tx "com.example")) (Some [(tx "a", plain "1"); (tx "b", plain "2")]).
Example unit_d_text : string_of_list_ascii (canonical unit_d) =
  "{""command"":""\""\n\u00e9"",""id"":""x"",""plugin"":""shell"",""namespace"":""com.example""}{""a"":""1"",""b"":""2""}"%string.
Proof. vm_compute. reflexivity. Qed.
Example unit_d_e : canonical unit_d = canonical unit_e.
Proof. vm_compute. reflexivity. Qed.
Example unit_d_proper : proper unit_d /\ no_namespace_field unit_d.
Proof.
  split; [split; split|]; try (vm_compute; repeat constructor; vm_compute; intuition discriminate).
  - intros k v j H. repeat (destruct H as [H|H]; [injection H as <- <-; intros X; inversion X; constructor|]). destruct H.
  - intros k v j H. repeat (destruct H as [H|H]; [injection H as <- <-; intros X; inversion X; constructor|]). destruct H.
Qed.
