(** Facts about the shared data structures. *)
From Coq Require Import String Ascii List Bool.
From Verif Require Import Base.
Import ListNotations.
Open Scope list_scope.

Lemma smem_In s l : smem s l = true <-> In s l.
Proof.
  induction l as [|x l IH]; simpl.
  - split; [discriminate | tauto].
  - rewrite orb_true_iff, String.eqb_eq, IH. split; intros [H|H]; auto.
Qed.

Lemma smem_false s l : smem s l = false <-> ~ In s l.
Proof.
  rewrite <- smem_In. destruct (smem s l); split; intros; congruence.
Qed.

Lemma dget_dset_same {A} k (v : A) d : dget k (dset k v d) = Some v.
Proof.
  induction d as [|[k' v'] d IH]; simpl.
  - now rewrite String.eqb_refl.
  - destruct (String.eqb k k') eqn:E; simpl; rewrite E; auto.
Qed.

Lemma dget_dset_other {A} k k2 (v : A) d :
  k2 <> k -> dget k2 (dset k v d) = dget k2 d.
Proof.
  intros Hne. induction d as [|[k' v'] d IH]; simpl.
  - destruct (String.eqb_spec k2 k); congruence.
  - destruct (String.eqb_spec k k'); simpl.
    + subst k'. destruct (String.eqb_spec k2 k); congruence.
    + destruct (String.eqb k2 k'); auto.
Qed.

Lemma dget_dset {A} k k2 (v : A) d :
  dget k2 (dset k v d) = if String.eqb k2 k then Some v else dget k2 d.
Proof.
  destruct (String.eqb_spec k2 k).
  - subst. apply dget_dset_same.
  - now apply dget_dset_other.
Qed.

Lemma dget_In_keys {A} k (d : dict A) :
  In k (dkeys d) <-> exists v, dget k d = Some v.
Proof.
  unfold dkeys. induction d as [|[k' v'] d IH]; simpl.
  - split; [tauto | intros [v H]; discriminate].
  - destruct (String.eqb_spec k k').
    + subst. split; eauto.
    + rewrite <- IH. split; [intros [H|H]; [congruence|auto] | auto].
Qed.

Lemma dget_None {A} k (d : dict A) : dget k d = None <-> ~ In k (dkeys d).
Proof.
  rewrite dget_In_keys. destruct (dget k d) eqn:E; split; intros H;
    try congruence.
  - exfalso. apply H. eauto.
  - intros [v Hv]. congruence.
Qed.

Lemma dmem_In {A} k (d : dict A) : dmem k d = true <-> In k (dkeys d).
Proof.
  unfold dmem. rewrite dget_In_keys. destruct (dget k d); split; intros;
    eauto; try congruence. destruct H as [v H]; congruence.
Qed.

Lemma dmem_false {A} k (d : dict A) : dmem k d = false <-> ~ In k (dkeys d).
Proof.
  rewrite <- dmem_In. destruct (dmem k d); split; intros; congruence.
Qed.

Lemma dget_In {A} k (v : A) d : dget k d = Some v -> In (k, v) d.
Proof.
  induction d as [|[k' v'] d IH]; simpl; [discriminate|].
  destruct (String.eqb_spec k k').
  - intros [= ->]. subst. auto.
  - auto.
Qed.

Lemma In_dget {A} k (v : A) d :
  NoDup (dkeys d) -> In (k, v) d -> dget k d = Some v.
Proof.
  induction d as [|[k' v'] d IH]; simpl; [tauto|].
  intros Hnd [H|H]; inversion Hnd as [|? ? Hni Hnd']; subst.
  - injection H as -> ->. now rewrite String.eqb_refl.
  - destruct (String.eqb_spec k k').
    + subst. exfalso. apply Hni. apply in_map_iff. now exists (k', v).
    + auto.
Qed.

Lemma dkeys_dset_mem {A} k (v : A) d :
  In k (dkeys d) -> dkeys (dset k v d) = dkeys d.
Proof.
  unfold dkeys. induction d as [|[k' v'] d IH]; simpl; [tauto|].
  destruct (String.eqb_spec k k').
  - intros _. now subst.
  - intros [H|H]; [congruence|]. simpl. now rewrite IH.
Qed.

Lemma dkeys_dset_new {A} k (v : A) d :
  ~ In k (dkeys d) -> dkeys (dset k v d) = dkeys d ++ [k].
Proof.
  unfold dkeys. induction d as [|[k' v'] d IH]; simpl; auto.
  intros H. destruct (String.eqb_spec k k').
  - subst. tauto.
  - simpl. rewrite IH; tauto.
Qed.

Lemma dset_new {A} k (v : A) d :
  ~ In k (dkeys d) -> dset k v d = d ++ [(k, v)].
Proof.
  unfold dkeys. induction d as [|[k' v'] d IH]; simpl; auto.
  intros H. destruct (String.eqb_spec k k').
  - subst. tauto.
  - rewrite IH; tauto.
Qed.

Lemma dkeys_dset_In {A} k k2 (v : A) d :
  In k2 (dkeys (dset k v d)) <-> k2 = k \/ In k2 (dkeys d).
Proof.
  rewrite !dget_In_keys, dget_dset.
  destruct (String.eqb_spec k2 k); split; intros; eauto.
  destruct H as [H|H]; [congruence|auto].
Qed.

Lemma NoDup_app_snoc {A} (l : list A) x : NoDup l -> ~ In x l -> NoDup (l ++ [x]).
Proof.
  induction 1 as [|y l Hy Hl IH]; simpl; intros H.
  - constructor; [tauto | constructor].
  - constructor.
    + rewrite in_app_iff; simpl. intros [?|[?|[]]]; subst; tauto.
    + apply IH. tauto.
Qed.

Lemma NoDup_dset {A} k (v : A) d : NoDup (dkeys d) -> NoDup (dkeys (dset k v d)).
Proof.
  intros H. destruct (in_dec string_dec k (dkeys d)) as [Hi|Hi].
  - now rewrite dkeys_dset_mem.
  - rewrite dkeys_dset_new by auto. now apply NoDup_app_snoc.
Qed.

Lemma dget_ddel_other {A} k k2 (d : dict A) :
  k2 <> k -> dget k2 (ddel k d) = dget k2 d.
Proof.
  intros Hne. induction d as [|[k' v'] d IH]; simpl; auto.
  destruct (String.eqb_spec k k').
  - subst. destruct (String.eqb_spec k2 k'); congruence.
  - simpl. destruct (String.eqb k2 k'); auto.
Qed.

Lemma dget_ddel_same {A} k (d : dict A) :
  NoDup (dkeys d) -> dget k (ddel k d) = None.
Proof.
  induction d as [|[k' v'] d IH]; simpl; auto.
  intros Hnd; inversion Hnd as [|? ? Hni Hnd']; subst.
  destruct (String.eqb_spec k k').
  - subst. now apply dget_None.
  - simpl. destruct (String.eqb_spec k k'); [congruence|auto].
Qed.

Lemma dkeys_ddel_incl {A} k (d : dict A) : incl (dkeys (ddel k d)) (dkeys d).
Proof.
  unfold dkeys. induction d as [|[k' v'] d IH]; simpl; intros x Hx; auto.
  destruct (String.eqb k k'); simpl in *; auto.
  destruct Hx; auto.
Qed.

Lemma NoDup_ddel {A} k (d : dict A) : NoDup (dkeys d) -> NoDup (dkeys (ddel k d)).
Proof.
  unfold dkeys. induction d as [|[k' v'] d IH]; simpl; auto.
  intros Hnd; inversion Hnd as [|? ? Hni Hnd']; subst.
  destruct (String.eqb k k'); simpl; auto.
  constructor; auto. intros Hi. apply Hni. now apply (dkeys_ddel_incl k d).
Qed.

Lemma sinsert_In s x l : In x (sinsert s l) <-> x = s \/ In x l.
Proof.
  induction l as [|y l IH]; simpl.
  - split; intros [H|H]; auto; tauto.
  - destruct (String.compare s y) eqn:E; simpl.
    + apply String.compare_eq_iff in E. subst.
      split; [tauto | intros [H|H]; auto].
    + split; intros [H|[H|H]]; auto.
    + rewrite IH. tauto.
Qed.

Lemma sorted_set_In x l : In x (sorted_set l) <-> In x l.
Proof.
  unfold sorted_set. induction l as [|y l IH]; simpl; [tauto|].
  rewrite sinsert_In, IH. split; intros [H|H]; auto.
Qed.
