(** * C80: an object stays available as long as the other side can use it *)
From Coq Require Import List Bool Arith Lia.
From Verif Require Import RefModel RefSpec.
Import ListNotations.
Local Open Scope nat_scope.
Local Open Scope list_scope.

Definition amount (h : slot) : nat := match h with None => 0 | Some n => n + 1 end.
Definition has {A} (p : option A) : nat := match p with Some _ => 1 | None => 0 end.
Definition dels (u : list up_message) : nat := length (filter (fun m => match m with Del _ => true | _ => false end) u).

Lemma dels_snoc u m : dels (u ++ [m]) = dels u + match m with Del _ => 1 | _ => 0 end.
Proof. unfold dels. rewrite filter_app, app_length. destruct m; reflexivity. Qed.
Lemma again_snoc t x : arrived_again (t ++ [x]) = arrived_again t + match x with Same_proxy => 1 | _ => 0 end.
Proof. unfold arrived_again. rewrite filter_app, app_length. destruct x; reflexivity. Qed.
Lemma amount_add h : amount (coll_add h) = amount h + 1.
Proof. destruct h; cbn; lia. Qed.
Lemma amount_decref h h' : coll_decref h 1 = Some h' -> amount h = amount h' + 1.
Proof. unfold coll_decref. destruct h as [n|]; [|discriminate]. destruct (Nat.ltb_spec n 1); intros X; inversion X; subst; unfold amount; lia. Qed.
Lemma decref_none h : coll_decref h 1 = None -> h = None.
Proof. unfold coll_decref. destruct h as [n|]; [|reflexivity]. destruct (n <? 1); discriminate. Qed.

(** the count of the collection is exact, but for references that arrived again *)
Lemma inv_amount t s : steps initial t s -> amount (held s) = down s + has (proxy s) + dels (up s) + arrived_again t.
Proof.
  intros H. remember initial as s0. induction H as [s|s x s' t s'' H IH ST]; [subst; reflexivity|]. specialize (IH Heqs0). rewrite again_snoc.
  destruct ST; cbn [held down proxy up has] in *; rewrite ?dels_snoc, ?amount_add; try lia.
  - destruct (coll_decref h 1) as [h'|] eqn:E; cbn [held down proxy up has].
    + apply amount_decref in E. cbn [dels] in IH. unfold dels in *. cbn in IH. lia.
    + exfalso. apply decref_none in E; subst h. unfold dels in IH. cbn in IH. lia.
  - unfold dels in *. cbn in IH. lia.
  - unfold dels in *. cbn in IH. lia.
Qed.
Lemma amount_available s : 0 < amount (held s) -> available s.
Proof. unfold available. destruct (held s) as [n|]; cbn; [eauto|lia]. Qed.

(** ** The object is available as long as the peer has a proxy or a reference is on its way *)
Theorem C80_available t s : steps initial t s -> proxy s <> None \/ 0 < down s -> available s.
Proof.
  intros H P. apply amount_available. rewrite (inv_amount _ _ H). destruct P as [P|P]; [|lia]. destruct (proxy s); [cbn; lia|now destruct P].
Qed.

(** ** What is kept
    When nothing is under way, the owner's entry counts the references that arrived while
    the peer had a proxy. *)
Theorem C80_what_is_kept t s : steps initial t s -> at_rest s ->
  match held s with None => arrived_again t = 0 | Some n => arrived_again t = n + 1 end.
Proof.
  intros H (D & P & U & L). pose proof (inv_amount _ _ H) as A. rewrite D, P, U in A. unfold amount in A. cbn in A. destruct (held s); lia.
Qed.
(** so the object is released exactly when that never happened *)
Theorem C80_released t s : steps initial t s -> at_rest s -> (~ available s <-> arrived_again t = 0).
Proof.
  intros H R. pose proof (C80_what_is_kept _ _ H R) as K. unfold available. destruct (held s) as [n|].
  - split; [intros N; exfalso; apply N; now exists n|lia].
  - split; [now intros|intros _ (n & E); discriminate].
Qed.

(** a use that has not been handled: somebody keeps the object for it *)
Definition covered (p : option nat) (u : list up_message) : Prop :=
  forall a k b, u = a ++ Use k :: b -> p <> None \/ exists c, In (Del c) b.
Lemma covered_tail p m u : covered p (m :: u) -> covered p u.
Proof. intros C a k b E. apply (C (m :: a) k b). now rewrite E. Qed.
Lemma snoc_split {A} (u : list A) x a y b : u ++ [x] = a ++ y :: b -> (b = [] /\ y = x /\ a = u) \/ exists b', b = b' ++ [x] /\ u = a ++ y :: b'.
Proof.
  destruct (@exists_last _ (y :: b)) as (l & z & E); [discriminate|]. intros H.
  rewrite E, app_assoc in H. apply app_inj_tail in H as [H1 H2]. subst z.
  destruct l as [|y' l].
  - injection E as -> ->. left. rewrite app_nil_r in H1. auto.
  - injection E as <- ->. right. exists l. now split.
Qed.
Lemma waits_in s : waits s = false -> (forall u, In u (up s) -> u <> Use Sync) /\ (forall k, In k (looking s) -> k <> Sync).
Proof.
  unfold waits. intros H. apply orb_false_iff in H as [A B]. split; intros x I ->.
  - assert (E : existsb (fun m => match m with Use Sync => true | _ => false end) (up s) = true) by (apply existsb_exists; eauto). congruence.
  - assert (E : existsb (fun m => match m with Sync => true | _ => false end) (looking s) = true) by (apply existsb_exists; eauto). congruence.
Qed.
Definition sync_held (s : state) : Prop := In (Use Sync) (up s) \/ In Sync (looking s) -> proxy s <> None.
Definition no_async_looking (s : state) : Prop := forall k, In k (looking s) -> k = Sync.
Definition no_nested_up (s : state) : Prop := ~ In (Use Async_nested) (up s).
Lemma inv_uses t s : steps initial t s -> no_nested t ->
  covered (proxy s) (up s) /\ sync_held s /\ no_async_looking s /\ no_nested_up s /\ failed s = false.
Proof.
  intros H. remember initial as s0. induction H as [s|s x s' t s'' H IH ST]; intros NN.
  - subst. split; [intros a k b E; destruct a; discriminate|]. split; [intros [[]|[]]|]. split; [intros k []|]. split; [intros []|reflexivity].
  - specialize (IH Heqs0). assert (NN' : no_nested t) by (intros I; apply NN, in_app_iff; now left).
    specialize (IH NN'). subst s. pose proof (inv_amount _ _ H) as AM.
    destruct IH as (C & SH & NA & NU & F). unfold sync_held, no_async_looking, no_nested_up in *.
    destruct ST; cbn [held down proxy up looking failed has] in *; subst.
    + auto.
    + split; [|split; [|auto]]; [|discriminate]. intros a k b E. left. discriminate.
    + split; [|split; [|auto]]; [|discriminate]. intros a k b E. left. discriminate.
    + apply waits_in in H0 as [W1 W2]. cbn [up looking] in *. split; [|split; [|split; [auto|split; [|auto]]]].
      * intros a k b E. right. apply snoc_split in E as [(-> & E & _)|(b' & -> & _)]; [discriminate|]. exists r. apply in_app_iff. right. now left.
      * intros [I|I]; exfalso.
        -- apply in_app_iff in I as [I|[I|[]]]; [|discriminate]. now apply (W1 _ I).
        -- now apply (W2 _ I).
      * intros I. apply in_app_iff in I as [I|[I|[]]]; [auto|discriminate].
    + split; [|split; [|split; [auto|split; [|auto]]]]; [|discriminate|].
      * intros a k' b E. left. discriminate.
      * intros I. apply in_app_iff in I as [I|[I|[]]]; [auto|]. injection I as ->. apply NN, in_app_iff. right. now left.
    + destruct (coll_decref h 1) as [h'|] eqn:E; cbn [held down proxy up looking failed].
      * split; [now apply covered_tail in C|]. split; [|split; [auto|split; [|auto]]]; intros I; [apply SH|apply NU]; intuition.
      * exfalso. apply decref_none in E; subst h. unfold dels in AM. cbn in AM. lia.
    + split; [now apply covered_tail in C|]. split; [|split; [|split; [|auto]]].
      * intros [I|[I|I]]; apply SH; auto.
        -- left. now right.
        -- subst k. left. now left.
      * intros k' [<-|I]; [|auto]. destruct H0 as [-> | ->]; [|reflexivity]. exfalso. apply NU. now left.
      * intros I. apply NU. now right.
    + assert (G : coll_get h = true).
      { destruct h; [reflexivity|]. exfalso. cbn in AM.
        destruct (C [] Async u eq_refl) as [P|(c & I)].
        - destruct p; [cbn in AM; lia|now destruct P].
        - unfold dels in AM. cbn in AM. assert (J : In (Del c) (filter (fun m => match m with Del _ => true | _ => false end) u)) by (apply filter_In; now split).
          destruct (filter _ u); [destruct J|cbn in AM; lia]. }
      rewrite G. split; [now apply covered_tail in C|]. split; [|split; [auto|split; [|auto]]]; intros I; [apply SH|apply NU]; intuition.
    + assert (k = Sync) as -> by (apply NA, in_app_iff; right; now left).
      assert (G : coll_get h = true).
      { destruct h; [reflexivity|]. exfalso. cbn in AM. assert (P : p <> None) by (apply SH; right; apply in_app_iff; right; now left).
        destruct p; [cbn in AM; lia|now destruct P]. }
      rewrite G. split; [auto|]. split; [|split; [|auto]].
      * intros [I|I]; apply SH; auto. right. apply in_app_iff in I. apply in_app_iff. destruct I; [now left|right; now right].
      * intros k I. apply NA. apply in_app_iff in I. apply in_app_iff. destruct I; [now left|right; now right].
Qed.
(** ** Every use finds the object
    also one that was under way when the proxy ended. *)
Theorem C80_uses_find_it t s : steps initial t s -> no_nested t -> failed s = false.
Proof. intros H N. apply (inv_uses _ _ H N). Qed.

Lemma steps_front s x s' t s'' : step s x s' -> steps s' t s'' -> steps s (x :: t) s''.
Proof.
  intros A B. revert A. induction B as [s'|s' y u t v B IH C]; intros A.
  - apply (ss_step s x s [] s'); [constructor|exact A].
  - change (x :: t ++ [y]) with ((x :: t) ++ [y]). eapply ss_step; [apply IH, A|exact C].
Qed.
Ltac by_ tac := eapply steps_front; [tac|cbn].

(** an asynchronous call whose arguments need a request of the owner need not find it *)
Theorem C80_nested_uses_find_it_refuted : ~ (forall t s, steps initial t s -> failed s = false).
Proof.
  intros H. assert (X : exists t s, steps initial t s /\ failed s = true); [|destruct X as (t & s & St & E); rewrite (H t s St) in E; discriminate].
  do 2 eexists. split.
  - unfold initial.
    by_ ltac:(apply s_box). by_ ltac:(apply s_unbox_new). by_ ltac:(apply (s_use _ _ _ _ _ _ Async_nested)).
    by_ ltac:(apply s_drop; reflexivity). by_ ltac:(apply s_begin; now left). by_ ltac:(apply s_del).
    by_ ltac:(apply (s_look _ _ _ _ _ [] [])). constructor.
  - reflexivity.
Qed.
(** an object of which a reference arrived twice is kept when the peer is done with it *)
Theorem C80_always_released_refuted : ~ (forall t s, steps initial t s -> at_rest s -> ~ available s).
Proof.
  intros H. assert (X : exists t, steps initial t (Build_state (Some 0) 0 None [] [] false)).
  { eexists. unfold initial. by_ ltac:(apply s_box). by_ ltac:(apply s_unbox_new). by_ ltac:(apply s_box). by_ ltac:(apply s_unbox_same).
    by_ ltac:(apply s_drop; reflexivity). by_ ltac:(apply s_del). constructor. }
  destruct X as (t & St). apply (H _ _ St); [repeat split|]. now exists 0.
Qed.

(** ** Cases *)
Example C80_case_released : exists t, steps initial t (Build_state None 0 None [] [] false) /\ length t = 9 /\ no_nested t.
Proof.
  eexists. split.
  - unfold initial. by_ ltac:(apply s_box). by_ ltac:(apply s_unbox_new). by_ ltac:(apply (s_use _ _ _ _ _ _ Sync)).
    by_ ltac:(apply s_begin; now right). by_ ltac:(apply (s_look _ _ _ _ _ [] [])). by_ ltac:(apply (s_use _ _ _ _ _ _ Async)).
    by_ ltac:(apply s_drop; reflexivity). by_ ltac:(apply s_begin_now). by_ ltac:(apply s_del). constructor.
  - split; [reflexivity|]. intros I. cbn in I. intuition discriminate.
Qed.

Print Assumptions C80_available.
Print Assumptions C80_what_is_kept.
Print Assumptions C80_released.
Print Assumptions C80_uses_find_it.
Print Assumptions C80_nested_uses_find_it_refuted.
Print Assumptions C80_always_released_refuted.
