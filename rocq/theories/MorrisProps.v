(** C29: signals. *)
From Coq Require Import List Bool Arith Lia.
From Verif Require Import MorrisModel.
Import ListNotations.
Open Scope list_scope.

(** * Specification *)

(** How many times a listener is connected to a signal. *)
Definition connections (w : world) (s : sig) (i : info) : nat := count_occ info_dec (w_sig w s) i.

(** Numbers of connections made and undone in a history. *)
Definition is_connect (s : sig) (i : info) (c : change) : bool :=
  match c with
  | Connected s' i' => if Nat.eq_dec s s' then if info_dec i i' then true else false else false
  | Disconnected _ _ => false
  end.
Definition is_disconnect (s : sig) (i : info) (c : change) : bool :=
  match c with
  | Disconnected s' i' => if Nat.eq_dec s s' then if info_dec i i' then true else false else false
  | Connected _ _ => false
  end.
Definition made (s : sig) (i : info) (tr : list change) : nat := length (filter (is_connect s i) tr).
Definition undone (s : sig) (i : info) (tr : list change) : nat := length (filter (is_disconnect s i) tr).

(** What was connected to a signal, in order. *)
Definition connected_to (s : sig) (tr : list change) : list info :=
  flat_map (fun c => match c with
                     | Connected s' i => if Nat.eq_dec s s' then [i] else []
                     | Disconnected _ _ => []
                     end) tr.

(** [sublist a b]: [a] is [b] with some elements left out. *)
Inductive sublist {A} : list A -> list A -> Prop :=
| sub_nil : sublist [] []
| sub_skip x a b : sublist a b -> sublist a (x :: b)
| sub_keep x a b : sublist a b -> sublist (x :: a) (x :: b).

(** Signals as they are before anything is connected; only a first responder
    (a plain callable) may be there. *)
Definition fresh_world (w : world) : Prop :=
  (forall o, w_track w o = None) /\ (forall s o n p, ~ In (LMeth o n, p) (w_sig w s)).

(** Worlds that a program can bring about. *)
Definition reachable (behaviour : info -> list op -> Prop) (w : world) : Prop :=
  exists w0 ops tr ok, fresh_world w0 /\ execs behaviour ops w0 tr w ok.

(** * Lemmas *)

Lemma upd_same {A} (f : nat -> A) i v : upd f i v i = v.
Proof. unfold upd. now rewrite Nat.eqb_refl. Qed.
Lemma upd_other {A} (f : nat -> A) i j v : j <> i -> upd f i v j = f j.
Proof. unfold upd. destruct (Nat.eqb_spec j i); congruence. Qed.

Lemma remove_first_count {A} dec (x y : A) l : In x l ->
  count_occ dec l y = count_occ dec (remove_first dec x l) y + (if dec x y then 1 else 0).
Proof.
  induction l as [|z l IH]; [intros []|]. intros H. cbn.
  destruct (dec x z) as [->|N].
  - destruct (dec z y); lia.
  - destruct H as [H|H]; [congruence|]. rewrite (IH H) by auto. cbn. destruct (dec z y); lia.
Qed.
Lemma in_remove_first {A} dec (x y : A) l : In x (remove_first dec y l) -> In x l.
Proof.
  induction l as [|z l IH]; cbn; auto. destruct (dec y z); cbn; [auto|]. intros [H|H]; auto.
Qed.
Lemma remove_first_sub {A} dec (x : A) l : sublist (remove_first dec x l) l.
Proof.
  induction l as [|z l IH]; cbn; [constructor|]. destruct (dec x z).
  - apply sub_skip. clear. induction l; [apply sub_nil|now apply sub_keep].
  - now apply sub_keep.
Qed.
Lemma sublist_refl {A} (l : list A) : sublist l l.
Proof. induction l; [apply sub_nil|now apply sub_keep]. Qed.
Lemma sublist_trans {A} (a b c : list A) : sublist a b -> sublist b c -> sublist a c.
Proof.
  intros H1 H2. revert a H1. induction H2; intros a' H1; auto.
  - apply sub_skip. auto.
  - inversion H1; subst; [apply sub_skip|apply sub_keep]; auto.
Qed.
Lemma sublist_app_r {A} (a b c : list A) : sublist a b -> sublist (a ++ c) (b ++ c).
Proof. induction 1; cbn; [apply sublist_refl|now apply sub_skip|now apply sub_keep]. Qed.

Lemma tget_set_same n v d : tget n (tset n v d) = Some v.
Proof.
  induction d as [|[m l] d IH]; cbn; [now rewrite Nat.eqb_refl|].
  destruct (Nat.eqb_spec n m) as [->|N]; cbn; [now rewrite Nat.eqb_refl|].
  destruct (Nat.eqb_spec n m); [congruence|auto].
Qed.
Lemma tget_set_other n m v d : m <> n -> tget m (tset n v d) = tget m d.
Proof.
  intros N. induction d as [|[k l] d IH]; cbn.
  - destruct (Nat.eqb_spec m n); congruence.
  - destruct (Nat.eqb_spec n k) as [->|K]; cbn.
    + destruct (Nat.eqb_spec m k); congruence.
    + destruct (Nat.eqb_spec m k); auto.
Qed.
Lemma tset_keys n v d x : In x (map fst (tset n v d)) -> In x (map fst d) \/ x = n.
Proof.
  induction d as [|[k l] d IH]; cbn; [intuition|].
  destruct (Nat.eqb_spec n k) as [->|K]; cbn; intuition.
Qed.
Lemma tset_nodup n v d : NoDup (map fst d) -> NoDup (map fst (tset n v d)).
Proof.
  induction d as [|[k l] d IH]; cbn; intros H.
  - constructor; [intros []|constructor].
  - inversion H; subst. destruct (Nat.eqb_spec n k) as [->|K]; cbn; constructor; auto.
    intros I. apply tset_keys in I as [I|I]; auto.
Qed.
Lemma tget_none n d : ~ In n (map fst d) -> tget n d = None.
Proof.
  induction d as [|[k l] d IH]; cbn; auto. intros H. destruct (Nat.eqb_spec n k); [subst; tauto|auto].
Qed.
Lemma tget_del_same n d : NoDup (map fst d) -> tget n (tdel n d) = None.
Proof.
  induction d as [|[k l] d IH]; cbn; auto. intros H. inversion H; subst.
  destruct (Nat.eqb_spec n k) as [->|K]; [now apply tget_none|]. cbn.
  destruct (Nat.eqb_spec n k); [congruence|auto].
Qed.
Lemma tget_del_other n m d : m <> n -> tget m (tdel n d) = tget m d.
Proof.
  intros N. induction d as [|[k l] d IH]; cbn; auto.
  destruct (Nat.eqb_spec n k) as [->|K]; cbn.
  - destruct (Nat.eqb_spec m k); congruence.
  - destruct (Nat.eqb_spec m k); auto.
Qed.
Lemma tdel_keys n d x : In x (map fst (tdel n d)) -> In x (map fst d).
Proof.
  induction d as [|[k l] d IH]; cbn; auto. destruct (Nat.eqb_spec n k); cbn; intuition.
Qed.
Lemma tdel_nodup n d : NoDup (map fst d) -> NoDup (map fst (tdel n d)).
Proof.
  induction d as [|[k l] d IH]; cbn; auto. intros H. inversion H; subst.
  destruct (Nat.eqb_spec n k); cbn; auto. constructor; auto. intros I. apply tdel_keys in I. auto.
Qed.

(** The signals a method is registered as listening to. *)
Definition tracked (w : world) (o : obj) (n : nat) : list sig :=
  match w_track w o with Some d => tget0 n d | None => [] end.

Definition keys_ok (w : world) : Prop :=
  forall o d, w_track w o = Some d -> NoDup (map fst d).

Definition consistent (w : world) : Prop :=
  keys_ok w /\
  forall o n s, count_occ Nat.eq_dec (tracked w o n) s =
    connections w s (LMeth o n, false) + connections w s (LMeth o n, true).

Lemma fresh_consistent w : fresh_world w -> consistent w.
Proof.
  intros [T F]. split.
  - intros o d E. rewrite T in E. discriminate.
  - intros o n s. unfold tracked. rewrite T. cbn. unfold connections.
    rewrite !(proj1 (count_occ_not_In info_dec _ _)); auto.
Qed.

Lemma connections_connect w s i s' i' :
  connections (connect w s i) s' i' =
  connections w s' i' + (if Nat.eq_dec s' s then if info_dec i' i then 1 else 0 else 0).
Proof.
  assert (E : w_sig (connect w s i) = upd (w_sig w) s (w_sig w s ++ [i])).
  { unfold connect. destruct (fst i); reflexivity. }
  unfold connections. rewrite E. destruct (Nat.eq_dec s' s) as [->|N].
  - rewrite upd_same, count_occ_app. cbn. destruct (info_dec i i'), (info_dec i' i); subst; try congruence; lia.
  - rewrite upd_other by auto. lia.
Qed.

Lemma tracked_connect w s i o n :
  tracked (connect w s i) o n =
  tracked w o n ++ (if listener_dec (fst i) (LMeth o n) then [s] else []).
Proof.
  unfold connect, tracked. destruct i as [[f|o' n'] p]; cbn [fst w_track].
  - destruct (listener_dec (LFun f) (LMeth o n)); [discriminate|]. now rewrite app_nil_r.
  - destruct (listener_dec (LMeth o' n') (LMeth o n)) as [E|N].
    + injection E as -> ->. rewrite upd_same. unfold tget0 at 1. now rewrite tget_set_same; destruct (w_track w o).
    + rewrite app_nil_r. unfold upd. destruct (Nat.eqb_spec o o') as [->|K]; auto.
      assert (n <> n') by congruence.
      unfold tget0 at 1. rewrite tget_set_other by auto. destruct (w_track w o'); reflexivity.
Qed.

Lemma connect_consistent w s i : consistent w -> consistent (connect w s i).
Proof.
  intros [K C]. split.
  - intros o d E. unfold connect in E. destruct i as [[f|o' n'] p]; cbn [fst w_track] in E; [eauto|].
    unfold upd in E. destruct (Nat.eqb_spec o o') as [->|N]; [|eauto].
    injection E as <-. apply tset_nodup. destruct (w_track w o') eqn:T; [eauto|constructor].
  - intros o n s'. rewrite tracked_connect, count_occ_app, C, !connections_connect.
    destruct i as [l p]. cbn [fst]. destruct (listener_dec l (LMeth o n)) as [->|N].
    + cbn [count_occ]. destruct p;
        repeat match goal with |- context [if ?d then _ else _] => destruct d; subst; try congruence end; lia.
    + cbn [count_occ]. destruct (Nat.eq_dec s' s) as [->|Ns]; [|lia].
      destruct (info_dec (LMeth o n, false) (l, p)); [exfalso; apply N; congruence|].
      destruct (info_dec (LMeth o n, true) (l, p)); [exfalso; apply N; congruence|]. lia.
Qed.

Lemma count_in {A} dec (l : list A) x : In x l <-> count_occ dec l x > 0.
Proof. apply count_occ_In. Qed.

Lemma disconnect_spec w s i : consistent w ->
  (In i (w_sig w s) -> exists w', disconnect w s i = (w', true) /\ consistent w' /\
     w_sig w' = upd (w_sig w) s (remove_first info_dec i (w_sig w s)) /\
     (forall o n, tracked w' o n = if listener_dec (fst i) (LMeth o n) then remove_first Nat.eq_dec s (tracked w o n) else tracked w o n)) /\
  (~ In i (w_sig w s) -> disconnect w s i = (w, false)).
Proof.
  intros [K C]. unfold disconnect. destruct (in_dec info_dec i (w_sig w s)) as [I|I]; [|tauto].
  split; [intros _|tauto].
  assert (Cnt : forall s' i', count_occ info_dec (w_sig w s') i' =
     count_occ info_dec (upd (w_sig w) s (remove_first info_dec i (w_sig w s)) s') i' +
     (if Nat.eq_dec s' s then if info_dec i i' then 1 else 0 else 0)).
  { intros s' i'. destruct (Nat.eq_dec s' s) as [->|N].
    - rewrite upd_same. now apply remove_first_count.
    - rewrite upd_other by auto. lia. }
  destruct i as [l p]. cbn [fst] in *. destruct l as [f|o n].
  - eexists. split; [reflexivity|]. cbn [w_sig w_track]. split; [split|split; [reflexivity|]].
    + exact K.
    + intros o n s'. change (tracked _ o n) with (tracked w o n). rewrite C. unfold connections. cbn [w_sig].
      rewrite !(Cnt s').
      destruct (info_dec (LFun f, p) (LMeth o n, false)), (info_dec (LFun f, p) (LMeth o n, true)); try discriminate.
      destruct (Nat.eq_dec s' s); lia.
    + intros o n. destruct (listener_dec (LFun f) (LMeth o n)); [discriminate|reflexivity].
  - assert (In s (tracked w o n)) as T.
    { apply (count_in Nat.eq_dec). rewrite C. unfold connections.
      assert (count_occ info_dec (w_sig w s) (LMeth o n, p) > 0) by (now apply count_in).
      destruct p; lia. }
    pose proof T as T0. unfold tracked in T0.
    destruct (w_track w o) as [d|] eqn:E; [|destruct T0].
    destruct (in_dec Nat.eq_dec s (tget0 n d)) as [_|NI]; [|contradiction].
    eexists. split; [reflexivity|]. cbn [w_sig w_track].
    match goal with |- consistent ?W /\ _ => set (w' := W) end.
    assert (TR : forall o' n', tracked w' o' n' =
       if listener_dec (LMeth o n) (LMeth o' n') then remove_first Nat.eq_dec s (tracked w o' n') else tracked w o' n').
    { intros o' n'. unfold tracked, w'. cbn [w_track].
      destruct (listener_dec (LMeth o n) (LMeth o' n')) as [X|X].
      - injection X as <- <-. rewrite upd_same, E.
        destruct (remove_first Nat.eq_dec s (tget0 n d)) eqn:R; unfold tget0 at 1.
        + now rewrite (tget_del_same n d (K _ _ E)).
        + now rewrite tget_set_same.
      - unfold upd. destruct (Nat.eqb_spec o' o) as [->|No]; [|reflexivity]. rewrite E.
        assert (n' <> n) by congruence.
        destruct (remove_first Nat.eq_dec s (tget0 n d)); unfold tget0.
        + now rewrite tget_del_other.
        + now rewrite tget_set_other. }
    split; [split|split; [reflexivity|exact TR]].
    + intros o' d' X. unfold w' in X. cbn [w_track] in X. unfold upd in X.
      destruct (Nat.eqb_spec o' o) as [->|No]; [|eauto]. injection X as <-.
      destruct (remove_first Nat.eq_dec s (tget0 n d)); [apply tdel_nodup|apply tset_nodup]; eauto.
    + intros o' n' s'. rewrite TR. unfold connections, w'. cbn [w_sig].
      pose proof (C o' n' s') as C'. unfold connections in C'. rewrite !(Cnt s') in C'.
      destruct (listener_dec (LMeth o n) (LMeth o' n')) as [X|X].
      * injection X as <- <-. pose proof (remove_first_count Nat.eq_dec s s' (tracked w o n) T) as RC.
        rewrite C' in RC.
        destruct p;
        repeat match type of RC with context [if ?d then _ else _] => destruct d; try congruence end; lia.
      * rewrite C'. destruct (info_dec (LMeth o n, p) (LMeth o' n', false)); [exfalso; congruence|].
        destruct (info_dec (LMeth o n, p) (LMeth o' n', true)); [exfalso; congruence|].
        destruct (Nat.eq_dec s' s); lia.
Qed.

Scheme exec_ind' := Induction for exec Sort Prop
  with calls_ind' := Induction for calls Sort Prop
  with execs_ind' := Induction for execs Sort Prop.
Combined Scheme exec_mutind from exec_ind', calls_ind', execs_ind'.

(** What an execution does to the connections. *)
Definition effect (w : world) (tr : list change) (w' : world) : Prop :=
  consistent w -> consistent w' /\
  (forall s i, connections w' s i + undone s i tr = connections w s i + made s i tr) /\
  (forall s, sublist (w_sig w' s) (w_sig w s ++ connected_to s tr)).

Lemma effect_nil w : effect w [] w.
Proof.
  intros C. split; auto. split; [auto|]. intros s. cbn. rewrite app_nil_r. apply sublist_refl.
Qed.
Lemma effect_app w t1 w1 t2 w2 : effect w t1 w1 -> effect w1 t2 w2 -> effect w (t1 ++ t2) w2.
Proof.
  intros E1 E2 C. destruct (E1 C) as (C1 & N1 & S1). destruct (E2 C1) as (C2 & N2 & S2).
  split; auto. split.
  - intros s i. specialize (N1 s i). specialize (N2 s i). unfold made, undone in *. rewrite !filter_app, !app_length. lia.
  - intros s. eapply sublist_trans; [apply S2|]. unfold connected_to. rewrite flat_map_app, app_assoc.
    apply sublist_app_r. apply S1.
Qed.
Lemma effect_connect w s i : effect w [Connected s i] (connect w s i).
Proof.
  intros C. split; [now apply connect_consistent|]. split.
  - intros s' i'. rewrite connections_connect. unfold undone, made. cbn.
    destruct (Nat.eq_dec s' s); [destruct (info_dec i' i)|]; cbn; lia.
  - intros s'. cbn. rewrite app_nil_r.
    assert (E : w_sig (connect w s i) = upd (w_sig w) s (w_sig w s ++ [i])).
    { unfold connect. destruct (fst i); reflexivity. }
    rewrite E. destruct (Nat.eq_dec s' s) as [->|N]; [rewrite upd_same|rewrite upd_other, app_nil_r by auto]; apply sublist_refl.
Qed.
Lemma effect_disconnect w s i w' : disconnect w s i = (w', true) -> effect w [Disconnected s i] w'.
Proof.
  intros D C. destruct (disconnect_spec w s i C) as [P N].
  destruct (in_dec info_dec i (w_sig w s)) as [I|I]; [|rewrite (N I) in D; discriminate].
  destruct (P I) as (w2 & E & C2 & S & _). rewrite E in D. injection D as <-.
  split; auto. split.
  - intros s' i'. unfold connections. rewrite S. unfold made, undone. cbn.
    destruct (Nat.eq_dec s' s) as [->|Ns].
    + rewrite upd_same, (remove_first_count info_dec i i' (w_sig w s) I).
      destruct (info_dec i' i), (info_dec i i'); subst; try congruence; cbn; lia.
    + rewrite upd_other by auto. cbn. lia.
  - intros s'. cbn. rewrite app_nil_r, S. destruct (Nat.eq_dec s' s) as [->|Ns].
    + rewrite upd_same. apply remove_first_sub.
    + rewrite upd_other by auto. apply sublist_refl.
Qed.
Lemma effect_disconnect_error w s i w' : disconnect w s i = (w', false) -> effect w [] w'.
Proof.
  intros D C. destruct (disconnect_spec w s i C) as [P N].
  destruct (in_dec info_dec i (w_sig w s)) as [I|I].
  - destruct (P I) as (w2 & E & _). congruence.
  - rewrite (N I) in D. injection D as <-. now apply effect_nil.
Qed.

Lemma exec_effect behaviour :
  (forall o w c tr w' ok, exec behaviour o w c tr w' ok -> effect w tr w') /\
  (forall l w c tr w' ok, calls behaviour l w c tr w' ok -> effect w tr w') /\
  (forall ops w tr w' ok, execs behaviour ops w tr w' ok -> effect w tr w').
Proof.
  apply (exec_mutind behaviour
    (fun o w c tr w' ok _ => effect w tr w')
    (fun l w c tr w' ok _ => effect w tr w')
    (fun ops w tr w' ok _ => effect w tr w')); intros;
    eauto using effect_nil, effect_app, effect_connect, effect_disconnect, effect_disconnect_error.
Qed.

Lemma reachable_consistent behaviour w : reachable behaviour w -> consistent w.
Proof.
  intros (w0 & ops & tr & ok & F & X).
  exact (proj1 (proj2 (proj2 (exec_effect behaviour)) _ _ _ _ _ X (fresh_consistent _ F))).
Qed.

(** * C29 *)

(** Firing calls exactly the listeners that were connected when it started, in
    connection order, whatever the listeners do to the connections; if one
    raises, exactly those before it (and it) were called. *)
Theorem C29_fire : forall behaviour s w called tr w' ok,
  exec behaviour (Fire s) w called tr w' ok ->
  (ok = true -> called = w_sig w s) /\
  (ok = false -> exists rest, w_sig w s = called ++ rest /\ called <> []).
Proof.
  intros behaviour s w called tr w' ok X. inversion X as [| | |s' w0 c t w1 ok' Hc| |]; subst. clear X.
  revert Hc. generalize (w_sig w s). intros l Hc.
  induction Hc as [w|i rest w ops tr1 w1 called tr2 w2 ok B E Hc IH|i rest w ops tr1 w1 B E].
  - split; auto. discriminate.
  - destruct IH as [IH1 IH2]. split; intros K.
    + now rewrite IH1.
    + destruct (IH2 K) as (r & -> & _). exists r. split; [reflexivity|discriminate].
  - split; [discriminate|]. intros _. exists rest. split; [reflexivity|discriminate].
Qed.
Print Assumptions C29_fire.

(** After any history, however nested, a listener is connected as many times as
    it was connected minus the times it was disconnected, and the listeners of a
    signal are in connection order. *)
Theorem C29_history : forall behaviour ops w tr w' ok,
  fresh_world w -> execs behaviour ops w tr w' ok ->
  (forall s i, connections w' s i + undone s i tr = connections w s i + made s i tr) /\
  (forall s, sublist (w_sig w' s) (w_sig w s ++ connected_to s tr)).
Proof.
  intros behaviour ops w tr w' ok F X.
  exact (proj2 (proj2 (proj2 (exec_effect behaviour)) _ _ _ _ _ X (fresh_consistent _ F))).
Qed.
Print Assumptions C29_history.

(** Disconnecting fails exactly when the listener is not connected, and then
    changes nothing. *)
Theorem C29_disconnect : forall behaviour w s i, reachable behaviour w ->
  (snd (disconnect w s i) = true <-> In i (w_sig w s)) /\
  (snd (disconnect w s i) = false -> fst (disconnect w s i) = w).
Proof.
  intros behaviour w s i R. destruct (disconnect_spec w s i (reachable_consistent _ _ R)) as [P N].
  destruct (in_dec info_dec i (w_sig w s)) as [I|I].
  - destruct (P I) as (w' & -> & _). cbn. split; [tauto|discriminate].
  - rewrite (N I). cbn. split; [split; [discriminate|tauto]|auto].
Qed.
Print Assumptions C29_disconnect.

(** What an object's methods are registered for is what they are connected to. *)
Theorem C29_registrations : forall behaviour w o n s, reachable behaviour w ->
  (In s (tracked w o n) <-> exists p, In (LMeth o n, p) (w_sig w s)).
Proof.
  intros behaviour w o n s R. destruct (reachable_consistent _ _ R) as [_ C].
  rewrite (count_in Nat.eq_dec), C. unfold connections. split.
  - intros H. destruct (count_occ info_dec (w_sig w s) (LMeth o n, false)) eqn:E.
    + exists true. apply (count_in info_dec). lia.
    + exists false. apply (count_in info_dec). lia.
  - intros [[] I]; apply (count_in info_dec) in I; lia.
Qed.
Print Assumptions C29_registrations.

(** ** remove_signals_listeners *)

(** The 2nd, 4th, ... element. *)
Fixpoint every_second {A} (l : list A) : list A :=
  match l with
  | _ :: y :: r => y :: every_second r
  | _ => []
  end.

Lemma remove_first_skip {A} dec (x : A) a b : ~ In x a -> remove_first dec x (a ++ x :: b) = a ++ b.
Proof.
  induction a as [|y a IH]; cbn; intros H.
  - destruct (dec x x); congruence.
  - destruct (dec x y) as [->|N]; [tauto|]. now rewrite IH by tauto.
Qed.

(** Listeners other than methods of [o] called [n] are not affected by the
    removal of [o]'s method [n]. *)
Definition same_others (o : obj) (P : nat -> Prop) (w w' : world) : Prop :=
  forall s i, (forall n p, P n -> i <> (LMeth o n, p)) -> connections w' s i = connections w s i.

Lemma remove_loop_spec o n : forall f w a b,
  consistent w -> tracked w o n = a ++ b -> NoDup (a ++ b) -> length b <= f ->
  (forall s, ~ In (LMeth o n, true) (w_sig w s)) ->
  exists w', remove_loop f w o n (length a) = (w', true) /\ consistent w' /\
    tracked w' o n = a ++ every_second b /\
    (forall s, ~ In (LMeth o n, true) (w_sig w' s)) /\
    (forall m, m <> n -> tracked w' o m = tracked w o m) /\
    same_others o (eq n) w w' /\ (forall s i, connections w' s i <= connections w s i).
Proof.
  intros f. induction f as [f IH] using lt_wf_ind. intros w a b C T ND L NT.
  destruct b as [|s b].
  - exists w. rewrite app_nil_r in *. assert (remove_loop f w o n (length a) = (w, true)) as ->.
    { destruct f; auto. cbn. unfold tracked in T. rewrite T.
      now rewrite (proj2 (nth_error_None a (length a)) (le_n _)). }
    repeat split; auto; try apply C.
  - destruct f as [|f]; [cbn in L; lia|]. cbn [remove_loop].
    change (match w_track w o with Some d => tget0 n d | None => [] end) with (tracked w o n).
    rewrite T, nth_error_app2, Nat.sub_diag by lia. cbn [nth_error].
    assert (I : In (LMeth o n, false) (w_sig w s)).
    { destruct C as [_ C]. specialize (C o n s). unfold connections in C.
      rewrite (proj1 (count_occ_not_In info_dec (w_sig w s) (LMeth o n, true)) (NT s)), Nat.add_0_r in C.
      apply (count_in info_dec). rewrite <- C. apply (count_in Nat.eq_dec). rewrite T. apply in_app_iff. right. now left. }
    destruct (disconnect_spec w s (LMeth o n, false) C) as [P _].
    destruct (P I) as (w1 & E & C1 & S1 & T1). rewrite E. cbn [fst] in T1.
    assert (NS : ~ In s a /\ NoDup (a ++ b)).
    { apply NoDup_remove in ND as [ND1 ND2]. split; auto. intros X. apply ND2. apply in_app_iff. auto. }
    destruct NS as [NS NDb].
    assert (T1' : tracked w1 o n = a ++ b).
    { rewrite T1. destruct (listener_dec (LMeth o n) (LMeth o n)); [|congruence]. rewrite T. now apply remove_first_skip. }
    assert (NT1 : forall x, ~ In (LMeth o n, true) (w_sig w1 x)).
    { intros x X. rewrite S1 in X. unfold upd in X. destruct (Nat.eqb_spec x s) as [Ex|]; [|exact (NT x X)].
      apply (NT s). exact (in_remove_first _ _ _ _ X). }
    assert (OT1 : forall m, m <> n -> tracked w1 o m = tracked w o m).
    { intros m Hm. rewrite T1. destruct (listener_dec (LMeth o n) (LMeth o m)); congruence. }
    assert (CC1 : forall x i, connections w x i = connections w1 x i + (if Nat.eq_dec x s then if info_dec (LMeth o n, false) i then 1 else 0 else 0)).
    { intros x i. unfold connections. rewrite S1. destruct (Nat.eq_dec x s) as [->|Nx].
      - rewrite upd_same. now apply remove_first_count.
      - rewrite upd_other by auto. lia. }
    destruct b as [|y b].
    + exists w1. rewrite app_nil_r in T1'. cbn [every_second]. rewrite app_nil_r.
      assert (remove_loop f w1 o n (S (length a)) = (w1, true)) as ->.
      { destruct f; auto. cbn [remove_loop]. change (match w_track w1 o with Some d => tget0 n d | None => [] end) with (tracked w1 o n).
        rewrite T1'. now rewrite (proj2 (nth_error_None a (S (length a)))) by lia. }
      repeat split; auto; try apply C1.
      * intros x i Hi. rewrite (CC1 x i). destruct (Nat.eq_dec x s); [|lia].
        destruct (info_dec (LMeth o n, false) i) as [<-|]; [|lia]. exfalso. exact (Hi n false eq_refl eq_refl).
      * intros x i. rewrite (CC1 x i). lia.
    + assert (T2 : tracked w1 o n = (a ++ [y]) ++ b) by (now rewrite <- app_assoc).
      destruct (IH f ltac:(lia) w1 (a ++ [y]) b C1 T2) as (w' & E' & C' & T' & NT' & OT' & SO' & LE').
      * now rewrite <- app_assoc.
      * cbn in L. lia.
      * exact NT1.
      * rewrite app_length in E'. cbn [length] in E'. rewrite Nat.add_1_r in E'.
        exists w'. cbn [every_second]. rewrite <- app_assoc in T'. cbn [app] in T'.
        repeat split; auto; try apply C'.
        -- intros m Hm. rewrite OT', OT1; auto.
        -- intros x i Hi. rewrite (SO' x i Hi), (CC1 x i). destruct (Nat.eq_dec x s); [|lia].
           destruct (info_dec (LMeth o n, false) i) as [<-|]; [|lia]. exfalso. exact (Hi n false eq_refl eq_refl).
        -- intros x i. specialize (LE' x i). rewrite (CC1 x i). lia.
Qed.

Lemma remove_all_spec o : forall ms w,
  consistent w -> NoDup ms -> (forall n, In n ms -> NoDup (tracked w o n)) ->
  (forall n s, ~ In (LMeth o n, true) (w_sig w s)) ->
  exists w', remove_all w o ms = (w', true) /\ consistent w' /\
    (forall n, tracked w' o n = if in_dec Nat.eq_dec n ms then every_second (tracked w o n) else tracked w o n) /\
    (forall n s, ~ In (LMeth o n, true) (w_sig w' s)) /\
    same_others o (fun n => In n ms) w w'.
Proof.
  induction ms as [|n ms IH]; intros w C ND NS NT.
  - exists w. cbn [remove_all]. repeat split; auto; try apply C.
  - inversion ND as [|? ? Nn NDms]; subst. cbn [remove_all].
    change (match w_track w o with Some d => length (tget0 n d) | None => 0 end)
      with (match w_track w o with Some d => length (tget0 n d) | None => length (@nil sig) end).
    assert (F : match w_track w o with Some d => length (tget0 n d) | None => length (@nil sig) end = length (tracked w o n)).
    { unfold tracked. now destruct (w_track w o). }
    rewrite F.
    destruct (remove_loop_spec o n (length (tracked w o n)) w [] (tracked w o n) C eq_refl (NS n (or_introl eq_refl)) (le_n _) (NT n))
      as (w1 & E1 & C1 & T1 & NT1 & OT1 & SO1 & LE1).
    cbn [length app] in *. rewrite E1.
    assert (NT1' : forall m s, ~ In (LMeth o m, true) (w_sig w1 s)).
    { intros m s X. apply (count_in info_dec) in X. specialize (LE1 s (LMeth o m, true)). unfold connections in LE1.
      rewrite (proj1 (count_occ_not_In info_dec (w_sig w s) (LMeth o m, true)) (NT m s)) in LE1. lia. }
    destruct (IH w1 C1 NDms) as (w' & E' & C' & T' & NT' & SO').
    { intros m Hm. rewrite OT1; [auto with datatypes|congruence]. }
    { exact NT1'. }
    exists w'. split; auto. split; auto. split; [|split; auto].
    + intros m. rewrite T'. destruct (in_dec Nat.eq_dec m ms) as [Im|Im]; destruct (in_dec Nat.eq_dec m (n :: ms)) as [Jm|Jm].
      * rewrite OT1; [auto|congruence].
      * exfalso. apply Jm. now right.
      * destruct Jm as [->|]; [exact T1|contradiction].
      * rewrite OT1; auto. intros ->. apply Jm. now left.
    + intros s i Hi. rewrite (SO' s i), (SO1 s i); auto.
      * intros m p <-. apply Hi. now left.
      * intros m p Hm. apply Hi. now right.
Qed.

Lemma tget_keys n d l : tget n d = Some l -> In n (map fst d).
Proof.
  induction d as [|[k v] d IH]; cbn; [discriminate|]. destruct (Nat.eqb_spec n k); auto.
Qed.

(** What remove_signals_listeners does, when no method is connected twice to the
    same signal or connected with pass_signal: each method stays connected to
    the 2nd, 4th, ... of its signals.  Listeners of other objects are left
    alone. *)
Theorem C29_removal : forall behaviour w o,
  reachable behaviour w -> (forall n, NoDup (tracked w o n)) ->
  (forall n s, ~ In (LMeth o n, true) (w_sig w s)) ->
  exists w', remove_signals_listeners w o = (w', true) /\
    (forall n s, In (LMeth o n, false) (w_sig w' s) <-> In s (every_second (tracked w o n))) /\
    (forall s i, (forall n p, i <> (LMeth o n, p)) -> connections w' s i = connections w s i).
Proof.
  intros behaviour w o R ND NT. pose proof (reachable_consistent _ _ R) as C.
  assert (Rest : forall w' n s, consistent w' -> (forall m x, ~ In (LMeth o m, true) (w_sig w' x)) ->
     (In (LMeth o n, false) (w_sig w' s) <-> In s (tracked w' o n))).
  { intros w' n s [_ C'] NT'. rewrite (count_in Nat.eq_dec), C', (count_in info_dec). unfold connections.
    rewrite (proj1 (count_occ_not_In info_dec (w_sig w' s) (LMeth o n, true)) (NT' n s)). lia. }
  unfold remove_signals_listeners. destruct (w_track w o) as [d|] eqn:E.
  - destruct (remove_all_spec o (map fst d) w C (proj1 C o d E) (fun n _ => ND n) NT) as (w' & E' & C' & T' & NT' & SO').
    exists w'. split; auto. split.
    + intros n s. rewrite (Rest w' n s C' NT'), T'. destruct (in_dec Nat.eq_dec n (map fst d)) as [I|I]; [tauto|].
      assert (tracked w o n = []) as ->; [|tauto].
      unfold tracked, tget0. rewrite E. destruct (tget n d) eqn:G; auto. apply tget_keys in G. contradiction.
    + intros s i Hi. apply SO'. auto.
  - exists w. split; auto. split; auto. intros n s. rewrite (Rest w n s C NT).
    unfold tracked. rewrite E. tauto.
Qed.
Print Assumptions C29_removal.

(** So an object whose methods listen to at most one signal each is
    disconnected from everything. *)
Theorem C29_removal_of_single_listeners : forall behaviour w o,
  reachable behaviour w -> (forall n, length (tracked w o n) <= 1) ->
  (forall n s, ~ In (LMeth o n, true) (w_sig w s)) ->
  exists w', remove_signals_listeners w o = (w', true) /\
    forall n p s, ~ In (LMeth o n, p) (w_sig w' s).
Proof.
  intros behaviour w o R L NT.
  assert (ND : forall n, NoDup (tracked w o n)).
  { intros n. specialize (L n). destruct (tracked w o n) as [|x [|y l]]; cbn in L; [constructor|repeat constructor; tauto|lia]. }
  pose proof (reachable_consistent _ _ R) as C.
  unfold remove_signals_listeners in *.
  destruct (C29_removal behaviour w o R ND NT) as (w' & E & P & Q). exists w'. split; [exact E|].
  intros n p s I. destruct p.
  - (* pass_signal connections were not there and are not created *)
    unfold remove_signals_listeners in E. destruct (w_track w o) as [d|] eqn:T.
    + destruct (remove_all_spec o (map fst d) w C (proj1 C o d T) (fun m _ => ND m) NT) as (w2 & E2 & _ & _ & NT' & _).
      rewrite E2 in E. injection E as <-. exact (NT' n s I).
    + injection E as <-. exact (NT n s I).
  - apply P in I. specialize (L n). destruct (tracked w o n) as [|x [|y l]]; cbn in L, I; auto; lia.
Qed.
Print Assumptions C29_removal_of_single_listeners.

(** But in general the claim is false: one method, two signals. *)
Definition empty_world : world := mk_world (fun _ => []) (fun _ => None).
Definition quiet (i : info) (l : list op) : Prop := l = [].
Lemma fresh_empty : fresh_world empty_world.
Proof. split; intros; cbn; auto. Qed.

Definition two_signals : world := connect (connect empty_world 1 (LMeth 0 0, false)) 2 (LMeth 0 0, false).
Lemma two_signals_reachable : reachable quiet two_signals.
Proof.
  exists empty_world, [Connect 1 (LMeth 0 0, false); Connect 2 (LMeth 0 0, false)],
    ([Connected 1 (LMeth 0 0, false)] ++ [Connected 2 (LMeth 0 0, false)] ++ []), true.
  split; [exact fresh_empty|].
  eapply e_cons; [constructor|]. eapply e_cons; [constructor|]. constructor.
Qed.

Theorem C29_removal_refuted : exists w o n s,
  reachable quiet w /\ snd (remove_signals_listeners w o) = true /\
  In (LMeth o n, false) (w_sig (fst (remove_signals_listeners w o)) s).
Proof.
  exists two_signals, 0, 0, 2. split; [exact two_signals_reachable|].
  split; [vm_compute; reflexivity|vm_compute; auto].
Qed.
Print Assumptions C29_removal_refuted.

(** And a method connected with pass_signal makes it raise ValueError. *)
Theorem C29_removal_with_pass_signal_refuted : exists w o,
  reachable quiet w /\ snd (remove_signals_listeners w o) = false.
Proof.
  exists (connect empty_world 1 (LMeth 0 0, true)), 0. split; [|vm_compute; reflexivity].
  exists empty_world, [Connect 1 (LMeth 0 0, true)], ([Connected 1 (LMeth 0 0, true)] ++ []), true.
  split; [exact fresh_empty|]. eapply e_cons; [constructor|constructor].
Qed.
Print Assumptions C29_removal_with_pass_signal_refuted.

(** A listener that disconnects the next one and connects a third: the fire in
    progress still calls the two listeners it started with. *)
Definition meddling (i : info) (l : list op) : Prop :=
  match fst i with
  | LFun 0 => l = [Disconnect 7 (LFun 1, false); Connect 7 (LFun 2, false)]
  | _ => l = []
  end.
Definition case_world : world := connect (connect empty_world 7 (LFun 0, false)) 7 (LFun 1, false).
Example C29_case : exists tr w',
  exec meddling (Fire 7) case_world [(LFun 0, false); (LFun 1, false)] tr w' true /\
  w_sig w' 7 = [(LFun 0, false); (LFun 2, false)].
Proof.
  eexists. eexists. split.
  - apply x_fire. cbn. eapply c_cons; [reflexivity| |].
    + eapply e_cons; [apply x_disconnect; reflexivity|]. eapply e_cons; [apply x_connect|]. apply e_nil.
    + eapply c_cons; [reflexivity|apply e_nil|apply c_nil].
  - reflexivity.
Qed.
Example C29_case_single : forall n, length (tracked (connect empty_world 1 (LMeth 0 0, false)) 0 n) <= 1.
Proof. intros [|n]; cbn; lia. Qed.
