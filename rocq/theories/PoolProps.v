(** * Theorems about the server with a pool of threads (C106) *)
From Coq Require Import List Bool Arith Lia.
From Verif Require Import PoolModel.
Import ListNotations.

(** ** Specification *)

(** The descriptors workers have in hand *)
Definition hold (x : worker) : list nat := match x with Idle => [] | Holding fd _ => [fd] | Inside fd _ _ => [fd] end.
Definition held (l : list worker) : list nat := flat_map hold l.
(** How often a descriptor is waiting: for something to arrive, for a worker, or in the hands of one *)
Definition count (fd : nat) (l : list nat) : nat := count_occ Nat.eq_dec l fd.
Definition places (fd : nat) (s : pool) : nat := count fd (polled s) + count fd (queue s) + count fd (held (workers s)).
(** Connections do not close their own sockets and no descriptor is 0 *)
Definition plain (e : event) : Prop := match e with Accept fd => fd <> 0 | CloseItself _ => False | _ => True end.
(** The requests a worker asked for since it last took a descriptor *)
Definition asked (w : nat) (so_far : nat) (e : event) : nat :=
  match e with
  | Take v => if Nat.eqb v w then 0 else so_far
  | Begin v => if Nat.eqb v w then S so_far else so_far
  | _ => so_far
  end.

(** ** Lemmas *)
Lemma count_cons fd x l : count fd (x :: l) = (if Nat.eqb fd x then 1 else 0) + count fd l.
Proof.
  unfold count. cbn. destruct (Nat.eq_dec x fd) as [->|N]; [now rewrite Nat.eqb_refl|].
  destruct (Nat.eqb_spec fd x); [congruence|reflexivity].
Qed.
Lemma count_app fd a b : count fd (a ++ b) = count fd a + count fd b.
Proof. apply count_occ_app. Qed.
Lemma count_nil fd : count fd [] = 0.
Proof. reflexivity. Qed.
Arguments count : simpl never.
Lemma mem_in x l : mem x l = true <-> In x l.
Proof.
  unfold mem. rewrite existsb_exists. split; [intros [y [I E]]; apply Nat.eqb_eq in E; now subst|].
  intros I. exists x. now rewrite Nat.eqb_refl.
Qed.
Lemma mem_count x l : mem x l = false -> count x l = 0.
Proof. intros E. apply count_occ_not_In. intros I. apply mem_in in I. congruence. Qed.
Lemma in_count x l : In x l <-> 1 <= count x l.
Proof. unfold count. rewrite (count_occ_In Nat.eq_dec). lia. Qed.
Lemma count_remove_all fd x l : count fd (remove_all x l) = if Nat.eqb fd x then 0 else count fd l.
Proof.
  unfold remove_all. induction l as [|y l IH]; cbn; [rewrite count_nil; now destruct (Nat.eqb fd x)|].
  destruct (Nat.eqb_spec x y) as [->|N]; cbn [negb].
  - rewrite IH, count_cons. now destruct (Nat.eqb fd y).
  - rewrite !count_cons, IH. destruct (Nat.eqb_spec fd x) as [->|M]; [|reflexivity].
    destruct (Nat.eqb_spec x y); [contradiction|reflexivity].
Qed.
Lemma held_set fd : forall l w x y, nth_error l w = Some x ->
  count fd (held (set_worker w y l)) + count fd (hold x) = count fd (held l) + count fd (hold y).
Proof.
  induction l as [|z l IH]; intros w x y E; [destruct w; discriminate|]. destruct w as [|w]; cbn in *.
  - injection E as ->. rewrite !count_app. lia.
  - specialize (IH w x y E). rewrite !count_app. unfold held in IH. lia.
Qed.
Lemma nth_set : forall l w v x, nth_error (set_worker w x l) v =
  if Nat.eqb v w then match nth_error l w with Some _ => Some x | None => None end else nth_error l v.
Proof.
  induction l as [|z l IH]; intros w v x.
  - destruct w, v; cbn; try reflexivity; now destruct (Nat.eqb v w).
  - destruct w as [|w], v as [|v]; cbn; try reflexivity. apply IH.
Qed.
Lemma lookup_del fd x t : lookup fd (del x t) = if Nat.eqb fd x then None else lookup fd t.
Proof.
  unfold del. induction t as [|[k c] t IH]; cbn; [now destruct (Nat.eqb fd x)|].
  destruct (Nat.eqb_spec x k) as [->|N]; cbn [negb].
  - rewrite IH. now destruct (Nat.eqb fd k).
  - cbn. rewrite IH. destruct (Nat.eqb_spec fd x) as [->|M]; [|reflexivity].
    destruct (Nat.eqb_spec x k); [contradiction|reflexivity].
Qed.
Lemma keys_in fd : forall t, mem fd (map fst t) = match lookup fd t with Some _ => true | None => false end.
Proof. induction t as [|[k c] t IH]; cbn; [reflexivity|]. unfold mem in *. destruct (Nat.eqb fd k); cbn; auto. Qed.
Lemma held_in w x fd : forall l, nth_error l w = Some x -> In fd (hold x) -> 1 <= count fd (held l).
Proof.
  intros l E I. apply in_count. unfold held. apply in_flat_map. exists x. split; [eapply nth_error_In; eauto|exact I].
Qed.
Lemma held_two fd : forall l w v x y, nth_error l w = Some x -> nth_error l v = Some y -> In fd (hold x) -> In fd (hold y) ->
  w <> v -> 2 <= count fd (held l).
Proof.
  induction l as [|z l IH]; intros w v x y E F I J N; [destruct w; discriminate|].
  destruct w as [|w], v as [|v]; cbn in E, F; [contradiction| | |]; cbn; rewrite count_app.
  - injection E as ->. apply in_count in I. pose proof (held_in v y fd l F J). unfold held in *. lia.
  - injection F as ->. apply in_count in J. pose proof (held_in w x fd l E I). unfold held in *. lia.
  - assert (w <> v) by congruence. specialize (IH w v x y E F I J H). unfold held in IH. lia.
Qed.
Lemma distinct_nodup l : distinct l = true <-> NoDup l.
Proof.
  induction l as [|x l IH]; cbn; [split; auto; constructor|]. rewrite andb_true_iff, negb_true_iff, IH. split.
  - intros [M N]. constructor; [|exact N]. rewrite <- mem_in. congruence.
  - intros N. inversion N as [|? ? NI N']; subst. split; [|exact N']. rewrite <- mem_in in NI. now destruct (mem x l).
Qed.

(** The invariant *)
Record inv (s : pool) : Prop := {
  i_places : forall fd, places fd s = match lookup fd (conns s) with Some _ => 1 | None => 0 end;
  i_zero : lookup 0 (conns s) = None;
  i_inside : forall w fd c n, nth_error (workers s) w = Some (Inside fd c n) -> lookup fd (conns s) = Some c;
  i_fresh : forall fd c, lookup fd (conns s) = Some c -> c < next s;
  i_inj : forall fd gd c, lookup fd (conns s) = Some c -> lookup gd (conns s) = Some c -> fd = gd;
  i_freed : freed s = [];
  i_missed : missed s = false;
  i_pending : NoDup (map fst (pending s));
  i_incl : forall fd, In fd (map fst (pending s)) -> In fd (polled s) }.

Lemma start_inv k : inv (start k).
Proof.
  assert (H : forall k, held (repeat Idle k) = []) by (induction k0; cbn; auto).
  split; unfold places; cbn; try easy; try constructor.
  - intros fd. now rewrite H.
  - intros w fd c n E. apply nth_error_In, repeat_spec in E. discriminate.
Qed.
Ltac bool_cases :=
  repeat match goal with
  | H : context [Nat.eqb ?a ?b] |- _ => destruct (Nat.eqb_spec a b); [subst|]
  | |- context [Nat.eqb ?a ?b] => destruct (Nat.eqb_spec a b); [subst|]
  end.
Lemma step_inv batch e s s' : plain e -> inv s -> step batch e s = Some s' -> inv s'.
Proof.
  intros PL I E. destruct I as [P Z In_ F J Fr Mi Pe Inc]. destruct e as [fd|l| |w|w|w a|w]; cbn [step] in E.
  - (* Accept *)
    rewrite Fr, keys_in in E. cbn in E. rewrite andb_true_r in E.
    destruct (lookup fd (conns s)) as [c|] eqn:L; [discriminate|]. injection E as <-. cbn in PL.
    pose proof (P fd) as Pf. rewrite L in Pf. unfold places in Pf.
    split; unfold add_inactive; cbn [conns next freed polled pending queue workers missed closed lookup].
    + intros gd. unfold places. cbn [polled queue workers].
      assert (M : mem fd (polled s) = false).
      { destruct (mem fd (polled s)) eqn:M; [|reflexivity]. apply mem_in, in_count in M. lia. }
      rewrite M, count_cons, lookup_del. specialize (P gd). unfold places in P. bool_cases; [lia|].
      destruct (lookup gd (conns s)); lia.
    + rewrite lookup_del. destruct fd; [contradiction|exact Z].
    + intros w gd c n E. specialize (In_ w gd c n E). rewrite lookup_del. bool_cases; [congruence|exact In_].
    + intros gd c. rewrite lookup_del. bool_cases; [intros E; injection E as <-; lia|]. intros E. apply F in E. lia.
    + intros gd hd c. rewrite !lookup_del. bool_cases; try congruence; intros A B;
        try (injection A as <-; apply F in B; lia); try (injection B as <-; apply F in A; lia). now apply (J _ _ c).
    + reflexivity.
    + exact Mi.
    + exact Pe.
    + intros gd H. apply Inc in H. destruct (mem fd (polled s)); [exact H|now right].
  - (* Poll *)
    destruct (pending s); [|discriminate].
    destruct (forallb _ l && distinct (map fst l)) eqn:B; [|discriminate]. injection E as <-.
    apply andb_true_iff in B. destruct B as [B D]. rewrite forallb_forall in B.
    split; cbn; auto; [now apply distinct_nodup|].
    intros fd H. apply in_map_iff in H. destruct H as [x [<- X]]. apply mem_in. now apply B.
  - (* Handle *)
    destruct (pending s) as [|[fd err] l] eqn:PD; [discriminate|]. cbn in Pe, Inc. inversion Pe as [|? ? NI ND]; subst.
    pose proof (Inc fd (or_introl eq_refl)) as IP. apply in_count in IP.
    pose proof (P fd) as Pf. unfold places in Pf.
    destruct (lookup fd (conns s)) as [c|] eqn:L; [|lia].
    assert (K : forall gd, In gd (map fst l) -> In gd (remove_all fd (polled s))).
    { intros gd H. apply in_count. rewrite count_remove_all. bool_cases; [contradiction|]. apply in_count, Inc. now right. }
    destruct err; injection E as <-.
    + unfold drop. cbn [conns remove_inactive with_pending]. rewrite L.
      split; cbn [remove_inactive with_pending conns next freed polled pending queue workers missed closed]; auto.
      * intros gd. unfold places. cbn [remove_inactive with_pending polled queue workers]. rewrite count_remove_all, lookup_del.
        specialize (P gd). unfold places in P. bool_cases; lia.
      * rewrite lookup_del. now destruct (Nat.eqb 0 fd).
      * intros w gd c' n E. rewrite lookup_del. specialize (In_ w gd c' n E). bool_cases; [|exact In_].
        pose proof (held_in w _ fd _ E (or_introl eq_refl)). lia.
      * intros gd c'. rewrite lookup_del. bool_cases; [discriminate|apply F].
      * intros gd hd c'. rewrite !lookup_del. bool_cases; try discriminate. apply J.
      * now rewrite Fr.
    + split; cbn [enqueue remove_inactive with_pending conns next freed polled pending queue workers missed closed]; auto.
      intros gd. unfold places. cbn [enqueue remove_inactive with_pending polled queue workers].
      rewrite count_remove_all, count_app, count_cons, count_nil. specialize (P gd). unfold places in P. bool_cases; [|lia].
      rewrite L. lia.
  - (* Take *)
    destruct (nth_error (workers s) w) as [[| |]|] eqn:W; try discriminate. destruct (queue s) as [|fd q] eqn:Q; [discriminate|].
    assert (fd <> 0).
    { intros ->. specialize (P 0). unfold places in P. rewrite Z, Q, count_cons in P. cbn in P. lia. }
    destruct (Nat.eqb_spec fd 0); [contradiction|]. injection E as <-.
    split; cbn [becomes conns next freed polled pending queue workers missed closed]; auto.
    + intros gd. unfold places. cbn [becomes polled queue workers]. specialize (P gd). unfold places in P.
      pose proof (held_set gd _ w _ (Holding fd batch) W) as HS. cbn [hold] in HS. rewrite Q, count_cons in P.
      rewrite count_cons, !count_nil in HS. bool_cases; lia.
    + intros v gd c n'. rewrite nth_set, W. bool_cases; [discriminate|apply In_].
  - (* Begin *)
    destruct (nth_error (workers s) w) as [[|fd [|n]|]|] eqn:W; try discriminate.
    + injection E as <-. split; cbn [becomes enqueue conns next freed polled pending queue workers missed closed]; auto.
      * intros gd. unfold places. cbn [becomes enqueue polled queue workers]. specialize (P gd). unfold places in P.
        pose proof (held_set gd _ w _ Idle W) as HS. cbn [hold] in HS.
        rewrite count_cons, !count_nil in HS. rewrite count_app, count_cons, count_nil. bool_cases; lia.
      * intros v gd c n'. rewrite nth_set, W. bool_cases; [discriminate|apply In_].
    + pose proof (held_in w _ fd _ W (or_introl eq_refl)) as HI. pose proof (P fd) as Pf. unfold places in Pf.
      destruct (lookup fd (conns s)) as [c|] eqn:L; [|lia]. injection E as <-.
      split; cbn [becomes conns next freed polled pending queue workers missed closed]; auto.
      * intros gd. unfold places. cbn [becomes polled queue workers]. specialize (P gd). unfold places in P.
        pose proof (held_set gd _ w _ (Inside fd c n) W) as HS. cbn [hold] in HS. lia.
      * intros v gd c' n'. rewrite nth_set, W. bool_cases; [|apply In_]. intros E. now injection E as <- <- <-.
  - (* End *)
    destruct (nth_error (workers s) w) as [[| |fd c n]|] eqn:W; try discriminate. injection E as <-.
    pose proof (held_in w _ fd _ W (or_introl eq_refl)) as HI. pose proof (P fd) as Pf. unfold places in Pf.
    pose proof (In_ w fd c n W) as L. rewrite L in Pf.
    destruct a.
    + split; cbn [becomes conns next freed polled pending queue workers missed closed]; auto.
      * intros gd. unfold places. cbn [becomes polled queue workers]. specialize (P gd). unfold places in P.
        pose proof (held_set gd _ w _ (Holding fd n) W) as HS. cbn [hold] in HS. lia.
      * intros v gd c' n'. rewrite nth_set, W. bool_cases; [discriminate|apply In_].
    + assert (M : mem fd (polled s) = false).
      { destruct (mem fd (polled s)) eqn:M; [|reflexivity]. apply mem_in, in_count in M. lia. }
      split; unfold becomes, add_inactive; cbn [conns next freed polled pending queue workers missed closed]; auto.
      * intros gd. unfold places. cbn [polled queue workers]. rewrite M. specialize (P gd). unfold places in P.
        pose proof (held_set gd _ w _ Idle W) as HS. cbn [hold] in HS. rewrite count_cons, !count_nil in HS.
        rewrite count_cons. bool_cases; lia.
      * intros v gd c' n'. rewrite nth_set, W. bool_cases; [discriminate|apply In_].
      * intros gd H. rewrite M. right. now apply Inc.
    + unfold drop. rewrite L. split; unfold becomes; cbn [conns next freed polled pending queue workers missed closed]; auto.
      * intros gd. unfold places. cbn [polled queue workers]. rewrite lookup_del. specialize (P gd). unfold places in P.
        pose proof (held_set gd _ w _ Idle W) as HS. cbn [hold] in HS. rewrite count_cons, !count_nil in HS.
        bool_cases; lia.
      * rewrite lookup_del. now destruct (Nat.eqb 0 fd).
      * intros v gd c' n'. rewrite nth_set, W, lookup_del. destruct (Nat.eqb_spec v w) as [->|N]; [discriminate|].
        intros E. specialize (In_ v gd c' n' E). bool_cases; [|exact In_].
        pose proof (held_two fd _ v w _ _ E W (or_introl eq_refl) (or_introl eq_refl) N). lia.
      * intros gd c'. rewrite lookup_del. bool_cases; [discriminate|apply F].
      * intros gd hd c'. rewrite !lookup_del. bool_cases; try discriminate. apply J.
      * now rewrite Fr.
    + split; cbn [becomes enqueue conns next freed polled pending queue workers missed closed]; auto.
      * intros gd. unfold places. cbn [becomes enqueue polled queue workers]. specialize (P gd). unfold places in P.
        pose proof (held_set gd _ w _ Idle W) as HS. cbn [hold] in HS.
        rewrite count_cons, !count_nil in HS. rewrite count_app, count_cons, count_nil. bool_cases; lia.
      * intros v gd c' n'. rewrite nth_set, W. bool_cases; [discriminate|apply In_].
  - destruct PL.
Qed.
Lemma run_inv batch : forall l s s', Forall plain l -> inv s -> run batch l s = Some s' -> inv s'.
Proof.
  induction l as [|e l IH]; intros s s' PL I E; cbn in E; [now injection E as <-|].
  inversion PL; subst. destruct (step batch e s) as [s1|] eqn:E1; [|discriminate]. apply (IH s1 s'); [assumption| |exact E]. now apply (step_inv batch e s).
Qed.

(** ** C106 *)

(** No connection is lost or taken up twice: at every moment each connection the server has waits in exactly one place,
    and nothing else is waiting *)
Theorem C106_one_place batch k l s fd : Forall plain l -> run batch l (start k) = Some s ->
  places fd s = match lookup fd (conns s) with Some _ => 1 | None => 0 end.
Proof. intros PL E. apply (run_inv batch l (start k) s PL (start_inv k) E). Qed.
(** No two workers are ever serving the same connection *)
Theorem C106_one_worker batch k l s w v fd gd c n m : Forall plain l -> run batch l (start k) = Some s ->
  nth_error (workers s) w = Some (Inside fd c n) -> nth_error (workers s) v = Some (Inside gd c m) -> w = v.
Proof.
  intros PL E A B. pose proof (run_inv batch l (start k) s PL (start_inv k) E) as I.
  pose proof (i_inside s I _ _ _ _ A) as LA. pose proof (i_inside s I _ _ _ _ B) as LB.
  pose proof (i_inj s I _ _ _ LA LB) as ->.
  destruct (Nat.eq_dec w v) as [|N]; [assumption|exfalso].
  pose proof (held_two gd _ w v _ _ A B (or_introl eq_refl) (or_introl eq_refl) N) as H.
  pose proof (i_places s I gd) as P. rewrite LA in P. unfold places in P. lia.
Qed.
(** A worker never looks for a connection in vain, and what it closes at the end of a connection is that connection *)
Theorem C106_right_connection batch k l s : Forall plain l -> run batch l (start k) = Some s ->
  missed s = false /\
  forall w fd c n s', nth_error (workers s) w = Some (Inside fd c n) -> step batch (End_ w Eof) s = Some s' ->
    closed s' = closed s ++ [c] /\ lookup fd (conns s') = None /\
    forall gd, gd <> fd -> lookup gd (conns s') = lookup gd (conns s).
Proof.
  intros PL E. pose proof (run_inv batch l (start k) s PL (start_inv k) E) as I. split; [apply I|].
  intros w fd c n s' W St. cbn in St. rewrite W in St. injection St as <-. unfold drop.
  rewrite (i_inside s I _ _ _ _ W). cbn. rewrite lookup_del, Nat.eqb_refl. split; [reflexivity|]. split; [reflexivity|].
  intros gd N. rewrite lookup_del. destruct (Nat.eqb_spec gd fd); [contradiction|reflexivity].
Qed.
(** A worker asks a connection for at most a batch of requests before it gives it back; this also when connections close
    themselves *)
Lemma snoc_run batch : forall l e s, run batch (l ++ [e]) s = match run batch l s with Some s1 => step batch e s1 | None => None end.
Proof.
  induction l as [|x l IH]; intros e s; cbn; [now destruct (step batch e s)|]. destruct (step batch x s); auto.
Qed.
Definition counted (batch w : nat) (so_far : nat) (s : pool) : Prop :=
  match nth_error (workers s) w with
  | Some (Holding _ n) => so_far + n = batch
  | Some (Inside _ _ n) => so_far + n = batch
  | _ => True
  end.
Lemma workers_drop fd s : workers (drop fd s) = workers s.
Proof. unfold drop. now destruct (lookup fd (conns s)). Qed.
Theorem C106_batches batch k l s w fd c n : run batch l (start k) = Some s ->
  nth_error (workers s) w = Some (Inside fd c n) -> fold_left (asked w) l 0 <= batch.
Proof.
  assert (K : forall l s, run batch l (start k) = Some s -> counted batch w (fold_left (asked w) l 0) s).
  { clear l s. intros l. induction l as [|e l IH] using rev_ind; intros s E.
    - cbn in E. injection E as <-. unfold counted. cbn.
      destruct (nth_error (repeat Idle k) w) as [x|] eqn:N; [|exact I]. apply nth_error_In, repeat_spec in N. now subst.
    - rewrite snoc_run in E. destruct (run batch l (start k)) as [s1|]; [|discriminate]. specialize (IH s1 eq_refl).
      rewrite fold_left_app. cbn [fold_left]. set (a := fold_left (asked w) l 0) in *. clearbody a. unfold counted in *.
      destruct e as [gd|p| |v|v|v x|v]; cbn [step asked] in *.
      + destruct (_ && _); [discriminate|]. now injection E as <-.
      + destruct (pending s1); [|discriminate]. destruct (_ && _); [|discriminate]. now injection E as <-.
      + destruct (pending s1) as [|[gd err] p]; [discriminate|]. injection E as <-. destruct err; [|exact IH].
        rewrite workers_drop. exact IH.
      + destruct (nth_error (workers s1) v) as [[| |]|] eqn:W; try discriminate. destruct (queue s1) as [|gd q]; [discriminate|].
        injection E as <-. rewrite (Nat.eqb_sym v w). destruct (Nat.eqb gd 0); cbn [becomes workers].
        * destruct (Nat.eqb_spec w v) as [->|N]; [now rewrite W|exact IH].
        * rewrite nth_set. destruct (Nat.eqb_spec w v) as [->|N]; [rewrite W; reflexivity|exact IH].
      + rewrite (Nat.eqb_sym v w). destruct (nth_error (workers s1) v) as [[|gd [|m]|]|] eqn:W; try discriminate.
        * injection E as <-. cbn [becomes enqueue workers]. rewrite nth_set, W. now destruct (Nat.eqb w v).
        * destruct (lookup gd (conns s1)); injection E as <-; cbn [becomes enqueue workers]; rewrite nth_set, W;
            destruct (Nat.eqb_spec w v) as [->|N]; try exact IH; try exact I. rewrite W in IH. lia.
      + destruct (nth_error (workers s1) v) as [[| |gd c' m]|] eqn:W; try discriminate. injection E as <-.
        destruct x; cbn [becomes enqueue add_inactive workers]; rewrite ?workers_drop, nth_set, W;
          destruct (Nat.eqb_spec w v) as [->|N]; try exact IH; try exact I. now rewrite W in IH.
      + destruct (nth_error (workers s1) v) as [[| |gd c' m]|] eqn:W; try discriminate. now injection E as <-. }
  intros E W. specialize (K l s E). unfold counted in K. rewrite W in K. lia.
Qed.
(** Refuted: the same when a descriptor may be 0, as when the standard input was closed. The worker drops it: the
    connection stays in the table and nothing waits for it *)
Theorem C106_descriptor_zero_refuted :
  ~ (forall batch k l s fd, (forall w, ~ In (CloseItself w) l) -> run batch l (start k) = Some s ->
     places fd s = match lookup fd (conns s) with Some _ => 1 | None => 0 end).
Proof.
  intros H.
  assert (Q : forall w, ~ In (CloseItself w) [Accept 0; Poll [(0, false)]; Handle; Take 0]).
  { intros w [E|[E|[E|[E|[]]]]]; discriminate. }
  pose proof (H 10 1 [Accept 0; Poll [(0, false)]; Handle; Take 0] _ 0 Q eq_refl) as X. vm_compute in X. discriminate.
Qed.
(** Refuted: the same when a connection closes its socket while it is served, as it does when the other side asks it to.
    The system may give the descriptor to a new connection before the worker is done with the old one. The worker then
    closes the new one, or serves it together with another worker *)
Definition reused := [Accept 5; Poll [(5, false)]; Handle; Take 0; Begin 0; CloseItself 0; Accept 5].
Theorem C106_reused_descriptor_refuted :
  (exists s s' fd n, run 10 reused (start 2) = Some s /\ nth_error (workers s) 0 = Some (Inside fd 0 n) /\
     step 10 (End_ 0 Eof) s = Some s' /\ closed s' = [1]) /\
  (exists s fd gd n m, run 10 (reused ++ [Poll [(5, false)]; Handle; Take 1; End_ 0 Served; Begin 0; Begin 1]) (start 2) = Some s /\
     nth_error (workers s) 0 = Some (Inside fd 1 n) /\ nth_error (workers s) 1 = Some (Inside gd 1 m)).
Proof.
  split.
  - destruct (run 10 reused (start 2)) as [s|] eqn:E; [|vm_compute in E; discriminate]. vm_compute in E. injection E as <-.
    eexists _, _, 5, 9. split; [reflexivity|]. split; [reflexivity|]. split; [reflexivity|]. reflexivity.
  - destruct (run 10 (reused ++ [Poll [(5, false)]; Handle; Take 1; End_ 0 Served; Begin 0; Begin 1]) (start 2)) as [s|] eqn:E;
      [|vm_compute in E; discriminate]. vm_compute in E. injection E as <-.
    exists (mk_pool [(5, 1)] 2 [] [] [] [] [Inside 5 1 8; Inside 5 1 9] false []), 5, 5, 8, 9. repeat split.
Qed.
Print Assumptions C106_one_place.
Print Assumptions C106_one_worker.
Print Assumptions C106_right_connection.
Print Assumptions C106_batches.
Print Assumptions C106_descriptor_zero_refuted.
Print Assumptions C106_reused_descriptor_refuted.
(** Two connections and two workers; the first is served twice and given back, the second ends and its descriptor is
    given out again *)
Definition busy := [Accept 5; Accept 6; Poll [(6, false); (5, false)]; Handle; Take 0; Begin 0; Handle; Take 1; Begin 1;
  End_ 0 Eof; Accept 6; End_ 1 Served; Begin 1].
Example C106_case : Forall plain busy /\
  match run 2 busy (start 2) with
  | Some s => conns s = [(6, 2); (5, 0)] /\ polled s = [6] /\ queue s = [] /\ workers s = [Idle; Inside 5 0 0] /\ closed s = [1] /\
              option_map queue (run 2 [End_ 1 Served; Begin 1] s) = Some [5] /\ fold_left (asked 1) busy 0 = 2
  | None => False
  end.
Proof. split; [repeat constructor; cbn; lia|vm_compute; repeat split]. Qed.
