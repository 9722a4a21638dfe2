(** Several processes saving into the same session directory (property C41).

    The model is that of StorageModel; here the system calls of any number of
    processes are interleaved in every possible way. *)
From Coq Require Import Ascii String List Bool Arith Lia.
From Verif Require Import StorageModel StorageSpec StorageProofs.
Import ListNotations.
Open Scope string_scope.
Open Scope list_scope.

(** One step of a group of processes: any of them makes its next call.  A
    process that is never chosen again was killed. *)
Inductive group_runs : list (prog unit) -> fs -> trace -> list (prog unit) -> fs -> Prop :=
| gr_stop ps s : group_runs ps s [] ps s
| gr_step l c k r s a s1 tr ps' s' :
    sysstep s c a s1 -> group_runs (l ++ k a :: r) s1 tr ps' s' ->
    group_runs (l ++ Call c k :: r) s ((c, a) :: tr) ps' s'.

(** * Stages of a save *)

Definition quiet (c : sys) : bool :=
  match c with Write _ _ | UnlinkNext | Rename | OpenNext => false | _ => true end.

Fixpoint harmless (p : prog unit) : Prop :=
  match p with
  | Call c k => quiet c = true /\ forall a, harmless (k a)
  | _ => True
  end.

(** Owns the next file [fd], which holds [d]. *)
Fixpoint written_stage (d : bytes) (fd : nat) (p : prog unit) : Prop :=
  match p with
  | Call Rename k => harmless (k ADone) /\ forall e, written_stage d fd (k (AErr e))
  | Call UnlinkNext k => forall a, harmless (k a)
  | Call c k => quiet c = true /\ forall a, written_stage d fd (k a)
  | _ => True
  end.

(** Owns the empty next file [fd]. *)
Definition open_stage (d : bytes) (fd : nat) (p : prog unit) : Prop :=
  match p with
  | Call c k => c = Write fd d /\ forall n, n = length d -> written_stage d fd (k (ANum n))
  | _ => False
  end.

Fixpoint idle_stage (d : bytes) (p : prog unit) : Prop :=
  match p with
  | Call OpenNext k => (forall fd, open_stage d fd (k (AFd fd))) /\ forall e, harmless (k (AErr e))
  | Call c k => quiet c = true /\ forall a, idle_stage d (k a)
  | _ => True
  end.

Lemma harmless_idle d p : harmless p -> idle_stage d p.
Proof.
  induction p as [a|e|c k IH]; simpl; auto. intros [Hc H]. destruct c; try discriminate; split; auto.
Qed.

Lemma idle_save d : idle_stage d (save_checkpoint d).
Proof.
  unfold save_checkpoint, write_next, rename_next, finally, bind, call. cbn.
  repeat match goal with
  | |- _ /\ _ => split
  | |- forall a : answer, _ => intros []; cbn
  | |- forall fd : nat, _ => intros ?; cbn
  | |- forall e : errno, _ => intros []; cbn
  | |- _ = length d -> _ => intros ->; rewrite Nat.eqb_refl; cbn
  | |- _ => progress cbn
  | |- True => exact I
  | |- _ = _ => reflexivity
  end.
Qed.

(** * The invariant *)

Definition owner (d : bytes) (p : prog unit) (s : fs) : Prop :=
  exists fd, next s = Some fd /\ current s <> Some fd /\
    ((open_stage d fd p /\ content s fd = []) \/ (written_stage d fd p /\ content s fd = d)).

Record GInv (s0 : fs) (ds : list bytes) (ps : list (prog unit)) (s : fs) : Prop := {
  g_sane : sane s;
  g_saved : saved s = saved s0 \/ In (saved s) ds;
  g_procs : Forall2 idle_stage ds ps \/
    exists d1 d d2 p1 p p2, ds = d1 ++ d :: d2 /\ ps = p1 ++ p :: p2 /\
      Forall2 idle_stage d1 p1 /\ Forall2 idle_stage d2 p2 /\ owner d p s
}.

Lemma quiet_step c a s s' : sysstep s c a s' -> quiet c = true ->
  content s' = content s /\ current s' = current s /\ next s' = next s /\ fresh s' = fresh s.
Proof. intros H. inv_step H; auto. Qed.

Lemma Forall2_app_inv {X Y} (P : X -> Y -> Prop) l p y r : Forall2 P l (p ++ y :: r) ->
  exists l1 x l2, l = l1 ++ x :: l2 /\ Forall2 P l1 p /\ P x y /\ Forall2 P l2 r.
Proof.
  intros H. apply Forall2_app_inv_r in H. destruct H as (l1 & l2 & H1 & H2 & ->).
  destruct l2 as [|x l2]; inversion H2; subst. exists l1, x, l2. auto.
Qed.

Lemma Forall2_mid {X Y} (P : X -> Y -> Prop) l1 x l2 p1 y p2 :
  Forall2 P l1 p1 -> P x y -> Forall2 P l2 p2 -> Forall2 P (l1 ++ x :: l2) (p1 ++ y :: p2).
Proof. intros. apply Forall2_app; auto. Qed.

(** An idle process that does not open the next file changes nothing that
    matters. *)
Lemma idle_step d c k s a s' : idle_stage d (Call c k) -> sysstep s c a s' ->
  (idle_stage d (k a) /\ content s' = content s /\ current s' = current s /\
     next s' = next s /\ fresh s' = fresh s) \/
  (c = OpenNext /\ next s = None /\ a = AFd (fresh s) /\ s' = create_next s /\
     open_stage d (fresh s) (k a)).
Proof.
  intros Hi Hs. destruct (quiet c) eqn:Eq.
  - left. destruct (quiet_step _ _ _ _ Hs Eq) as (H1 & H2 & H3 & H4).
    destruct c; try discriminate; destruct Hi as [_ Hi]; repeat split; auto.
  - destruct c; try discriminate; try (destruct Hi; discriminate).
    destruct Hi as [Ho He]. inversion Hs; subst.
    + left. repeat split; auto. apply harmless_idle. apply He.
    + right. repeat split; auto.
    + left. repeat split; auto. apply harmless_idle. apply He.
Qed.

Lemma saved_ext s s' : content s' = content s -> current s' = current s -> saved s' = saved s.
Proof. intros H1 H2. unfold saved. now rewrite H1, H2. Qed.

Lemma app_split {X} (l1 : list X) x r1 l2 y r2 : l1 ++ x :: r1 = l2 ++ y :: r2 ->
  (l1 = l2 /\ x = y /\ r1 = r2) \/
  (exists m, l2 = l1 ++ x :: m /\ r1 = m ++ y :: r2) \/
  (exists m, l1 = l2 ++ y :: m /\ r2 = m ++ x :: r1).
Proof.
  revert l2. induction l1 as [|a l1 IH]; intros [|b l2] H; simpl in *.
  - injection H as -> ->. auto.
  - injection H as -> ->. right. left. exists l2. auto.
  - injection H as <- <-. right. right. exists l1. auto.
  - injection H as -> H. apply IH in H. destruct H as [(-> & -> & ->)|[(m & -> & ->)|(m & -> & ->)]]; auto.
    + right. left. exists m. auto.
    + right. right. exists m. auto.
Qed.

Lemma sane_step s c a s' : sane s -> sysstep s c a s' -> sane s'.
Proof.
  intros (H1 & H2 & H3 & H4) Hs. inv_step Hs; repeat split; simpl; auto;
    try (intros j [E|Hj]; try discriminate; try injection E as E; try apply H3 in Hj; try apply H4 in Hj;
         subst; auto; fail).
  - intros j Hj. apply H3 in Hj. lia.
  - intros j [E|Hj]; [|auto]. apply H4. congruence.
  - intros j [E|[]]. apply H3. congruence.
  - intros j [E|[]]. apply H4. congruence.
Qed.

Lemma group_step s0 ds l c k r s a s1 :
  GInv s0 ds (l ++ Call c k :: r) s -> sysstep s c a s1 ->
  write_failed [(c, a)] = false -> GInv s0 ds (l ++ k a :: r) s1.
Proof.
  intros [Z Gs [Gp|(d1 & d & d2 & p1 & p & p2 & -> & Ep & G1 & G2 & Go)]] Hs Hw;
  pose proof (sane_step _ _ _ _ Z Hs) as Z1;
  assert (Gf : forall i, current s = Some i -> i < fresh s)
    by (intros i Hi; destruct Z as (Y1 & _ & Y3 & _); apply Y3; congruence).
  - (* nobody owns the next file *)
    apply Forall2_app_inv in Gp. destruct Gp as (d1 & d & d2 & -> & G1 & Gi & G2).
    destruct (idle_step _ _ _ _ _ _ Gi Hs) as [(Hi & H1 & H2 & H3 & H4)|(-> & Hn & -> & -> & Ho)].
    + constructor; [auto|rewrite (saved_ext s s1); auto|].
      left. now apply Forall2_mid.
    + constructor.
      * exact Z1.
      * replace (saved (create_next s)) with (saved s); auto. unfold saved. simpl.
        destruct (current s) as [i|] eqn:Ei; auto. rewrite upd_other; auto.
        specialize (Gf i eq_refl). lia.
      * right. exists d1, d, d2, l, (k (AFd (fresh s))), r. repeat split; auto.
        exists (fresh s). split; [reflexivity|]. split.
        -- simpl. intros E. apply Gf in E. lia.
        -- left. split; auto. simpl. now rewrite upd_same.
  - apply app_split in Ep. destruct Ep as [(-> & Ec & ->)|[(m & -> & ->)|(m & -> & ->)]].
    + (* the owner moves *)
      subst p. destruct Go as (fd & Hn & Hc & [[Ho Hd]|[Hwr Hd]]).
      * destruct Ho as [-> Hk]. inv_step Hs; try (cbn in Hw; discriminate).
        cbn in Hw. rewrite orb_false_r in Hw. apply negb_false_iff in Hw. apply Nat.eqb_eq in Hw. subst n.
        rewrite firstn_all. constructor; simpl; auto.
        -- replace (saved _) with (saved s); auto. unfold saved. simpl.
           destruct (current s) as [i|] eqn:Ei; auto. rewrite upd_other by congruence. reflexivity.
        -- right. exists d1, d, d2, p1, (k (ANum (length d))), p2. repeat split; auto.
           exists fd. simpl. split; auto. split; auto. right. split; auto.
           rewrite upd_same, Hd. reflexivity.
      * destruct (quiet c) eqn:Eq.
        -- destruct (quiet_step _ _ _ _ Hs Eq) as (H1 & H2 & H3 & H4).
           constructor; [auto|rewrite (saved_ext s s1); auto|].
           right. exists d1, d, d2, p1, (k a), p2. repeat split; auto.
           exists fd. rewrite H1, H2, H3. split; auto. split; auto. right. split; auto.
           destruct c; try discriminate; apply Hwr.
        -- destruct c; try discriminate; try (destruct Hwr; discriminate).
           ++ (* unlink *) assert (Hh : harmless (k a)) by apply Hwr.
              inv_step Hs; constructor; simpl; auto;
                left; apply Forall2_mid; auto; now apply harmless_idle.
           ++ (* rename *) destruct Hwr as [Hh He]. inv_step Hs.
              ** constructor; auto. right. exists d1. eexists. exists d2, p1, (k (AErr EOTHER)), p2.
                 split; [reflexivity|]. repeat split; auto. exists fd. auto.
              ** assert (i = fd) by congruence. subst i. constructor; simpl.
                 --- exact Z1.
                 --- right. unfold saved. simpl. apply in_elt.
                 --- left. apply Forall2_mid; auto. now apply harmless_idle.
    + (* somebody else moves *)
      apply Forall2_app_inv in G1. destruct G1 as (x1 & x & x2 & -> & X1 & Xi & X2).
      destruct Go as (fd & Hn & Hc & Hst).
      destruct (idle_step _ _ _ _ _ _ Xi Hs) as [(Hi & H1 & H2 & H3 & H4)|(_ & E & _)]; [|congruence].
      constructor; [auto|rewrite (saved_ext s s1); auto|].
      right. exists (x1 ++ x :: x2), d, d2, (l ++ k a :: m), p, p2.
      split; auto. split; [now rewrite <- app_assoc|]. split; [now apply Forall2_mid|]. split; auto.
      exists fd. rewrite H1, H2, H3. auto.
    + apply Forall2_app_inv in G2. destruct G2 as (x1 & x & x2 & -> & X1 & Xi & X2).
      destruct Go as (fd & Hn & Hc & Hst).
      destruct (idle_step _ _ _ _ _ _ Xi Hs) as [(Hi & H1 & H2 & H3 & H4)|(_ & E & _)]; [|congruence].
      constructor; [auto|rewrite (saved_ext s s1); auto|].
      right. exists d1, d, (x1 ++ x :: x2), p1, p, (m ++ k a :: r).
      split; auto. split; [now rewrite <- app_assoc|]. split; auto. split; [now apply Forall2_mid|].
      exists fd. rewrite H1, H2, H3. auto.
Qed.

Lemma group_inv s0 ds ps s tr ps' s' : group_runs ps s tr ps' s' ->
  write_failed tr = false -> GInv s0 ds ps s -> GInv s0 ds ps' s'.
Proof.
  induction 1 as [ps s|l c k r s a s1 tr ps' s' Hs Hr IH]; intros Hw G; auto.
  change ((c, a) :: tr) with ([(c, a)] ++ tr) in Hw. rewrite write_failed_app in Hw.
  apply orb_false_elim in Hw. destruct Hw as [Hw1 Hw2]. apply IH; auto.
  eapply group_step; eauto.
Qed.

(** * Theorems *)

(** However many processes save at the same time, and whichever of them are
    killed and whatever calls other than writes fail, the saved data is always
    the old data or the complete data of one of them. *)
Theorem C41_concurrent_saves :
  forall s datas tr procs s', sane s ->
    group_runs (map save_checkpoint datas) s tr procs s' ->
    write_failed tr = false ->
    saved s' = saved s \/ In (saved s') datas.
Proof.
  intros s ds tr ps s' Z H Hw. apply (group_inv s ds) in H; auto; [apply H|].
  constructor; auto. left. clear. induction ds; simpl; constructor; auto. apply idle_save.
Qed.
Print Assumptions C41_concurrent_saves.

Definition AA : bytes := list_ascii_of_string "old".
Definition BB : bytes := list_ascii_of_string "new".

(** At most one of them holds the next file open for writing at a time: while a
    save is between opening and renaming, every other save that gets to open
    it is refused. *)
Theorem C41_second_opener_is_refused :
  forall s a s' i, next s = Some i -> sysstep s OpenNext a s' ->
    s' = s /\ (a = AErr EEXIST \/ a = AErr EOTHER).
Proof. intros s a s' i Hn H. inv_step H; auto. Qed.
Print Assumptions C41_second_opener_is_refused.

Ltac go := unfold save_checkpoint, write_next, rename_next, finally, bind, call; cbn.

(** With a failing write this is false: the process whose write failed unlinks
    the next file, and then still tries to rename it; by then it can be the half
    written file of another process. *)
Theorem C41_failing_write_refuted :
  exists tr procs s', group_runs (map save_checkpoint [AA; BB]) new_fs tr procs s' /\
    saved s' = list_ascii_of_string "ne".
Proof.
  eexists _, _, (rename_files 1 (append_file 1 (firstn 2 BB) (create_next (unlink_next (append_file 0 [] (create_next new_fs)))))).
  split; [|reflexivity]. go.
  (* the first process opens, fails to write, unlinks and closes *)
  apply (gr_step [] _ _ _ _ ADone new_fs); [constructor|]. cbn.
  apply (gr_step [] _ _ _ _ (AFd 0) (create_next new_fs)); [apply (st_opennext new_fs); reflexivity|]. cbn.
  apply (gr_step [] _ _ _ _ (AErr EOTHER) (append_file 0 [] (create_next new_fs)));
    [apply (st_write_fault _ 0 AA 0); simpl; lia|]. cbn.
  apply (gr_step [] _ _ _ _ ADone (unlink_next (append_file 0 [] (create_next new_fs))));
    [eapply st_unlink; reflexivity|]. cbn.
  eapply (gr_step [] _ _ _ _ ADone); [constructor|]. cbn.
  (* the second one opens and writes a part *)
  eapply (gr_step [_] _ _ _ _ ADone); [constructor|]. cbn.
  eapply (gr_step [_] _ _ _ _ (AFd 1)); [match goal with |- sysstep ?s _ _ _ => exact (st_opennext s eq_refl) end|]. cbn.
  eapply (gr_step [_] _ _ _ _ (ANum 2)); [apply (st_write _ 1 BB 2); simpl; lia|]. cbn.
  (* the first one renames it *)
  eapply (gr_step [] _ _ _ _ ADone); [apply (st_rename _ 1); reflexivity|]. cbn.
  apply gr_stop.
Qed.
Print Assumptions C41_failing_write_refuted.

(** It is also false when a second manager breaks the lock of a running save:
    the first process then renames the half written file of the second. *)
Theorem C41_breaking_a_live_lock_refuted :
  exists tr procs s', group_runs (map checkpoint [AA; BB]) new_fs tr procs s' /\
    write_failed tr = false /\ saved s' = [].
Proof.
  eexists _, _, (rename_files 1 (create_next (unlink_next (append_file 0 (firstn 3 AA) (create_next new_fs))))).
  split; [unfold checkpoint, break_lock; go|].
  1: {
  eapply (gr_step [] _ _ _ _ ADone); [constructor|]. cbn.
  eapply (gr_step [] _ _ _ _ (AFd 0)); [apply (st_opennext new_fs); reflexivity|]. cbn.
  eapply (gr_step [] _ _ _ _ (ANum 3)); [apply (st_write _ 0 AA 3); simpl; lia|]. cbn.
  eapply (gr_step [] _ _ _ _ (AErr EOTHER)); [apply st_fault; discriminate|]. cbn.
  eapply (gr_step [] _ _ _ _ ADone); [constructor|]. cbn.
  (* second process: locked, breaks the lock and opens its own next file *)
  eapply (gr_step [_] _ _ _ _ ADone); [constructor|]. cbn.
  eapply (gr_step [_] _ _ _ _ (AErr EEXIST)); [apply (st_opennext_exists _ 0); reflexivity|]. cbn.
  eapply (gr_step [_] _ _ _ _ ADone); [constructor|]. cbn.
  eapply (gr_step [_] _ _ _ _ ADone); [apply (st_unlink _ 0); reflexivity|]. cbn.
  eapply (gr_step [_] _ _ _ _ ADone); [constructor|]. cbn.
  eapply (gr_step [_] _ _ _ _ (AFd 1)); [match goal with |- sysstep ?s _ _ _ => exact (st_opennext s eq_refl) end|]. cbn.
  (* the first process renames the empty file *)
  eapply (gr_step [] _ _ _ _ ADone); [apply (st_rename _ 1); reflexivity|]. cbn.
  apply gr_stop. }
  split; reflexivity.
Qed.
Print Assumptions C41_breaking_a_live_lock_refuted.
