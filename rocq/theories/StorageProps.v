(** Theorems about session storage (properties C11, C12, C13). *)
From Coq Require Import Ascii String List Bool Arith Lia.
From Verif Require Import StorageModel StorageSpec StorageProofs.
Import ListNotations.
Open Scope string_scope.
Open Scope list_scope.

(** * C11: saving is atomic *)

(** Killed at any point, with any system calls failing, the saved data is the
    old or the new data. *)
Theorem C11_atomic_when_killed :
  forall s new tr rest s', sane s ->
    runs (save_checkpoint new) s tr rest s' ->
    saved s' = saved s \/ saved s' = new.
Proof. intros s d tr p' s' Z H. eapply saving_saved; eauto. eapply save_runs; eauto. Qed.
Print Assumptions C11_atomic_when_killed.

(** When the machine stops at any point, what is saved afterwards is the new
    data or something that could already have been found before; in particular
    the old data if that was safely on disk. *)
Theorem C11_atomic_when_power_fails :
  forall s new tr rest s' x, sane s ->
    runs (save_checkpoint new) s tr rest s' -> flushed tr = true ->
    may_load s' x -> may_load s x \/ x = new.
Proof. intros s d tr p' s' x Z H. eapply saving_may_load; eauto. eapply save_runs; eauto. Qed.
Print Assumptions C11_atomic_when_power_fails.

(** A save that returned without faults is on disk, whatever happens next. *)
Theorem C11_finished_save_is_durable :
  forall s new tr a s', sane s ->
    runs (save_checkpoint new) s tr (Ret a) s' -> faultless tr = true ->
    saved s' = new /\ (forall x, may_load s' x -> x = new).
Proof.
  intros s d tr a s' Z H Hf. destruct (next s) as [i|] eqn:En.
  - now apply (locked_returns _ _ _ _ _ _ En) in H.
  - pose proof (free_returns _ _ _ _ _ Z En H Hf). tauto.
Qed.
Print Assumptions C11_finished_save_is_durable.

(** Over any history of saves, lock breaks, kills and power failures, the saved
    data is one that was given to a save in full, or nothing. *)
Theorem C11_never_garbage :
  forall power l s, history power l s -> saved s = [] \/ In (saved s) l.
Proof.
  intros power l s H. apply history_HInv in H. destruct H as [Z H1 _].
  destruct Z as (Z1 & _). unfold saved. destruct (current s) as [i|]; auto.
Qed.
Print Assumptions C11_never_garbage.

(** Loading gives the saved data, completely, or raises; it changes nothing. *)
Theorem C11_load_is_faithful :
  forall s tr p s', runs load_checkpoint s tr p s' ->
    s' = s /\ (forall x, p = Ret x -> x = saved s) /\
    (ended p -> faultless tr = true -> p = Ret (saved s)).
Proof.
  intros s tr p s' H.
  assert (G : always (fun _ x => x = s)
     (fun tr p x => (forall d, p = Ret d -> d = saved s) /\
        (faultless tr = true -> p = Ret (saved s))) [] load_checkpoint s).
  { unfold load_checkpoint, finally, bind, call. cbn.
    repeat match goal with
    | |- _ /\ _ => split
    | |- forall a s', sysstep _ _ _ _ -> _ =>
        let a := fresh "a" in let s' := fresh "s" in let H := fresh "H" in
        intros a s' H; inv_step H; cbn
    | |- context [Nat.eqb ?n ?m] => destruct (Nat.eqb_spec n m); cbn
    | |- _ -> _ => intros
    end; try reflexivity; try discriminate; try congruence;
    try (match goal with H : current _ = _ |- _ => unfold saved; rewrite H end);
    try congruence;
    repeat match goal with
    | H : Ret _ = Ret _ |- _ => injection H as <-
    | H : List.length (firstn ?m ?c) = _ |- _ =>
        assert (firstn m c = c) by (apply firstn_all2; rewrite firstn_length in H; lia);
        clear H
    end; congruence. }
  destruct (always_runs _ _ _ _ _ _ _ H [] G) as [H1 H2]. split; auto. split.
  - intros x ->. apply H2; auto. left. eexists; reflexivity.
  - intros He Hf. now apply H2.
Qed.
Print Assumptions C11_load_is_faithful.

(** The sanity hypothesis above holds after any history. *)
Theorem C11_histories_are_sane : forall power l s, history power l s -> sane s.
Proof. intros power l s H. apply (history_HInv _ _ _ H). Qed.
Print Assumptions C11_histories_are_sane.

(** When flushing the file fails the code goes on; then a power failure can
    leave garbage. *)
Definition A : bytes := list_ascii_of_string "old".
Definition B : bytes := list_ascii_of_string "new".
Definition G : bytes := list_ascii_of_string "###".

Definition saved_once : fs := sync_dir (rename_files 0 (sync_file 0 (append_file 0 A (create_next new_fs)))).

Lemma run_once : runs (save_checkpoint A) new_fs
  [(OpenDir, ADone); (OpenNext, AFd 0); (Write 0 A, ANum 3); (Fsync 0, ADone);
   (CloseFile 0, ADone); (Rename, ADone); (FsyncDir, ADone); (CloseDir, ADone)]
  (Ret tt) saved_once.
Proof.
  unfold save_checkpoint, write_next, rename_next, finally, bind, call. cbn.
  econstructor; [constructor|]. cbn. econstructor; [apply (st_opennext new_fs); reflexivity|]. cbn.
  econstructor; [apply (st_write _ _ _ 3); auto|]. cbn.
  econstructor; [constructor|]. cbn. econstructor; [constructor|]. cbn.
  econstructor; [apply (st_rename _ 0); reflexivity|]. cbn.
  econstructor; [constructor|]. cbn. econstructor; [constructor|]. cbn. constructor.
Qed.

Example C11_case : sane new_fs /\ saved new_fs = [] /\ saved saved_once = A /\
  history true [A] saved_once.
Proof.
  split; [apply (C11_histories_are_sane true []); constructor|].
  split; [reflexivity|]. split; [reflexivity|].
  eapply h_save; [constructor|apply run_once|reflexivity].
Qed.

Theorem C11_failing_flush_refuted :
  exists tr s', runs (save_checkpoint B) saved_once tr (Ret tt) s' /\
    may_load s' G /\ ~ may_load saved_once G /\ G <> B.
Proof.
  exists [(OpenDir, ADone); (OpenNext, AFd 1); (Write 1 B, ANum 3); (Fsync 1, AErr EOTHER);
    (CloseFile 1, ADone); (Rename, ADone); (FsyncDir, ADone); (CloseDir, ADone)],
    (sync_dir (rename_files 1 (append_file 1 B (create_next saved_once)))).
  split; [|split; [|split]].
  - unfold save_checkpoint, write_next, rename_next, finally, bind, call. cbn.
    econstructor; [constructor|]. cbn. econstructor; [apply (st_opennext saved_once); reflexivity|]. cbn.
    econstructor; [apply (st_write _ _ _ 3); auto|]. cbn.
    econstructor; [constructor; discriminate|]. cbn. econstructor; [constructor|]. cbn.
    econstructor; [apply (st_rename _ 1); reflexivity|]. cbn.
    econstructor; [constructor|]. cbn. econstructor; [constructor|]. cbn. constructor.
  - exists (mk_fs (fun i => if Nat.eqb i 1 then G else content saved_once i) (fun _ => true) 2
      (Some 1) None [Some 1] [None]).
    split; [|reflexivity]. repeat split; simpl; auto.
    intros [|[|i]] Hi; [reflexivity|discriminate|reflexivity].
  - intros (s' & (P1 & _ & _ & _ & _ & P6 & _) & E). simpl in P1. destruct P1 as [P1|[]].
    unfold saved in E. rewrite <- P1 in E. rewrite P6 in E by reflexivity. discriminate.
  - discriminate.
Qed.
Print Assumptions C11_failing_flush_refuted.

(** * C12: stale locks *)

(** While a next file exists, a save changes nothing at all and, when it ends,
    has raised: LockedStorageError unless a system call failed. *)
Theorem C12_locked_storage_is_left_alone :
  forall s i new tr p s', next s = Some i ->
    runs (save_checkpoint new) s tr p s' ->
    s' = s /\ (ended p -> raised p /\ (faultless tr = true -> p = Raise ELocked)).
Proof.
  intros s i d tr p s' En H. apply (locked_runs d _ _ _ _ _ En) in H.
  destruct H as [-> H]. split; auto. intros He. destruct (H He) as [[-> | ->] G];
    (split; [eexists; reflexivity|auto]).
Qed.
Print Assumptions C12_locked_storage_is_left_alone.

(** LockedStorageError is raised only when a next file exists. *)
Theorem C12_locked_means_locked :
  forall s new tr s', sane s ->
    runs (save_checkpoint new) s tr (Raise ELocked) s' -> next s <> None.
Proof. intros s d tr s' Z H En. apply free_never_locked in H; auto. now destruct H. Qed.
Print Assumptions C12_locked_means_locked.

(** Breaking the lock keeps the saved data, and removes the lock. *)
Theorem C12_break_lock :
  forall s tr p s', runs break_lock s tr p s' ->
    saved s' = saved s /\ (returned p -> next s' = None) /\
    (ended p -> faultless tr = true -> next s <> None -> returned p).
Proof.
  intros s tr p s' H. apply break_runs in H. destruct H as [H1 H2]. split; [|split].
  - destruct H1 as [-> | ->]; reflexivity.
  - intros Hr. destruct H2 as [(_ & _ & ->)|[(_ & -> & _)|(_ & -> & _)]]; [now left|reflexivity| |];
      destruct Hr; discriminate.
  - intros He Hf Hn. destruct (H2 He) as [(-> & _)|[(_ & _ & E)|(_ & _ & E)]]; [|congruence|congruence].
    eexists; reflexivity.
Qed.
Print Assumptions C12_break_lock.

(** After any history SessionManager.checkpoint, unless a system call fails,
    returns with the new data saved and safely on disk, whatever locks were
    left behind; and it can indeed run to its end. *)
Theorem C12_checkpoint_recovers :
  forall power l s new, history power l s ->
    (forall tr p s', runs (checkpoint new) s tr p s' -> ended p -> faultless tr = true ->
       returned p /\ saved s' = new /\ next s' = None /\ forall x, may_load s' x -> x = new) /\
    (exists tr p s', runs (checkpoint new) s tr p s' /\ ended p /\ faultless tr = true).
Proof.
  intros power l s d H. apply C11_histories_are_sane in H. split.
  - intros tr p s' Hr He Hf. destruct (checkpoint_runs _ _ _ _ _ H Hr) as [_ G].
    destruct (G He Hf) as (-> & G'). split; [eexists; reflexivity|auto].
  - apply faultless_run. apply readless_checkpoint.
Qed.
Print Assumptions C12_checkpoint_recovers.

(** The checkpoint is as atomic as the save. *)
Theorem C12_checkpoint_is_atomic :
  forall s new tr rest s', sane s ->
    runs (checkpoint new) s tr rest s' ->
    (saved s' = saved s \/ saved s' = new) /\
    (flushed tr = true -> forall x, may_load s' x -> may_load s x \/ x = new).
Proof.
  intros s d tr p s' Z H. apply checkpoint_runs in H; auto. destruct H as [H _]. split.
  - eapply saving_saved; eauto.
  - intros Hf x. eapply saving_may_load; eauto.
Qed.
Print Assumptions C12_checkpoint_is_atomic.

(** A save killed in the middle of a write leaves such a lock. *)
Definition torn : fs := append_file 1 (firstn 2 B) (create_next saved_once).
Example C12_case : history true [B; A] torn /\ next torn = Some 1 /\ saved torn = A.
Proof.
  split; [|split; reflexivity].
  eapply h_save with (tr := [(OpenDir, ADone); (OpenNext, AFd 1); (Write 1 B, ANum 2)]).
  - apply C11_case.
  - unfold save_checkpoint, write_next, rename_next, finally, bind, call. cbn.
    econstructor; [constructor|]. cbn. econstructor; [apply (st_opennext saved_once); reflexivity|]. cbn.
    econstructor; [apply (st_write _ _ _ 2); simpl; auto|]. cbn. constructor.
  - reflexivity.
Qed.

(** * C13: faults *)

(** If a save returns normally then the new data is saved, unless the rename
    failed; in that one case the old data is kept. *)
Theorem C13_return_means_saved :
  forall s new tr a s', sane s ->
    runs (save_checkpoint new) s tr (Ret a) s' ->
    if rename_failed tr then current s' = current s /\ saved s' = saved s else saved s' = new.
Proof.
  intros s d tr a s' Z H. destruct (next s) as [i|] eqn:En.
  - now apply (locked_returns _ _ _ _ _ _ En) in H.
  - pose proof (save_runs _ _ _ _ _ Z H) as S0. apply save_ends in H; auto; [|left; eexists; reflexivity].
    destruct H as (H1 & _). destruct (rename_failed tr); auto. split; auto.
    unfold saved. rewrite H1. destruct (current s) as [i|] eqn:Ei; auto.
    destruct Z as (Z1 & _ & Z3 & _). apply (sv_content _ _ _ _ S0). apply Z3. congruence.
Qed.
Print Assumptions C13_return_means_saved.

(** If it raises, the old data is kept, unless all that failed was closing the
    directory at the very end. *)
Theorem C13_raise_keeps_old :
  forall s new tr e s', sane s ->
    runs (save_checkpoint new) s tr (Raise e) s' ->
    saved s' = saved s \/ (In (CloseDir, AErr EOTHER) tr /\ saved s' = new).
Proof.
  intros s d tr e s' Z H. destruct (next s) as [i|] eqn:En.
  - apply (locked_runs d _ _ _ _ _ En) in H. destruct H as [-> _]. auto.
  - pose proof (save_runs _ _ _ _ _ Z H) as S0. apply save_ends in H; auto; [|right; eexists; reflexivity].
    destruct H as (H1 & H2 & H3 & H4). destruct (saving_saved _ _ _ _ S0 Z) as [E|E]; auto.
    destruct H4 as [H4|H4]; auto. left.
    unfold saved. rewrite H4. destruct (current s) as [i|] eqn:Ei; auto.
    destruct Z as (Z1 & _ & Z3 & _). apply (sv_content _ _ _ _ S0). apply Z3. congruence.
Qed.
Print Assumptions C13_raise_keeps_old.

(** A failed or partial write is always reported, and the old data is kept. *)
Theorem C13_failed_write_is_reported :
  forall s new tr p s', sane s ->
    runs (save_checkpoint new) s tr p s' -> ended p -> write_failed tr = true ->
    raised p /\ saved s' = saved s.
Proof.
  intros s d tr p s' Z H He Hw. destruct (next s) as [i|] eqn:En.
  - apply (locked_runs d _ _ _ _ _ En) in H. destruct H as [-> H]. split; auto.
    destruct (H He) as [[-> | ->] _]; eexists; reflexivity.
  - pose proof (save_runs _ _ _ _ _ Z H) as S0. apply save_ends in H; auto.
    destruct p as [a|e|c k]; [| |destruct He as [[x E]|[x E]]; discriminate].
    + destruct H as (_ & H & _). congruence.
    + split; [eexists; reflexivity|]. destruct H as (_ & _ & H & _). specialize (H Hw).
      unfold saved. rewrite H. destruct (current s) as [i|] eqn:Ei; auto.
      destruct Z as (Z1 & _ & Z3 & _). apply (sv_content _ _ _ _ S0). apply Z3. congruence.
Qed.
Print Assumptions C13_failed_write_is_reported.

(** The English claim "the caller is told" is false of a failing rename: the
    save returns normally and the data is not saved. *)
Theorem C13_failing_rename_refuted :
  exists tr s', runs (save_checkpoint B) saved_once tr (Ret tt) s' /\ saved s' = A.
Proof.
  exists [(OpenDir, ADone); (OpenNext, AFd 1); (Write 1 B, ANum 3); (Fsync 1, ADone);
    (CloseFile 1, ADone); (Rename, AErr EOTHER); (UnlinkNext, ADone); (FsyncDir, ADone); (CloseDir, ADone)],
    (sync_dir (unlink_next (sync_file 1 (append_file 1 B (create_next saved_once))))).
  split; [|reflexivity].
  unfold save_checkpoint, write_next, rename_next, finally, bind, call. cbn.
  econstructor; [constructor|]. cbn. econstructor; [apply (st_opennext saved_once); reflexivity|]. cbn.
  econstructor; [apply (st_write _ _ _ 3); auto|]. cbn.
  econstructor; [constructor|]. cbn. econstructor; [constructor|]. cbn.
  econstructor; [constructor; discriminate|]. cbn.
  econstructor; [apply (st_unlink _ 1); reflexivity|]. cbn.
  econstructor; [constructor|]. cbn. econstructor; [constructor|]. cbn. constructor.
Qed.
Print Assumptions C13_failing_rename_refuted.

Example C13_case : exists tr p s', runs (save_checkpoint B) saved_once tr p s' /\ ended p /\
  write_failed tr = true.
Proof.
  exists [(OpenDir, ADone); (OpenNext, AFd 1); (Write 1 B, ANum 2); (UnlinkNext, ADone);
    (CloseFile 1, ADone); (Rename, AErr ENOENT); (UnlinkNext, AErr ENOENT); (CloseDir, ADone)],
    (Raise (EOs ENOENT)), (unlink_next torn).
  split; [|split; [right; eexists; reflexivity|reflexivity]].
  unfold save_checkpoint, write_next, rename_next, finally, bind, call. cbn.
  econstructor; [constructor|]. cbn. econstructor; [apply (st_opennext saved_once); reflexivity|]. cbn.
  econstructor; [apply (st_write _ _ _ 2); simpl; auto|]. cbn.
  econstructor; [apply (st_unlink _ 1); reflexivity|]. cbn.
  econstructor; [constructor|]. cbn. econstructor; [apply st_rename_missing; reflexivity|]. cbn.
  econstructor; [apply st_unlink_missing; reflexivity|]. cbn.
  econstructor; [constructor|]. cbn. constructor.
Qed.
