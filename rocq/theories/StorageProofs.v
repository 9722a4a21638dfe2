From Coq Require Import Ascii List Bool Arith Lia.
From Verif Require Import StorageModel StorageSpec.
Import ListNotations.

(** * A program logic *)

Fixpoint always {A} (I : trace -> fs -> Prop) (post : trace -> prog A -> fs -> Prop)
    (tr : trace) (p : prog A) (s : fs) : Prop :=
  I tr s /\
  match p with
  | Call c k => forall a s', sysstep s c a s' -> always I post (tr ++ [(c, a)]) (k a) s'
  | _ => post tr p s
  end.

Lemma always_runs {A} (I : trace -> fs -> Prop) post (p : prog A) s tr p' s' :
  runs p s tr p' s' -> forall tr0, always I post tr0 p s ->
  I (tr0 ++ tr) s' /\ (ended p' -> post (tr0 ++ tr) p' s').
Proof.
  induction 1 as [p s|c k s a s1 tr p' s' Hs Hr IH]; intros tr0 H.
  - rewrite app_nil_r. destruct p; simpl in H; destruct H as [H1 H2]; split; auto.
    intros [[x E]|[x E]]; discriminate.
  - destruct H as [_ H]. specialize (H _ _ Hs). apply IH in H.
    now rewrite <- app_assoc in H.
Qed.

Lemma always_try {A B} I post1 post2 (p : prog A) (ok : A -> prog B) err tr s :
  always I post1 tr p s ->
  (forall tr a s, post1 tr (Ret a) s -> always I post2 tr (ok a) s) ->
  (forall tr e s, post1 tr (Raise e) s -> always I post2 tr (err e) s) ->
  always I post2 tr (try_ p ok err) s.
Proof.
  intros H H1 H2. revert tr s H. induction p as [a|e|c k IH]; intros tr s H; simpl in *.
  - apply H1. tauto.
  - apply H2. tauto.
  - destruct H as [H H3]. split; auto.
Qed.

Lemma always_weaken {A} (I I' : trace -> fs -> Prop) (post post' : trace -> prog A -> fs -> Prop) :
  (forall tr s, I tr s -> I' tr s) -> (forall tr p s, post tr p s -> post' tr p s) ->
  forall p tr s, always I post tr p s -> always I' post' tr p s.
Proof.
  intros HI HP. induction p as [a|e|c k IH]; intros tr s H; simpl in *; intuition.
Qed.

Lemma flushed_app a b : flushed (a ++ b) = (flushed a && flushed b)%bool.
Proof. apply forallb_app. Qed.
Lemma faultless_app a b : faultless (a ++ b) = (faultless a && faultless b)%bool.
Proof. apply forallb_app. Qed.
Lemma rename_failed_app a b : rename_failed (a ++ b) = (rename_failed a || rename_failed b)%bool.
Proof. apply existsb_app. Qed.
Lemma write_failed_app a b : write_failed (a ++ b) = (write_failed a || write_failed b)%bool.
Proof. apply existsb_app. Qed.

Lemma upd_same {A} (f : nat -> A) i v : upd f i v i = v.
Proof. unfold upd. now rewrite Nat.eqb_refl. Qed.
Lemma upd_other {A} (f : nat -> A) i v j : j <> i -> upd f i v j = f j.
Proof. unfold upd. intros H. apply Nat.eqb_neq in H. now rewrite H. Qed.

(** * Saving *)

(** How a file system [s] reached while saving [d] is related to the one it
    started from. *)
Record saving (d : bytes) (s0 : fs) (tr : trace) (s : fs) : Prop := {
  sv_sane : sane s;
  sv_fresh : fresh s0 <= fresh s;
  sv_content : forall i, i < fresh s0 -> content s i = content s0 i;
  sv_synced : forall i, i < fresh s0 -> synced s i = synced s0 i;
  sv_hist : forall o, In o (current_hist s) -> In o (current_hist s0) \/
      exists i, o = Some i /\ fresh s0 <= i /\ content s i = d /\
                (flushed tr = true -> synced s i = true);
  sv_cur : current s = current s0 \/
      exists i, current s = Some i /\ fresh s0 <= i
}.

(** How it ends. *)
Definition save_post (d : bytes) (s0 : fs) (tr : trace) (p : prog unit) (s : fs) : Prop :=
  match p with
  | Ret _ =>
      (if rename_failed tr then current s = current s0 else saved s = d) /\
      write_failed tr = false /\ next s = None /\
      (faultless tr = true -> saved s = d /\ forall x, may_load s x -> x = d)
  | Raise e =>
      (e = ELocked <-> False) /\
      (faultless tr = false) /\
      (write_failed tr = true -> current s = current s0) /\
      (In (CloseDir, AErr EOTHER) tr \/ current s = current s0)
  | Call _ _ => True
  end.

Ltac inv_step H := inversion H; subst; clear H; try discriminate; try congruence.

(** The run of a program with exception handling. *)
Lemma runs_try {A B} (p : prog A) (ok : A -> prog B) err s tr q s' :
  runs (try_ p ok err) s tr q s' ->
  (exists p', runs p s tr p' s' /\ q = try_ p' ok err) \/
  (exists a tr1 s1 tr2, tr = tr1 ++ tr2 /\ runs p s tr1 (Ret a) s1 /\ runs (ok a) s1 tr2 q s') \/
  (exists e tr1 s1 tr2, tr = tr1 ++ tr2 /\ runs p s tr1 (Raise e) s1 /\ runs (err e) s1 tr2 q s').
Proof.
  revert s tr. induction p as [a|e|c k IH]; intros s tr H; simpl in H.
  - right. left. exists a, [], s, tr. repeat split; auto. constructor.
  - right. right. exists e, [], s, tr. repeat split; auto. constructor.
  - inversion H; subst.
    + left. exists (Call c k). split; [constructor|reflexivity].
    + match goal with Hr : runs _ _ _ q s' |- _ => apply IH in Hr; rename Hr into H6 end.
      destruct H6 as [(p' & H6 & ->)|[(x & t1 & s2 & t2 & -> & H6 & H7)|(x & t1 & s2 & t2 & -> & H6 & H7)]].
      * left. exists p'. split; [econstructor; eauto|reflexivity].
      * right. left. exists x, ((c, a) :: t1), s2, t2. repeat split; auto. econstructor; eauto.
      * right. right. exists x, ((c, a) :: t1), s2, t2. repeat split; auto. econstructor; eauto.
Qed.

Lemma locked_save d s0 i : next s0 = Some i ->
  always (fun tr s => s = s0)
    (fun tr p s => (p = Raise ELocked \/ p = Raise (EOs EOTHER)) /\
                   (faultless tr = true -> p = Raise ELocked)) [] (save_checkpoint d) s0.
Proof.
  intros Hn. unfold save_checkpoint, finally, bind, call. cbn.
  repeat match goal with
  | |- _ /\ _ => split
  | |- forall a s', sysstep _ _ _ _ -> _ =>
      let a := fresh "a" in let s' := fresh "s" in let H := fresh "H" in
      intros a s' H; inv_step H; cbn
  | |- _ -> _ => intros
  end; auto; try discriminate; try congruence.
Qed.



(** The file created by a save is file number [fresh s0].  [before s0 s]: the
    rename did not happen yet; [after d s0 b s]: it did. *)
Record before (s0 s : fs) : Prop := {
  b_sane : sane s;
  b_cur : current s = current s0;
  b_hist : incl (current_hist s) (current_hist s0);
  b_fresh : fresh s = S (fresh s0);
  b_content : forall i, i < fresh s0 -> content s i = content s0 i;
  b_synced : forall i, i < fresh s0 -> synced s i = synced s0 i
}.

Record after (d : bytes) (b : bool) (s0 s : fs) : Prop := {
  a_sane : sane s;
  a_cur : current s = Some (fresh s0);
  a_hist : incl (current_hist s) (Some (fresh s0) :: current_hist s0);
  a_fresh : fresh s = S (fresh s0);
  a_content : forall i, i < fresh s0 -> content s i = content s0 i;
  a_synced : forall i, i < fresh s0 -> synced s i = synced s0 i;
  a_data : content s (fresh s0) = d;
  a_flushed : b = true -> synced s (fresh s0) = true
}.

Lemma saving_start d tr s : sane s -> saving d s tr s.
Proof. intros H. constructor; auto. Qed.

Lemma saving_before d tr s0 s : before s0 s -> saving d s0 tr s.
Proof. intros []. constructor; auto. rewrite b_fresh0. lia. Qed.

Lemma saving_after d tr s0 s : after d (flushed tr) s0 s -> saving d s0 tr s.
Proof.
  intros []. constructor; auto; [rewrite a_fresh0; lia| |right; exists (fresh s0); auto].
  intros o Ho. apply a_hist0 in Ho. destruct Ho as [<-|Ho]; auto.
  right. exists (fresh s0). auto.
Qed.

Lemma before_create s : sane s -> before s (create_next s).
Proof.
  intros (H1 & H2 & H3 & H4). constructor; simpl; auto using incl_refl.
  - repeat split; simpl; auto.
    + intros i Hi. apply H3 in Hi. lia.
    + intros i [E|Hi]; [injection E as ->; lia|]. apply H4 in Hi. lia.
  - intros. rewrite upd_other; auto. lia.
  - intros. rewrite upd_other; auto. lia.
Qed.

Lemma before_append s0 s x : before s0 s -> before s0 (append_file (fresh s0) x s).
Proof.
  intros []. constructor; simpl; auto.
  - intros. rewrite upd_other; auto. lia.
  - intros. rewrite upd_other; auto. lia.
Qed.

Lemma before_sync s0 s : before s0 s -> before s0 (sync_file (fresh s0) s).
Proof.
  intros []. constructor; simpl; auto. intros. rewrite upd_other; auto. lia.
Qed.

Lemma before_unlink s0 s : before s0 s -> before s0 (unlink_next s).
Proof.
  intros [(H1 & H2 & H3 & H4)]. constructor; simpl; auto.
  repeat split; simpl; auto. intros i [E|Hi]; [discriminate|auto].
Qed.

Lemma before_syncdir s0 s : before s0 s -> before s0 (sync_dir s).
Proof.
  intros [(H1 & H2 & H3 & H4)]. constructor; simpl; auto.
  - repeat split; simpl; auto; intros i [E|[]]; [apply H3|apply H4]; congruence.
  - intros o [<-|[]]. auto.
Qed.

Lemma after_rename d b s0 s : before s0 s -> content s (fresh s0) = d ->
  (b = true -> synced s (fresh s0) = true) ->
  after d b s0 (rename_files (fresh s0) s).
Proof.
  intros [(H1 & H2 & H3 & H4)] Hc Hs. constructor; simpl; auto.
  - repeat split; simpl; auto.
    + intros i [E|Hi]; [injection E as E; lia|auto].
    + intros i [E|Hi]; [discriminate|auto].
  - intros o [<-|Ho]; simpl; auto.
Qed.

Lemma after_syncdir d b s0 s : after d b s0 s -> after d b s0 (sync_dir s).
Proof.
  intros [(H1 & H2 & H3 & H4)]. constructor; simpl; auto.
  - repeat split; simpl; auto; intros i [E|[]]; [apply H3|apply H4]; congruence.
  - intros o [<-|[]]. auto.
Qed.

Lemma load_after d s0 s x : after d true s0 s -> may_load (sync_dir s) x -> x = d.
Proof.
  intros [] (s' & (P1 & _ & _ & _ & _ & P2 & _) & <-). simpl in *.
  destruct P1 as [P1|[]]. unfold saved. rewrite <- P1, a_cur0. rewrite P2; auto.
Qed.

Ltac before := first
  [ apply before_create; assumption
  | apply before_append; before
  | apply before_sync; before
  | apply before_unlink; before
  | apply before_syncdir; before ].
Ltac after := first
  [ apply after_syncdir; after
  | apply after_rename; [before|cbn; now rewrite ?upd_same, ?firstn_all|
      cbn; rewrite ?upd_same; first [discriminate|reflexivity]] ].

Lemma free_save d s0 : sane s0 -> next s0 = None ->
  always (saving d s0) (save_post d s0) [] (save_checkpoint d) s0.
Proof.
  intros Z Hn.
  unfold save_checkpoint, write_next, rename_next, finally, bind, call. cbn.
  repeat match goal with
  | |- saving _ _ _ _ => fail 1
  | |- save_post _ _ _ _ _ => fail 1
  | |- _ /\ _ => split
  | |- forall a s', sysstep _ _ _ _ -> _ =>
      let a := fresh "a" in let s' := fresh "s" in let H := fresh "H" in
      intros a s' H; inv_step H; cbn
  | |- context [Nat.eqb ?n (length d)] => destruct (Nat.eqb_spec n (length d)); subst; cbn
  end.
  all: try match goal with
  | H : next _ = Some ?i |- _ => cbn in H; injection H as <-
  end.
  all: try (match goal with |- saving _ _ _ _ => idtac end;
            first [apply saving_start; assumption | apply saving_before; before
                  | apply saving_after; after]).
  all: try (match goal with |- _ <-> False => split; [discriminate|contradiction] end).
  all: try reflexivity.
  all: try (intros; first [reflexivity|discriminate|congruence]).
  all: try solve [cbn; auto 12].
  all: try (intros _; split; [|intros x; eapply (load_after d s); after]).
  all: unfold saved; cbn; rewrite !upd_same; apply firstn_all.
Qed.

(** * Consequences *)

Lemma saving_saved d s0 tr s : saving d s0 tr s -> sane s0 -> saved s = saved s0 \/ saved s = d.
Proof.
  intros [] (Z1 & Z2 & Z3 & Z4). unfold saved. destruct sv_cur0 as [E|(i & E & Hi)].
  - left. rewrite E. destruct (current s0) as [j|]; auto.
  - right. rewrite E. destruct sv_sane0 as (Y1 & _). rewrite E in Y1.
    destruct (sv_hist0 _ Y1) as [H|(j & Hj & _ & H & _)]; [apply Z3 in H; lia|].
    congruence.
Qed.

Lemma saving_may_load d s0 tr s x : saving d s0 tr s -> sane s0 -> flushed tr = true ->
  may_load s x -> may_load s0 x \/ x = d.
Proof.
  intros [] (Z1 & Z2 & Z3 & Z4) Hf (s' & (P1 & P2 & P3 & P4 & P5 & P6 & P7) & <-).
  destruct (sv_hist0 _ P1) as [H|(j & Hj & _ & H & Hs)].
  - left. exists (mk_fs (fun i => if Nat.ltb i (fresh s0) then content s' i else content s0 i) (synced s') (fresh s0)
      (current s') (next s0) [current s'] [next s0]). split.
    + repeat split; simpl; auto. intros i Hi.
      destruct (Nat.ltb_spec i (fresh s0)); auto.
      rewrite P6; auto. rewrite sv_synced0; auto.
    + unfold saved. cbn [current content]. destruct (current s') as [i|]; auto. apply Z3 in H.
      apply Nat.ltb_lt in H. now rewrite H.
  - right. unfold saved. rewrite Hj, P6; auto.
Qed.

Lemma save_runs d s tr p' s' : sane s -> runs (save_checkpoint d) s tr p' s' ->
  saving d s tr s'.
Proof.
  intros Z H. destruct (next s) as [i|] eqn:E.
  - pose proof (locked_save d s i E) as G.
    apply (always_runs _ _ _ _ _ _ _ H) in G. destruct G as [-> _]. now apply saving_start.
  - exact (proj1 (always_runs _ _ _ _ _ _ _ H [] (free_save d s Z E))).
Qed.

Lemma save_ends d s tr p' s' : sane s -> next s = None -> runs (save_checkpoint d) s tr p' s' ->
  ended p' -> save_post d s tr p' s'.
Proof.
  intros Z E H He.
  destruct (always_runs _ _ _ _ _ _ _ H _ (free_save d s Z E)) as [_ G]. now apply G.
Qed.

Lemma locked_runs d s i tr p' s' : next s = Some i -> runs (save_checkpoint d) s tr p' s' ->
  s' = s /\ (ended p' -> (p' = Raise ELocked \/ p' = Raise (EOs EOTHER)) /\
                        (faultless tr = true -> p' = Raise ELocked)).
Proof.
  intros E H. exact (always_runs _ _ _ _ _ _ _ H _ (locked_save d s i E)).
Qed.

Lemma sane_unlink s : sane s -> sane (unlink_next s).
Proof.
  intros (H1 & H2 & H3 & H4). repeat split; simpl; auto. intros i [E|Hi]; [discriminate|auto].
Qed.

Lemma break_runs s tr p' s' : runs break_lock s tr p' s' ->
  (s' = s \/ s' = unlink_next s) /\
  (ended p' -> (p' = Ret tt /\ (exists i, next s = Some i) /\ s' = unlink_next s) \/
              (s' = s /\ p' = Raise (EOs EOTHER) /\ faultless tr = false) \/
              (s' = s /\ p' = Raise (EOs ENOENT) /\ next s = None)).
Proof.
  intros H. unfold break_lock, bind, call in H. cbn in H.
  inversion H; subst; [split; auto; intros [[x E]|[x E]]; discriminate|].
  match goal with Hs : sysstep _ _ _ _ |- _ => inv_step Hs end; cbn in *;
  match goal with Hr : runs _ _ _ _ _ |- _ => inversion Hr; subst end;
  (split; [tauto|]); intros _; eauto 6.
Qed.

Lemma saving_shift d s tr0 tr s' : saving d (unlink_next s) tr s' -> saving d s (tr0 ++ tr) s'.
Proof.
  intros []. constructor; auto. intros o Ho. destruct (sv_hist0 o Ho) as [H|(i & H1 & H2 & H3 & H4)]; auto.
  right. exists i. repeat split; auto. rewrite flushed_app. intros E. apply andb_prop in E. tauto.
Qed.

Lemma saving_stay d s tr : sane s -> saving d s tr s.
Proof. apply saving_start. Qed.

Lemma saving_unlink d s tr : sane s -> saving d s tr (unlink_next s).
Proof. intros H. constructor; simpl; auto. now apply sane_unlink. Qed.

Lemma free_never_locked d s tr e s' : sane s -> next s = None ->
  runs (save_checkpoint d) s tr (Raise e) s' -> e <> ELocked /\ faultless tr = false.
Proof.
  intros Z En H. apply save_ends in H; auto; [|right; eexists; reflexivity].
  destruct H as (H1 & H2 & _). split; auto. tauto.
Qed.

Lemma free_returns d s tr a s' : sane s -> next s = None ->
  runs (save_checkpoint d) s tr (Ret a) s' -> faultless tr = true ->
  saved s' = d /\ next s' = None /\ forall x, may_load s' x -> x = d.
Proof.
  intros Z En H Hf. apply save_ends in H; auto; [|left; eexists; reflexivity].
  destruct H as (H1 & H2 & H3 & H4). destruct (H4 Hf). auto.
Qed.

Lemma locked_returns d s i tr a s' : next s = Some i ->
  ~ runs (save_checkpoint d) s tr (Ret a) s'.
Proof.
  intros En H. apply (locked_runs d _ _ _ _ _ En) in H. destruct H as [_ H].
  destruct H as [[H|H] _]; [left; eexists; reflexivity| |]; discriminate.
Qed.

(** Everything a checkpoint can do. *)
Lemma checkpoint_runs d s tr p' s' : sane s -> runs (checkpoint d) s tr p' s' ->
  saving d s tr s' /\
  (ended p' -> faultless tr = true ->
     p' = Ret tt /\ saved s' = d /\ next s' = None /\ forall x, may_load s' x -> x = d).
Proof.
  intros Z H. unfold checkpoint in H. apply runs_try in H.
  destruct H as [(q & H & ->)|[(a & t1 & s1 & t2 & -> & H1 & H2)|(e & t1 & s1 & t2 & -> & H1 & H2)]].
  - split; [eapply save_runs; eauto|]. intros He Hf. destruct q as [[]|e|c k].
    + destruct (next s) as [i|] eqn:En; [now apply (locked_returns _ _ _ _ _ _ En) in H|].
      split; auto. eapply free_returns; eauto.
    + exfalso. destruct (next s) as [i|] eqn:En.
      * apply (locked_runs d _ _ _ _ _ En) in H. destruct H as [_ H].
        destruct H as [_ H]; [right; eexists; reflexivity|]. specialize (H Hf).
        injection H as ->. destruct He as [[x He]|[x He]]; discriminate.
      * apply free_never_locked in H; auto. destruct H. congruence.
    + destruct He as [[x He]|[x He]]; discriminate.
  - inversion H2; subst. rewrite app_nil_r.
    split; [eapply save_runs; eauto|]. intros _ Hf.
    destruct (next s) as [i|] eqn:En; [now apply (locked_returns _ _ _ _ _ _ En) in H1|].
    destruct a. split; auto. eapply free_returns; eauto.
  - destruct (next s) as [i|] eqn:En.
    + apply (locked_runs d _ _ _ _ _ En) in H1. destruct H1 as [-> H1].
      destruct H1 as [H1 Hl]; [right; eexists; reflexivity|].
      destruct H1 as [H1|H1]; injection H1 as ->.
      * apply runs_try in H2.
        destruct H2 as [(q & H2 & ->)|[(a & t3 & s3 & t4 & -> & H2 & H3)|(e & t3 & s3 & t4 & -> & H2 & H3)]].
        -- apply break_runs in H2. destruct H2 as [H2 He]. split.
           { destruct H2 as [-> | ->]; [now apply saving_start|now apply saving_unlink]. }
           intros Hq Hf. rewrite faultless_app in Hf. apply andb_prop in Hf. destruct Hf as [Hf1 Hf2].
           exfalso. destruct q as [[]|e|c k]; simpl in Hq.
           ++ destruct Hq as [[x E]|[x E]]; discriminate.
           ++ destruct He as [(E & _)|[(_ & _ & E)|(_ & _ & E)]];
                [right; eexists; reflexivity| | |]; congruence.
           ++ destruct Hq as [[x E]|[x E]]; discriminate.
        -- apply break_runs in H2. destruct H2 as [_ He].
           destruct He as [(_ & _ & ->)|[(_ & E & _)|(_ & E & _)]];
             [left; eexists; reflexivity| |discriminate|discriminate].
           assert (Zu : sane (unlink_next s)) by (now apply sane_unlink).
           split.
           { rewrite app_assoc. apply saving_shift. eapply save_runs; eauto. }
           intros Hp Hf. rewrite !faultless_app in Hf. apply andb_prop in Hf.
           destruct Hf as [_ Hf]. apply andb_prop in Hf. destruct Hf as [_ Hf].
           destruct p' as [[]|e|c k].
           ++ split; auto. eapply free_returns; eauto.
           ++ apply free_never_locked in H3; auto. destruct H3. congruence.
           ++ destruct Hp as [[x E]|[x E]]; discriminate.
        -- apply break_runs in H2. destruct H2 as [H2 He].
           inversion H3; subst. rewrite app_nil_r. split.
           { destruct H2 as [-> | ->]; [now apply saving_start|now apply saving_unlink]. }
           intros _ Hf. rewrite faultless_app in Hf. apply andb_prop in Hf. destruct Hf as [Hf1 Hf2].
           exfalso.
           destruct He as [(E & _)|[(_ & _ & E)|(_ & _ & E)]];
                [right; eexists; reflexivity| | |]; congruence.
      * inversion H2; subst. rewrite app_nil_r. split; [now apply saving_start|].
        intros _ Hf. specialize (Hl Hf). discriminate.
    + pose proof (free_never_locked _ _ _ _ _ Z En H1) as [Hne Hf].
      destruct e; try congruence; inversion H2; subst; rewrite app_nil_r;
        (split; [eapply save_runs; eauto|intros; congruence]).
Qed.

(** Without reads, a run without faults can always go on to the end. *)
Fixpoint readless {A} (p : prog A) : Prop :=
  match p with
  | Call c k => (forall fd n, c <> Read fd n) /\ forall a, readless (k a)
  | _ => True
  end.

Lemma can_answer s c : (forall fd n, c <> Read fd n) ->
  exists a s', sysstep s c a s' /\ fault (c, a) = false.
Proof.
  intros H. destruct c.
  - exists ADone, s. split; [constructor|auto].
  - exists ADone, s. split; [constructor|auto].
  - destruct (next s) as [i|] eqn:E.
    + exists (AErr EEXIST), s. split; [econstructor; eauto|auto].
    + eexists _, _. split; [apply st_opennext; auto|auto].
  - exists (ANum (length data)). eexists. split; [constructor; auto|]. simpl. now rewrite Nat.eqb_refl.
  - eexists ADone, _. split; [constructor|auto].
  - eexists ADone, _. split; [constructor|auto].
  - destruct (next s) as [i|] eqn:E.
    + exists ADone. eexists. split; [econstructor; eauto|auto].
    + eexists (AErr ENOENT), _. split; [constructor; auto|auto].
  - destruct (next s) as [i|] eqn:E.
    + exists ADone. eexists. split; [econstructor; eauto|auto].
    + eexists (AErr ENOENT), _. split; [constructor; auto|auto].
  - eexists ADone, _. split; [constructor|auto].
  - destruct (current s) as [i|] eqn:E.
    + exists (AFd i). eexists. split; [econstructor; eauto|auto].
    + eexists (AErr ENOENT), _. split; [constructor; auto|auto].
  - eexists (ANum _), _. split; [constructor|auto].
  - now elim (H fd n).
Qed.

Lemma faultless_run {A} (p : prog A) : readless p -> forall s,
  exists tr p' s', runs p s tr p' s' /\ ended p' /\ faultless tr = true.
Proof.
  induction p as [a|e|c k IH]; intros Hr s.
  - exists [], (Ret a), s. repeat split; [constructor|left; eexists; reflexivity].
  - exists [], (Raise e), s. repeat split; [constructor|right; eexists; reflexivity].
  - destruct Hr as [Hc Hk]. destruct (can_answer s c Hc) as (a & s1 & Hs & Hf).
    destruct (IH a (Hk a) s1) as (tr & p' & s' & H1 & H2 & H3).
    exists ((c, a) :: tr), p', s'. repeat split; auto; [econstructor; eauto|].
    unfold faultless. cbn [forallb]. rewrite Hf. exact H3.
Qed.

Lemma readless_try {A B} (p : prog A) (ok : A -> prog B) err :
  readless p -> (forall a, readless (ok a)) -> (forall e, readless (err e)) ->
  readless (try_ p ok err).
Proof. intros H H1 H2. induction p; simpl in *; auto. destruct H. split; auto. Qed.

Lemma readless_save d : readless (save_checkpoint d).
Proof.
  assert (C : forall c, (forall fd n, c <> Read fd n) -> readless (call c)).
  { intros c Hc. split; auto. intros []; simpl; auto. }
  assert (F : forall c, (forall fd n, c <> Read fd n) ->
     forall A (x : prog A), readless x -> readless (bind (call c) (fun _ => x))).
  { intros. apply readless_try; auto. intros; exact I. }
  unfold save_checkpoint, write_next, rename_next, finally.
  repeat first [ exact I
    | apply readless_try; [|intros ?|intros ?]
    | apply C; discriminate
    | match goal with
      | |- readless (bind _ _) => apply readless_try; [|intros ?|intros ?]
      | |- readless (match ?x with _ => _ end) => destruct x
      | |- readless (if ?x then _ else _) => destruct x
      end ].
Qed.

Lemma readless_checkpoint d : readless (checkpoint d).
Proof.
  apply readless_try; [apply readless_save|intros; exact I|].
  intros []; try exact I. apply readless_try; [|intros; apply readless_save|intros; exact I].
  apply readless_try; try (intros; exact I). split; [discriminate|]. intros []; exact I.
Qed.

(** * Histories *)

Record HInv (power : bool) (l : list bytes) (s : fs) : Prop := {
  hi_sane : sane s;
  hi_data : forall i, In (Some i) (current_hist s) -> In (content s i) l;
  hi_synced : power = true -> forall i, In (Some i) (current_hist s) -> synced s i = true
}.

Lemma HInv_saving power d l s tr s' : HInv power l s -> saving d s tr s' ->
  (power = true -> flushed tr = true) -> HInv power (d :: l) s'.
Proof.
  intros [Z H1 H2] [] Hf. destruct Z as (Z1 & Z2 & Z3 & Z4). constructor; auto.
  - intros i Hi. destruct (sv_hist0 _ Hi) as [H|(j & E & _ & <- & _)].
    + right. rewrite sv_content0; auto.
    + injection E as ->. now left.
  - intros Hp i Hi. destruct (sv_hist0 _ Hi) as [H|(j & E & _ & _ & H)].
    + rewrite sv_synced0; auto.
    + injection E as ->. auto.
Qed.

Lemma history_HInv power l s : history power l s -> HInv power l s.
Proof.
  induction 1 as [|d l s tr p' s' H IH Hr Hf|d l s tr p' s' H IH Hr Hf|l s tr p' s' H IH Hr|l s s' Hp H IH Hl].
  - constructor; simpl; [|intros i [E|[]]; discriminate|intros _ i [E|[]]; discriminate].
    repeat split; simpl; auto; intros i [E|[]]; discriminate.
  - eapply HInv_saving; eauto. eapply save_runs; eauto. apply IH.
  - eapply HInv_saving; eauto. eapply checkpoint_runs; eauto. apply IH.
  - apply break_runs in Hr. destruct Hr as [[-> | ->] _]; auto.
    destruct IH. constructor; auto. now apply sane_unlink.
  - destruct IH as [Z H1 H2]. destruct Z as (Z1 & Z2 & Z3 & Z4).
    destruct Hl as (P1 & P2 & P3 & P4 & P5 & P6 & P7). constructor.
    + repeat split; rewrite ?P3, ?P4; simpl; auto; intros i [E|[]]; rewrite P5;
        [apply Z3|apply Z4]; congruence.
    + intros i. rewrite P3. intros [E|[]]. rewrite E in P1. rewrite P6; auto.
    + intros _ i _. apply P7.
Qed.
