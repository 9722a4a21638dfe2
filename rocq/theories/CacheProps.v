(** C39: the cache of resource job results. *)
From Coq Require Import String Ascii List Bool Arith Lia Permutation.
From Verif Require Import ScanModel Rfc822Model Rfc822Spec Rfc822Proofs JsonModel JsonProofs IniModel IniProofs CacheModel CacheSpec CacheProofs.
Import ListNotations.
Local Open Scope nat_scope.
Local Open Scope list_scope.

(** Whatever happened before (processes killed at any point, calls that failed,
    clearing, other files changing), a result that is found in the cache is one
    that was computed for this job: its fields are the computed ones and its log
    is the complete log or is not there. *)
Theorem C39_hits_are_genuine root w c k v :
  reachable root w -> w_mem w = Some c -> cached k c = Some v -> genuine root w k v.
Proof.
  intros R Hm Hc. apply reachable_inv in R. destruct R as [_ IM]. destruct (IM c k v Hm Hc) as [_ M]. now apply matches_genuine.
Qed.

(** A cache that was just loaded only has entries whose log is there. *)
Theorem C39_loaded_hits_have_their_log root f m l dirs c ok k v :
  reachable root (mk_world f m l) -> walks f root dirs -> load f dirs [] = (c, ok) -> cached k c = Some v ->
  exists r content copy, In (k, r, content) l /\ (forall key, key <> LOG -> tget key v = tget key r) /\
    log_of v = Some copy /\ f copy = Some (NFile content).
Proof.
  intros R W L Hc. apply reachable_inv in R. destruct R as [IV _]. cbn [w_fs w_done] in IV.
  destruct (load_mem _ _ _ _ _ _ _ L Hc) as [H|(d & data & p & I & B & E1 & E2 & E3 & E4)]; [discriminate|].
  destruct (walk_dir _ _ _ _ _ IV W I) as (k' & Nk' & ->). rewrite basename_join in B by exact Nk'. subst k'.
  pose proof (iv_entry _ _ _ IV k data v Nk' E1 E2) as M.
  apply (matches_genuine root (mk_world f m l)) in M. destruct M as (r & content & copy & A1 & A2 & A3 & A4 & A5). cbn [w_fs w_done] in *.
  exists r, content, copy. split; [exact A1|]. split; [exact A2|]. split; [exact A3|].
  destruct A5 as [A5|A5]; [|exact A5]. exfalso. apply E4. congruence.
Qed.

(** Loading returns exactly when every directory in the cache has a readable
    entry; otherwise it raises. *)
Theorem C39_when_loading_returns f dirs :
  snd (load f dirs []) = true <-> forall d, In d dirs -> understood f d.
Proof. apply load_returns. Qed.

(** Without crashes and errors it always returns. *)
Theorem C39_smooth_histories_load root w dirs :
  smooth root w -> walks (w_fs w) root dirs -> snd (load (w_fs w) dirs []) = true.
Proof.
  intros H W. apply load_returns. intros d I. apply W in I. destruct I. now apply (smooth_understood root).
Qed.

(** A stored result is found again after a restart, with the same fields, so it is
    not computed again. *)
Theorem C39_stored_results_survive root w k r r' f2 dirs c :
  reachable root w -> no_slash k -> sane r -> exec (store root k r) (w_fs w) f2 (Returned (Kept r')) ->
  walks f2 root dirs -> load f2 dirs [] = (c, true) ->
  exists v src copy, cached k c = Some v /\ (forall key, key <> LOG -> tget key v = tget key r) /\
    log_of r = Some src /\ log_of v = Some copy /\ f2 copy <> None.
Proof.
  intros R Nk Sr X W L. apply reachable_inv in R. destruct R as [IV _].
  set (l := note k r (w_fs w) (w_done w)).
  assert (I1 : inv root (w_fs w) l) by (eapply inv_more; [apply note_incl|exact IV]).
  pose proof (store_all root k r (w_fs w) f2 _ l Nk Sr I1 (note_in k r (w_fs w) (w_done w)) X) as (I2 & _ & _).
  destruct (understood_kept root k r (w_fs w) f2 l r' Nk Sr I1 (note_in k r (w_fs w) (w_done w)) X) as (src & A & B & C & D & E & F & G & H).
  exists (sort_fields r'), src, (join (join root k) (basename src)). split.
  - rewrite <- (basename_join root k Nk). unfold cached. eapply load_finds; eauto.
    + apply W. split; [exact C|apply below_join].
    + intros d I B'. destruct (walk_dir _ _ _ _ _ I2 W I) as (k' & Nk' & ->). rewrite !basename_join in B' by assumption. now subst.
  - split; [|auto]. intros key Nq. rewrite F. subst r'. rewrite tget_tset. apply text_eqb_neq in Nq. now rewrite Nq.
Qed.

(** What was just stored is in the memory. *)
Theorem C39_stored_results_are_hits root w k r r' f2 c : reachable root w -> no_slash k -> sane r ->
  exec (store root k r) (w_fs w) f2 (Returned (Kept r')) ->
  exists v, cached k (remember k (Kept r') c) = Some v /\ (forall key, key <> LOG -> tget key v = tget key r) /\
    (forall k', k' <> k -> cached k' (remember k (Kept r') c) = cached k' c).
Proof.
  intros R Nk Sr X. apply reachable_inv in R. destruct R as [IV _].
  assert (I1 : inv root (w_fs w) (note k r (w_fs w) (w_done w))) by (eapply inv_more; [apply note_incl|exact IV]).
  destruct (understood_kept root k r (w_fs w) f2 _ r' Nk Sr I1 (note_in k r (w_fs w) (w_done w)) X) as (src & _ & B & _).
  exists r'. cbn [remember]. unfold cached. split; [now rewrite tget_tset, text_eqb_refl|]. split.
  - intros key Nq. subst r'. rewrite tget_tset. apply text_eqb_neq in Nq. now rewrite Nq.
  - intros k' Nq. rewrite tget_tset. apply text_eqb_neq in Nq. now rewrite Nq.
Qed.

(** A broken entry is repaired when its job is stored again: loading understands
    it, and every other entry as before. *)
Theorem C39_storing_repairs root w k r r' f2 :
  reachable root w -> no_slash k -> sane r -> exec (store root k r) (w_fs w) f2 (Returned (Kept r')) ->
  understood f2 (join root k) /\
  forall k', no_slash k' -> k' <> k -> (understood f2 (join root k') <-> understood (w_fs w) (join root k')).
Proof.
  intros R Nk Sr X. apply reachable_inv in R. destruct R as [IV _].
  set (l := note k r (w_fs w) (w_done w)).
  assert (I1 : inv root (w_fs w) l) by (eapply inv_more; [apply note_incl|exact IV]).
  pose proof (store_all root k r (w_fs w) f2 _ l Nk Sr I1 (note_in k r (w_fs w) (w_done w)) X) as (I2 & Out & _).
  destruct (understood_kept root k r (w_fs w) f2 l r' Nk Sr I1 (note_in k r (w_fs w) (w_done w)) X) as (src & A & B & C & D & E & F & G & H).
  split; [exists (encode r'), (sort_fields r'), (join (join root k) (basename src)); auto|].
  intros k' Nk' Nq.
  assert (Q : f2 (join (join root k') RESULT) = w_fs w (join (join root k') RESULT)).
  { assert (W : within (join root k') (join (join root k') RESULT) = true) by (apply within_split; right; eauto).
    apply Out.
    - destruct (within (join root k) (join (join root k') RESULT)) eqn:Z; [|reflexivity]. exfalso. apply Nq. eapply entries_apart; eauto.
    - intros Z. rewrite Z in W. now rewrite root_not_within in W. }
  split; intros U; [apply (understood_same f2)|apply (understood_same (w_fs w))]; auto.
Qed.

(** ** Examples and refutations *)

Definition X_root : path := T "/c".
Definition X_result : result := [(T "outcome", JStr (T "pass")); (LOG, JStr (T "/tmp/1.log"))].
Definition X_fs : fs := fun p => if text_eqb p (T "/tmp/1.log") then Some (NFile (T "log")) else None.

Definition X_fs1 : fs := fun q => if text_eqb q (T "/c/k") then Some NDir
                       else if text_eqb q X_root then match X_fs X_root with Some n => Some n | None => Some NDir end else X_fs q.
Definition X_fs2 : fs := set_node (T "/c/k/1.log") (Some (NFile (T "log"))) X_fs1.
Definition X_kept : result := tset LOG (JStr (T "/c/k/1.log")) X_result.
Definition X_fs3 : fs := set_node (T "/c/k/result.json") (Some (NFile (encode X_kept))) X_fs2.

Example X_no_slash : no_slash (T "k").
Proof. split; [discriminate|]. intros [H|[]]. discriminate. Qed.
Example X_sane : sane X_result.
Proof.
  split.
  - constructor; [intros [H|[]]; discriminate|]. constructor; [intros []|constructor].
  - split.
    + intros k v [E|[E|[]]]; injection E as <- <-; constructor.
    + intros p H. vm_compute in H. injection H as <-. intros E. vm_compute in E. discriminate.
Qed.
Example X_start : reachable X_root (mk_world X_fs None []).
Proof.
  constructor. intros p H. unfold X_fs. destruct (text_eqb p (T "/tmp/1.log")) eqn:E; [|reflexivity].
  apply text_eqb_eq in E. subst. vm_compute in H. discriminate.
Qed.

(** A store that works. *)
Example X_store : exec (store X_root (T "k") X_result) X_fs X_fs3 (Returned (Kept X_kept)).
Proof.
  unfold store. eapply x_success; [split; [intros; reflexivity|reflexivity]|].
  change (X_fs (join X_root (T "k"))) with (@None node). cbv iota.
  apply (x_success _ _ X_fs X_fs1 RYes).
  { split; [reflexivity|]. split; [reflexivity|]. intros q. reflexivity. }
  change (log_of X_result) with (Some (T "/tmp/1.log")). cbv iota.
  change (basename (T "/tmp/1.log")) with (T "1.log"). cbv beta iota zeta.
  apply (x_success _ _ X_fs1 X_fs2 RYes).
  { split; [reflexivity|]. exists (T "log"). split; reflexivity. }
  cbv iota. apply (x_success _ _ X_fs2 X_fs3 RYes).
  { split; reflexivity. }
  cbv iota. apply x_ret.
Qed.

(** A run: load the empty cache, get a result, restart; the result is found. *)
Example X_walks0 : walks X_fs X_root [].
Proof.
  intros d. split; [intros []|]. intros [H _]. exfalso. unfold X_fs in H. destruct (text_eqb d (T "/tmp/1.log")); discriminate.
Qed.
Definition X_world : world := mk_world X_fs3 (Some [(T "k", X_kept)]) [(T "k", X_result, T "log")].
Example X_smooth : smooth X_root X_world.
Proof.
  apply (sm_get X_root X_fs [] [] (T "k") X_result X_fs X_fs3 X_kept).
  - apply (sm_load X_root X_fs [] [] [] true); [|exact X_walks0|reflexivity]. constructor.
    intros p H. unfold X_fs. destruct (text_eqb p (T "/tmp/1.log")) eqn:E; [|reflexivity].
    apply text_eqb_eq in E. subst. vm_compute in H. discriminate.
  - apply X_no_slash.
  - reflexivity.
  - apply X_sane.
  - intros p _. reflexivity.
  - apply X_store.
Qed.
Example X_walks3 : walks X_fs3 X_root [T "/c/k"].
Proof.
  intros d. split.
  - intros [<-|[]]. split; reflexivity.
  - intros [H B]. unfold X_fs3, X_fs2, set_node, X_fs1, X_fs in H.
    destruct (text_eqb d (T "/c/k/result.json")); [discriminate|]. destruct (text_eqb d (T "/c/k/1.log")); [discriminate|].
    destruct (text_eqb d (T "/c/k")) eqn:E; [apply text_eqb_eq in E; now left|].
    destruct (text_eqb d X_root) eqn:E2; [apply text_eqb_eq in E2; subst d; vm_compute in B; discriminate|].
    destruct (text_eqb d (T "/tmp/1.log")); discriminate.
Qed.
Example X_hit : exists v, load X_fs3 [T "/c/k"] [] = ([(T "k", v)], true) /\ tget (T "outcome") v = Some (JStr (T "pass")).
Proof. eexists. split; vm_compute; reflexivity. Qed.

(** The cache does not survive every crash: when the process is killed right after
    the directory was made, loading raises from then on, so no new process can
    use the cache at all. *)
Theorem C39_every_crash_can_be_survived_refuted :
  exists root w k r f2 dirs, reachable root w /\ no_slash k /\ sane r /\
    exec (store root k r) (w_fs w) f2 Killed /\ walks f2 root dirs /\ snd (load f2 dirs []) = false.
Proof.
  exists X_root, (mk_world X_fs None []), (T "k"), X_result, X_fs1, [T "/c/k"].
  split; [exact X_start|]. split; [exact X_no_slash|]. split; [exact X_sane|]. split.
  - unfold store. eapply x_success; [split; [intros; reflexivity|reflexivity]|].
    change (w_fs (mk_world X_fs None []) (join X_root (T "k"))) with (@None node). cbv iota.
    apply x_killed. intros q. cbn [w_fs]. unfold X_fs1. destruct (text_eqb q (T "/c/k")) eqn:E.
    + apply text_eqb_eq in E. subst. right. split; [right; reflexivity|]. split; reflexivity.
    + destruct (text_eqb q X_root) eqn:E2; [|now left]. apply text_eqb_eq in E2. subst. right. split; [now left|]. split; reflexivity.
  - split; [|reflexivity]. intros d. split.
    + intros [<-|[]]. split; reflexivity.
    + intros [H B]. unfold X_fs1, X_fs in H.
      destruct (text_eqb d (T "/c/k")) eqn:E; [apply text_eqb_eq in E; now left|].
      destruct (text_eqb d X_root) eqn:E2; [apply text_eqb_eq in E2; subst d; vm_compute in B; discriminate|].
      destruct (text_eqb d (T "/tmp/1.log")); discriminate.
Qed.

(** Nor does it take a crash: a job whose result has no log does the same. *)
Theorem C39_loading_always_works_refuted :
  exists root w k r f2 dirs, reachable root w /\ no_slash k /\ sane r /\
    exec (store root k r) (w_fs w) f2 (Returned Raised) /\ walks f2 root dirs /\ snd (load f2 dirs []) = false.
Proof.
  exists X_root, (mk_world X_fs None []), (T "k"), [(T "outcome", JStr (T "pass"))], X_fs1, [T "/c/k"].
  split; [exact X_start|]. split; [exact X_no_slash|]. split.
  { split; [constructor; [intros []|constructor]|]. split; [|discriminate]. intros k v [E|[]]. injection E as <- <-. constructor. }
  split.
  - unfold store. eapply x_success; [split; [intros; reflexivity|reflexivity]|].
    change (w_fs (mk_world X_fs None []) (join X_root (T "k"))) with (@None node). cbv iota.
    apply (x_success _ _ _ X_fs1 RYes).
    { split; [reflexivity|]. split; [reflexivity|]. intros q. reflexivity. }
    cbn [log_of tget]. apply x_ret.
  - split; [|reflexivity]. intros d. split.
    + intros [<-|[]]. split; reflexivity.
    + intros [H B]. unfold X_fs1, X_fs in H.
      destruct (text_eqb d (T "/c/k")) eqn:E; [apply text_eqb_eq in E; now left|].
      destruct (text_eqb d X_root) eqn:E2; [apply text_eqb_eq in E2; subst d; vm_compute in B; discriminate|].
      destruct (text_eqb d (T "/tmp/1.log")); discriminate.
Qed.

(** After clearing, a process that goes on still finds entries whose log is gone. *)
Theorem C39_hits_have_their_log_refuted :
  exists root w c k v copy, reachable root w /\ w_mem w = Some c /\ cached k c = Some v /\
    log_of v = Some copy /\ w_fs w copy = None.
Proof.
  exists X_root, (mk_world (fun q => if within (T "/c/k") q then None else X_fs3 q) (w_mem X_world) (w_done X_world)), [(T "k", X_kept)], (T "k"), X_kept, (T "/c/k/1.log").
  split; [|repeat split; reflexivity].
  eapply r_step; [apply smooth_reachable, X_smooth|]. apply (s_clear X_root X_fs3 _ _ [T "/c/k"] _ (Returned tt)).
  - intros d [<-|[]]. exists (T "k"). split; [apply X_no_slash|reflexivity].
  - cbn [clear]. apply (x_success _ _ _ (fun q => if within (T "/c/k") q then None else X_fs3 q) RYes); [split; reflexivity|]. apply x_ret.
Qed.

Print Assumptions C39_hits_are_genuine.
Print Assumptions C39_loaded_hits_have_their_log.
Print Assumptions C39_when_loading_returns.
Print Assumptions C39_smooth_histories_load.
Print Assumptions C39_stored_results_survive.
Print Assumptions C39_stored_results_are_hits.
Print Assumptions C39_storing_repairs.
Print Assumptions C39_every_crash_can_be_survived_refuted.
Print Assumptions C39_loading_always_works_refuted.
Print Assumptions C39_hits_have_their_log_refuted.
