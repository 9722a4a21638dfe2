(** C26: output of commands under every thread schedule. *)
From Coq Require Import Ascii List Bool ZArith Lia Arith Wf_nat.
From Verif Require Import ExtcmdModel ExtcmdSpec ExtcmdProofs.
Import ListNotations.
Open Scope list_scope.

(** The text of a stream can be cut in one way only. *)
Theorem C26_cut_is_unique : forall chunked t, exists l, cut chunked t l /\ forall l', cut chunked t l' -> l' = l.
Proof.
  intros [] t; cbn.
  - eexists. split; [reflexivity|]. auto.
  - destruct (lines_of_exists t) as [l L]. exists l. split; auto. intros l' L'. exact (lines_of_unique t l' l L' L).
Qed.
Print Assumptions C26_cut_is_unique.

Definition never_fails (fails : stream -> bytes -> bool) : Prop := forall x d, fails x d = false.

(** When call() has returned, then under every schedule the delegate was told
    exactly: on_begin; all lines (or bytes) of everything written to stdout and
    of everything written to stderr, each stream in order, possibly with
    interrupt notifications in between; and last the end with the return code of
    the process. *)
Theorem C26_everything_is_delivered : forall chunked fails s rc,
  never_fails fails -> reachable chunked fails s -> s_main s = Returned rc ->
  s_exit s = Some rc /\
  exists mid, s_events s = Begin :: mid ++ [final_event rc] /\ Forall in_between mid /\
    forall x, s_closed s x = true /\ cut chunked (s_written s x) (data_of x mid).
Proof.
  intros chunked fails s rc N R M.
  destruct (inv_reachable fails N chunked s R) as (Rd & D & P).
  unfold phase_ok in P. rewrite M in P. destruct P as (Q & W & E & R1 & R2 & mid & EV & F).
  split; auto. exists mid. split; auto. split; auto. intros x.
  assert (RD : s_reader s x = ReaderDone) by (destruct x; auto).
  destruct (D x RD) as [Px Cx]. split; auto.
  assert (G : got x s = data_of x mid).
  { unfold got. rewrite Q, W, RD, EV. rewrite app_nil_r.
    change (data_of x (Begin :: mid ++ [final_event rc])) with (data_of x (mid ++ [final_event rc])).
    rewrite data_of_app. unfold final_event. destruct (rc <? 0)%Z; cbn; now rewrite app_nil_r. }
  destruct (Rd x) as (c & Ew & H). rewrite Px, app_nil_r in Ew. rewrite Ew, <- G. unfold cut.
  destruct chunked; auto. destruct H as [[H1 H2]|[H _]]; auto. rewrite <- H2. now apply lines_of_full.
Qed.
Print Assumptions C26_everything_is_delivered.

(** At any earlier moment, what was delivered for a stream is the beginning of
    its lines (or bytes): nothing is duplicated or reordered meanwhile. *)
Theorem C26_prefix_at_any_time : forall chunked fails s x,
  never_fails fails -> reachable chunked fails s ->
  exists more, cut chunked (s_written s x) (data_of x (s_events s) ++ more).
Proof.
  intros chunked fails s x N R.
  destruct (inv_reachable fails N chunked s R) as (Rd & D & P).
  destruct (Rd x) as (c & Ew & H). unfold cut. rewrite Ew. destruct chunked.
  - exists (w_hold x (s_worker s) ++ q_hold x (s_queue s) ++ r_hold (s_reader s x) ++ map (fun b => [b]) (s_pipe s x)).
    rewrite map_app, <- H. unfold got. now rewrite <- !app_assoc.
  - destruct H as [[H1 H2]|(H1 & H2 & H3)].
    + destruct (lines_of_exists (s_pipe s x)) as [l L].
      exists (w_hold x (s_worker s) ++ q_hold x (s_queue s) ++ r_hold (s_reader s x) ++ l).
      replace (data_of x (s_events s) ++ _) with (got x s ++ l) by (unfold got; now rewrite <- !app_assoc).
      rewrite <- H2. clear -H1 L. induction H1 as [|d ls (k & -> & K) F IH]; auto.
      cbn. rewrite <- !app_assoc. now constructor.
    + exists (w_hold x (s_worker s) ++ q_hold x (s_queue s) ++ r_hold (s_reader s x)).
      rewrite H3, app_nil_r. exact H1.
Qed.
Print Assumptions C26_prefix_at_any_time.

(** The process has exited and nobody can write to its pipes any more. *)
Definition finished (s : state) : Prop := s_exit s <> None /\ forall x, s_closed s x = true.

Definition is_interrupt (s s' : state) : Prop := s_events s' = s_events s ++ [Interrupt].

Definition r_weight (r : reader) : nat := match r with Reading => 1 | Putting _ => 4 | ReaderDone => 0 end.
Definition w_weight (w : worker) : nat := match w with Getting => 1 | Calling _ _ => 2 | WorkerDone => 0 end.
Definition m_weight (m : main) : nat :=
  match m with Starting => 11 | Waiting => 10 | Joining1 _ => 9 | Joining2 _ => 8 | Stopping _ => 7
          | Joining3 _ => 3 | Ending _ => 2 | Returned _ => 1 end.
Definition weight (s : state) : nat :=
  5 * (length (s_pipe s Out) + length (s_pipe s Err)) + r_weight (s_reader s Out) + r_weight (s_reader s Err) +
  2 * length (s_queue s) + w_weight (s_worker s) + m_weight (s_main s).

Lemma read_shorter chunked p c d r : read_data chunked p c d r -> length r < length p.
Proof.
  intros H; destruct H as [b r c|l r c|l]; cbn; rewrite ?app_length; cbn; try lia. destruct l; [congruence|cbn; lia].
Qed.

Lemma step_finished chunked fails s s' : finished s -> step chunked fails s s' ->
  finished s' /\ (is_interrupt s s' \/ weight s' < weight s).
Proof.
  intros [E C] St.
  assert (R : forall x d r, s_reader s x = Reading -> read_data chunked (s_pipe s x) (s_closed s x) d r ->
      length r < length (s_pipe s x)) by (intros x d r _ H; eapply read_shorter; eauto).
  inversion St; subst; try (rewrite C in *; discriminate); (split; [split; auto|]);
    try (left; reflexivity); try (right; unfold weight; cbn [s_pipe s_reader s_queue s_worker s_main]);
    try match goal with H : s_main s = _ |- _ => rewrite ?H end;
    try match goal with H : s_worker s = _ |- _ => rewrite ?H end;
    try match goal with H : s_queue s = _ |- _ => rewrite ?H end; cbn [m_weight w_weight length]; try lia.
  - congruence.
  - specialize (R _ _ _ H0 H1). destruct x; unfold upd; cbn [stream_eqb]; rewrite H0; cbn [r_weight]; lia.
  - destruct x; unfold upd; cbn [stream_eqb]; rewrite H0; cbn [r_weight]; lia.
  - destruct x; unfold upd; cbn [stream_eqb]; rewrite H, app_length; cbn [r_weight length]; lia.
  - rewrite app_length. cbn. lia.
Qed.

(** Once the process has exited and its pipes are closed, call() returns: no
    schedule gets stuck, and no schedule goes on for ever without an endless
    stream of interrupts. *)
Theorem C26_call_returns : forall chunked fails s,
  never_fails fails -> reachable chunked fails s -> finished s ->
  ((exists rc, s_main s = Returned rc) \/
   (exists s', step chunked fails s s' /\ ~ is_interrupt s s')) /\
  Acc (fun s2 s1 => step chunked fails s1 s2 /\ ~ is_interrupt s1 s2) s.
Proof.
  intros chunked fails s N R Fin. split.
  - destruct (inv_reachable fails N chunked s R) as (Rd & D & P).
    destruct Fin as [E C]. destruct (s_exit s) as [rc|] eqn:Ex; [|congruence].
    assert (NI : forall a, s_events s ++ [a] <> s_events s).
    { intros a X. apply (f_equal (@length _)) in X. rewrite app_length in X. cbn in X. lia. }
    assert (NI' : s_events s <> s_events s ++ [Interrupt]) by (intros X; symmetry in X; now apply NI in X).
    assert (Readers : forall x, s_reader s x = ReaderDone \/ s_main s = Starting \/
        exists s', step chunked fails s s' /\ ~ is_interrupt s s').
    { intros x. destruct (s_reader s x) as [|d|] eqn:Rx; [|right; right|auto].
      - destruct (s_main s) eqn:Ms; try solve [auto];
        right; right;
          (destruct (s_pipe s x) as [|b p] eqn:Px;
           [eexists; split; [apply (st_read_end chunked fails s x); auto; congruence|exact NI']|]);
          (destruct chunked;
           [eexists; split; [eapply (st_read true fails s x [b] p); auto; [congruence|rewrite Px; constructor]|exact NI']|]);
          (destruct (in_dec ascii_dec NL (b :: p)) as [I|I];
           [|eexists; split; [eapply (st_read false fails s x (b :: p) []); auto; [congruence|rewrite Px, C; constructor; [exact I|discriminate]]|exact NI']]);
          (assert (S : exists u v, b :: p = u ++ NL :: v /\ ~ In NL u);
           [clear -I; induction (b :: p) as [|c u IH]; [destruct I|];
            destruct (ascii_dec c NL) as [->|Nc]; [exists [], u; auto|];
            destruct I as [I|I]; [congruence|]; destruct (IH I) as (u' & v & -> & Hu);
            exists (c :: u'), v; split; auto; intros [X|X]; auto|]);
          destruct S as (u & v & Eu & Hu);
          (eexists; split; [eapply (st_read false fails s x (u ++ [NL]) v); auto; [congruence|rewrite Px, Eu; constructor; exact Hu]|exact NI']).
      - eexists. split; [apply (st_put chunked fails s x d Rx)|exact NI']. }
    assert (Work : forall x d, s_worker s = Calling x d -> exists s', step chunked fails s s' /\ ~ is_interrupt s s').
    { intros x d W. eexists. split; [apply (st_call chunked fails s x d W (N x d))|].
      unfold is_interrupt. cbn. intros X. apply app_inv_head in X. discriminate X. }
    unfold phase_ok in P. destruct (s_main s) eqn:M.
    + rewrite P in Ex. discriminate Ex.
    + right. eexists. split; [apply (st_wait chunked fails s rc M Ex)|exact NI'].
    + destruct (Readers Out) as [RO|[X|X]]; [|discriminate X|auto].
      right. eexists. split; [apply (st_join1 chunked fails s rc0 M RO)|exact NI'].
    + destruct (Readers Err) as [RO|[X|X]]; [|discriminate X|auto].
      right. eexists. split; [apply (st_join2 chunked fails s rc0 M RO)|exact NI'].
    + right. eexists. split; [apply (st_stop chunked fails s rc0 M)|exact NI'].
    + right. destruct P as ([(q & Q1 & Q2 & Q3)|[Q1 Q2]] & _).
      * destruct (s_worker s) as [|x d|] eqn:W; [|exact (Work x d eq_refl)|congruence].
        destruct q as [|[[x d]|] q]; cbn in Q1.
        -- eexists. split; [apply (st_get_none chunked fails s [] W Q1)|exact NI'].
        -- eexists. split; [apply (st_get chunked fails s x d _ W Q1)|exact NI'].
        -- apply Forall_cons_iff in Q2 as [Q2 _]. congruence.
      * eexists. split; [apply (st_join3 chunked fails s rc0 M Q2)|exact NI'].
    + right. eexists. split; [apply (st_end chunked fails s rc0 M)|].
      unfold is_interrupt. cbn. intros X. apply app_inv_head in X. destruct (rc0 <? 0)%Z; discriminate X.
    + left. eauto.
  - clear R N. remember (weight s) as n eqn:En. assert (Hn : weight s <= n) by lia. clear En.
    revert s Fin Hn. induction n as [|n IH]; intros s Fin Hn; constructor; intros s' [St NI];
      destruct (step_finished _ _ _ _ Fin St) as [Fin' [I|L]]; try (exfalso; apply NI; exact I); [lia|].
    apply IH; auto. lia.
Qed.
Print Assumptions C26_call_returns.

(** If the delegate raises an exception the rest of the output is lost although
    call() returns normally. *)
Definition one_line : bytes := ["a"%char; NL].
Definition lossy (x : stream) (d : bytes) : bool := true.

Theorem C26_failing_delegate_refuted : exists s,
  reachable false lossy s /\ s_main s = Returned 0 /\
  s_written s Out = one_line ++ one_line /\ data_of Out (s_events s) = [one_line].
Proof.
  assert (R := reach_init false lossy).
  eapply reach_step in R; [|eapply (st_begin false lossy _); reflexivity]; cbn in R.
  eapply reach_step in R; [|eapply (st_write false lossy _ Out "a"%char); [discriminate|reflexivity]]; cbn in R.
  eapply reach_step in R; [|eapply (st_write false lossy _ Out NL); [discriminate|reflexivity]]; cbn in R.
  eapply reach_step in R; [|eapply (st_write false lossy _ Out "a"%char); [discriminate|reflexivity]]; cbn in R.
  eapply reach_step in R; [|eapply (st_write false lossy _ Out NL); [discriminate|reflexivity]]; cbn in R.
  eapply reach_step in R; [|eapply (st_close false lossy _ Out); [discriminate|reflexivity]]; cbn in R.
  eapply reach_step in R; [|eapply (st_close false lossy _ Err); [discriminate|reflexivity]]; cbn in R.
  eapply reach_step in R; [|eapply (st_exit false lossy _ 0%Z); [discriminate|reflexivity]]; cbn in R.
  eapply reach_step in R; [|eapply (st_read false lossy _ Out one_line one_line); [discriminate|reflexivity|
       eapply (rd_line ["a"%char] one_line); intros [X|X]; [discriminate X|destruct X]]]; cbn in R.
  eapply reach_step in R; [|eapply (st_put false lossy _ Out one_line); reflexivity]; cbn in R.
  eapply reach_step in R; [|eapply (st_read false lossy _ Out one_line []); [discriminate|reflexivity|
       eapply (rd_line ["a"%char] []); intros [X|X]; [discriminate X|destruct X]]]; cbn in R.
  eapply reach_step in R; [|eapply (st_put false lossy _ Out one_line); reflexivity]; cbn in R.
  eapply reach_step in R; [|eapply (st_get false lossy _ Out one_line); reflexivity]; cbn in R.
  eapply reach_step in R; [|eapply (st_call_raise false lossy _ Out one_line); reflexivity]; cbn in R.
  eapply reach_step in R; [|eapply (st_read_end false lossy _ Out); [discriminate|reflexivity|reflexivity|reflexivity]]; cbn in R.
  eapply reach_step in R; [|eapply (st_read_end false lossy _ Err); [discriminate|reflexivity|reflexivity|reflexivity]]; cbn in R.
  eapply reach_step in R; [|eapply (st_wait false lossy _ 0%Z); reflexivity]; cbn in R.
  eapply reach_step in R; [|eapply (st_join1 false lossy _ 0%Z); reflexivity]; cbn in R.
  eapply reach_step in R; [|eapply (st_join2 false lossy _ 0%Z); reflexivity]; cbn in R.
  eapply reach_step in R; [|eapply (st_stop false lossy _ 0%Z); reflexivity]; cbn in R.
  eapply reach_step in R; [|eapply (st_join3 false lossy _ 0%Z); reflexivity]; cbn in R.
  eapply reach_step in R; [|eapply (st_end false lossy _ 0%Z); reflexivity]; cbn in R.
  eexists. split; [exact R|].
  repeat split; reflexivity.
Qed.
Print Assumptions C26_failing_delegate_refuted.

(** A complete run of a command that writes one line to each stream and is
    killed by signal 9, with an interrupt while waiting. *)
Definition kind (x : stream) (d : bytes) : bool := false.
Example C26_case_run : exists s,
  never_fails kind /\ reachable false kind s /\ s_main s = Returned (-9)%Z /\ finished s /\
  s_events s = [Begin; Interrupt; Data Err one_line; Data Out one_line; AbnormalEnd 9].
Proof.
  assert (R := reach_init false kind).
  eapply reach_step in R; [|eapply (st_begin false kind _); reflexivity]; cbn in R.
  eapply reach_step in R; [|eapply (st_write false kind _ Out "a"%char); [discriminate|reflexivity]]; cbn in R.
  eapply reach_step in R; [|eapply (st_write false kind _ Out NL); [discriminate|reflexivity]]; cbn in R.
  eapply reach_step in R; [|eapply (st_write false kind _ Err "a"%char); [discriminate|reflexivity]]; cbn in R.
  eapply reach_step in R; [|eapply (st_write false kind _ Err NL); [discriminate|reflexivity]]; cbn in R.
  eapply reach_step in R; [|eapply (st_close false kind _ Out); [discriminate|reflexivity]]; cbn in R.
  eapply reach_step in R; [|eapply (st_close false kind _ Err); [discriminate|reflexivity]]; cbn in R.
  eapply reach_step in R; [|eapply (st_exit false kind _ (-9)%Z); [discriminate|reflexivity]]; cbn in R.
  eapply reach_step in R; [|eapply (st_read false kind _ Err one_line []); [discriminate|reflexivity|
       eapply (rd_line ["a"%char] []); intros [X|X]; [discriminate X|destruct X]]]; cbn in R.
  eapply reach_step in R; [|eapply (st_read false kind _ Out one_line []); [discriminate|reflexivity|
       eapply (rd_line ["a"%char] []); intros [X|X]; [discriminate X|destruct X]]]; cbn in R.
  eapply reach_step in R; [|eapply (st_put false kind _ Err one_line); reflexivity]; cbn in R.
  eapply reach_step in R; [|eapply (st_put false kind _ Out one_line); reflexivity]; cbn in R.
  eapply reach_step in R; [|eapply (st_interrupt false kind _); reflexivity]; cbn in R.
  eapply reach_step in R; [|eapply (st_get false kind _ Err one_line); reflexivity]; cbn in R.
  eapply reach_step in R; [|eapply (st_call false kind _ Err one_line); reflexivity]; cbn in R.
  eapply reach_step in R; [|eapply (st_get false kind _ Out one_line); reflexivity]; cbn in R.
  eapply reach_step in R; [|eapply (st_call false kind _ Out one_line); reflexivity]; cbn in R.
  eapply reach_step in R; [|eapply (st_read_end false kind _ Out); [discriminate|reflexivity|reflexivity|reflexivity]]; cbn in R.
  eapply reach_step in R; [|eapply (st_read_end false kind _ Err); [discriminate|reflexivity|reflexivity|reflexivity]]; cbn in R.
  eapply reach_step in R; [|eapply (st_wait false kind _ (-9)%Z); reflexivity]; cbn in R.
  eapply reach_step in R; [|eapply (st_join1 false kind _ (-9)%Z); reflexivity]; cbn in R.
  eapply reach_step in R; [|eapply (st_join2 false kind _ (-9)%Z); reflexivity]; cbn in R.
  eapply reach_step in R; [|eapply (st_stop false kind _ (-9)%Z); reflexivity]; cbn in R.
  eapply reach_step in R; [|eapply (st_get_none false kind _ []); reflexivity]; cbn in R.
  eapply reach_step in R; [|eapply (st_join3 false kind _ (-9)%Z); reflexivity]; cbn in R.
  eapply reach_step in R; [|eapply (st_end false kind _ (-9)%Z); reflexivity]; cbn in R.
  eexists. split; [intros x d; reflexivity|]. split; [exact R|].
  split; [reflexivity|]. split; [|reflexivity].
  split; [discriminate|]. intros []; reflexivity.
Qed.
