(** * Restarting the testing application after a reboot: what holds *)
From Coq Require Import String Ascii List Bool Arith Lia.
From Verif Require Import ScanModel Rfc822Model IniModel Rfc822Proofs IniProofs ConfigWrite RestartModel RestartSpec RestartProofs.
Import ListNotations.
Local Open Scope nat_scope.
Local Open Scope list_scope.

(** ** The command *)

(** Whatever the parts of the command are, a shell that is given the command
    takes it for exactly these words ... *)
Theorem C62_the_command_is_the_words_given : forall parts, sh_line (restart_command parts) parts.
Proof. exact command_line. Qed.
(** ... and so does shlex.split. *)
Theorem C62_the_command_is_split_into_the_words_given : forall parts, shlex_split (restart_command parts) = Some parts.
Proof. intros parts. apply shlex_line, command_line. Qed.

(** ** Strategy objects: made, then used any number of times *)

Inductive xdg_object (a : xdg_args) : strategy -> Prop :=
| xdg_new c : xdg_init a = inl c -> xdg_object a (XDG (x_terminal a) c)
| xdg_used s env cut tmp app cmd es s' : xdg_object a s -> prime env cut tmp s app cmd = inl (es, s') -> xdg_object a s'.

Inductive snappy_object (user : text) : strategy -> Prop :=
| snappy_new env c : env (T "USER") = Some user -> snappy_init env = inl c -> snappy_object user (Snappy c)
| snappy_used s env cut tmp app cmd es s' : snappy_object user s -> prime env cut tmp s app cmd = inl (es, s') -> snappy_object user s'.

Lemma xdg_object_shape a s : xdg_object a s -> exists o, s = XDG (x_terminal a) (xdg_config a o).
Proof.
  induction 1 as [c H|s env cut tmp app cmd es s' H (o & ->) P].
  - exists None. now rewrite (xdg_init_shape a c H).
  - cbn [prime] in P. destruct (ini_set _ _ _ _) as [c|] eqn:E; [|discriminate]. injection P as _ <-.
    apply xdg_set_exec in E as ->. eauto.
Qed.
Lemma snappy_object_shape u s : snappy_object u s -> exists o, s = Snappy (snappy_config u o).
Proof.
  induction 1 as [env c U H|s env cut tmp app cmd es s' H (o & ->) P].
  - exists None. destruct (snappy_init_shape env c H) as (u' & U' & ->). congruence.
  - cbn [prime] in P. destruct (shlex_split cmd) as [[|w ws]|]; try discriminate.
    destruct (ini_set _ _ _ _) as [c|] eqn:E; [|discriminate]. injection P as _ <-.
    apply snappy_set_exec in E as ->. eauto.
Qed.

Lemma prime_kind env cut tmp s app cmd es s' : prime env cut tmp s app cmd = inl (es, s') ->
  (exists t c c', s = XDG t c /\ s' = XDG t c') \/ (exists c c', s = Snappy c /\ s' = Snappy c').
Proof.
  destruct s as [t c|c]; unfold prime; cbv zeta.
  - set (x := ini_set _ _ _ _). destruct x as [c'|]; [|discriminate]. intros H. injection H as _ <-. left. eauto.
  - destruct (shlex_split cmd) as [[|f l]|]; try discriminate. set (x := ini_set _ _ _ _). destruct x as [c'|]; [|discriminate].
    intros H. injection H as _ <-. right. eauto.
Qed.

(** The text of the file that makes the system start something: for a desktop
    entry the whole command, with a shell after it in a terminal; for a service
    the binary of the snap with the words of the first part but for the first. *)
Definition desktop_file_for (a : xdg_args) (cmd : text) : text :=
  lines (desktop_lines (or_else (x_name a) (T "Resume Testing Session")) (or_else (x_generic a) (T "Resume Testing Session"))
    (or_else (x_comment a) (T "Automatically resume the testing session")) (icons a) (x_terminal a) (x_notify a)
    (or_else (x_categories a) (T "System")) (if x_terminal a then cmd ++ T ";$SHELL" else cmd)).
Definition service_file_for (user binary arguments : text) : text :=
  lines (service_lines user (binary ++ T " " ++ arguments)).

Inductive launches (env : text -> option text) : strategy -> list text -> text -> Prop :=
| launches_xdg a s parts : xdg_object a s -> tidy a -> Forall one_line parts -> Forall plain_value parts ->
    launches env s parts (desktop_file_for a (restart_command parts))
| launches_snappy user s p parts : snappy_object user s -> one_line user -> plain_value p ->
    one_line (snappy_binary env) -> plain_value (snappy_binary env) ->
    launches env s (p :: parts) (service_file_for user (snappy_binary env) (unwords (tl (py_split p)))).

(** What the system will start after a reboot: None for nothing, otherwise the
    file that says what *)
Definition what_starts (env : text -> option text) (app : text) (s : strategy) (m : machine) : option text :=
  match s with
  | XDG _ _ => tget (desktop_filename env app) (files m)
  | Snappy _ => if enabled m then tget service_filename (files m) else None
  end.
Definition own_file (env : text -> option text) (app : text) (s : strategy) : text :=
  match s with XDG _ _ => desktop_filename env app | Snappy _ => service_filename end.

(** What a job may do here: anything to other files *)
Definition elsewhere (names : list text) (e : effect) : Prop :=
  match e with
  | EMkdirs _ => True
  | ETruncate n | EWrite n _ | ERemove n | ECopy _ n => ~ In n names
  | _ => False
  end.

Lemma elsewhere_act names e w : elsewhere names e -> let w' := act e w in
  (forall n, In n names -> tget n (files (disk w')) = tget n (files (disk w))) /\
  enabled (disk w') = enabled (disk w) /\ saved w' = saved w /\ memory w' = memory w.
Proof.
  assert (O : forall n m, In n names -> ~ In m names -> ~ In n [m]).
  { intros n m A B [X|[]]. subst. auto. }
  destruct e as [n|n|n p|n|a n| | | | | | ]; cbn; intros H; try contradiction; (split; [|repeat split]); intros m M; try reflexivity.
  - apply tget_other. now apply O.
  - apply tget_other. now apply O.
  - rewrite tget_tdel. destruct (text_eqb n m) eqn:E; [|reflexivity]. apply text_eqb_eq in E as ->. contradiction.
  - destruct (tget a (files (disk w))); [|reflexivity]. apply tget_other. now apply O.
Qed.
Lemma elsewhere_perform names es : Forall (elsewhere names) es -> forall w, let w' := perform es w in
  (forall n, In n names -> tget n (files (disk w')) = tget n (files (disk w))) /\
  enabled (disk w') = enabled (disk w) /\ saved w' = saved w /\ memory w' = memory w.
Proof.
  induction 1 as [|e es H _ IH]; intros w; cbn zeta; [auto|]. rewrite perform_cons.
  destruct (elsewhere_act names e w H) as (A & B & C & D). destruct (IH (act e w)) as (A' & B' & C' & D').
  split; [|split; [|split]]; [|congruence..]. intros n N. rewrite (A' n N). auto.
Qed.

(** Effects that have nothing to do with the session *)
Definition mechanical (e : effect) : Prop :=
  match e with ERunning _ | EResult _ _ | ECheckpoint | ELoad => False | _ => True end.
Lemma mechanical_perform es : Forall mechanical es -> forall w, saved (perform es w) = saved w /\ memory (perform es w) = memory w.
Proof.
  induction 1 as [|e es H _ IH]; intros w; [auto|]. rewrite perform_cons. destruct (IH (act e w)) as [A B]. rewrite A, B.
  destruct e; cbn in *; try contradiction; auto.
Qed.
Lemma elsewhere_mechanical names e : elsewhere names e -> mechanical e.
Proof. destruct e; cbn; auto. Qed.

Section Assistant.
  Variable env : text -> option text.
  Variable cut : text -> list text.
  Hypothesis cut_all : forall t, concat (cut t) = t.
  Variables tmp respawn app : text.

  Lemma prime_works s parts t : launches env s parts t -> tmp <> service_filename ->
    exists es s', prime env cut tmp s app (restart_command parts) = inl (es, s') /\
      Forall mechanical es /\ diffuse env s' app = diffuse env s app /\
      (forall m, what_starts env app s' m = what_starts env app s m) /\
      forall w, let w' := perform es w in what_starts env app s (disk w') = Some t /\
        same_but [own_file env app s; tmp] (files (disk w)) (files (disk w')).
  Proof.
    intros L NT. destruct L as [a s parts O TD L1 L2|user s p parts O U P B1 B2].
    - apply xdg_object_shape in O as (o & ->). unfold prime. cbv zeta.
      match goal with |- context [ini_set _ _ ?c _] => set (x := c) end.
      assert (PV : plain_value x).
      { unfold x. destruct (x_terminal a); [|now apply command_plain]. intros I. apply in_app_or in I as [I|I]; [now apply command_plain in I|].
        revert I. apply not_in_b. vm_compute. reflexivity. }
      assert (OL : one_line x).
      { unfold x. destruct (x_terminal a); [|now apply command_one_line]. intros I. apply in_app_or in I as [I|I]; [now apply command_one_line in I|].
        revert I. apply not_in_b. vm_compute. reflexivity. }
      destruct (xdg_set_exec_ok a o _ PV) as [c E]. rewrite E. apply xdg_set_exec in E as ->.
      eexists. eexists. split; [reflexivity|]. split; [|split; [reflexivity|split; [reflexivity|]]].
      + constructor; [exact I|]. constructor; [exact I|]. apply Forall_forall. intros y Y. apply in_map_iff in Y as (q & <- & _). exact I.
      + intros w. cbn zeta. rewrite perform_cons.
        destruct (perform_writing cut (desktop_filename env app)
          (write_tight (xdg_config a (Some x)))
          (act (EMkdirs (desktop_filename env app)) w) (cut_all _)) as [A (B & _)].
        split.
        * cbn [what_starts]. etransitivity; [exact A|]. rewrite desktop_text by assumption. reflexivity.
        * intros n N. apply B. intros [X|[]]. apply N. now left.
    - apply snappy_object_shape in O as (o & ->). cbn [prime]. rewrite C62_the_command_is_split_into_the_words_given.
      set (x := snappy_binary env ++ T " " ++ unwords (tl (py_split p))).
      assert (PV : plain_value x).
      { intros I. apply in_app_or in I as [I|I]; [now apply B2|]. apply in_app_or in I as [I|I].
        - revert I. apply not_in_b. reflexivity.
        - now apply arguments_plain in I. }
      assert (OL : one_line x).
      { intros I. apply in_app_or in I as [I|I]; [now apply B1|]. apply in_app_or in I as [I|I].
        - revert I. apply not_in_b. reflexivity.
        - now apply arguments_one_line in I. }
      destruct (ini_set (T "Service") (T "ExecStart") x (snappy_config user o)) as [c|] eqn:E.
      2: { unfold ini_set in E. rewrite set_ok_plain in E by exact PV. discriminate E. }
      apply snappy_set_exec in E as ->.
      eexists. eexists. split; [reflexivity|]. split; [|split; [reflexivity|split; [reflexivity|]]].
      + constructor; [exact I|]. apply Forall_app. split.
        * constructor; [exact I|]. apply Forall_forall. intros y Y. apply in_map_iff in Y as (q & <- & _). exact I.
        * repeat constructor.
      + intros w. cbn zeta. rewrite perform_cons, perform_app.
        destruct (perform_writing cut tmp (write_tight (snappy_config user (Some x))) (act (EMkdirs service_filename) w) (cut_all _)) as [A (B & _)].
        set (w1 := perform (writing cut tmp _) _) in *.
        unfold perform. cbn [fold_left]. set (w2 := act (ECopy tmp service_filename) w1).
        assert (F : files (disk w2) = tset service_filename (write_tight (snappy_config user (Some x))) (files (disk w1))).
        { unfold w2. cbn [act on_files disk files]. now rewrite A. }
        cbn [act on_files disk files enabled what_starts own_file]. rewrite F. split.
        * rewrite tget_tdel. destruct (text_eqb tmp service_filename) eqn:G; [apply text_eqb_eq in G; contradiction|].
          rewrite tget_tset, text_eqb_refl. f_equal. unfold service_file_for. now apply service_text.
        * intros n N. rewrite tget_tdel. destruct (text_eqb tmp n) eqn:G.
          { apply text_eqb_eq in G. destruct N. right. now left. }
          rewrite tget_other by (intros [X|[]]; apply N; now left).
          apply B. intros [X|[]]. apply N. right. now left.
  Qed.

  Lemma diffuse_works s w : let w' := perform (diffuse env s app) w in
    what_starts env app s (disk w') = None /\ same_but [own_file env app s] (files (disk w)) (files (disk w')) /\
    saved w' = saved w /\ memory w' = memory w.
  Proof.
    destruct s; unfold perform; cbn [fold_left act on_files diffuse what_starts disk files saved memory enabled own_file]; (split; [|split; [|auto]]).
    - now rewrite tget_tdel, text_eqb_refl.
    - intros n N. rewrite tget_tdel. destruct (text_eqb _ n) eqn:E; [|reflexivity]. apply text_eqb_eq in E. destruct N. now left.
    - reflexivity.
    - intros n N. rewrite tget_tdel. destruct (text_eqb _ n) eqn:E; [|reflexivity]. apply text_eqb_eq in E. destruct N. now left.
  Qed.

  Lemma what_starts_same s m m' : tget (own_file env app s) (files m') = tget (own_file env app s) (files m) -> enabled m' = enabled m ->
    what_starts env app s m' = what_starts env app s m.
  Proof. destruct s; cbn; intros A B; [exact A|now rewrite A, B]. Qed.

  Definition respawn_effects (noreturn : bool) (parts : option (list text)) : list effect :=
    if noreturn then
      match parts with
      | Some ps => EMkdirs respawn :: ETruncate respawn :: map (EWrite respawn) (cut (concat ps))
      | None => [EMkdirs respawn]
      end
    else [].
  Lemma respawn_elsewhere noreturn parts names : ~ In respawn names -> Forall (elsewhere names) (respawn_effects noreturn parts).
  Proof.
    intros N. unfold respawn_effects. destruct noreturn; [|constructor]. destruct parts as [ps|].
    - constructor; [exact I|]. constructor; [exact N|]. apply Forall_forall. intros x X. apply in_map_iff in X as (q & <- & _). exact N.
    - constructor; [exact I|constructor].
  Qed.

  (** ** Running a job that may reboot the machine *)

  (** At every moment while the body of the job runs, the system is set up to
      start the application with the command given, and the session on the disk
      knows which job is running.  When the call is over, nothing is left of
      it: the system will start nothing, and no other files have changed but
      through the job (and the two that are named). *)
  Theorem C62_the_system_is_ready_while_the_job_runs : forall s parts t noreturn job body,
    launches env s parts t -> tmp <> service_filename -> respawn <> own_file env app s ->
    Forall (elsewhere [own_file env app s]) body ->
    exists before after,
      run_job env cut tmp respawn app (Some s) (Some parts) true noreturn job body = (before ++ body ++ after, None) /\
      forall w,
        (forall b1 b2, body = b1 ++ b2 -> let w' := perform (before ++ b1) w in
           what_starts env app s (disk w') = Some t /\ running (saved w') = Some job /\ results (saved w') = results (memory w)) /\
        (let w' := perform (before ++ body ++ after) w in
           what_starts env app s (disk w') = None /\ running (saved w') = Some job /\ results (saved w') = results (memory w)) /\
        same_but [own_file env app s; tmp; respawn] (files (disk w)) (files (disk (perform before w))) /\
        same_but [own_file env app s] (files (disk (perform (before ++ body) w))) (files (disk (perform (before ++ body ++ after) w))).
  Proof.
    intros s parts t noreturn job body L NT NR B.
    destruct (prime_works s parts t L NT) as (es & s' & P & M & D & WS & K).
    pose proof (respawn_elsewhere noreturn (Some parts) [own_file env app s]) as RE.
    specialize (RE ltac:(intros [X|[]]; auto)).
    exists ([ERunning (Some job); ECheckpoint] ++ es ++ respawn_effects noreturn (Some parts)), (diffuse env s app ++ [ECheckpoint]).
    split.
    { unfold run_job. rewrite P, D. unfold respawn_effects. rewrite <- !app_assoc. reflexivity. }
    intros w. set (w0 := perform [ERunning (Some job); ECheckpoint] w).
    assert (S0 : saved w0 = mk_session (Some job) (results (memory w)) /\ memory w0 = mk_session (Some job) (results (memory w))).
    { split; reflexivity. }
    set (w1 := perform es w0). destruct (K w0) as [K1 K2]. fold w1 in K1, K2. destruct (mechanical_perform es M w0) as [M1 M2]. fold w1 in M1, M2.
    set (w2 := perform (respawn_effects noreturn (Some parts)) w1).
    destruct (elsewhere_perform _ _ RE w1) as (R1 & R2 & R3 & R4). fold w2 in R1, R2, R3, R4.
    assert (Q : perform ([ERunning (Some job); ECheckpoint] ++ es ++ respawn_effects noreturn (Some parts)) w = w2).
    { rewrite !perform_app. reflexivity. }
    assert (W2 : what_starts env app s (disk w2) = Some t).
    { rewrite (what_starts_same s (disk w1)); auto. apply R1. now left. }
    assert (BODY : forall b1 b2, body = b1 ++ b2 -> let w' := perform b1 w2 in
      what_starts env app s (disk w') = Some t /\ saved w' = mk_session (Some job) (results (memory w)) /\
      memory w' = mk_session (Some job) (results (memory w))).
    { intros b1 b2 E. cbn zeta. rewrite E in B. apply Forall_app in B as [B1 _].
      destruct (elsewhere_perform _ _ B1 w2) as (X1 & X2 & X3 & X4).
      split; [|split].
      - rewrite (what_starts_same s (disk w2)); auto. apply X1. now left.
      - rewrite X3, R3, M1. apply S0.
      - rewrite X4, R4, M2. apply S0. }
    split; [|split; [|split]].
    - intros b1 b2 E. cbn zeta. rewrite perform_app, Q. destruct (BODY b1 b2 E) as (X & Y & _). rewrite Y. auto.
    - cbn zeta. rewrite perform_app, Q, perform_app, perform_app. set (w3 := perform body w2).
      destruct (BODY body [] ltac:(now rewrite app_nil_r)) as (X & Y & Z). fold w3 in X, Y, Z.
      destruct (diffuse_works s w3) as (D1 & D2 & D3 & D4). cbn. split; [exact D1|]. rewrite D4, Z. auto.
    - rewrite Q. intros n N. assert (X : tget n (files (disk w2)) = tget n (files (disk w1))).
      { pose proof (respawn_elsewhere noreturn (Some parts) [n] ltac:(intros [X|[]]; apply N; right; right; now left)) as F.
        apply (elsewhere_perform [n] _ F w1). now left. }
      rewrite X. rewrite (K2 n); [reflexivity|]. intros [Y|[Y|[]]]; apply N; [now left|right; now left].
    - assert (Z : forall b c d v, perform (b ++ c ++ d) v = perform d (perform (b ++ c) v)) by (intros; now rewrite !perform_app).
      rewrite Z. match goal with |- same_but _ (files (disk ?x)) _ => set (w3 := x) end. rewrite (perform_app (diffuse env s app)).
      destruct (diffuse_works s w3) as (D1 & D2 & D3 & D4). exact D2.
  Qed.

  (** However the call is interrupted: if the system will start something that
      it would not have started before, then the session on the disk says that
      the job is running. *)
  Theorem C62_what_starts_knows_the_job : forall s parts t noreturn job body es,
    launches env s parts t -> tmp <> service_filename ->
    Forall (elsewhere [own_file env app s]) body ->
    run_job env cut tmp respawn app (Some s) (Some parts) true noreturn job body = (es, None) ->
    forall p q w, es = p ++ q ->
      what_starts env app s (disk (perform p w)) <> what_starts env app s (disk w) ->
      running (saved (perform p w)) = Some job /\ results (saved (perform p w)) = results (memory w).
  Proof.
    intros s parts t noreturn job body es L NT B R p q w E H.
    destruct (prime_works s parts t L NT) as (pe & s' & P & M & D & WS & K).
    unfold run_job in R. rewrite P, D in R. fold (respawn_effects noreturn (Some parts)) in R.
    injection R as R.
    assert (INV : forall l, Forall (fun e => mechanical e \/ e = ECheckpoint) l -> forall v x, saved v = x -> memory v = x ->
      saved (perform l v) = x /\ memory (perform l v) = x).
    { induction 1 as [|e l A _ IH]; intros v x S1 S2; [auto|]. rewrite perform_cons. apply IH.
      - destruct A as [A| ->]; [|exact S2]. destruct e; cbn in *; try contradiction; auto.
      - destruct A as [A| ->]; [|exact S2]. destruct e; cbn in *; try contradiction; auto. }
    assert (F : exists l, es = ERunning (Some job) :: ECheckpoint :: l /\ Forall (fun e => mechanical e \/ e = ECheckpoint) l).
    { rewrite <- R. eexists. split; [reflexivity|]. apply Forall_app. split.
      { eapply Forall_impl; [|exact M]. auto. }
      apply Forall_app. split.
      { apply Forall_app. split.
        - eapply Forall_impl; [|apply (respawn_elsewhere noreturn (Some parts) []); intros []]. intros e X. left. now apply elsewhere_mechanical in X.
        - eapply Forall_impl; [|exact B]. intros e X. left. now apply elsewhere_mechanical in X. }
      apply Forall_app. split; [|apply Forall_cons; [now right|apply Forall_nil]].
      destruct s; cbn; repeat (apply Forall_cons; [left; exact I|]); apply Forall_nil. }
    destruct F as (l & F & G). rewrite F in E.
    destruct p as [|e1 [|e2 p]].
    - destruct H. reflexivity.
    - cbn in E. injection E as E1 _. subst e1. destruct H. reflexivity.
    - cbn in E. injection E as E1 E2 E3. subst e1 e2 l. rewrite !perform_cons. apply Forall_app in G as [G _].
      destruct (INV p G (act ECheckpoint (act (ERunning (Some job)) w)) (mk_session (Some job) (results (memory w))) eq_refl eq_refl) as [X _].
      rewrite X. auto.
  Qed.

  (** When the command cannot be prepared the call ends with an exception
      before the job is run and before anything is set up. *)
  Theorem C62_a_failed_call_sets_nothing_up : forall strat parts autorestart noreturn job body es e,
    run_job env cut tmp respawn app strat parts autorestart noreturn job body = (es, Some e) ->
    es = [ERunning (Some job); ECheckpoint] /\ forall w, disk (perform es w) = disk w.
  Proof.
    intros strat parts autorestart noreturn job body es e H. unfold run_job in H.
    assert (X : es = [ERunning (Some job); ECheckpoint]).
    { destruct (if autorestart then strat else None) as [s|]; [|discriminate H]. destruct parts as [ps|]; [|now injection H as <-].
      destruct (prime env cut tmp s app (restart_command ps)) as [[es' s']|e']; [discriminate H|now injection H as <-]. }
    split; [exact X|]. rewrite X. reflexivity.
  Qed.
  (** A job without the flag, or without a strategy, sets nothing up. *)
  Theorem C62_other_jobs_set_nothing_up : forall strat parts autorestart noreturn job body s,
    autorestart = false \/ strat = None -> respawn <> own_file env app s -> Forall (elsewhere [own_file env app s]) body ->
    exists es, run_job env cut tmp respawn app strat parts autorestart noreturn job body = (es, None) /\
      forall p q w, es = p ++ q -> what_starts env app s (disk (perform p w)) = what_starts env app s (disk w).
  Proof.
    intros strat parts autorestart noreturn job body s H NR B. unfold run_job.
    replace (if autorestart then strat else None) with (@None strategy) by (destruct H as [-> | ->]; [reflexivity|now destruct autorestart]).
    eexists. split; [reflexivity|]. fold (respawn_effects noreturn parts).
    assert (G : forall l, Forall (fun e => elsewhere [own_file env app s] e \/ (exists j, e = ERunning j) \/ e = ECheckpoint) l -> forall v,
      what_starts env app s (disk (perform l v)) = what_starts env app s (disk v)).
    { induction 1 as [|e l A _ IH]; intros v; [reflexivity|]. rewrite perform_cons, IH. destruct A as [A|[[j ->]| ->]]; [|reflexivity..].
      destruct (elsewhere_act _ e v A) as (X & Y & _). apply what_starts_same; [apply X; now left|exact Y]. }
    intros p q w E. apply G. apply Forall_forall. intros e I.
    assert (I' : In e (p ++ q)) by (apply in_or_app; now left). rewrite <- E in I'.
    apply in_app_or in I' as [I'|I'].
    - destruct I' as [<-|[<-|[]]]; eauto.
    - apply in_app_or in I' as [I'|[<-|[]]]; [|auto]. left. apply in_app_or in I' as [I'|I'].
      + pose proof (respawn_elsewhere noreturn parts [own_file env app s] ltac:(intros [X|[]]; auto)) as F. rewrite Forall_forall in F. auto.
      + rewrite Forall_forall in B. auto.
  Qed.

  (** ** Resuming *)

  Variables autorestart noreturn : text -> bool.
  Notation resume s w := (resume_session env app (Some s) autorestart noreturn w).

  Definition after_resuming (x : session) : session :=
    match running x with
    | Some job =>
        if negb (text_eqb job []) && autorestart job
        then mk_session None (tset job (if noreturn job then o_pass else o_fail) (results x)) else x
    | None => x
    end.

  (** Whatever state the session and the machine were left in: after resuming
      the system will start nothing any more.  If the session says that a job
      with the flag was running, that job has passed when it was not expected
      to return and has failed otherwise, it is not running any more, and all
      other results are as they were; otherwise the session is as it was. *)
  Theorem C62_what_resuming_does : forall s w, let w' := perform (resume s w) w in
    what_starts env app s (disk w') = None /\
    same_but [own_file env app s] (files (disk w)) (files (disk w')) /\
    saved w' = after_resuming (saved w) /\ memory w' = saved w'.
  Proof.
    intros s w. cbn zeta. unfold resume_session. rewrite perform_cons, perform_app. set (w1 := perform _ (act ELoad w)).
    destruct (diffuse_works s w1) as (A & B & C & D). rewrite C, D.
    assert (X : disk w1 = disk w /\ saved w1 = after_resuming (saved w) /\ memory w1 = saved w1).
    { unfold w1, after_resuming. destruct (running (saved w)) as [[|c r]|]; cbn [text_eqb negb andb]; try (repeat split; fail).
      replace (text_eqb (c :: r) []) with false by reflexivity. cbn [negb andb].
      destruct (autorestart (c :: r)); repeat split. }
    destruct X as (X1 & X2 & X3). rewrite X1 in B. repeat split; auto.
  Qed.

  (** Resuming may be interrupted anywhere and tried again: the outcome is the
      same. *)
  Theorem C62_resuming_can_be_interrupted : forall s w p q, resume s w = p ++ q ->
    let w1 := perform p w in perform (resume s w1) w1 = perform (resume s w) w.
  Proof.
    intros s w p q E. cbn zeta. set (w1 := perform p w).
    (* where the interruption was: before or after the checkpoint, before or after diffusing *)
    assert (FORM : forall v, perform (resume s v) v = perform (diffuse env s app) (mk_world (disk v) (after_resuming (saved v)) (after_resuming (saved v)))).
    { intros v. unfold resume_session. rewrite perform_cons, perform_app. f_equal. unfold after_resuming.
      destruct (running (saved v)) as [[|c r]|]; [reflexivity| |reflexivity].
      replace (text_eqb (c :: r) []) with false by reflexivity. cbn [negb andb].
      destruct (autorestart (c :: r)); reflexivity. }
    assert (IDEM : forall x, after_resuming (after_resuming x) = after_resuming x).
    { intros x. unfold after_resuming at 2 3. destruct (running x) as [j|] eqn:R.
      - destruct (negb (text_eqb j []) && autorestart j) eqn:G; [reflexivity|]. unfold after_resuming. now rewrite R, G.
      - unfold after_resuming. now rewrite R. }
    rewrite !FORM.
    assert (PART : exists d m, (w1 = mk_world (disk w) (saved w) m \/ w1 = mk_world (disk w) (after_resuming (saved w)) m \/
      (w1 = mk_world d (after_resuming (saved w)) m /\ exists d1 d2, diffuse env s app = d1 ++ d2 /\ w1 = perform d1 (mk_world (disk w) (after_resuming (saved w)) m)))).
    { unfold resume_session in E. unfold w1. clear w1. destruct p as [|e p].
      { exists (disk w), (memory w). left. now destruct w. }
      cbn in E. injection E as <- E. rewrite perform_cons.
      assert (TAIL : forall x, (exists m, x = mk_world (disk w) (after_resuming (saved w)) m) -> forall p q, diffuse env s app = p ++ q -> exists d m,
        (perform p x = mk_world (disk w) (saved w) m \/ perform p x = mk_world (disk w) (after_resuming (saved w)) m \/
         (perform p x = mk_world d (after_resuming (saved w)) m /\ exists d1 d2, diffuse env s app = d1 ++ d2 /\ perform p x = perform d1 (mk_world (disk w) (after_resuming (saved w)) m)))).
      { intros x (m & ->) p' q' E'. assert (M : Forall mechanical p').
        { assert (M : Forall mechanical (diffuse env s app)) by (destruct s; cbn; repeat constructor). rewrite E' in M. now apply Forall_app in M. }
        destruct (mechanical_perform p' M (mk_world (disk w) (after_resuming (saved w)) m)) as [X Y]. cbn in X, Y.
        exists (disk (perform p' (mk_world (disk w) (after_resuming (saved w)) m))), m. right. right. split.
        - destruct (perform p' _) as [d0 s0 m0]. cbn in *. congruence.
        - eauto. }
      remember (after_resuming (saved w)) as y eqn:Y. unfold after_resuming in Y.
      destruct (running (saved w)) as [[|c r]|] eqn:R.
      - apply (TAIL (act ELoad w)) with (q := q); [exists (saved w); rewrite Y; reflexivity|exact E].
      - replace (text_eqb (c :: r) []) with false in Y by reflexivity. cbn [negb andb] in Y.
        destruct (autorestart (c :: r)).
        + destruct p as [|e1 p]; [exists (disk w), (saved w); left; reflexivity|]. cbn in E. injection E as <- E. rewrite perform_cons.
          destruct p as [|e2 p]; [eexists (disk w), _; left; reflexivity|]. cbn in E. injection E as <- E. rewrite perform_cons.
          destruct p as [|e3 p]; [eexists (disk w), _; left; reflexivity|]. cbn in E. injection E as <- E. rewrite perform_cons.
          apply TAIL with (q := q); [eexists; rewrite Y; reflexivity|exact E].
        + apply (TAIL (act ELoad w)) with (q := q); [exists (saved w); rewrite Y; reflexivity|exact E].
      - apply (TAIL (act ELoad w)) with (q := q); [exists (saved w); rewrite Y; reflexivity|exact E]. }
    destruct PART as (d & m & [-> | [-> | (E1 & d1 & d2 & D & E2)]]); cbn [disk saved].
    - reflexivity.
    - now rewrite IDEM.
    - assert (S1 : saved w1 = after_resuming (saved w)) by now rewrite E1. rewrite S1, IDEM.
      assert (X : forall y, perform (diffuse env s app) (mk_world (disk w1) y y) = perform (diffuse env s app) (mk_world (disk w) y y)).
      { intros y. rewrite E2. destruct s; cbn in D; unfold diffuse.
        - destruct d1 as [|a1 [|a2 d1]]; cbn in D.
          + reflexivity.
          + injection D as <- D. unfold perform. cbn [fold_left act]. unfold on_files. cbn [disk files saved memory enabled]. now rewrite tdel_tdel.
          + injection D as _ D. discriminate D.
        - destruct d1 as [|a1 [|a2 [|a3 d1]]]; cbn in D.
          + reflexivity.
          + injection D as <- D. reflexivity.
          + injection D as <- <- D. unfold perform. cbn [fold_left act]. unfold on_files. cbn [disk files saved memory enabled]. now rewrite tdel_tdel.
          + injection D as _ _ D. discriminate D. }
      apply X.
  Qed.

  (** The whole story: the machine reboots at any moment while the body of the
      job runs; until the session is resumed the system starts the application
      with the command given; then the system starts nothing any more, the job
      has passed if it was not expected to return and failed otherwise, the
      other results are those of the moment the job was started. *)
  Theorem C62_a_reboot_in_the_middle : forall s parts t job body,
    launches env s parts t -> tmp <> service_filename -> respawn <> own_file env app s ->
    Forall (elsewhere [own_file env app s]) body -> autorestart job = true -> job <> [] ->
    exists before after,
      run_job env cut tmp respawn app (Some s) (Some parts) true (noreturn job) job body = (before ++ body ++ after, None) /\
      forall w b1 b2, body = b1 ++ b2 ->
        let rebooted := perform (before ++ b1) w in
        let resumed := perform (resume s rebooted) rebooted in
        what_starts env app s (disk rebooted) = Some t /\
        what_starts env app s (disk resumed) = None /\
        running (saved resumed) = None /\
        tget job (results (saved resumed)) = Some (if noreturn job then T "pass" else T "fail") /\
        forall j, j <> job -> tget j (results (saved resumed)) = tget j (results (memory w)).
  Proof.
    intros s parts t job body L NT NR B A N.
    destruct (C62_the_system_is_ready_while_the_job_runs s parts t (noreturn job) job body L NT NR B) as (before & after & E & H).
    exists before, after. split; [exact E|]. intros w b1 b2 S. cbn zeta. destruct (H w) as (H1 & _). destruct (H1 b1 b2 S) as (X & Y & Z).
    set (w1 := perform (before ++ b1) w) in *. destruct (C62_what_resuming_does s w1) as (R1 & _ & R3 & _).
    split; [exact X|]. split; [exact R1|]. rewrite R3. unfold after_resuming. rewrite Y.
    destruct (text_eqb job []) eqn:F; [apply text_eqb_eq in F; contradiction|]. rewrite A. cbn [negb andb running results].
    split; [reflexivity|]. split.
    - rewrite tget_tset, text_eqb_refl. reflexivity.
    - intros j J. rewrite tget_tset. destruct (text_eqb j job) eqn:G; [apply text_eqb_eq in G; contradiction|]. now rewrite Z.
  Qed.

  (** One would expect that a job that has been run to its end and whose result
      has been saved keeps that result when the session is resumed.  It does
      not: the session still says that this job is running, so that resuming
      takes it for interrupted and replaces its result, whatever it was. *)
  Theorem C62_finished_jobs_keep_their_results_refuted : forall s parts t job body outcome,
    launches env s parts t -> tmp <> service_filename -> respawn <> own_file env app s ->
    Forall (elsewhere [own_file env app s]) body -> autorestart job = true -> job <> [] ->
    exists es, run_job env cut tmp respawn app (Some s) (Some parts) true (noreturn job) job body = (es, None) /\
      forall w, let w1 := perform (es ++ use_job_result job outcome) w in
        tget job (results (saved w1)) = Some outcome /\
        tget job (results (saved (perform (resume s w1) w1))) = Some (if noreturn job then T "pass" else T "fail").
  Proof.
    intros s parts t job body outcome L NT NR B A N.
    destruct (C62_the_system_is_ready_while_the_job_runs s parts t (noreturn job) job body L NT NR B) as (before & after & E & H).
    exists (before ++ body ++ after). split; [exact E|]. intros w. cbn zeta. destruct (H w) as (_ & (X & Y & Z) & _).
    rewrite perform_app. set (w0 := perform (before ++ body ++ after) w) in *.
    assert (M : running (memory w0) = Some job).
    { assert (LAST : exists l, before ++ body ++ after = l ++ [ECheckpoint]).
      { unfold run_job in E. destruct (prime_works s parts t L NT) as (pe & s' & P & _). rewrite P in E. injection E as E. rewrite <- E.
        exists ([ERunning (Some job); ECheckpoint] ++ pe ++ (respawn_effects (noreturn job) (Some parts) ++ body) ++ diffuse env s' app).
        unfold respawn_effects. rewrite <- !app_assoc. reflexivity. }
      destruct LAST as [l LAST]. unfold w0 in Y |- *. rewrite LAST, perform_app in *. exact Y. }
    set (w1 := perform (use_job_result job outcome) w0).
    assert (S1 : saved w1 = mk_session (Some job) (tset job outcome (results (memory w0)))).
    { unfold w1, use_job_result, perform. cbn [fold_left act on_memory memory saved running results]. now rewrite M. }
    split.
    - rewrite S1. cbn [results]. now rewrite tget_tset, text_eqb_refl.
    - destruct (C62_what_resuming_does s w1) as (_ & _ & R3 & _). rewrite R3, S1. unfold after_resuming. cbn [running results].
      destruct (text_eqb job []) eqn:F; [apply text_eqb_eq in F; contradiction|]. rewrite A. cbn [negb andb results].
      now rewrite tget_tset, text_eqb_refl.
  Qed.

  (** What jobs that do not return are told: the file holds the parts of the
      command one after the other ... *)
  Theorem C62_the_respawn_file : forall strat parts auto job es,
    run_job env cut tmp respawn app strat (Some parts) auto true job [] = (es, None) ->
    (forall s, strat = Some s -> auto = true -> respawn <> own_file env app s /\ respawn <> tmp) ->
    forall w, tget respawn (files (disk (perform es w))) = Some (concat parts).
  Proof.
    intros strat parts auto job es H N w.
    assert (RW : forall v, tget respawn (files (disk (perform (EMkdirs respawn :: ETruncate respawn :: map (EWrite respawn) (cut (concat parts))) v))) = Some (concat parts)).
    { intros v. rewrite perform_cons. apply (perform_writing cut respawn (concat parts)). apply cut_all. }
    unfold run_job in H. cbv zeta in H. remember (EMkdirs respawn :: ETruncate respawn :: map (EWrite respawn) (cut (concat parts))) as R eqn:ER. clear ER.
    rewrite app_nil_r in H. destruct (if auto then strat else None) as [s|] eqn:S.
    - destruct auto; [|discriminate]. destruct (N s S eq_refl) as [N1 N2].
      destruct (prime env cut tmp s app (restart_command parts)) as [[pe s']|e] eqn:P; [|discriminate]. injection H as <-.
      do 2 rewrite perform_cons. rewrite !perform_app. set (v := perform pe _).
      assert (K : own_file env app s' = own_file env app s).
      { apply prime_kind in P as [(t0 & c & c' & -> & ->)|(c & c' & -> & ->)]; cbn [own_file]; reflexivity. }
      destruct (diffuse_works s' (perform R v)) as (_ & D & _).
      etransitivity; [apply (D respawn)|apply RW]. intros [X|[]]. rewrite K in X. auto.
    - injection H as <-. do 2 rewrite perform_cons. rewrite perform_app. apply RW.
  Qed.
End Assistant.

(** ** Where the desktop entry is *)
Theorem C62_the_desktop_entry_is_in_the_home_directory : forall env home app,
  env (T "HOME") = Some home -> ~ In "$"%char app ->
  desktop_filename env app = home ++ T "/.config/autostart/" ++ app ++ T ".desktop".
Proof. intros env home app. apply desktop_name. Qed.
(** Applications do not get into each other's way ... *)
Theorem C62_every_application_has_its_own_entry : forall env home app app',
  env (T "HOME") = Some home -> ~ In "$"%char app -> ~ In "$"%char app' ->
  desktop_filename env app = desktop_filename env app' -> app = app'.
Proof.
  intros env home app app' H N N' E. rewrite (desktop_name env home app H N), (desktop_name env home app' H N') in E.
  apply app_inv_head, app_inv_head in E. now apply app_inv_tail in E.
Qed.
(** ... unless their names look like variables. *)
Theorem C62_every_application_has_its_own_entry_refuted : exists env home app app',
  env (T "HOME") = Some home /\ app <> app' /\ desktop_filename env app = desktop_filename env app'.
Proof.
  exists (fun n => if text_eqb n (T "HOME") then Some (T "/root") else None), (T "/root"), (T "$HOME"), (T "/root").
  split; [vm_compute; reflexivity|]. split; [discriminate|]. vm_compute. reflexivity.
Qed.
(** Without HOME the entry is put into a directory that is called $HOME *)
Theorem C62_without_a_home_refuted : forall app, ~ In "$"%char app ->
  desktop_filename (fun _ => None) app = T "$HOME/.config/autostart/" ++ app ++ T ".desktop".
Proof.
  intros name N. unfold desktop_filename. rewrite home_split.
  assert (G : forall t, expandvars (fun _ => None) VText t = t).
  { assert (H : forall t m, expandvars (fun _ => None) m t =
      match m with VText => [] | VDollar => [DOLLAR] | VName acc => DOLLAR :: rev acc | VBrace acc => DOLLAR :: "{"%char :: rev acc end ++ t).
    { induction t as [|c t IH]; intros m.
      - destruct m; cbn; rewrite ?app_nil_r; reflexivity.
      - cbn [expandvars]. assert (P : (if Ascii.eqb c DOLLAR then expandvars (fun _ => None) VDollar t else c :: expandvars (fun _ => None) VText t) = c :: t).
        { destruct (Ascii.eqb c DOLLAR) eqn:E; rewrite IH; [apply Ascii.eqb_eq in E as ->|]; reflexivity. }
        cbv zeta. rewrite P. destruct m as [| |acc|acc].
        + reflexivity.
        + destruct (word_like c); [rewrite IH; reflexivity|]. destruct (Ascii.eqb c "{" && existsb (Ascii.eqb "}") t) eqn:E; [|reflexivity].
          apply andb_true_iff in E as [E _]. apply Ascii.eqb_eq in E as ->. rewrite IH. reflexivity.
        + destruct (word_like c); [rewrite IH; cbn [rev app]; now rewrite <- app_assoc|]. reflexivity.
        + destruct (Ascii.eqb c "}") eqn:E.
          * apply Ascii.eqb_eq in E as ->. rewrite IH. unfold var_value. cbn [app]. now rewrite <- app_assoc.
          * rewrite IH. cbn [rev app]. now rewrite <- app_assoc. }
    intros t. now rewrite H. }
  now rewrite G.
Qed.

(** ** Which strategy *)
Definition set_and_not_empty (env : text -> option text) (name : text) : Prop := exists c r, env name = Some (c :: r).
Lemma env_true_spec env name : env_true env name = true <-> set_and_not_empty env name.
Proof.
  unfold env_true, set_and_not_empty. destruct (env name) as [[|c r]|]; split; intros H; try discriminate; eauto.
  - destruct H as (c & r & H). discriminate.
  - destruct H as (c & r & H). discriminate.
Qed.
Theorem C62_which_strategy : forall env autostart_dir,
  let snap := set_and_not_empty env (T "SNAP") \/ set_and_not_empty env (T "SNAP_APP_PATH") in
  (forall user, snap -> env (T "USER") = Some user -> plain_value user ->
     exists s, detect env autostart_dir = Some (inl s) /\ snappy_object user s) /\
  (snap -> env (T "USER") = None -> detect env autostart_dir = Some (inr FType)) /\
  (~ snap -> autostart_dir = true -> exists s, detect env autostart_dir = Some (inl s) /\
     xdg_object (mk_xdg None None None None true None false) s) /\
  (~ snap -> autostart_dir = false -> detect env autostart_dir = None).
Proof.
  intros env dir snap. assert (HS : snap <-> env_true env (T "SNAP") || env_true env (T "SNAP_APP_PATH") = true).
  { unfold snap. rewrite orb_true_iff, !env_true_spec. reflexivity. }
  clearbody snap. unfold detect.
  destruct (env_true env (T "SNAP") || env_true env (T "SNAP_APP_PATH")).
  - assert (Y : snap) by now apply HS. split; [|split; [|split]]; try (intros N; contradiction).
    + intros user _ U P. destruct (snappy_init env) as [c|e] eqn:E.
      * eexists. split; [reflexivity|]. now apply (snappy_new user env c).
      * exfalso. unfold snappy_init in E. set (x := set_all (T "Unit") _ _) in E. vm_compute in x. unfold x in E. rewrite U in E.
        cbn [set_all] in E. unfold ini_set in E. rewrite (set_ok_plain user P) in E.
        repeat (match type of E with context [set_ok (T ?s)] => change (set_ok (T s)) with true in E end). cbn iota in E.
        change (is_default (T "Service")) with false in E. change (is_default (T "Install")) with false in E. cbn iota in E. discriminate E.
    + intros _ U. unfold snappy_init. set (x := set_all (T "Unit") _ _). vm_compute in x. unfold x. now rewrite U.
  - assert (N : ~ snap) by (intros X; apply HS in X; discriminate X). split; [|split; [|split]]; try (intros; contradiction).
    + intros _ ->. destruct (xdg_init _) as [c|e] eqn:E.
      * eexists. split; [reflexivity|]. exact (xdg_new (mk_xdg None None None None true None false) c E).
      * vm_compute in E. discriminate E.
    + intros _ ->. reflexivity.
Qed.

(** ** What cannot be relied on *)

Definition simple_env (n : text) : option text :=
  if text_eqb n (T "HOME") then Some (T "/home/me")
  else if text_eqb n (T "USER") then Some (T "me")
  else if text_eqb n (T "SNAP_NAME") then Some (T "box")
  else if text_eqb n (T "SNAP") then Some (T "/snap/box/1") else None.
Definition default_xdg : xdg_args := mk_xdg None None None None true None false.
Definition default_entry : strategy := XDG true (xdg_config default_xdg None).
Definition default_service : strategy := Snappy (snappy_config (T "me") None).

Example C62_case_detected : detect (fun n => if text_eqb n (T "SNAP") then None else simple_env n) true = Some (inl default_entry) /\
  detect simple_env true = Some (inl default_service).
Proof. split; vm_compute; reflexivity. Qed.
Example C62_case_objects : xdg_object default_xdg default_entry /\ snappy_object (T "me") default_service.
Proof.
  split.
  - apply (xdg_new default_xdg). vm_compute. reflexivity.
  - apply (snappy_new (T "me") simple_env); vm_compute; reflexivity.
Qed.

(** A percent sign in a part of the command: the job is not run at all *)
Theorem C62_any_command_can_be_used_refuted : exists parts,
  forall cut tmp respawn app noreturn job body, run_job simple_env cut tmp respawn app (Some default_entry) (Some parts) true noreturn job body =
    ([ERunning (Some job); ECheckpoint], Some FValue).
Proof. exists [T "run"; T "100%"]. intros. unfold run_job. reflexivity. Qed.
(** Without a command callback (use_alternate_restart_strategy alone is enough
    to get there) the job is not run either *)
Theorem C62_a_strategy_alone_is_not_enough_refuted : forall env cut tmp respawn app s noreturn job body,
  run_job env cut tmp respawn app (Some s) None true noreturn job body = ([ERunning (Some job); ECheckpoint], Some FType).
Proof. reflexivity. Qed.
(** A line break in a part of the command is changed: what is left is another
    command *)
Theorem C62_line_breaks_survive_refuted : exists parts es s',
  prime simple_env (fun t => [t]) (T "tmp") default_entry (T "app") (restart_command parts) = inl (es, s') /\
  (forall t, In (EWrite (T "/home/me/.config/autostart/app.desktop") t) es -> forall l, In l (split_nl t) -> tprefix (T "Exec=") l = true ->
     shlex_split (skipn 5 l) = None).
Proof.
  exists [T "say"; T "a" ++ [NL] ++ T "b"]. eexists. eexists. split; [vm_compute; reflexivity|].
  intros t I l J P. cbn [In] in I. destruct I as [I|[I|[I|[]]]]; try discriminate I. injection I as <-.
  vm_compute in J. repeat (destruct J as [<-|J]; [first [vm_compute in P; discriminate P | vm_compute; reflexivity]|]). destruct J.
Qed.

(** In a snap every part of the command but the first is lost ... *)
Theorem C62_snaps_keep_the_arguments_refuted : forall env cut tmp app c p rest,
  prime env cut tmp (Snappy c) app (restart_command (p :: rest)) = prime env cut tmp (Snappy c) app (restart_command [p]).
Proof.
  intros. unfold prime. now rewrite !C62_the_command_is_split_into_the_words_given.
Qed.
(** ... and without any part there is an IndexError. *)
Theorem C62_snaps_need_a_command_refuted : forall env cut tmp app c, prime env cut tmp (Snappy c) app (restart_command []) = inr FIndex.
Proof. reflexivity. Qed.
(** What works is one part that holds the whole command, words with blanks
    between them: the first word is replaced by the binary of the snap. *)
Theorem C62_snaps_keep_the_words_of_one_part : forall env user s w ws,
  snappy_object user s -> one_line user -> one_line (snappy_binary env) -> plain_value (snappy_binary env) ->
  (forall x, In x (w :: ws) -> x <> [] /\ plain_value x /\ forall c, In c x -> isspace c = false) ->
  launches env s [unwords (w :: ws)] (lines (service_lines user (snappy_binary env ++ T " " ++ unwords ws))).
Proof.
  intros env user s w ws O U B1 B2 H.
  assert (E : py_split (unwords (w :: ws)) = w :: ws) by (apply py_split_unwords; intros x X; destruct (H x X) as (A & _ & C); auto).
  pose proof (launches_snappy env user s (unwords (w :: ws)) [] O U) as L. rewrite E in L. apply L; auto.
  intros I. apply unwords_In in I as [I|(x & X & Y)]; [discriminate I|]. destruct (H x X) as (_ & P & _). auto.
Qed.

(** The file for jobs that do not return does not tell the parts apart *)
Theorem C62_the_respawn_file_tells_the_command_refuted : forall env cut tmp respawn app strat job a b,
  fst (run_job env cut tmp respawn app strat (Some [a; b]) false true job []) =
  fst (run_job env cut tmp respawn app strat (Some [a ++ b]) false true job []).
Proof. intros. unfold run_job. cbn [fst]. cbn [concat]. now rewrite !app_nil_r. Qed.

(** ** Cases *)

Definition whole (t : text) : list text := [t].
Definition bytes (t : text) : list text := map (fun c => [c]) t.
Lemma bytes_all t : concat (bytes t) = t.
Proof. induction t as [|c t IH]; [reflexivity|]. cbn. now f_equal. Qed.

Definition ex_parts : list text := [T "checkbox-cli"; T "--resume"; T "it's my session"; []].
Example C62_case_command : restart_command ex_parts = T "checkbox-cli --resume 'it'""'""'s my session' ''".
Proof. reflexivity. Qed.
Example C62_case_launches : launches simple_env default_entry ex_parts (desktop_file_for default_xdg (restart_command ex_parts)).
Proof.
  apply launches_xdg.
  - apply C62_case_objects.
  - intros v I. cbn in I. repeat destruct I as [I|I]; try discriminate I. destruct I.
  - unfold ex_parts. repeat constructor; apply one_line_b; reflexivity.
  - unfold ex_parts. repeat constructor; apply not_in_b; reflexivity.
Qed.
Example C62_case_service : launches simple_env default_service [T "checkbox-cli --resume 17"]
  (lines (service_lines (T "me") (T "/snap/bin/box.checkbox-cli --resume 17"))).
Proof.
  apply (C62_snaps_keep_the_words_of_one_part simple_env (T "me") default_service (T "checkbox-cli") [T "--resume"; T "17"]).
  - apply C62_case_objects.
  - apply one_line_b. reflexivity.
  - apply one_line_b. reflexivity.
  - apply not_in_b. reflexivity.
  - intros x X. cbn [In] in X. repeat destruct X as [<-|X]; [..|destruct X]; (split; [discriminate|split; [apply not_in_b; reflexivity|]]);
      intros c C; vm_compute in C; repeat (destruct C as [<-|C]; [reflexivity|]); destruct C.
Qed.

Definition ex_world : world := mk_world (mk_machine [(T "/etc/hosts", T "me")] false) (mk_session None []) (mk_session None [(T "first", T "pass")]).
Definition ex_body : list effect := [ETruncate (T "/tmp/log"); EWrite (T "/tmp/log") (T "rebooting")].
Definition ex_run : list effect :=
  fst (run_job simple_env bytes (T "/tmp/x1") (T "/session/__respawn_checkbox") (T "checkbox") (Some default_entry) (Some ex_parts) true true (T "reboot") ex_body).
(** The machine goes down after the job has written its log: the desktop entry
    is there; resuming removes it and the job has passed. *)
Example C62_case_reboot :
  let down := perform (firstn (length ex_run - 2) ex_run) ex_world in
  let up := perform (resume_session simple_env (T "checkbox") (Some default_entry) (fun _ => true) (fun _ => true) down) down in
  tget (T "/home/me/.config/autostart/checkbox.desktop") (files (disk down)) =
    Some (lines (map T [ "[Desktop Entry]"; "Categories=System"; "Comment=Automatically resume the testing session";
      "Exec=checkbox-cli --resume 'it'""'""'s my session' '';$SHELL"; "GenericName=Resume Testing Session"; "Name=Resume Testing Session";
      "StartupNotify=false"; "Terminal=true"; "Type=Application"; "Version=1.0"; "" ]%string)) /\
  tget (T "/tmp/log") (files (disk down)) = Some (T "rebooting") /\ running (saved down) = Some (T "reboot") /\
  tget (T "/home/me/.config/autostart/checkbox.desktop") (files (disk up)) = None /\ running (saved up) = None /\
  results (saved up) = [(T "first", T "pass"); (T "reboot", T "pass")].
Proof. vm_compute. repeat split. Qed.

Print Assumptions C62_the_command_is_the_words_given.
Print Assumptions C62_the_command_is_split_into_the_words_given.
Print Assumptions C62_the_system_is_ready_while_the_job_runs.
Print Assumptions C62_what_starts_knows_the_job.
Print Assumptions C62_a_failed_call_sets_nothing_up.
Print Assumptions C62_other_jobs_set_nothing_up.
Print Assumptions C62_what_resuming_does.
Print Assumptions C62_resuming_can_be_interrupted.
Print Assumptions C62_a_reboot_in_the_middle.
Print Assumptions C62_finished_jobs_keep_their_results_refuted.
Print Assumptions C62_the_respawn_file.
Print Assumptions C62_the_desktop_entry_is_in_the_home_directory.
Print Assumptions C62_every_application_has_its_own_entry.
Print Assumptions C62_every_application_has_its_own_entry_refuted.
Print Assumptions C62_without_a_home_refuted.
Print Assumptions C62_which_strategy.
Print Assumptions C62_any_command_can_be_used_refuted.
Print Assumptions C62_a_strategy_alone_is_not_enough_refuted.
Print Assumptions C62_line_breaks_survive_refuted.
Print Assumptions C62_snaps_keep_the_arguments_refuted.
Print Assumptions C62_snaps_need_a_command_refuted.
Print Assumptions C62_snaps_keep_the_words_of_one_part.
Print Assumptions C62_the_respawn_file_tells_the_command_refuted.

(** The program that the service starts is the command-line client of the snap
    that was running, in the directory where such snaps have their programs:
    /apps for the old kind, which is told by SNAP_APP_PATH, and /snap for the
    new kind. *)
Theorem C62_the_service_starts_the_same_snap : forall env name, env (T "SNAP_NAME") = Some name ->
  ((exists path, env (T "SNAP_APP_PATH") = Some path /\ path <> []) ->
     snappy_binary env = T "/apps/bin/" ++ name ++ T ".checkbox-cli") /\
  (env (T "SNAP_APP_PATH") = None -> snappy_binary env = T "/snap/bin/" ++ name ++ T ".checkbox-cli").
Proof.
  intros env name N. unfold snappy_binary, env_true. rewrite N. split.
  - intros (p & E & K). rewrite E. destruct p as [|c p]; [congruence|]. reflexivity.
  - intros ->. reflexivity.
Qed.
Print Assumptions C62_the_service_starts_the_same_snap.
