(** * C86: what the service for remote sessions answers *)
From Coq Require Import String Ascii List Bool Arith ZArith Lia Permutation Sorted.
From Verif Require Import ScanModel Rfc822Model Rfc822Proofs OriginModel OriginSpec OriginProps SymbolModel ServiceModel ServiceSpec ServiceProps.
Import ListNotations.
Local Open Scope nat_scope.
Local Open Scope list_scope.

Lemma phase_eqb_spec a b : phase_eqb a b = true <-> a = b.
Proof. destruct a, b; cbn; split; congruence. Qed.

(** ** Phases *)

Lemma background_phase g j s : s_state (fst (background g j s)) = Running.
Proof. unfold background. proj. destruct (s_locked s); reflexivity. Qed.
Lemma ask_phase g j i s : s_state (fst (ask_password g j i s)) = s_state s \/ s_state (fst (ask_password g j i s)) = Running.
Proof. unfold ask_password. destruct (_ && _); [left; reflexivity|right; apply background_phase]. Qed.

(** The phase changes only so: a session goes from idle to started, bootstrapped and running, and
    back when a result was fed; resuming and finalizing are possible at any time *)
Theorem C86_phases s e : s_state (fst (step s e)) <> s_state s -> moves (s_state s) e (s_state (fst (step s e))).
Proof.
  destruct e as [plans|st|job|g todo info|g|k l|k r| | | |f todo|c|c|ok]; cbn [step].
  - unfold allowed_when. destruct (phase_eqb _ _) eqn:P; [|easy]. apply phase_eqb_spec in P. rewrite P.
    destruct plans as [l|]; [|cbn; congruence]. destruct (sort_plans l); intros _; constructor.
  - unfold allowed_when. destruct (phase_eqb _ _) eqn:P; [|easy]. apply phase_eqb_spec in P. rewrite P.
    destruct st as [l|]; [|cbn; congruence]. intros _. constructor.
  - unfold allowed_when. destruct (phase_eqb _ _); easy.
  - intros H. assert (E : s_state (fst (next g todo info s)) = Running); [|rewrite E; constructor]. revert H.
    unfold next. destruct (nth_error (s_gens s) g) as [x|]; [|easy]. destruct (g_at x) as [|i|i| |]; try easy.
    + destruct todo as [l|]; [|easy]. destruct info as [i|]; [|easy]. destruct (existsb _ _); [easy|].
      match goal with |- context [ask_password ?a ?b ?c ?d] => destruct (ask_phase a b c d) as [E|E] end; rewrite E; auto. proj. easy.
    + match goal with |- context [ask_password ?a ?b ?c ?d] => destruct (ask_phase a b c d) as [E|E] end; rewrite E; auto. easy.
    + destruct (s_pw s); [|easy]. intros _. apply background_phase.
  - destruct (nth_error (s_gens s) g) as [x|]; [|easy]. destruct (g_at x); try easy. destruct (s_locked s); easy.
  - destruct (alive k s); easy.
  - destruct (nth_error (s_execs s) k) as [x|]; [|easy]. destruct (x_alive x); easy.
  - unfold allowed_when. destruct (phase_eqb _ _); [|easy]. unfold monitor_job. destruct (s_be s); [|easy].
    destruct (nth_error _ _) as [x|]; [|easy]. destruct (x_end x) as [[r|]|]; easy.
  - unfold whats_up. destruct (s_state s) eqn:P; cbn [fst]; try congruence. destruct (s_plans s); cbn [fst]; congruence.
  - destruct (s_be s); easy.
  - unfold finish_waited. destruct (nth_error (s_fins s) f) as [x|]; [|easy]. destruct (f_over x); [easy|].
    destruct (nth_error (s_execs s) (f_exec x)) as [e|]; [|easy]. destruct (x_end e) as [[r|]|]; try easy.
    destruct todo as [l|]; [|easy]. proj. destruct (s_locked s); [|easy]. intros _. destruct l; constructor.
  - easy.
  - unfold resume_last. destruct c as [| |[[|a n]|] []]; cbn [fst]; try easy; intros _; constructor.
  - destruct ok; [|easy]. intros _. constructor.
Qed.
Print Assumptions C86_phases.

(** Four calls are refused, changing nothing, exactly when the service is not in their phase; no
    other call is.  The two names in the message are the wrong way around *)
Theorem C86_refused s e :
  (exists m, snd (step s e) = Refused m) <-> exists p, needs e = Some p /\ s_state s <> p.
Proof.
  destruct e as [plans|st|job|g todo info|g|k l|k r| | | |f todo|c|c|ok]; cbn [needs].
  1,2,3,8: cbn [step]; unfold allowed_when;
    match goal with |- context [phase_eqb ?a ?b] => destruct (phase_eqb a b) eqn:P end;
    [apply phase_eqb_spec in P; split; [|intros (p & E & N); congruence];
     intros [m H]; exfalso; revert H
    |split; [|intros _; eexists; reflexivity]; intros _; eexists; split; [reflexivity|];
     intros E; apply phase_eqb_spec in E; congruence].
  - destruct plans as [l|]; [|discriminate]. destruct (sort_plans l); discriminate.
  - destruct st; discriminate.
  - discriminate.
  - unfold monitor_job. destruct (s_be s); [|discriminate]. destruct (nth_error _ _) as [x|]; [|discriminate].
    destruct (x_end x) as [[r|]|]; discriminate.
  - split; [|intros (p & E & _); discriminate]. intros [m H]. exfalso. revert H. cbn [step].
    assert (B : forall h j s', snd (background h j s') <> Refused m) by (intros h j s'; unfold background, launch; proj; destruct (s_locked s'); discriminate).
    assert (A : forall h j i s', snd (ask_password h j i s') <> Refused m) by (intros h j i s'; unfold ask_password; destruct (_ && _); [discriminate|apply B]).
    unfold next. destruct (nth_error (s_gens s) g) as [x|]; [|discriminate]. destruct (g_at x) as [|i|i| |]; try discriminate.
    + destruct todo as [l|]; [|discriminate]. destruct info as [i|]; [|discriminate]. destruct (existsb _ _); [discriminate|apply A].
    + apply A.
    + destruct (s_pw s); [apply B|discriminate].
  - split; [|intros (p & E & _); discriminate]. intros [m H]. exfalso. revert H. cbn [step]. destruct (nth_error _ _) as [x|]; [|discriminate].
    destruct (g_at x); try discriminate. destruct (s_locked s); discriminate.
  - split; [|intros (p & E & _); discriminate]. intros [m H]. exfalso. revert H. cbn [step]. destruct (alive k s); discriminate.
  - split; [|intros (p & E & _); discriminate]. intros [m H]. exfalso. revert H. cbn [step]. destruct (nth_error _ _) as [x|]; [|discriminate].
    destruct (x_alive x); discriminate.
  - split; [|intros (p & E & _); discriminate]. intros [m H]. exfalso. revert H. cbn [step]. unfold whats_up.
    destruct (s_state s); try discriminate. destruct (s_plans s); discriminate.
  - split; [|intros (p & E & _); discriminate]. intros [m H]. exfalso. revert H. cbn [step]. destruct (s_be s); discriminate.
  - split; [|intros (p & E & _); discriminate]. intros [m H]. exfalso. revert H. cbn [step]. unfold finish_waited.
    destruct (nth_error _ _) as [x|]; [|discriminate]. destruct (f_over x); [discriminate|]. destruct (nth_error _ _) as [e|]; [|discriminate].
    destruct (x_end e) as [[r|]|]; try discriminate. destruct todo; [|discriminate]. proj. destruct (s_locked s); discriminate.
  - split; [|intros (p & E & _); discriminate]. intros [m H]. discriminate.
  - split; [|intros (p & E & _); discriminate]. intros [m H]. exfalso. revert H. cbn [step]. unfold resume_last.
    destruct c as [| |[[|a n]|] []]; discriminate.
  - split; [|intros (p & E & _); discriminate]. intros [m H]. exfalso. revert H. cbn [step]. destruct ok; discriminate.
Qed.
Print Assumptions C86_refused.
Theorem C86_refused_message_refuted s e p : needs e = Some p -> s_state s <> p ->
  step s e = (s, Refused (T "expected " ++ phase_text (s_state s) ++ T ", is " ++ phase_text p)).
Proof.
  intros N D. assert (E : phase_eqb (s_state s) p = false) by (apply not_true_is_false; now rewrite phase_eqb_spec).
  destruct e; cbn [needs] in N; try discriminate; injection N as <-; cbn [step]; unfold allowed_when; now rewrite E.
Qed.
Print Assumptions C86_refused_message_refuted.
Example C86_case_refused : step service Monitor_job = (service, Refused (T "expected idle, is running")).
Proof. reflexivity. Qed.

(** ** Output *)

Lemma concat_snoc (l : list text) (x : text) : concat (l ++ [x]) = concat l ++ x.
Proof. induction l as [|y l IH]; cbn; [now rewrite app_nil_r|]. now rewrite IH, app_assoc. Qed.
Lemma queue_background g j s : s_queue (fst (background g j s)) = s_queue s /\ (forall o, snd (background g j s) <> Is_running o).
Proof. unfold background, launch. proj. destruct (s_locked s); (split; [reflexivity|discriminate]). Qed.
Lemma queue_ask g j i s : s_queue (fst (ask_password g j i s)) = s_queue s /\ (forall o, snd (ask_password g j i s) <> Is_running o).
Proof. unfold ask_password. destruct (_ && _); [split; [reflexivity|discriminate]|apply queue_background]. Qed.
Lemma delivered_none e a : (forall o, a <> Is_running o) -> delivered (e, a) = [].
Proof. destruct a; cbn; auto. intros H. now destruct (H output). Qed.
Lemma queue_step s e : concat (s_queue s) ++ written (e, snd (step s e)) = delivered (e, snd (step s e)) ++ concat (s_queue (fst (step s e))).
Proof.
  assert (Q : forall r, s_queue (fst r) = s_queue s -> (forall o, snd r <> Is_running o) ->
    concat (s_queue s) ++ [] = delivered (e, snd r) ++ concat (s_queue (fst r))).
  { intros r E N. rewrite E, delivered_none by exact N. now rewrite app_nil_r. }
  destruct e as [plans|st|job|g todo info|g|k l|k r| | | |f todo|c|c|ok]; cbn [written]; cbn [step].
  - apply Q; unfold allowed_when; destruct (phase_eqb _ _); try easy; destruct plans as [l|]; try easy; destruct (sort_plans l); easy.
  - apply Q; unfold allowed_when; destruct (phase_eqb _ _); try easy; destruct st as [l|]; easy.
  - apply Q; unfold allowed_when; destruct (phase_eqb _ _); easy.
  - assert (K : s_queue (fst (next g todo info s)) = s_queue s /\ forall o, snd (next g todo info s) <> Is_running o); [|apply Q; apply K].
    unfold next. destruct (nth_error (s_gens s) g) as [x|]; [|easy]. destruct (g_at x) as [|i|i| |]; try easy.
    + destruct todo as [l|]; [|easy]. destruct info as [i|]; [|easy]. destruct (existsb _ _); [easy|].
      match goal with |- context [ask_password ?a ?b ?c ?d] => exact (queue_ask a b c d) end.
    + apply queue_ask.
    + destruct (s_pw s); [apply queue_background|easy].
  - apply Q; destruct (nth_error (s_gens s) g) as [x|]; try easy; destruct (g_at x); try easy; destruct (s_locked s); easy.
  - destruct (alive k s); cbn [fst snd delivered].
    + change (concat (s_queue s) ++ l = [] ++ concat (s_queue s ++ [l])). now rewrite concat_snoc.
    + now rewrite app_nil_r.
  - apply Q; destruct (nth_error (s_execs s) k) as [x|]; try easy; destruct (x_alive x); easy.
  - unfold allowed_when. destruct (phase_eqb _ _); [|apply Q; easy]. unfold monitor_job. destruct (s_be s); [|apply Q; easy].
    destruct (nth_error _ _) as [x|]; [|apply Q; easy]. destruct (x_end x) as [[r|]|]; try (apply Q; easy). reflexivity.
  - apply Q; unfold whats_up; destruct (s_state s); try easy; destruct (s_plans s); easy.
  - apply Q; destruct (s_be s); easy.
  - assert (K : s_queue (fst (finish_waited f todo s)) = s_queue s /\ forall o, snd (finish_waited f todo s) <> Is_running o); [|apply Q; apply K].
    unfold finish_waited. destruct (nth_error (s_fins s) f) as [x|]; [|easy]. destruct (f_over x); [easy|].
    destruct (nth_error (s_execs s) (f_exec x)) as [e|]; [|easy]. destruct (x_end e) as [[r|]|]; try easy.
    destruct todo as [l|]; [|easy]. proj. destruct (s_locked s); easy.
  - apply Q; easy.
  - apply Q; unfold resume_last; destruct c as [| |[[|a n]|] []]; easy.
  - apply Q; destruct ok; easy.
Qed.
Lemma queue_run l : forall s, concat (s_queue s) ++ concat (map written (combine l (snd (run s l)))) =
  concat (map delivered (combine l (snd (run s l)))) ++ concat (s_queue (fst (run s l))).
Proof.
  induction l as [|e l IH]; intros s; [cbn; now rewrite app_nil_r|]. cbn [run].
  pose proof (queue_step s e) as Q. destruct (step s e) as [s1 a]. specialize (IH s1). destruct (run s1 l) as [s2 b].
  cbn [fst snd combine map concat] in *. rewrite app_assoc, Q, <- app_assoc, IH, app_assoc. reflexivity.
Qed.
(** What jobs write is delivered by monitor_job once, in order and without gaps; the rest waits *)
Theorem C86_output l : let ea := combine l (snd (run service l)) in
  concat (map written ea) = concat (map delivered ea) ++ concat (s_queue (after l)).
Proof. exact (queue_run l service). Qed.
Print Assumptions C86_output.
(** It says what it is doing: still running, with the output so far, or done, with the outcome *)
Theorem C86_monitor s k x : s_state s = Running -> s_be s = Some k -> nth_error (s_execs s) k = Some x ->
  (is_running k s -> snd (step s Monitor_job) = Is_running (concat (s_queue s)) /\ s_queue (fst (step s Monitor_job)) = []) /\
  (forall r, x_end x = Some (Some r) -> step s Monitor_job = (s, Is_done (r_outcome r))).
Proof.
  intros P B N. cbn [step]. unfold allowed_when, monitor_job. rewrite P, B, N. cbn [phase_eqb]. split.
  - intros (y & Y & E). assert (y = x) as -> by congruence. rewrite E. auto.
  - intros r E. now rewrite E.
Qed.
Print Assumptions C86_monitor.
(** The output of one job may be delivered as that of the next *)
Theorem C86_own_output_refuted : exists l, obeys one_client service l /\
  In (Line 0 (T "late")) l /\ map x_job (s_execs (after l)) = [T "a"; T "b"] /\ s_be (after l) = Some 1 /\
  snd (step (after l) Monitor_job) = Is_running (T "late").
Proof.
  exists (open_session ++ [Run_job (T "a"); go 0; Line 0 (T "late"); Job_over 0 (Some r1); Monitor_job; Finish_job; Finish_waited 0 (Some [T "b"]); Run_job (T "b"); go 1]).
  repeat match goal with |- _ /\ _ => split end; try (vm_compute; reflexivity).
  - vm_compute. repeat split. intros f [].
  - vm_compute. tauto.
Qed.
Print Assumptions C86_own_output_refuted.

(** ** Starting a job *)

Lemma plugin_spec i : existsb (text_eqb (i_plugin i)) interactive_plugins = true <->
  i_plugin i = T "manual" \/ i_plugin i = T "user-interact-verify" \/ i_plugin i = T "user-interact".
Proof. unfold interactive_plugins. cbn [existsb]. rewrite !orb_true_iff, !text_eqb_eq. intuition discriminate. Qed.
Lemma gen_at s g y x i c : nth_error (s_gens s) g = Some x -> nth_error (s_gens (set_gen g y (set_job i c s))) g = Some y.
Proof. intros H. proj. eapply nth_set_same; eauto. Qed.

Lemma given_spec o : given_text o = true <-> exists u, o = Some u /\ u <> [].
Proof.
  destruct o as [[|a u]|]; cbn; split; try discriminate; auto.
  - intros (u & E & N). congruence.
  - intros _. exists (a :: u). split; congruence.
  - intros (u & E & _). discriminate.
Qed.

Section Starting.
  Variables (s : svc) (g : nat) (job : text) (i : jobinfo) (todo : list text) (pw : text).
  Hypothesis fresh : nth_error (s_gens s) g = Some (mk_gen job New).
  Hypothesis free : s_locked s = false.
  Variables interactive asks : bool.
  Hypothesis interactive_def : interactive = true <->
    i_plugin i = T "manual" \/ i_plugin i = T "user-interact-verify" \/ i_plugin i = T "user-interact".
  Hypothesis asks_def : asks = true <-> (exists u, i_user i = Some u /\ u <> []) /\ ~ (exists p, s_pw s = Some p /\ p <> []).
  Let one := Next g (Some todo) (Some i).
  Definition conversation : list event := (if interactive then [one] else []) ++ (if asks then [one; Save_password pw] else []) ++ [one].
  Definition replies : list answer :=
    (if interactive then [Yields_purpose (i_purpose i)] else []) ++ (if asks then [Yields_sudo_input; Returns] else []) ++ [Stops].
  Lemma interactive_eq : existsb (text_eqb (i_plugin i)) interactive_plugins = interactive.
  Proof. apply eq_iff_eq_true. now rewrite plugin_spec, interactive_def. Qed.
  Lemma asks_eq : given_text (i_user i) && negb (given_text (s_pw s)) = asks.
  Proof. apply eq_iff_eq_true. now rewrite asks_def, andb_true_iff, negb_true_iff, <- not_true_iff_false, !given_spec. Qed.
  (** The caller is told the purpose of an interactive job, is asked for a password if one is needed
      and there is none yet, and then the job is started *)
  Theorem C86_conversation : snd (run s conversation) = replies /\ let s' := fst (run s conversation) in
    s_state s' = Running /\ s_execs s' = s_execs s ++ [mk_exec job None] /\ s_be s' = Some (length (s_execs s)) /\
    s_cur s' = Some job /\ s_count s' = s_count s /\ s_index s' = (Z.of_nat (s_count s) - Z.of_nat (length todo) + 1)%Z.
  Proof.
    pose proof interactive_eq as I. pose proof asks_eq as A.
    destruct (run s conversation) as [s' b] eqn:R. cbn [fst snd]. revert R.
    unfold conversation, replies, one. destruct interactive, asks; clear interactive_def asks_def; cbn [app run step].
    - unfold next at 1. rewrite fresh. cbn [g_at g_job]. rewrite I. cbn [step run].
      unfold next at 1. rewrite (gen_at _ _ _ _ _ _ fresh). cbn [g_at g_job]. unfold ask_password at 1. proj. rewrite A. cbn [step run].
      unfold next at 1. proj. rewrite (nth_set_same g _ _ (mk_gen job (Told i))) by (eapply nth_set_same; eauto). cbn [g_at g_job].
      unfold background, launch. proj. rewrite free. proj. intros R. injection R as <- <-. proj. auto 10.
    - unfold next at 1. rewrite fresh. cbn [g_at g_job]. rewrite I. cbn [step run].
      unfold next at 1. rewrite (gen_at _ _ _ _ _ _ fresh). cbn [g_at g_job]. unfold ask_password at 1. proj. rewrite A.
      unfold background, launch. proj. rewrite free. proj. intros R. injection R as <- <-. proj. auto 10.
    - unfold next at 1. rewrite fresh. cbn [g_at g_job]. rewrite I. unfold ask_password at 1. proj. rewrite A. cbn [step run].
      unfold next at 1. proj. rewrite (nth_set_same _ _ _ _ fresh). cbn [g_at g_job].
      unfold background, launch. proj. rewrite free. proj. intros R. injection R as <- <-. proj. auto 10.
    - unfold next at 1. rewrite fresh. cbn [g_at g_job]. rewrite I. unfold ask_password at 1. proj. rewrite A.
      unfold background, launch. proj. rewrite free. proj. intros R. injection R as <- <-. proj. auto 10.
  Qed.
  (** If it is not given the password, it does not start the job *)
  Theorem C86_no_password : asks = true -> s_pw s = None ->
    let l := (if interactive then [one] else []) ++ [one; one] in
    last (snd (run s l)) Goes_on = Raises /\ s_execs (fst (run s l)) = s_execs s /\ s_locked (fst (run s l)) = false.
  Proof.
    pose proof interactive_eq as I. pose proof asks_eq as A. intros -> P l.
    destruct (run s l) as [s' b] eqn:R. cbn [fst snd]. revert R. unfold l, one. destruct interactive; clear interactive_def asks_def; cbn [app run step].
    - unfold next at 1. rewrite fresh. cbn [g_at g_job]. rewrite I. cbn [step run].
      unfold next at 1. rewrite (gen_at _ _ _ _ _ _ fresh). cbn [g_at g_job]. unfold ask_password at 1. proj. rewrite A. cbn [step run].
      unfold next at 1. proj. rewrite (nth_set_same g _ _ (mk_gen job (Told i))) by (eapply nth_set_same; eauto). cbn [g_at g_job].
      rewrite P. proj. intros R. injection R as <- <-. proj. auto.
    - unfold next at 1. rewrite fresh. cbn [g_at g_job]. rewrite I. unfold ask_password at 1. proj. rewrite A. cbn [step run].
      unfold next at 1. proj. rewrite (nth_set_same _ _ _ _ fresh). cbn [g_at g_job]. rewrite P. proj. intros R. injection R as <- <-. proj. auto.
  Qed.
End Starting.
Print Assumptions C86_conversation.
Print Assumptions C86_no_password.

(** What is running, and that it is the n-th of so many: one more than those that are no longer to
    be done *)
Theorem C86_progress s g job i todo pw interactive asks :
  nth_error (s_gens s) g = Some (mk_gen job New) -> s_locked s = false ->
  (interactive = true <-> i_plugin i = T "manual" \/ i_plugin i = T "user-interact-verify" \/ i_plugin i = T "user-interact") ->
  (asks = true <-> (exists u, i_user i = Some u /\ u <> []) /\ ~ (exists p, s_pw s = Some p /\ p <> [])) ->
  1 <= length todo <= s_count s ->
  exists n, snd (step (fst (run s (conversation g i todo pw interactive asks))) Whats_up) =
    Is_up Running (Progress (Z.of_nat n) (s_count s) (Some job)) /\
    n = S (s_count s - length todo) /\ 1 <= n <= s_count s.
Proof.
  intros F L I A T. destruct (C86_conversation s g job i todo pw F L interactive asks I A) as (_ & R & _ & _ & C & N & X).
  exists (S (s_count s - length todo)). split; [|lia]. cbn [step]. unfold whats_up. rewrite R. cbn [snd]. rewrite C, N, X. do 2 f_equal. lia.
Qed.
Print Assumptions C86_progress.
(** So many: as many as the last answer that gave a list of jobs had, whatever was done since *)
Lemma count_step s e : s_count (fst (step s e)) = match snd (step s e) with Returns_jobs l => length l | _ => s_count s end.
Proof.
  destruct e as [plans|st|job|g todo info|g|k l|k r| | | |f todo|c|c|ok]; cbn [step]; unfold allowed_when.
  all: repeat match goal with
    | |- context [next] => unfold next
    | |- context [ask_password] => unfold ask_password
    | |- context [background] => unfold background
    | |- context [launch] => unfold launch
    | |- context [monitor_job] => unfold monitor_job
    | |- context [whats_up] => unfold whats_up
    | |- context [finish_waited] => unfold finish_waited
    | |- context [resume_last] => unfold resume_last
    | |- context [match ?x with _ => _ end] => lazymatch x with snd _ => fail | fst _ => fail | context [match _ with _ => _ end] => fail | _ => destruct x end
    end; reflexivity.
Qed.
Fixpoint last_jobs (n : nat) (l : list answer) : nat :=
  match l with [] => n | Returns_jobs j :: r => last_jobs (length j) r | _ :: r => last_jobs n r end.
Theorem C86_count l : s_count (after l) = last_jobs 0 (snd (run service l)).
Proof.
  unfold after. change 0 with (s_count service). generalize service.
  induction l as [|e l IH]; intros s; [reflexivity|]. cbn [run]. pose proof (count_step s e) as C.
  destruct (step s e) as [s1 a]. specialize (IH s1). destruct (run s1 l) as [s2 b]. cbn [fst snd] in *. rewrite IH, C. now destruct a.
Qed.
Print Assumptions C86_count.
Theorem C86_phase_answer s : (s_state s = Started -> s_plans s <> None) ->
  exists d, step s Whats_up = (s, Is_up (s_state s) d) /\
    (s_state s = Running -> d = Progress (s_index s) (s_count s) (s_cur s)) /\
    (forall l, s_state s = Started -> s_plans s = Some l -> d = Plans l) /\
    (s_state s = Idle \/ s_state s = Bootstrapped -> d = Nothing).
Proof.
  intros H. cbn [step]. unfold whats_up. destruct (s_state s) eqn:P.
  - exists Nothing. split; [reflexivity|]. split; [discriminate|]. split; [discriminate|auto].
  - destruct (s_plans s) as [l|]; [|now destruct H]. exists (Plans l). split; [reflexivity|]. split; [discriminate|].
    split; [intros; congruence|intros [E|E]; discriminate].
  - exists Nothing. split; [reflexivity|]. split; [discriminate|]. split; [discriminate|auto].
  - eexists. split; [reflexivity|]. split; [auto|]. split; [discriminate|intros [E|E]; discriminate].
Qed.
Print Assumptions C86_phase_answer.
(** In a session that was resumed there is no first job: it may be job -1 of 0 *)
Theorem C86_progress_refuted : exists l, obeys one_client service l /\
  snd (step (after l) Whats_up) = Is_up Running (Progress (-1) 0 (Some (T "a"))).
Proof.
  exists [Resume_last (Session_ None Use_ok); Run_job (T "a"); go 0]. split; [|vm_compute; reflexivity]. vm_compute. repeat split. discriminate.
Qed.
Print Assumptions C86_progress_refuted.

(** ** Resuming *)

(** The job that was running when the service went down is taken to have passed; if there is no such
    job in the session any more, the service goes down again.  Without a session, nothing happens *)
Theorem C86_resumed s a n :
  step s (Resume_last No_session) = (s, Raises) /\
  (forall r, r = None \/ r = Some [] -> step s (Resume_last (Session_ r Use_ok)) = (set_state Bootstrapped s, Returns)) /\
  step s (Resume_last (Session_ (Some (a :: n)) Use_key_error)) = (s, Exits (a :: n)) /\
  exists s' r, step s (Resume_last (Session_ (Some (a :: n)) Use_ok)) = (s', Returns) /\ s_state s' = Bootstrapped /\
    s_fed s' = s_fed s ++ [Resumed (a :: n) r] /\ r_outcome r = T "pass".
Proof.
  split; [reflexivity|]. split; [intros r [-> | ->]; reflexivity|]. split; [reflexivity|].
  exists (set_state Bootstrapped (set_fed (s_fed s ++ [Resumed (a :: n) resumed_result]) s)), resumed_result. repeat split.
Qed.
Print Assumptions C86_resumed.

(** ** Plans *)

Definition name_is (n : text) (p : text * option text) : bool := match snd p with Some m => text_eqb m n | None => false end.
Lemma insert_permutation x l : Permutation (x :: l) (insert_plan x l).
Proof.
  induction l as [|y l IH]; cbn; [reflexivity|]. destruct (name_lt y x); [|reflexivity]. rewrite perm_swap. now constructor.
Qed.
Lemma sorted_permutation l : Permutation l (fold_right insert_plan [] l).
Proof. induction l as [|x l IH]; cbn; [constructor|]. rewrite IH at 1. apply insert_permutation. Qed.
Definition named (p : text * option text) : Prop := snd p <> None.
Lemma not_after_refl x : named x -> not_after x x.
Proof. unfold named, not_after. destruct (snd x) as [n|]; [|congruence]. intros _. rewrite <- text_gt_spec, text_gt_irrefl. discriminate. Qed.
Lemma name_lt_spec a b : named a -> named b -> (name_lt a b = true -> not_after a b) /\ (name_lt a b = false -> not_after b a).
Proof.
  unfold named, name_lt, not_after, text_lt. destruct (snd a) as [x|], (snd b) as [y|]; try congruence. intros _ _.
  rewrite <- !text_gt_spec. split; [|congruence]. intros H K. pose proof (text_gt_trans _ _ _ H K) as C. rewrite text_gt_irrefl in C. discriminate.
Qed.
Lemma not_after_trans a b c : not_after a b -> not_after b c -> not_after a c.
Proof.
  unfold not_after. destruct (snd a) as [x|], (snd b) as [y|], (snd c) as [z|]; try tauto. rewrite <- !text_gt_spec. intros H K L.
  destruct (text_eqb y x) eqn:E.
  - apply text_eqb_eq in E as ->. contradiction.
  - assert (N : y <> x) by (intros ->; rewrite text_eqb_refl in E; discriminate).
    assert (G : text_gt y x = true) by (rewrite text_gt_total by exact N; now destruct (text_gt x y)).
    apply K. eapply text_gt_trans; eauto.
Qed.
Lemma insert_sorted x l : named x -> Forall named l -> StronglySorted not_after l -> StronglySorted not_after (insert_plan x l).
Proof.
  intros X. induction l as [|y l IH]; intros F S; cbn; [repeat constructor|]. inversion F as [|? ? Y F']; subst. inversion S as [|? ? S' A]; subst.
  destruct (name_lt_spec y x Y X) as [P Q]. destruct (name_lt y x).
  - constructor; [auto|]. rewrite <- insert_permutation. constructor; auto.
  - constructor; [exact S|]. constructor; auto. eapply Forall_impl; [|exact A]. intros z Z. eapply not_after_trans; [apply Q; reflexivity|exact Z].
Qed.
Lemma sort_sorted l : Forall named l -> StronglySorted not_after (fold_right insert_plan [] l).
Proof.
  induction l as [|x l IH]; intros F; cbn; [constructor|]. inversion F; subst. apply insert_sorted; auto. now rewrite <- sorted_permutation.
Qed.
Lemma insert_stable n x l : filter (name_is n) (insert_plan x l) = filter (name_is n) (x :: l).
Proof.
  induction l as [|y l IH]; [reflexivity|]. cbn [insert_plan]. destruct (name_lt y x) eqn:L; [|reflexivity].
  cbn [filter] in *. rewrite IH. destruct (name_is n x) eqn:X, (name_is n y) eqn:Y; auto. exfalso.
  unfold name_is, name_lt, text_lt in *. destruct (snd x), (snd y); try discriminate. apply text_eqb_eq in X, Y. subst.
  rewrite text_gt_irrefl in L. discriminate.
Qed.
Lemma sort_stable n l : filter (name_is n) (fold_right insert_plan [] l) = filter (name_is n) l.
Proof. induction l as [|x l IH]; [reflexivity|]. cbn [fold_right]. rewrite insert_stable. cbn [filter]. now rewrite IH. Qed.

(** A new session is offered all the test plans, sorted by name, those of the same name in the order
    given; they are what whats_up says until one is chosen *)
Theorem C86_plans s l : s_state s = Idle -> Forall named l -> exists l',
  snd (step s (Start_session (Some l))) = Returns_plans l' /\
  Permutation l l' /\ StronglySorted not_after l' /\ (forall n, filter (name_is n) l' = filter (name_is n) l) /\
  s_state (fst (step s (Start_session (Some l)))) = Started /\
  snd (step (fst (step s (Start_session (Some l)))) Whats_up) = Is_up Started (Plans l').
Proof.
  intros I F. exists (fold_right insert_plan [] l). cbn [step]. unfold allowed_when. rewrite I. cbn [phase_eqb].
  assert (E : sort_plans l = Some (fold_right insert_plan [] l)).
  { unfold sort_plans. replace (existsb _ l) with false; [now rewrite andb_false_r|]. symmetry. apply not_true_is_false.
    rewrite existsb_exists. intros (p & P & N). rewrite Forall_forall in F. specialize (F p P). unfold named in F. now destruct (snd p). }
  rewrite E. repeat match goal with |- _ /\ _ => split end; auto using sorted_permutation, sort_sorted, sort_stable.
Qed.
Print Assumptions C86_plans.
(** If there are several and one has no name, starting a session raises, but the session is started,
    and nothing says which plans there are *)
Theorem C86_plan_without_name_refuted l : 2 <= length l -> (exists p, In p l /\ snd p = None) ->
  let r := step service (Start_session (Some l)) in
  snd r = Raises /\ s_state (fst r) = Started /\ snd (step (fst r) Whats_up) = Raises.
Proof.
  intros L (p & P & N). cbn [step]. unfold allowed_when. cbn [phase_eqb s_state service].
  assert (E : sort_plans l = None).
  { unfold sort_plans. replace (2 <=? length l) with true by (symmetry; now apply Nat.leb_le). replace (existsb _ l) with true; [reflexivity|].
    symmetry. apply existsb_exists. exists p. split; [exact P|]. now rewrite N. }
  rewrite E. auto.
Qed.
Print Assumptions C86_plan_without_name_refuted.

Example C86_case_plans : snd (step service (Start_session (Some [(T "b", Some (T "Z")); (T "a", Some (T "A")); (T "c", Some (T "A"))]))) =
  Returns_plans [(T "a", Some (T "A")); (T "c", Some (T "A")); (T "b", Some (T "Z"))].
Proof. reflexivity. Qed.
Example C86_case_conversation : let i := mk_jobinfo (T "manual") (T "look") (Some (T "root")) in
  let s := after (open_session ++ [Run_job (T "a")]) in
  nth_error (s_gens s) 0 = Some (mk_gen (T "a") New) /\
  snd (run s (conversation 0 i [T "a"; T "b"] (T "secret") true true)) = [Yields_purpose (T "look"); Yields_sudo_input; Returns; Stops].
Proof. split; reflexivity. Qed.
Example C86_case_output : let l := open_session ++ [Run_job (T "a"); go 0; Line 0 (T "x"); Line 0 (T "y"); Monitor_job; Line 0 (T "z"); Monitor_job] in
  concat (map delivered (combine l (snd (run service l)))) = T "xyz".
Proof. reflexivity. Qed.
