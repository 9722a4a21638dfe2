(** * C74: jobs run by sudo with a password *)
From Coq Require Import String Ascii List Bool Arith ZArith Lia.
From Verif Require Import ExtcmdModel ExtcmdSpec ExtcmdProofs SudoModel SudoSpec.
Import ListNotations.
Local Open Scope nat_scope.
Local Open Scope list_scope.

Lemma part_of_refl a : part_of a a.
Proof. induction a; now constructor. Qed.
Lemma part_of_nil a : part_of [] a.
Proof. induction a; now constructor. Qed.
Lemma part_of_app a b c d : part_of a b -> part_of c d -> part_of (a ++ c) (b ++ d).
Proof. induction 1; intros H'; cbn; [assumption| |]; constructor; auto. Qed.
Lemma part_of_len a b : part_of a b -> length a <= length b.
Proof. induction 1; cbn; lia. Qed.
Lemma part_of_app_l a b c : part_of (a ++ b) c -> part_of a c.
Proof.
  intros H. remember (a ++ b) as d eqn:E. revert a b E. induction H as [|x d c H IH|x d c H IH]; intros a b E.
  - symmetry in E. apply app_eq_nil in E as [-> ->]. constructor.
  - destruct a as [|y a]; [apply part_of_nil|]. cbn in E. injection E as -> E. constructor. now apply (IH a b).
  - constructor. now apply (IH a b).
Qed.

(** what was taken out of the output so far, and what of it the reader has *)
Definition inv (output : bytes) (s : pipe) : Prop :=
  exists taken, output = taken ++ p_pipe s ++ p_future s /\ part_of (concat (p_lines s) ++ p_buffer s) taken /\
    (p_done s = false -> forall x, In x (p_lines s) -> exists y, x = y ++ [NL] /\ ~ In NL y).
Lemma concat_one (l : list bytes) x : concat (l ++ [x]) = concat l ++ x.
Proof. rewrite concat_app. cbn. now rewrite app_nil_r. Qed.
Lemma step_inv output a s s' : step a s s' -> inv output s -> inv output s'.
Proof.
  intros S (taken & E & P & W). destruct S; unfold inv; cbn [p_pipe p_future p_lines p_buffer p_done] in *.
  - exists taken. split; [rewrite E, <- !app_assoc; reflexivity|now split].
  - exists (taken ++ r). split; [rewrite E, <- !app_assoc; reflexivity|]. split; [|assumption].
    rewrite app_assoc. apply part_of_app; [assumption|apply part_of_refl].
  - exists taken. split; [assumption|]. split.
    + rewrite concat_one, <- !app_assoc. exact P.
    + intros _ y I. apply in_app_or in I as [I|[<-|[]]]; [now apply W|]. eauto.
  - exists taken. split; [assumption|]. split; [|discriminate]. destruct b as [|c b]; [rewrite !app_nil_r in *; exact P|]. rewrite concat_one, app_nil_r. exact P.
  - exists (taken ++ r). split; [rewrite E, <- !app_assoc; reflexivity|]. split; [|assumption].
    rewrite <- (app_nil_r (concat l ++ b)). apply part_of_app; [assumption|apply part_of_nil].
  - exists taken. split; [assumption|now split].
  - exists taken. split; [assumption|]. split; [assumption|discriminate].
Qed.
Lemma run_inv output s tr s' : run s tr s' -> inv output s -> inv output s'.
Proof. induction 1; intros I; [assumption|]. apply IHrun. eapply step_inv; eassumption. Qed.

(** Whatever the schedule, what the delegate gets of the output is part of it, in its
    order: nothing is invented, repeated or reordered. *)
Theorem C74_delivered_in_order output tr s : run (start output) tr s -> part_of (concat (p_lines s)) output.
Proof.
  intros R. assert (I : inv output s).
  { apply (run_inv output _ _ _ R). exists []. cbn. split; [reflexivity|]. split; [constructor|]. intros _ x []. }
  destruct I as (taken & -> & P & _). apply part_of_app_l in P. rewrite <- (app_nil_r (concat (p_lines s))). apply part_of_app; [assumption|apply part_of_nil].
Qed.
Print Assumptions C74_delivered_in_order.

(** All of it is delivered, in lines, when communicate happens neither to read from the
    pipe nor to close it before the reader ended. *)
Definition full (output : bytes) (s : pipe) : Prop :=
  p_closed s = false /\
  if p_done s then lines_of output (p_lines s)
  else output = concat (p_lines s) ++ p_buffer s ++ p_pipe s ++ p_future s /\ (forall x, In x (p_lines s) -> exists y, x = y ++ [NL] /\ ~ In NL y).
Lemma lines_of_full l : forall b, (forall x, In x l -> exists y, x = y ++ [NL] /\ ~ In NL y) -> ~ In NL b -> lines_of (concat l ++ b) (l ++ match b with [] => [] | _ => [b] end).
Proof.
  induction l as [|x l IH]; intros b H N; cbn [concat app].
  - destruct b as [|c b]; [constructor|]. constructor; [discriminate|assumption].
  - destruct (H x (or_introl eq_refl)) as (y & -> & NY). rewrite <- !app_assoc. cbn [app]. constructor; [assumption|]. apply IH; [|assumption]. intros z I. apply H. now right.
Qed.
Lemma run_full output s tr s' : run s tr s' -> full output s ->
  (forall a, In a tr -> a <> Steal /\ a <> Close) -> full output s'.
Proof.
  induction 1 as [|s a s' tr s'' S R IH]; intros F N; [assumption|]. apply IH; [|intros x I; apply N; now right].
  assert (NA : a <> Steal /\ a <> Close) by (apply N; now left). clear IH R N. destruct F as [C F].
  destruct S; unfold full; cbn [p_closed p_done p_lines p_buffer p_pipe p_future] in *; split; try assumption; try reflexivity; try discriminate.
  - destruct d; [assumption|]. destruct F as [-> W]. split; [now rewrite <- !app_assoc|assumption].
  - destruct F as [-> W]. split; [now rewrite <- !app_assoc|assumption].
  - destruct F as [-> W]. split; [rewrite concat_one, <- !app_assoc; reflexivity|]. intros y I. apply in_app_or in I as [I|[<-|[]]]; [now apply W|eauto].
  - destruct F as [-> W]. rewrite !app_nil_r. now apply lines_of_full.
  - now destruct NA.
  - now destruct NA.
Qed.
Theorem C74_complete_without_a_race output tr s : run (start output) tr s -> (forall a, In a tr -> a <> Steal /\ a <> Close) -> p_done s = true ->
  lines_of output (p_lines s).
Proof.
  intros R N D. assert (F : full output s).
  { apply (run_full output _ _ _ R); [|assumption]. split; [reflexivity|]. cbn. split; [reflexivity|intros x []]. }
  destruct F as [_ F]. now rewrite D in F.
Qed.
Print Assumptions C74_complete_without_a_race.

(** Bytes taken by communicate are gone: then not all of the output is delivered. *)
Definition short (output : bytes) (s : pipe) : Prop :=
  length (concat (p_lines s) ++ p_buffer s) + length (p_pipe s) + length (p_future s) < length output.
Lemma short_step output a s s' : step a s s' -> short output s -> short output s'.
Proof.
  intros S H. destruct S; unfold short in *; cbn [p_lines p_buffer p_pipe p_future] in *; rewrite ?concat_one, ?app_length in *; cbn [length] in *; try lia.
  destruct b; rewrite ?concat_app, ?app_length in *; cbn in *; rewrite ?app_length in *; cbn; lia.
Qed.
Theorem C74_stolen_output_is_lost output tr s : run (start output) tr s -> In Steal tr -> length (concat (p_lines s)) < length output.
Proof.
  intros R I. assert (X : forall s tr s', run s tr s' -> length (concat (p_lines s) ++ p_buffer s) + length (p_pipe s) + length (p_future s) <= length output ->
    (short output s \/ In Steal tr) -> short output s').
  { clear. intros s tr s' R. induction R as [|s a s' tr s'' S R IH]; intros L [H|H]; try assumption; try contradiction.
    - apply IH; [|left; now apply (short_step output a s)]. pose proof (short_step output a s s' S H) as Q. unfold short in Q. lia.
    - apply IH.
      + clear -S L. destruct S; cbn [p_lines p_buffer p_pipe p_future] in *; rewrite ?concat_one, ?app_length in *; cbn [length] in *; try lia.
        destruct b; rewrite ?concat_app, ?app_length in *; cbn in *; rewrite ?app_length in *; cbn; lia.
      + destruct H as [-> |H]; [left|now right]. inversion S as [| | | |f r p b d l NR E1 E2| |]; subst. unfold short. cbn [p_lines p_buffer p_pipe p_future] in *. rewrite !app_length in *. destruct r; [contradiction|]. cbn [length] in *. lia. }
  assert (Q : short output s) by (apply (X _ _ _ R); [cbn; lia|now right]). unfold short in Q. rewrite app_length in Q. lia.
Qed.
Print Assumptions C74_stolen_output_is_lost.

(** The output of such a job is not always delivered: of any output, nothing may be. *)
Theorem C74_output_is_delivered_refuted output : output <> [] ->
  exists tr s, run (start output) tr s /\ p_done s = true /\ p_lines s = [] /\ p_future s = [] /\ p_pipe s = [].
Proof.
  intros N. exists [Write; Steal; Close; Stop], (mk_pipe [] [] [] true true []). split; [|now repeat split].
  pose proof (s_write output [] [] [] false false [] N) as W. rewrite app_nil_r in W. apply (r_step _ _ _ _ _ W). clear W. cbn [app].
  pose proof (s_steal [] output [] [] false [] N) as W. rewrite app_nil_r in W. apply (r_step _ _ _ _ _ W). clear W.
  eapply r_step; [apply s_close|]. eapply r_step; [apply s_stop|]. constructor.
Qed.
Print Assumptions C74_output_is_delivered_refuted.
(** Nor when the reader has read all of it: the stream is closed before it takes all
    lines out of its buffer. *)
Theorem C74_what_was_read_is_delivered_refuted x output : ~ In NL x -> output <> [] ->
  exists tr s, run (start (x ++ NL :: output)) tr s /\ ~ In Steal tr /\ p_done s = true /\ p_lines s = [x ++ [NL]].
Proof.
  intros NX N. exists [Write; Fill; Line; Close; Stop], (mk_pipe [] [] output true true [x ++ [NL]]). split; [|repeat split; [cbn; intuition discriminate]].
  assert (NO : x ++ NL :: output <> []) by now destruct x.
  pose proof (s_write (x ++ NL :: output) [] [] [] false false [] NO) as W. rewrite app_nil_r in W. apply (r_step _ _ _ _ _ W). clear W. cbn [app].
  pose proof (s_fill [] (x ++ NL :: output) [] [] [] NO (fun H => H)) as W. rewrite app_nil_r in W. apply (r_step _ _ _ _ _ W). clear W. cbn [app].
  eapply r_step; [apply s_line; assumption|]. eapply r_step; [apply s_close|]. eapply r_step; [apply s_stop|]. constructor.
Qed.
Print Assumptions C74_what_was_read_is_delivered_refuted.

(** ** The end of the call *)
Lemma answered_loop turns n x r : answered turns n x r -> forall started free,
  exists pre, length (filter (fun e => match e with Ask => true | _ => false end) pre) = n /\ ~ In Send pre /\ (forall c, ~ In (OnEnd c) pre) /\
    fst (loop started free turns) = pre ++ fst (loop started (match n with 0 => free | _ => true end) (x :: r)) /\
    snd (loop started free turns) = snd (loop started (match n with 0 => free | _ => true end) (x :: r)).
Proof.
  induction 1 as [x r N|r n x r' A IH]; intros started free.
  - exists []. repeat split; intros; intros [].
  - destruct (IH started true) as (pre & L & S & E & F & R). exists (Ask :: Signal :: OnInterrupt :: pre).
    assert (B : match n with 0 => true | S _ => true end = true) by now destruct n. rewrite B in F, R.
    split; [cbn; now rewrite L|]. split; [cbn; intuition discriminate|]. split; [intros c; cbn; specialize (E c); intuition discriminate|].
    cbn [loop]. cbv zeta. rewrite F, R. now split.
Qed.
Lemma answered_or turns : (exists n x r, answered turns n x r) \/ Forall (eq AskInterrupted) turns.
Proof.
  induction turns as [|x turns IH]; [now right|]. destruct x; try (left; eexists 0, _, turns; now constructor).
  destruct IH as [(n & x & r & A)|F]; [left; exists (S n), x, r; now constructor|right; now constructor].
Qed.
Lemma waiting turns : Forall (eq AskInterrupted) turns -> forall started free, snd (loop started free turns) = Waits /\ forall c, ~ In (OnEnd c) (fst (loop started free turns)).
Proof.
  induction 1 as [|x turns <- F IH]; intros started free; [split; [reflexivity|intros c []]|]. destruct (IH started true) as [A B].
  cbn [loop]. cbv zeta. cbn [fst snd]. split; [assumption|]. intros c [H|[H|[H|H]]]; try discriminate. now apply (B c).
Qed.
(** The call ends with a return code exactly when the first exchange with the process
    is not interrupted; then the delegate is told that it ended, with that code, also when the
    process was killed by a signal. *)
Theorem C74_return_code turns c :
  (snd (call turns) = Code c <-> exists n r, answered turns n (Finished c) r) /\
  (In (OnEnd c) (fst (call turns)) <-> snd (call turns) = Code c).
Proof.
  unfold call. cbv zeta. cbn [fst snd].
  assert (STARTED : forall turns free, (forall c, snd (loop true free turns) <> Code c) /\ (forall c, ~ In (OnEnd c) (fst (loop true free turns)))).
  { clear. induction turns as [|x turns IH]; intros free; [split; [discriminate|intros c []]|]. destruct x; cbn [loop]; cbv zeta; cbn [fst snd].
    - destruct (IH true) as [A B]. split; [assumption|]. intros c [H|[H|[H|H]]]; try discriminate. now apply (B c).
    - split; [now destruct free|]. intros c [H|[]]; discriminate.
    - split; [now destruct free|]. intros c [H|[]]; discriminate.
    - split; [now destruct free|]. intros c [H|[]]; discriminate. }
  destruct (answered_or turns) as [(n & x & r & A)|F].
  - destruct (answered_loop turns n x r A false false) as (pre & L & S & E & -> & ->).
    set (fr := match n with 0 => false | S _ => true end).
    assert (FUN : forall n' c' r', answered turns n' (Finished c') r' -> x = Finished c').
    { clear -A. induction A as [x r N|r n x r'' A IH]; intros n' c' r' B; inversion B; subst; try reflexivity; try congruence. eapply IH; eassumption. }
    destruct x as [| |d|]; [exfalso; clear -A; remember AskInterrupted as y; induction A; auto| | |].
    + cbn [loop fst snd]. split.
      * split; [destruct fr; discriminate|]. intros (n' & r' & B). apply FUN in B. discriminate.
      * split; [|destruct fr; discriminate]. intros [H|H]; [discriminate|]. apply in_app_or in H as [H|[H|[]]]; [now apply E in H|discriminate].
    + cbn [loop fst snd]. split.
      * split; [intros H; injection H as ->; eauto|]. intros (n' & r' & B). apply FUN in B. congruence.
      * split; [|intros H; injection H as ->; right; apply in_or_app; right; cbn; tauto]. intros [H|H]; [discriminate|].
        apply in_app_or in H as [H|[H|[H|[H|[]]]]]; [now apply E in H|discriminate|discriminate|]. congruence.
    + cbn [loop]. cbv zeta. cbn [fst snd]. destruct (STARTED r true) as [S1 S2]. split.
      * split; [intros H; now apply S1 in H|]. intros (n' & r' & B). apply FUN in B. discriminate.
      * split; [|intros H; now apply S1 in H]. intros [H|H]; [discriminate|]. apply in_app_or in H as [H|[H|[H|[H|[H|H]]]]]; try discriminate; [now apply E in H|now apply S2 in H].
  - destruct (waiting turns F false false) as [W1 W2]. rewrite W1. split.
    + split; [discriminate|]. intros (n & r & B). exfalso. clear -B F. induction B as [x r N|r n x r' B IH]; inversion F; subst; congruence || auto.
    + split; [|discriminate]. intros [H|H]; [discriminate|]. now apply W2 in H.
Qed.
Print Assumptions C74_return_code.

(** A job that is interrupted while it runs has no result: when the password was asked
    for again, an exception is raised. *)
Theorem C74_interrupted_jobs_end_refuted turns n r m x r' : answered turns n Interrupted r -> answered r m x r' ->
  snd (call turns) = Raises /\ forall c, ~ In (OnEnd c) (fst (call turns)).
Proof.
  intros A B. assert (R : snd (call turns) = Raises).
  { unfold call. cbv zeta. cbn [snd]. destruct (answered_loop _ _ _ _ A false false) as (_ & _ & _ & _ & _ & ->). cbn [loop]. cbv zeta. cbn [snd].
    destruct (answered_loop _ _ _ _ B true true) as (_ & _ & _ & _ & _ & ->). assert (F : match m with 0 => true | S _ => true end = true) by now destruct m. rewrite F.
    destruct x; try reflexivity. exfalso. clear -B. remember AskInterrupted as y. induction B; auto. }
  split; [assumption|]. intros c H. apply (C74_return_code turns c) in H. congruence.
Qed.
Print Assumptions C74_interrupted_jobs_end_refuted.
(** When no password is given because asking for it raised an exception, the call never
    returns. *)
Theorem C74_password_errors_surface_refuted r : call (AskRaises :: r) = ([Begin; Ask], Hangs).
Proof. reflexivity. Qed.
Print Assumptions C74_password_errors_surface_refuted.

Example C74_case_turns : answered [AskInterrupted; Finished 3; Interrupted] 1 (Finished 3) [Interrupted].
Proof. constructor. now constructor. Qed.
Example C74_case_call : call [AskInterrupted; Finished (-9)%Z] = ([Begin; Ask; Signal; OnInterrupt; Ask; Send; OnEnd (-9)%Z], Code (-9)%Z).
Proof. reflexivity. Qed.
(** one line is read by the thread, one is taken by communicate *)
Definition L (n : nat) : bytes := [ascii_of_nat n; NL].
Example C74_case_run : exists s, run (start (L 65 ++ L 66)) [Write; Fill; Line; Steal; Close; Stop] s /\ p_done s = true /\ p_lines s = [L 65].
Proof.
  eexists. split.
  - eapply r_step; [apply (s_write (L 65 ++ L 66) []); discriminate|]. eapply r_step; [apply (s_fill [] (L 65) (L 66) []); [discriminate|intros []]|].
    eapply r_step; [apply (s_line [] (L 66) [ascii_of_nat 65] [] []); intros [H|[]]; discriminate|].
    eapply r_step; [apply (s_steal [] (L 66) [] []); discriminate|]. eapply r_step; [apply s_close|]. eapply r_step; [apply s_stop|]. constructor.
  - now split.
Qed.
Example C74_case_complete : exists s, run (start (L 65)) [Write; Fill; Line; Last] s /\ p_done s = true /\ p_lines s = [L 65].
Proof.
  eexists. split.
  - eapply r_step; [apply (s_write (L 65) []); discriminate|]. eapply r_step; [apply (s_fill [] (L 65) [] []); [discriminate|intros []]|].
    eapply r_step; [apply (s_line [] [] [ascii_of_nat 65] [] []); intros [H|[]]; discriminate|]. eapply r_step; [apply s_last; intros []|]. constructor.
  - now split.
Qed.
