(** * C85 and C86: the service for remote sessions *)
From Coq Require Import String Ascii List Bool Arith ZArith Lia Permutation Sorted.
From Verif Require Import ScanModel Rfc822Model Rfc822Proofs OriginModel OriginSpec OriginProps SymbolModel ServiceModel ServiceSpec.
Import ListNotations.
Local Open Scope nat_scope.
Local Open Scope list_scope.

(** ** Lists *)

Lemma nth_set_same {A} i x (l : list A) y : nth_error l i = Some y -> nth_error (set_nth i x l) i = Some x.
Proof. revert i. induction l as [|z l IH]; intros [|i]; cbn; try discriminate; auto. Qed.
Lemma nth_set_other {A} i j x (l : list A) : i <> j -> nth_error (set_nth i x l) j = nth_error l j.
Proof. revert i j. induction l as [|z l IH]; intros [|i] [|j]; cbn; auto; try congruence. Qed.
Lemma nth_set {A} i j x (l : list A) y : nth_error (set_nth i x l) j = Some y -> (i = j /\ y = x) \/ (i <> j /\ nth_error l j = Some y).
Proof.
  intros H. destruct (Nat.eq_dec i j) as [<-|N].
  - left. split; auto. destruct (nth_error l i) eqn:E.
    + rewrite (nth_set_same _ _ _ _ E) in H. congruence.
    + exfalso. revert i H E. induction l as [|z l IH]; intros [|i]; cbn; try discriminate. apply IH.
  - right. now rewrite nth_set_other in H.
Qed.
Lemma set_nth_length {A} i x (l : list A) : length (set_nth i x l) = length l.
Proof. revert i. induction l as [|z l IH]; intros [|i]; cbn; auto. Qed.
Lemma nth_app {A} (l : list A) x k y : nth_error (l ++ [x]) k = Some y -> nth_error l k = Some y \/ (k = length l /\ y = x).
Proof.
  intros H. destruct (Nat.lt_ge_cases k (length l)) as [L|L].
  - rewrite nth_error_app1 in H by exact L. auto.
  - rewrite nth_error_app2 in H by exact L. right. destruct (k - length l) as [|n] eqn:E; cbn in H; [|destruct n; discriminate].
    split; [lia|congruence].
Qed.
Lemma nth_last {A} (l : list A) x : nth_error (l ++ [x]) (length l) = Some x.
Proof. rewrite nth_error_app2 by lia. now rewrite Nat.sub_diag. Qed.
Lemma nth_some_lt {A} (l : list A) k x : nth_error l k = Some x -> k < length l.
Proof. intros H. apply nth_error_Some. congruence. Qed.

Lemma run_app s l1 l2 : fst (run s (l1 ++ l2)) = fst (run (fst (run s l1)) l2).
Proof.
  revert s. induction l1 as [|e l1 IH]; intros s; [reflexivity|]. cbn [app run]. destruct (step s e) as [s1 a].
  specialize (IH s1). destruct (run s1 (l1 ++ l2)) as [s2 b]. destruct (run s1 l1) as [s3 c]. exact IH.
Qed.
Lemma run_cons s e r : fst (run s (e :: r)) = fst (run (fst (step s e)) r).
Proof. cbn [run]. destruct (step s e) as [s1 a]. cbn [fst]. now destruct (run s1 r). Qed.
Lemma obeys_run (rule : svc -> event -> Prop) (I : svc -> Prop) :
  (forall s e, I s -> rule s e -> I (fst (step s e))) -> forall l s, I s -> obeys rule s l -> I (fst (run s l)).
Proof.
  intros P. induction l as [|e l IH]; intros s H O; [exact H|]. rewrite run_cons. destruct O as [O1 O2]. apply IH; auto.
Qed.
Lemma obeys_app rule l1 l2 s : obeys rule s (l1 ++ l2) <-> obeys rule s l1 /\ obeys rule (fst (run s l1)) l2.
Proof.
  revert s. induction l1 as [|e l1 IH]; intros s; cbn [app obeys]; [cbn; tauto|]. rewrite IH, run_cons. tauto.
Qed.

(** ** One at a time *)

Definition threads_ok (s : svc) : Prop :=
  (forall k x, nth_error (s_execs s) k = Some x -> x_end x = None -> s_locked s = true /\ s_be s = Some k) /\
  (s_state s = Running -> s_locked s = true) /\
  (forall i f, nth_error (s_fins s) i = Some f -> f_over f = false -> s_locked s = true /\ s_be s = Some (f_exec f)) /\
  (forall i j f f', nth_error (s_fins s) i = Some f -> nth_error (s_fins s) j = Some f' -> f_over f = false -> f_over f' = false -> i = j).

Ltac proj := cbn [s_state s_locked s_execs s_be s_gens s_fins s_count s_index s_cur s_plans s_pw s_queue s_fed
  set_state set_locked set_execs set_be set_gens set_fins set_count set_job set_plans set_pw set_queue set_fed set_gen over_fin
  f_job f_exec f_over x_job x_end fst snd] in *.

Lemma threads_frame s s' : threads_ok s ->
  s_execs s' = s_execs s -> s_locked s' = s_locked s -> s_be s' = s_be s -> s_fins s' = s_fins s ->
  (s_state s' = Running -> s_state s = Running \/ s_locked s = true) -> threads_ok s'.
Proof.
  intros (A & B & C & D) E1 E2 E3 E4 E5. unfold threads_ok. rewrite E1, E2, E3, E4.
  repeat match goal with |- _ /\ _ => split end; auto. intros H. destruct (E5 H); auto.
Qed.
Lemma threads_launch s g job p : threads_ok s -> s_locked s = false -> threads_ok (fst (launch g job (set_state p s))).
Proof.
  intros (A & B & C & D) L. unfold launch. proj. unfold threads_ok. proj.
  repeat match goal with |- _ /\ _ => split end; auto.
  - intros k x H E. apply nth_app in H as [H|[-> ->]]; [|auto]. destruct (A _ _ H E). congruence.
  - intros i f H E. destruct (C _ _ H E). congruence.
Qed.
Lemma threads_background s g job : threads_ok s -> threads_ok (fst (background g job s)).
Proof.
  intros H. unfold background. proj. destruct (s_locked s) eqn:L.
  - proj. eapply threads_frame; [exact H|reflexivity|reflexivity|reflexivity|reflexivity|]. intros _. right. exact L.
  - now apply threads_launch.
Qed.
Lemma threads_set_job s i c : threads_ok s -> threads_ok (set_job i c s).
Proof. intros H. eapply threads_frame; [exact H| | | | |]; auto. Qed.
Lemma threads_set_gen s g x : threads_ok s -> threads_ok (set_gen g x s).
Proof. intros H. eapply threads_frame; [exact H| | | | |]; auto. Qed.
Lemma threads_ask s g job i : threads_ok s -> threads_ok (fst (ask_password g job i s)).
Proof.
  intros H. unfold ask_password. destruct (_ && _); [now apply threads_set_gen|now apply threads_background].
Qed.
Lemma threads_next s g todo info : threads_ok s -> threads_ok (fst (next g todo info s)).
Proof.
  intros H. unfold next. destruct (nth_error (s_gens s) g) as [x|]; [|exact H].
  destruct (g_at x) as [|i|i| |]; cbn [fst]; auto.
  - destruct todo as [l|]; [|now apply threads_set_gen]. destruct info as [i|]; [|now apply threads_set_gen, threads_set_job].
    destruct (existsb _ _); [now apply threads_set_gen, threads_set_job|now apply threads_ask, threads_set_job].
  - now apply threads_ask.
  - destruct (s_pw s); [now apply threads_background|now apply threads_set_gen].
Qed.
Lemma threads_over s f x : threads_ok s -> nth_error (s_fins s) f = Some x -> threads_ok (over_fin f x s).
Proof.
  intros (A & B & C & D) N. unfold threads_ok. proj. repeat match goal with |- _ /\ _ => split end; auto.
  - intros i y H E. apply nth_set in H as [[<- ->]|[_ H]]; [discriminate|eauto].
  - intros i j y y' H H' E E'. apply nth_set in H as [[<- ->]|[_ H]]; [discriminate|]. apply nth_set in H' as [[<- ->]|[_ H']]; [discriminate|eauto].
Qed.
Lemma threads_finish s f todo : threads_ok s -> threads_ok (fst (finish_waited f todo s)).
Proof.
  intros H. unfold finish_waited. destruct (nth_error (s_fins s) f) as [x|] eqn:F; [|exact H].
  destruct (f_over x) eqn:O; [exact H|]. destruct (nth_error (s_execs s) (f_exec x)) as [e|] eqn:X; [|exact H].
  destruct (x_end e) as [[r|]|] eqn:E; [|now apply threads_over|exact H].
  destruct todo as [l|]; [|now apply threads_over].
  assert (K : threads_ok (over_fin f x (set_fed (s_fed s ++ [Fed (f_job x) r]) s))).
  { apply threads_over; [|exact F]. eapply threads_frame; [exact H| | | | |]; auto. }
  destruct (s_locked _) eqn:L; [|exact K]. proj. clear K.
  destruct H as (A & B & C & D). unfold threads_ok. proj. repeat match goal with |- _ /\ _ => split end.
  - intros k y N Y. destruct (A _ _ N Y) as [_ K]. destruct (C _ _ F O) as [_ K']. replace k with (f_exec x) in N by congruence.
    congruence.
  - destruct l; discriminate.
  - intros i y N Y. apply nth_set in N as [[<- ->]|[J N]]; [discriminate|]. exfalso. apply J. eapply D; eauto.
  - intros i j y y' N N' Y Y'. apply nth_set in N as [[<- ->]|[_ N]]; [discriminate|].
    apply nth_set in N' as [[<- ->]|[_ N']]; [discriminate|eauto].
Qed.
Lemma threads_step s e : threads_ok s -> one_finish s e -> threads_ok (fst (step s e)).
Proof.
  intros H R. destruct e as [plans|st|job|g todo info|g|k l|k r| | | |f todo|c|c|ok]; cbn [step].
  - unfold allowed_when. destruct (phase_eqb _ _); [|exact H]. destruct plans as [l|]; [|exact H].
    destruct (sort_plans l); proj; (eapply threads_frame; [exact H| | | | |]; auto; proj; discriminate).
  - unfold allowed_when. destruct (phase_eqb _ _); [|exact H]. destruct st as [l|]; [|exact H].
    proj; (eapply threads_frame; [exact H| | | | |]; auto; proj; discriminate).
  - unfold allowed_when. destruct (phase_eqb _ _); [|exact H]. proj. eapply threads_frame; [exact H| | | | |]; auto.
  - now apply threads_next.
  - destruct (nth_error (s_gens s) g) as [x|]; [|exact H]. destruct (g_at x); try exact H. destruct (s_locked s) eqn:L; [exact H|].
    pose proof (threads_launch s g (g_job x) (s_state s) H L) as P. now destruct s.
  - destruct (alive k s); [|exact H]. proj. eapply threads_frame; [exact H| | | | |]; auto.
  - destruct (nth_error (s_execs s) k) as [x|] eqn:X; [|exact H]. destruct (x_alive x) eqn:AL; [|exact H]. proj.
    destruct H as (A & B & C & D). unfold threads_ok. proj. repeat match goal with |- _ /\ _ => split end; auto.
    intros j y N Y. apply nth_set in N as [[<- ->]|[_ N]]; [discriminate|eauto].
  - unfold allowed_when. destruct (phase_eqb _ _); [|exact H]. unfold monitor_job. destruct (s_be s); [|exact H].
    destruct (nth_error _ _) as [x|]; [|exact H]. destruct (x_end x) as [[r|]|]; exact H.
  - unfold whats_up. destruct (s_state s); try exact H. destruct (s_plans s); exact H.
  - destruct (s_be s) as [k|] eqn:K; [|exact H]. destruct R as [R Q]. proj. destruct H as (A & B & C & D).
    assert (P : forall i f, nth_error (s_fins s) i = Some f -> f_over f = false -> False).
    { intros i f N O. apply nth_error_In in N. rewrite (Q _ N) in O. discriminate. }
    unfold threads_ok. proj. rewrite ?K. repeat match goal with |- _ /\ _ => split end.
    + rewrite <- K. exact A.
    + exact B.
    + intros i f N O. apply nth_app in N as [N|[-> ->]]; [now destruct (P _ _ N O)|]. cbn. auto.
    + intros i j f f' N N' O O'. apply nth_app in N as [N|[-> _]]; [now destruct (P _ _ N O)|].
      apply nth_app in N' as [N'|[-> _]]; [now destruct (P _ _ N' O')|]. reflexivity.
  - now apply threads_finish.
  - proj. eapply threads_frame; [exact H| | | | |]; auto.
  - unfold resume_last. destruct c as [| |[[|a n]|] []]; cbn [fst]; try exact H; proj;
      (eapply threads_frame; [exact H| | | | |]; auto; proj; discriminate).
  - destruct ok; [|exact H]. proj. eapply threads_frame; [exact H| | | | |]; auto. proj. discriminate.
Qed.
Lemma threads_service : threads_ok service.
Proof.
  unfold threads_ok, service. proj. repeat match goal with |- _ /\ _ => split end; try discriminate; intros [|?] *; discriminate.
Qed.

(** Two jobs never run at the same time *)
Theorem C85_one_at_a_time l k k' : obeys one_finish service l -> is_running k (after l) -> is_running k' (after l) -> k = k'.
Proof.
  intros O (x & N & X) (y & M & Y). destruct (obeys_run one_finish threads_ok threads_step l service threads_service O) as (A & _).
  destruct (A _ _ N X) as [_ E]. destruct (A _ _ M Y) as [_ E']. congruence.
Qed.
Print Assumptions C85_one_at_a_time.

(** ** Whose result it is *)

Definition stopped (w : where_) : Prop := match w with Told _ | Asked _ => True | _ => False end.
Definition last_gen (s : svc) (x : gen) : Prop := exists i, S i = length (s_gens s) /\ nth_error (s_gens s) i = Some x.
Definition client_ok (s : svc) : Prop :=
  (s_locked s = true -> s_state s = Running) /\
  (forall i g, nth_error (s_gens s) i = Some g -> g_at g <> Waiting) /\
  (forall g, last_gen s g -> stopped (g_at g) -> s_cur s = Some (g_job g)) /\
  (s_state s = Running -> forall g, last_gen s g -> g_at g = Over) /\
  (forall i f, nth_error (s_fins s) i = Some f -> f_over f = false ->
     exists x, nth_error (s_execs s) (f_exec f) = Some x /\ f_job f = Some (x_job x)) /\
  (exists done, Forall2 produced done (fed_results s) /\
     if s_locked s then exists x, s_execs s = done ++ [x] /\ s_be s = Some (length done) /\ s_cur s = Some (x_job x)
     else s_execs s = done).

Lemma client_frame s s' : client_ok s -> s_locked s' = s_locked s ->
  (s_locked s = true -> s_state s' = Running) -> (s_state s' = Running -> s_state s = Running) ->
  s_gens s' = s_gens s -> s_cur s' = s_cur s -> s_fins s' = s_fins s -> s_execs s' = s_execs s -> s_be s' = s_be s ->
  fed_results s' = fed_results s -> client_ok s'.
Proof.
  intros (A & B & C & D & E & F) L P P' G Cu Fi X Be Fe. unfold client_ok, last_gen in *. rewrite L, G, Cu, Fi, X, Be, Fe.
  repeat match goal with |- _ /\ _ => split end; auto.
Qed.
Lemma last_set s g y x : S g = length (s_gens s) -> last_gen (set_gen g y s) x -> x = y.
Proof.
  intros L (i & E & N). proj. rewrite set_nth_length in E. apply nth_set in N as [[_ ->]|[K _]]; [reflexivity|lia].
Qed.
Lemma client_gen s g y i c : client_ok s -> s_state s <> Running -> S g = length (s_gens s) -> g_at y <> Waiting ->
  (stopped (g_at y) -> c = Some (g_job y)) -> client_ok (set_gen g y (set_job i c s)).
Proof.
  intros (A & B & C & D & E & F) NR L W Y. unfold client_ok. repeat match goal with |- _ /\ _ => split end.
  - exact A.
  - intros j z N. proj. apply nth_set in N as [[_ ->]|[_ N]]; eauto.
  - intros z Z St. apply last_set in Z; [|exact L]. subst z. now apply Y.
  - intros H. contradiction.
  - exact E.
  - destruct F as (done & F1 & F2). exists done. split; [exact F1|]. proj. destruct (s_locked s); [now specialize (A eq_refl)|exact F2].
Qed.
Lemma client_launch s g job i : client_ok s -> threads_ok s -> s_state s <> Running -> S g = length (s_gens s) ->
  client_ok (fst (launch g job (set_state Running (set_job i (Some job) s)))).
Proof.
  intros (A & B & C & D & E & F) (_ & _ & T & _) NR L. assert (UL : s_locked s = false) by (destruct (s_locked s); [now specialize (A eq_refl)|reflexivity]).
  unfold launch. cbn [fst]. unfold client_ok. repeat match goal with |- _ /\ _ => split end.
  - reflexivity.
  - intros j z N. proj. apply nth_set in N as [[_ ->]|[_ N]]; [discriminate|eauto].
  - intros z Z St. apply last_set in Z; [|exact L]. subst z. destruct St.
  - intros _ z Z. apply last_set in Z; [|exact L]. now subst z.
  - intros j f N O. proj. destruct (T _ _ N O). congruence.
  - destruct F as (done & F1 & F2). proj. rewrite UL in F2. subst done. exists (s_execs s). split; [exact F1|].
    exists (mk_exec job None). auto.
Qed.
Lemma set_job_same s : set_job (s_index s) (s_cur s) s = s.
Proof. now destruct s. Qed.
Lemma client_background s g job i : client_ok s -> threads_ok s -> s_state s <> Running -> S g = length (s_gens s) ->
  client_ok (fst (background g job (set_job i (Some job) s))).
Proof.
  intros H T NR L. unfold background. proj. destruct (s_locked s) eqn:UL.
  - destruct H as (A & _). now specialize (A UL).
  - now apply client_launch.
Qed.
Lemma client_ask s g job j i : client_ok s -> threads_ok s -> s_state s <> Running -> S g = length (s_gens s) ->
  client_ok (fst (ask_password g job j (set_job i (Some job) s))).
Proof.
  intros H T NR L. unfold ask_password. destruct (_ && _).
  - apply client_gen; auto. discriminate.
  - now apply client_background.
Qed.
Lemma client_next s g todo info : client_ok s -> threads_ok s -> S g = length (s_gens s) -> client_ok (fst (next g todo info s)).
Proof.
  intros H T L. unfold next. destruct (nth_error (s_gens s) g) as [x|] eqn:N; [|exact H].
  assert (LG : last_gen s x) by (exists g; auto).
  assert (NR : g_at x <> Over -> s_state s <> Running) by (intros O R; apply O; destruct H as (_ & _ & _ & D & _); now apply D).
  destruct (g_at x) as [|i|i| |] eqn:G; cbn [fst]; auto.
  - specialize (NR ltac:(discriminate)). destruct todo as [l|].
    2:{ rewrite <- (set_job_same s) at 1. apply client_gen; auto; solve [discriminate|intros []]. }
    destruct info as [i|]; [|apply client_gen; auto; solve [discriminate|intros []]].
    destruct (existsb _ _); [apply client_gen; auto; solve [discriminate]|now apply client_ask].
  - specialize (NR ltac:(discriminate)). destruct H as (A & B & C & H').
    assert (Cu : s_cur s = Some (g_job x)) by (apply C; [exact LG|now rewrite G]).
    rewrite <- (set_job_same s), Cu. apply client_ask; auto. now split; [|split; [|split]].
  - specialize (NR ltac:(discriminate)). destruct H as (A & B & C & H').
    assert (Cu : s_cur s = Some (g_job x)) by (apply C; [exact LG|now rewrite G]).
    assert (H : client_ok s) by now split; [|split; [|split]].
    destruct (s_pw s).
    + rewrite <- (set_job_same s), Cu. now apply client_background.
    + rewrite <- (set_job_same s). cbn [fst]. apply client_gen; auto; solve [discriminate|intros []].
Qed.
Lemma client_over s f x : client_ok s -> nth_error (s_fins s) f = Some x -> client_ok (over_fin f x s).
Proof.
  intros (A & B & C & D & E & F) N. unfold client_ok. repeat match goal with |- _ /\ _ => split end; auto.
  intros i y M O. proj. apply nth_set in M as [[_ ->]|[_ M]]; [discriminate|eauto].
Qed.
Lemma fed_results_app s f x l : fed_results (over_fin f x (set_fed (s_fed s ++ l) s)) =
  fed_results s ++ flat_map (fun f => match f with Fed j r => [(j, r)] | Resumed _ _ => [] end) l.
Proof. unfold fed_results. proj. apply flat_map_app. Qed.
Lemma client_finish s f todo : client_ok s -> threads_ok s -> client_ok (fst (finish_waited f todo s)).
Proof.
  intros H T. unfold finish_waited. destruct (nth_error (s_fins s) f) as [x|] eqn:N; [|exact H].
  destruct (f_over x) eqn:O; [exact H|]. destruct (nth_error (s_execs s) (f_exec x)) as [e|] eqn:X; [|exact H].
  destruct (x_end e) as [[r|]|] eqn:E; [|now apply client_over|exact H].
  destruct todo as [l|]; [|now apply client_over].
  destruct T as (_ & _ & T & U). destruct (T _ _ N O) as [L BE].
  change (s_locked (over_fin f x (set_fed (s_fed s ++ [Fed (f_job x) r]) s))) with (s_locked s). rewrite L. cbn [fst].
  destruct H as (A & B & C & D & FF & done & F1 & F2). rewrite L in F2. destruct F2 as (y & Ex & Be & Cu).
  assert (R : s_state s = Running) by now apply A.
  assert (K : f_exec x = length done) by congruence. assert (y = e) as -> by (rewrite K, Ex, nth_last in X; congruence).
  destruct (FF _ _ N O) as (z & Z1 & Z2). assert (z = e) as -> by congruence.
  unfold client_ok. repeat match goal with |- _ /\ _ => split end.
  - discriminate.
  - exact B.
  - intros g G St. specialize (D R g G). rewrite D in St. destruct St.
  - destruct l; discriminate.
  - intros i w M P. proj. apply nth_set in M as [[_ ->]|[_ M]]; [discriminate|eauto].
  - exists (done ++ [e]). change (fed_results _) with (fed_results (over_fin f x (set_fed (s_fed s ++ [Fed (f_job x) r]) s))).
    rewrite fed_results_app. split; [|exact Ex]. apply Forall2_app; [exact F1|]. cbn. constructor; [|constructor]. split; auto.
Qed.
Lemma client_step s e : client_ok s -> threads_ok s -> one_client s e -> client_ok (fst (step s e)).
Proof.
  intros H T R. destruct e as [plans|st|job|g todo info|g|k l|k r| | | |f todo|c|c|ok]; cbn [step].
  - unfold allowed_when. destruct (phase_eqb (s_state s) Idle) eqn:P; [|exact H]. destruct (s_state s) eqn:S; try discriminate P.
    destruct plans as [l|]; [|exact H].
    destruct (sort_plans l); proj; (eapply client_frame; [exact H| | | | | | | | |]; auto; proj; [|discriminate]);
      intros L; destruct H as (A & _); specialize (A L); congruence.
  - unfold allowed_when. destruct (phase_eqb (s_state s) Started) eqn:P; [|exact H]. destruct (s_state s) eqn:S; try discriminate P.
    destruct st as [l|]; [|exact H].
    proj; (eapply client_frame; [exact H| | | | | | | | |]; auto; proj; [|discriminate]);
      intros L; destruct H as (A & _); specialize (A L); congruence.
  - unfold allowed_when. destruct (phase_eqb (s_state s) Bootstrapped) eqn:P; [|exact H]. destruct (s_state s) eqn:S; try discriminate P.
    destruct H as (A & B & C & D & E & F). proj. unfold client_ok. repeat match goal with |- _ /\ _ => split end; auto; proj.
    + intros i g N. apply nth_app in N as [N|[_ ->]]; [eauto|discriminate].
    + intros g (i & L & N) St. proj. rewrite app_length in L. cbn in L. replace i with (length (s_gens s)) in N by lia.
      rewrite nth_last in N. injection N as <-. destruct St.
    + rewrite S. discriminate.
  - now apply client_next.
  - destruct (nth_error (s_gens s) g) as [x|] eqn:N; [|exact H]. destruct (g_at x) eqn:G; try exact H.
    destruct H as (A & B & _). now destruct (B _ _ N).
  - destruct (alive k s); exact H.
  - destruct (nth_error (s_execs s) k) as [x|] eqn:X; [|exact H]. destruct (x_alive x) eqn:AL; [|exact H]. proj.
    unfold x_alive in AL. destruct (x_end x) eqn:XE; [discriminate|].
    destruct T as (T & _). destruct (T _ _ X XE) as [L BE].
    destruct H as (A & B & C & D & E & done & F1 & F2). rewrite L in F2. destruct F2 as (y & Ex & Be & Cu).
    assert (k = length done) as -> by congruence. assert (y = x) as -> by (rewrite Ex, nth_last in X; congruence).
    unfold client_ok. repeat match goal with |- _ /\ _ => split end; auto; proj.
    + intros i f N O. destruct (E _ _ N O) as (z & Z1 & Z2). destruct (Nat.eq_dec (length done) (f_exec f)) as [K|K].
      * rewrite <- K in *. rewrite (nth_set_same _ _ _ _ X). eexists. split; [reflexivity|]. proj. congruence.
      * rewrite nth_set_other by exact K. eauto.
    + exists done. split; [exact F1|]. rewrite L. exists (mk_exec (x_job x) (Some r)). split; [|auto].
      rewrite Ex. clear. induction done as [|d done IH]; cbn; [reflexivity|]. now rewrite IH.
  - unfold allowed_when. destruct (phase_eqb _ _); [|exact H]. unfold monitor_job. destruct (s_be s); [|exact H].
    destruct (nth_error _ _) as [x|]; [|exact H]. destruct (x_end x) as [[r|]|]; exact H.
  - unfold whats_up. destruct (s_state s); try exact H. destruct (s_plans s); exact H.
  - destruct (s_be s) as [k|] eqn:K; [|exact H]. destruct R as [R Q]. proj. destruct H as (A & B & C & D & E & done & F1 & F2).
    assert (L : s_locked s = true) by (destruct T as (_ & T & _); now apply T).
    rewrite L in F2. destruct F2 as (y & Ex & Be & Cu). assert (k = length done) as -> by congruence.
    unfold client_ok. repeat match goal with |- _ /\ _ => split end; auto; proj.
    + intros i f N O. apply nth_app in N as [N|[-> ->]]; [eauto|]. cbn. exists y. rewrite Ex, nth_last. auto.
    + exists done. split; [exact F1|]. rewrite L. exists y. auto.
  - now apply client_finish.
  - exact H.
  - unfold resume_last. cbn in R. assert (L : s_locked s = false) by (destruct (s_locked s) eqn:L; [|reflexivity]; destruct H as (A & _); now specialize (A L)).
    destruct c as [| |[[|a n]|] []]; cbn [fst]; try exact H; proj;
      (eapply client_frame; [exact H| | | | | | | | |]; auto; proj; try discriminate; try (intros; congruence)).
    unfold fed_results. proj. rewrite flat_map_app. cbn. now rewrite app_nil_r.
  - destruct ok; [|exact H]. cbn in R. assert (L : s_locked s = false) by (destruct (s_locked s) eqn:L; [|reflexivity]; destruct H as (A & _); now specialize (A L)).
    proj. eapply client_frame; [exact H| | | | | | | | |]; auto; proj; [congruence|discriminate].
Qed.
Lemma one_client_finish s e : one_client s e -> one_finish s e.
Proof. destruct e; cbn; auto. Qed.
Lemma client_reach l : obeys one_client service l -> threads_ok (after l) /\ client_ok (after l).
Proof.
  intros O. apply (obeys_run one_client (fun s => threads_ok s /\ client_ok s)); [|split; [exact threads_service|]|exact O].
  - intros s e [T C] R. split; [apply threads_step; auto using one_client_finish|now apply client_step].
  - unfold client_ok, service. proj. repeat match goal with |- _ /\ _ => split end; try discriminate; try (intros [|?] *; discriminate).
    + intros g ([|i] & E & N); discriminate.
    + exists []. split; [constructor|reflexivity].
Qed.

(** The results that were fed to the session are those of the jobs that were started, each once,
    in order and under its own name, but for the job that is running *)
Theorem C85_own_results l : obeys one_client service l -> exists done,
  Forall2 produced done (fed_results (after l)) /\
  ((s_state (after l) <> Running /\ s_execs (after l) = done) \/
   (s_state (after l) = Running /\ exists x, s_execs (after l) = done ++ [x])).
Proof.
  intros O. destruct (client_reach _ O) as [(_ & T & _) (A & _ & _ & _ & _ & done & F1 & F2)]. exists done. split; [exact F1|].
  destruct (s_locked (after l)).
  - right. split; [now apply A|]. destruct F2 as (x & E & _). now exists x.
  - left. split; [intros R; now specialize (T R)|exact F2].
Qed.
Print Assumptions C85_own_results.
(** A call that starts a job never waits for another *)
Theorem C85_never_blocks l g todo info : obeys one_client service (l ++ [Next g todo info]) ->
  snd (step (after l) (Next g todo info)) <> Blocks.
Proof.
  intros O. apply obeys_app in O as [O [L _]]. fold (after l) in L. destruct (client_reach _ O) as [T C]. set (s := after l) in *. clearbody s. cbn [step one_client] in *.
  assert (NB : s_state s <> Running -> forall h j s', s_locked s' = s_locked s -> snd (background h j s') <> Blocks).
  { intros NR h j s' E. unfold background. proj. rewrite E. destruct (s_locked s) eqn:K; [destruct C as (A & _); now specialize (A K)|discriminate]. }
  unfold next. destruct (nth_error (s_gens s) g) as [x|] eqn:N; [|discriminate].
  assert (NR : g_at x <> Over -> s_state s <> Running) by (intros P R; apply P; destruct C as (_ & _ & _ & D & _); apply (D R); exists g; auto).
  destruct (g_at x) as [|i|i| |] eqn:G; try discriminate.
  - specialize (NB (NR ltac:(discriminate))). destruct todo as [t|]; [|discriminate]. destruct info as [i|]; [|discriminate].
    destruct (existsb _ _); [discriminate|]. unfold ask_password. destruct (_ && _); [discriminate|]. now apply NB.
  - specialize (NB (NR ltac:(discriminate))). unfold ask_password. destruct (_ && _); [discriminate|]. now apply NB.
  - specialize (NB (NR ltac:(discriminate))). destruct (s_pw s); [now apply NB|discriminate].
Qed.
Print Assumptions C85_never_blocks.

(** ** A job whose thread raises *)

Definition stuck (k : nat) (s : svc) : Prop :=
  s_locked s = true /\ s_be s = Some k /\
  (exists x, nth_error (s_execs s) k = Some x /\ x_end x = Some None) /\
  (forall i x, nth_error (s_execs s) i = Some x -> x_end x <> None) /\
  (forall i f, nth_error (s_fins s) i = Some f -> f_over f = false -> f_exec f = k).
Definition kept (k : nat) (s s' : svc) : Prop := stuck k s' /\ s_execs s' = s_execs s /\ fed_results s' = fed_results s.
Lemma kept_frame k s s' : stuck k s -> s_locked s' = s_locked s -> s_be s' = s_be s -> s_execs s' = s_execs s -> s_fins s' = s_fins s ->
  fed_results s' = fed_results s -> kept k s s'.
Proof. intros H A B C D E. split; [|auto]. unfold stuck in *. now rewrite A, B, C, D. Qed.
Lemma stuck_background k s g j s0 : stuck k s0 -> s_locked s = s_locked s0 -> s_be s = s_be s0 -> s_execs s = s_execs s0 -> s_fins s = s_fins s0 ->
  fed_results s = fed_results s0 -> kept k s0 (fst (background g j s)).
Proof.
  intros H A B C D E. unfold background. proj. rewrite A. destruct H as (L & H). rewrite L. cbn [fst]. now apply kept_frame.
Qed.
Lemma stuck_step k s e : stuck k s -> kept k s (fst (step s e)) /\ (forall f t, e = Finish_waited f t -> snd (step s e) <> Returns).
Proof.
  intros H. split.
  2:{ intros f t -> . cbn [step]. unfold finish_waited. destruct (nth_error (s_fins s) f) as [x|] eqn:N; [|discriminate].
      destruct (f_over x) eqn:O; [discriminate|]. destruct H as (_ & _ & (y & Y & Z) & _ & F). rewrite (F _ _ N O), Y, Z. discriminate. }
  assert (K : kept k s s) by (split; auto).
  destruct e as [plans|st|job|g todo info|g|i l|i r| | | |f todo|c|c|ok]; cbn [step].
  - unfold allowed_when. destruct (phase_eqb _ _); [|exact K]. destruct plans as [l|]; [|exact K].
    destruct (sort_plans l); now apply kept_frame.
  - unfold allowed_when. destruct (phase_eqb _ _); [|exact K]. destruct st as [l|]; [|exact K]. now apply kept_frame.
  - unfold allowed_when. destruct (phase_eqb _ _); [|exact K]. now apply kept_frame.
  - unfold next. destruct (nth_error (s_gens s) g) as [x|]; [|exact K]. destruct (g_at x) as [|i|i| |]; try exact K.
    + destruct todo as [l|]; [|now apply kept_frame]. destruct info as [i|]; [|now apply kept_frame].
      destruct (existsb _ _); [now apply kept_frame|]. unfold ask_password. destruct (_ && _); [now apply kept_frame|now apply stuck_background].
    + unfold ask_password. destruct (_ && _); [now apply kept_frame|now apply stuck_background].
    + destruct (s_pw s); [now apply stuck_background|now apply kept_frame].
  - destruct (nth_error (s_gens s) g) as [x|]; [|exact K]. destruct (g_at x); try exact K. destruct H as (L & H). rewrite L. exact K.
  - destruct (alive i s); exact K.
  - destruct (nth_error (s_execs s) i) as [x|] eqn:N; [|exact K]. destruct (x_alive x) eqn:A; [|exact K]. exfalso.
    destruct H as (_ & _ & _ & E & _). apply (E _ _ N). unfold x_alive in A. now destruct (x_end x).
  - unfold allowed_when. destruct (phase_eqb _ _); [|exact K]. unfold monitor_job. destruct (s_be s); [|exact K].
    destruct (nth_error _ _) as [x|]; [|exact K]. destruct (x_end x) as [[r|]|]; try exact K.
  - unfold whats_up. destruct (s_state s); try exact K. destruct (s_plans s); exact K.
  - destruct (s_be s) as [j|] eqn:B; [|exact K]. split; [|auto]. destruct H as (L & Be & X & E & F). unfold stuck. proj.
    repeat match goal with |- _ /\ _ => split end; auto. intros i f N O. apply nth_app in N as [N|[_ ->]]; [eauto|]. cbn. congruence.
  - unfold finish_waited. destruct (nth_error (s_fins s) f) as [x|] eqn:N; [|exact K]. destruct (f_over x) eqn:O; [exact K|].
    pose proof H as (L & Be & (y & Y & Z) & E & F). rewrite (F _ _ N O), Y, Z. split; [|auto]. unfold stuck. proj.
    repeat match goal with |- _ /\ _ => split end; auto.
    + now exists y.
    + intros i z M P. apply nth_set in M as [[_ ->]|[_ M]]; [discriminate|eauto].
  - now apply kept_frame.
  - unfold resume_last. destruct c as [| |[[|a n]|] []]; cbn [fst]; try exact K; apply kept_frame; auto.
    unfold fed_results. proj. rewrite flat_map_app. cbn. now rewrite app_nil_r.
  - destruct ok; [|exact K]. now apply kept_frame.
Qed.

(** After the thread of a job raised, whatever is called, no job is started and no result is fed
    to the session by finish_job any more, and no call of finish_job returns *)
Theorem C85_raising_job_is_the_last_refuted l k l2 : obeys one_finish service l ->
  snd (step (after l) (Job_over k None)) = Goes_on ->
  let s := fst (step (after l) (Job_over k None)) in
  s_execs (fst (run s l2)) = s_execs s /\ fed_results (fst (run s l2)) = fed_results s /\
  forall f t, snd (step (fst (run s l2)) (Finish_waited f t)) <> Returns.
Proof.
  intros O G s. assert (K : stuck k s).
  { pose proof (obeys_run one_finish threads_ok threads_step l service threads_service O) as (A & B & C & D). fold (after l) in *.
    subst s. cbn [step] in *. destruct (nth_error (s_execs (after l)) k) as [x|] eqn:X; [|discriminate].
    destruct (x_alive x) eqn:AL; [|discriminate]. unfold x_alive in AL. destruct (x_end x) eqn:XE; [discriminate|].
    destruct (A _ _ X XE) as [L Be]. unfold stuck. proj. repeat match goal with |- _ /\ _ => split end; auto.
    - exists (mk_exec (x_job x) (Some None)). split; [|reflexivity]. eapply nth_set_same; eauto.
    - intros i y N. apply nth_set in N as [[_ ->]|[I N]]; [discriminate|]. intros E. destruct (A _ _ N E). congruence.
    - intros i f N P. destruct (C _ _ N P). congruence. }
  clearbody s. clear O G. assert (R : kept k s (fst (run s l2))).
  { assert (R : kept k s s) by (split; auto). revert R. generalize s at 2 4. induction l2 as [|e l2 IH]; intros s' R; [exact R|].
    rewrite run_cons. apply IH. destruct R as (R1 & R2 & R3). destruct (proj1 (stuck_step k s' e R1)) as (Q1 & Q2 & Q3).
    split; [exact Q1|]. split; congruence. }
  destruct R as (R1 & R2 & R3). repeat match goal with |- _ /\ _ => split end; auto. intros f t.
  destruct (stuck_step k _ (Finish_waited f t) R1) as [_ Q]. now apply (Q f t).
Qed.
Print Assumptions C85_raising_job_is_the_last_refuted.

(** ** What goes wrong when the rules are not kept *)

Definition r1 : result := mk_result (T "pass") None (T "first").
Definition r2 : result := mk_result (T "fail") None (T "second").
Definition shell : jobinfo := mk_jobinfo (T "shell") [] None.
Definition go (g : nat) : event := Next g (Some [T "a"; T "b"]) (Some shell).
Definition open_session : list event := [Start_session (Some []); Bootstrap (Some [T "a"; T "b"])].

(** Two calls of finish_job in progress: two jobs at the same time *)
Theorem C85_one_at_a_time_refuted : exists l k k', is_running k (after l) /\ is_running k' (after l) /\ k <> k'.
Proof.
  exists (open_session ++ [Run_job (T "a"); go 0; Finish_job; Finish_job; Job_over 0 (Some r1); Finish_waited 0 (Some [T "b"]);
            Run_job (T "b"); go 1; Finish_waited 1 (Some [T "b"]); Run_job (T "c"); go 2]), 1, 2.
  split; [|split; [|discriminate]]; eexists; (split; [vm_compute; reflexivity|reflexivity]).
Qed.
Print Assumptions C85_one_at_a_time_refuted.
(** Two calls of run_job, made before either job is started: the result of one job is kept under
    the name of the other, and the service says that nothing is running while something is *)
Theorem C85_own_results_refuted : exists l,
  obeys one_finish service l /\ fed_results (after l) = [(Some (T "b"), r1)] /\
  map x_job (s_execs (after l)) = [T "a"; T "b"] /\ is_running 1 (after l) /\ s_state (after l) = Bootstrapped.
Proof.
  exists (open_session ++ [Run_job (T "a"); Run_job (T "b"); go 0; go 1; Finish_job; Job_over 0 (Some r1); Finish_waited 0 (Some [T "b"]); Lock_acquired 1]).
  repeat match goal with |- _ /\ _ => split end; try (vm_compute; reflexivity).
  - vm_compute. repeat split. intros f [].
  - eexists. split; [vm_compute; reflexivity|reflexivity].
Qed.
Print Assumptions C85_own_results_refuted.
(** Finalizing while a job runs: the next job is not started before the end of the first one was
    waited for, and the result of the first one is kept under its name *)
Theorem C85_finalized_refuted : exists l, obeys one_finish service l /\
  snd (step (after (removelast l)) (go 1)) = Blocks /\
  fed_results (after (l ++ [Finish_job; Job_over 0 (Some r1); Finish_waited 0 (Some [])])) = [(Some (T "b"), r1)].
Proof.
  exists (open_session ++ [Run_job (T "a"); go 0; Finalize_session true] ++ open_session ++ [Run_job (T "b"); go 1]).
  repeat match goal with |- _ /\ _ => split end; try (vm_compute; reflexivity). vm_compute. tauto.
Qed.
Print Assumptions C85_finalized_refuted.
Example C85_case_client : obeys one_client service
  (open_session ++ [Run_job (T "a"); go 0; Whats_up; Line 0 (T "x"); Monitor_job; Finish_job; Job_over 0 (Some r1); Finish_waited 0 (Some [T "b"]);
     Run_job (T "b"); go 1; Finish_job]) /\
  fed_results (after (open_session ++ [Run_job (T "a"); go 0; Finish_job; Job_over 0 (Some r1); Finish_waited 0 (Some [T "b"]);
     Run_job (T "b"); go 1])) = [(Some (T "a"), r1)].
Proof. split; [|reflexivity]. vm_compute. repeat split; intros f F; repeat destruct F as [<-|F]; try reflexivity; destruct F. Qed.
Example C85_case_raises : let l := open_session ++ [Run_job (T "a"); go 0; Finish_job] in
  obeys one_finish service l /\ snd (step (after l) (Job_over 0 None)) = Goes_on.
Proof. split; [|reflexivity]. vm_compute. repeat split. intros f []. Qed.
