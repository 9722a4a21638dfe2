(** * Theorems about requests and their answers on one connection (C102) and about closing it (C103) *)
From Coq Require Import List Bool Arith Lia Permutation.
From Verif Require Import DispatchModel.
Import ListNotations.

(** ** Specification *)
Definition is_request (e : event) : bool := match e with Sync _ | Async _ => true | _ => false end.
(** Requests are numbered as they are made: the number of the next one *)
Definition requests (l : list event) : nat := List.length (filter is_request l).
(** What a list of answered requests has for a number *)
Definition of_num (n : nat) (l : list (nat * answer)) : list (nat * answer) := filter (fun x => Nat.eqb n (fst x)) l.
(** The first answer with a number, unless the connection is cleaned up before *)
Fixpoint first_answer (n : nat) (l : list event) : list (nat * answer) :=
  match l with
  | [] => []
  | Answer k a :: r => if Nat.eqb n k then [(n, a)] else first_answer n r
  | Cleanup :: _ => []
  | _ :: r => first_answer n r
  end.
(** The last answer with a number since the last cleaning up *)
Fixpoint last_answer (n : nat) (so_far : list (nat * answer)) (l : list event) : list (nat * answer) :=
  match l with
  | [] => so_far
  | Answer k a :: r => last_answer n (if Nat.eqb n k then [(n, a)] else so_far) r
  | Cleanup :: r => last_answer n [] r
  | _ :: r => last_answer n so_far r
  end.

(** ** Lemmas *)
Arguments mem : simpl never.
Arguments drop_num : simpl never.
Arguments drop_reply : simpl never.
Arguments of_num : simpl never.
Lemma mem_cons n k l : mem n (k :: l) = Nat.eqb n k || mem n l.
Proof. reflexivity. Qed.
Lemma mem_drop n k l : mem n (drop_num k l) = mem n l && negb (Nat.eqb k n).
Proof.
  unfold mem, drop_num. induction l as [|x l IH]; cbn; [reflexivity|].
  destruct (Nat.eqb k x) eqn:E; cbn; rewrite IH; destruct (Nat.eqb n x) eqn:F; cbn; try reflexivity.
  - apply Nat.eqb_eq in E, F. subst. rewrite Nat.eqb_refl. cbn. now rewrite andb_false_r.
  - apply Nat.eqb_eq in F. subst. now rewrite E.
Qed.
Lemma find_drop n k l : find_reply n (drop_reply k l) = if Nat.eqb k n then None else find_reply n l.
Proof.
  unfold drop_reply. induction l as [|[j a] l IH]; cbn; [now destruct (Nat.eqb k n)|].
  destruct (Nat.eqb k j) eqn:E; cbn; rewrite IH.
  - apply Nat.eqb_eq in E. subst. rewrite (Nat.eqb_sym n j). now destruct (Nat.eqb j n).
  - destruct (Nat.eqb n j) eqn:F; [|reflexivity]. apply Nat.eqb_eq in F. subst. now rewrite E.
Qed.
Lemma of_num_app n a b : of_num n (a ++ b) = of_num n a ++ of_num n b.
Proof. apply filter_app. Qed.
Lemma of_num_one n k a : of_num n [(k, a)] = if Nat.eqb n k then [(n, a)] else [].
Proof. unfold of_num. cbn. destruct (Nat.eqb n k) eqn:E; [|reflexivity]. apply Nat.eqb_eq in E. now subst. Qed.
Lemma run_app l1 l2 : run (l1 ++ l2) = fold_left step l2 (run l1).
Proof. apply fold_left_app. Qed.
Lemma requests_app a b : requests (a ++ b) = requests a + requests b.
Proof. unfold requests. now rewrite filter_app, app_length. Qed.
Lemma next_fold l : forall s, next (fold_left step l s) = next s + requests l.
Proof.
  unfold requests. induction l as [|e l IH]; intros s; cbn [fold_left filter]; [cbn; lia|]. rewrite IH.
  destruct e as [b|b|n a|n|]; cbn [step is_request]; cbn [List.length next]; try lia.
  - now destruct (mem n (callbacks s)).
  - destruct (mem n (waiting s)); [|reflexivity]. now destruct (find_reply n (replies s)).
Qed.
Lemma next_run l : next (run l) = requests l.
Proof. unfold run. now rewrite next_fold. Qed.

(** Nothing is known of numbers not given out yet; a number that was given out is in one place at most *)
Definition b2n (b : bool) : nat := if b then 1 else 0.
Definition uses (n : nat) (s : side) : nat :=
  List.length (of_num n (called s)) + List.length (of_num n (returned s)) +
  b2n (mem n (callbacks s)) + b2n (mem n (waiting s)).
Definition sane (s : side) : Prop := forall n, (next s <= n -> uses n s = 0) /\ uses n s <= 1.
Lemma sane_step s e : sane s -> sane (step s e).
Proof.
  intros S n. destruct (S n) as [A B].
  destruct e as [b|b|k a|k|]; cbn [step].
  - unfold uses in *. destruct b; cbn [next called returned callbacks waiting] in *.
    + change (mem n (next s :: waiting s)) with (Nat.eqb n (next s) || mem n (waiting s)).
      destruct (Nat.eqb n (next s)) eqn:E; cbn [orb].
      * apply Nat.eqb_eq in E. subst n. specialize (A (le_n _)). split; [intros; lia|]. cbn [b2n]. lia.
      * apply Nat.eqb_neq in E. split; [intros; apply A; lia|exact B].
    + split; [intros; apply A; lia|exact B].
  - unfold uses in *. destruct b; cbn [next called returned callbacks waiting] in *.
    + change (mem n (next s :: callbacks s)) with (Nat.eqb n (next s) || mem n (callbacks s)).
      destruct (Nat.eqb n (next s)) eqn:E; cbn [orb].
      * apply Nat.eqb_eq in E. subst n. specialize (A (le_n _)). split; [intros; lia|]. cbn [b2n]. lia.
      * apply Nat.eqb_neq in E. split; [intros; apply A; lia|exact B].
    + split; [intros; apply A; lia|exact B].
  - destruct (mem k (callbacks s)) eqn:M; [|now split].
    unfold uses in *. cbn [next called returned callbacks waiting].
    rewrite of_num_app, app_length, of_num_one, mem_drop.
    destruct (Nat.eqb n k) eqn:E.
    + apply Nat.eqb_eq in E. subst n. rewrite M in A, B |- *. rewrite Nat.eqb_refl. cbn in *. split; [|lia].
      intros Q. specialize (A Q). lia.
    + rewrite Nat.eqb_sym, E. cbn. rewrite andb_true_r, Nat.add_0_r. split; [intros; apply A; lia|exact B].
  - destruct (mem k (waiting s)) eqn:M; [|now split]. destruct (find_reply k (replies s)) as [a|]; [|now split].
    unfold uses in *. cbn [next called returned callbacks waiting].
    rewrite of_num_app, app_length, of_num_one, mem_drop.
    destruct (Nat.eqb n k) eqn:E.
    + apply Nat.eqb_eq in E. subst n. rewrite M in A, B |- *. rewrite Nat.eqb_refl. cbn in *. split; [|lia].
      intros Q. specialize (A Q). lia.
    + rewrite Nat.eqb_sym, E. cbn. rewrite andb_true_r, Nat.add_0_r. split; [intros; apply A; lia|exact B].
  - unfold uses in *. cbn [next called returned callbacks waiting]. change (b2n (mem n [])) with 0.
    split; [intros Q; specialize (A Q)|]; lia.
Qed.
Lemma sane_fold l : forall s, sane s -> sane (fold_left step l s).
Proof. induction l as [|e l IH]; intros s S; [exact S|]. cbn. apply IH, sane_step, S. Qed.
Lemma sane_run l : sane (run l).
Proof. apply sane_fold. intros n. cbv. lia. Qed.
Lemma new_number s n : sane s -> next s <= n ->
  of_num n (called s) = [] /\ of_num n (returned s) = [] /\ mem n (callbacks s) = false /\ mem n (waiting s) = false.
Proof.
  intros S Q. destruct (S n) as [A _]. specialize (A Q). unfold uses in A.
  destruct (of_num n (called s)); [|cbn in A; lia]. destruct (of_num n (returned s)); [|cbn in A; lia].
  destruct (mem n (callbacks s)); [cbn in A; lia|]. destruct (mem n (waiting s)); [cbn in A; lia|]. easy.
Qed.

(** Calls of the callback of a number *)
Lemma no_callback n : forall l s, mem n (callbacks s) = false -> n < next s ->
  of_num n (called (fold_left step l s)) = of_num n (called s) /\ mem n (callbacks (fold_left step l s)) = false.
Proof.
  induction l as [|e l IH]; intros s M Q; [now split|]. cbn [fold_left].
  assert (Z : of_num n (called (step s e)) = of_num n (called s) /\ mem n (callbacks (step s e)) = false /\ n < next (step s e)).
  { destruct e as [b|b|k a|k|]; cbn [step].
    - cbn. repeat split; auto.
    - cbn. repeat split; auto. destruct b; [|exact M]. rewrite mem_cons, M, orb_false_r. apply Nat.eqb_neq. lia.
    - destruct (mem k (callbacks s)) eqn:K; cbn; [|now repeat split].
      rewrite of_num_app, of_num_one, mem_drop, M. destruct (Nat.eqb n k) eqn:E; [apply Nat.eqb_eq in E; congruence|].
      now rewrite app_nil_r.
    - destruct (mem k (waiting s)); [|now repeat split]. destruct (find_reply k (replies s)); now repeat split.
    - now repeat split. }
  destruct Z as [Z1 [Z2 Z3]]. destruct (IH _ Z2 Z3) as [I1 I2]. now rewrite I1, I2, Z1.
Qed.
Lemma with_callback n : forall l s, mem n (callbacks s) = true -> n < next s ->
  of_num n (called (fold_left step l s)) = of_num n (called s) ++ first_answer n l.
Proof.
  induction l as [|e l IH]; intros s M Q; [cbn; now rewrite app_nil_r|]. cbn [fold_left].
  destruct e as [b|b|k a|k|]; cbn [first_answer].
  - rewrite IH; [reflexivity|exact M|cbn; lia].
  - rewrite IH; [reflexivity| |cbn; lia]. cbn. destruct b; [|exact M]. now rewrite mem_cons, M, orb_true_r.
  - destruct (Nat.eqb n k) eqn:E.
    + apply Nat.eqb_eq in E. subst k. cbn [step]. rewrite M.
      destruct (no_callback n l {| next := next s; replies := replies s; callbacks := drop_num n (callbacks s);
        waiting := waiting s; called := called s ++ [(n, a)]; returned := returned s |}) as [I _].
      * cbn. rewrite mem_drop, Nat.eqb_refl. cbn. now rewrite andb_false_r.
      * exact Q.
      * rewrite I. cbn [called]. now rewrite of_num_app, of_num_one, Nat.eqb_refl.
    + cbn [step]. destruct (mem k (callbacks s)) eqn:K.
      * rewrite IH; cbn [called callbacks next]; [|rewrite mem_drop, M, Nat.eqb_sym, E; reflexivity|exact Q].
        now rewrite of_num_app, of_num_one, E, app_nil_r.
      * rewrite IH; [reflexivity|exact M|exact Q].
  - cbn [step]. destruct (mem k (waiting s)); [|now rewrite IH]. destruct (find_reply k (replies s)); now rewrite IH.
  - cbn [step]. destruct (no_callback n l {| next := next s; replies := []; callbacks := []; waiting := waiting s;
        called := called s; returned := returned s |} eq_refl Q) as [I _]. rewrite I. cbn [called]. now rewrite app_nil_r.
Qed.

(** Answers kept for a number *)
Definition kept (n : nat) (s : side) : list (nat * answer) :=
  match find_reply n (replies s) with Some a => [(n, a)] | None => [] end.
Lemma kept_step n s e : mem n (callbacks s) = false ->
  (e = Pick n -> mem n (waiting s) = false) -> kept n (step s e) = last_answer n (kept n s) [e].
Proof.
  intros M P. unfold kept. destruct e as [b|b|k a|k|]; cbn [step last_answer]; try reflexivity.
  - destruct (mem k (callbacks s)) eqn:K; cbn [replies find_reply].
    + destruct (Nat.eqb n k) eqn:E; [apply Nat.eqb_eq in E; congruence|reflexivity].
    + destruct (Nat.eqb n k) eqn:E; [reflexivity|]. now rewrite find_drop, Nat.eqb_sym, E.
  - destruct (mem k (waiting s)) eqn:K; [|reflexivity]. destruct (find_reply k (replies s)) as [a|] eqn:F; [|reflexivity].
    cbn [replies]. rewrite find_drop. destruct (Nat.eqb k n) eqn:E; [|reflexivity].
    apply Nat.eqb_eq in E. subst k. rewrite P in K; [discriminate|reflexivity].
Qed.
Lemma last_app n : forall l1 l2 acc, last_answer n acc (l1 ++ l2) = last_answer n (last_answer n acc l1) l2.
Proof. induction l1 as [|e l1 IH]; intros l2 acc; [reflexivity|]. destruct e; cbn; apply IH. Qed.
Lemma kept_before n : forall l s, sane s -> next s + requests l <= n ->
  kept n (fold_left step l s) = last_answer n (kept n s) l.
Proof.
  induction l as [|e l IH]; intros s S Q; [reflexivity|]. cbn [fold_left].
  change (e :: l) with ([e] ++ l) in Q |- *. rewrite requests_app in Q. rewrite last_app.
  destruct (new_number s n S ltac:(lia)) as [_ [_ [A B]]].
  rewrite IH; [|now apply sane_step|]. 2:{ pose proof (next_fold [e] s) as N. cbn [fold_left] in N. lia. }
  now rewrite kept_step.
Qed.
Lemma kept_after n : forall l s, mem n (callbacks s) = false -> n < next s -> ~ In (Pick n) l ->
  kept n (fold_left step l s) = last_answer n (kept n s) l.
Proof.
  induction l as [|e l IH]; intros s M Q N; [reflexivity|]. cbn [fold_left].
  change (e :: l) with ([e] ++ l). rewrite last_app. rewrite IH.
  - rewrite kept_step; [reflexivity|exact M|]. intros ->. destruct N. now left.
  - destruct (no_callback n [e] s M Q) as [_ I]. exact I.
  - pose proof (next_fold [e] s) as X. cbn [fold_left] in X. lia.
  - intros I. apply N. now right.
Qed.
(** Waiting lasts until picked up *)
Lemma still_waiting n : forall l s, mem n (waiting s) = true -> n < next s -> ~ In (Pick n) l ->
  mem n (waiting (fold_left step l s)) = true /\
  of_num n (returned (fold_left step l s)) = of_num n (returned s).
Proof.
  induction l as [|e l IH]; intros s M Q N; [now split|]. cbn [fold_left].
  assert (NE : forall k, e = Pick k -> Nat.eqb n k = false).
  { intros k ->. apply Nat.eqb_neq. intros ->. apply N. now left. }
  assert (Z : mem n (waiting (step s e)) = true /\ of_num n (returned (step s e)) = of_num n (returned s)).
  { destruct e as [b|b|k a|k|]; cbn [step]; try (now split).
    - cbn. split; [|reflexivity]. destruct b; [|exact M]. now rewrite mem_cons, M, orb_true_r.
    - now destruct (mem k (callbacks s)).
    - destruct (mem k (waiting s)); [|now split]. destruct (find_reply k (replies s)); [|now split].
      cbn [waiting returned]. rewrite mem_drop, M, of_num_app, of_num_one, (NE k eq_refl), app_nil_r, Nat.eqb_sym, (NE k eq_refl).
      now split. }
  destruct Z as [Z1 Z2]. rewrite <- Z2. apply IH; [exact Z1| |intros I; apply N; now right].
  pose proof (next_fold [e] s) as X. cbn [fold_left] in X. lia.
Qed.

(** ** C102 *)

(** A callback is called with the first answer that bears the number of its request and comes after it, once, and
    not at all when the connection is cleaned up before *)
Theorem C102_callbacks pre post : let n := requests pre in
  of_num n (called (run (pre ++ Async true :: post))) = first_answer n post.
Proof.
  intros n. rewrite run_app. cbn [fold_left].
  destruct (new_number (run pre) n (sane_run pre)) as [A [_ [B _]]]; [rewrite next_run; apply le_n|].
  rewrite with_callback.
  - cbn [step called]. now rewrite A.
  - cbn. rewrite mem_cons, next_run. fold n. now rewrite Nat.eqb_refl.
  - cbn. rewrite next_run. fold n. lia.
Qed.
(** A request that waits comes back, when it looks, with the last answer that bears its number, and waits on if
    there is none *)
Theorem C102_waiting pre post : let n := requests pre in ~ In (Pick n) post ->
  of_num n (returned (run (pre ++ Sync true :: post ++ [Pick n]))) = last_answer n [] (pre ++ post).
Proof.
  intros n N. rewrite run_app. cbn [fold_left]. rewrite fold_left_app. cbn [fold_left].
  destruct (new_number (run pre) n (sane_run pre)) as [_ [A [B C]]]; [rewrite next_run; apply le_n|].
  set (s1 := step (run pre) (Sync true)).
  assert (W : mem n (waiting s1) = true) by (cbn; rewrite mem_cons, next_run; fold n; now rewrite Nat.eqb_refl).
  assert (Q : n < next s1) by (cbn; rewrite next_run; fold n; lia).
  destruct (still_waiting n post s1 W Q N) as [W' R']. 
  assert (K : kept n (fold_left step post s1) = last_answer n [] (pre ++ post)).
  { rewrite kept_after; [|exact B|exact Q|exact N]. rewrite last_app. f_equal.
    change (kept n s1) with (kept n (run pre)). unfold run. rewrite kept_before; [reflexivity| |cbn; apply le_n].
    exact (sane_run []). }
  cbn [step]. rewrite W'. unfold kept in K.
  destruct (find_reply n (replies (fold_left step post s1))) as [a|].
  - cbn [returned]. rewrite of_num_app, R'. cbn [returned s1 step]. rewrite A, of_num_one, Nat.eqb_refl. exact K.
  - rewrite R'. cbn [returned s1 step]. now rewrite A.
Qed.
(** Whatever happens, no request is answered twice, and the requests of both kinds have numbers of their own *)
Theorem C102_once l n : List.length (of_num n (called (run l)) ++ of_num n (returned (run l))) <= 1 /\
  (requests l <= n -> of_num n (called (run l)) ++ of_num n (returned (run l)) = []).
Proof.
  split.
  - destruct (sane_run l n) as [_ B]. unfold uses in B. rewrite app_length. lia.
  - intros Q. rewrite <- next_run in Q. destruct (new_number (run l) n (sane_run l) Q) as [-> [-> _]]. reflexivity.
Qed.
(** A request whose sending failed is never answered, whatever arrives *)
Lemma nothing_to_answer n : forall l s, mem n (waiting s) = false -> mem n (callbacks s) = false -> n < next s ->
  of_num n (called (fold_left step l s)) = of_num n (called s) /\ of_num n (returned (fold_left step l s)) = of_num n (returned s).
Proof.
  intros l s W B Q. split; [now apply no_callback|]. revert s W B Q.
  induction l as [|e l IH]; intros t M B Q; [reflexivity|]. cbn [fold_left]. rewrite IH.
  - destruct e as [b|b|k a|k|]; cbn [step]; auto.
    + now destruct (mem k (callbacks t)).
    + destruct (mem k (waiting t)) eqn:K; [|reflexivity]. destruct (find_reply k (replies t)); [|reflexivity].
      cbn [returned]. rewrite of_num_app, of_num_one. destruct (Nat.eqb n k) eqn:E; [|apply app_nil_r].
      apply Nat.eqb_eq in E. congruence.
  - destruct e as [b|b|k a|k|]; cbn [step]; auto.
    + cbn. destruct b; [|exact M]. rewrite mem_cons, M, orb_false_r. apply Nat.eqb_neq. lia.
    + now destruct (mem k (callbacks t)).
    + destruct (mem k (waiting t)); [|exact M]. destruct (find_reply k (replies t)); [|exact M].
      cbn. now rewrite mem_drop, M.
  - now destruct (no_callback n [e] t B Q) as [_ ?].
  - pose proof (next_fold [e] t) as X. cbn [fold_left] in X. lia.
Qed.
Theorem C102_unsent pre e post : let n := requests pre in e = Sync false \/ e = Async false ->
  of_num n (called (run (pre ++ e :: post))) = [] /\ of_num n (returned (run (pre ++ e :: post))) = [].
Proof.
  intros n E. rewrite run_app. cbn [fold_left].
  destruct (new_number (run pre) n (sane_run pre)) as [A [B [C D]]]; [rewrite next_run; apply le_n|].
  destruct (nothing_to_answer n post (step (run pre) e)) as [X Y].
  - destruct E as [-> | ->]; exact D.
  - destruct E as [-> | ->]; exact C.
  - destruct E as [-> | ->]; cbn; rewrite next_run; fold n; lia.
  - rewrite X, Y. destruct E as [-> | ->]; now split.
Qed.
(** What a waiting request took is not kept *)
Theorem C102_taken l n : mem n (waiting (run l)) = true -> find_reply n (replies (run (l ++ [Pick n]))) = None.
Proof.
  intros M. rewrite run_app. cbn [fold_left step]. rewrite M. destruct (find_reply n (replies (run l))) eqn:F; [|exact F].
  cbn [replies]. now rewrite find_drop, Nat.eqb_refl.
Qed.
(** When the other side answers a number once, after it was asked, each request gets exactly that answer *)
Lemma first_skip n : forall l r, (forall a, ~ In (Answer n a) l) -> ~ In Cleanup l -> first_answer n (l ++ r) = first_answer n r.
Proof.
  induction l as [|e l IH]; intros r N C; [reflexivity|].
  assert (I : first_answer n (l ++ r) = first_answer n r).
  { apply IH; [intros a H; apply (N a); now right|intros H; apply C; now right]. }
  destruct e as [b|b|k a|k|]; cbn; try exact I.
  - destruct (Nat.eqb n k) eqn:E; [|exact I]. apply Nat.eqb_eq in E. subst. destruct (N a). now left.
  - destruct C. now left.
Qed.
Lemma last_skip n : forall l acc, (forall a, ~ In (Answer n a) l) -> ~ In Cleanup l -> last_answer n acc l = acc.
Proof.
  induction l as [|e l IH]; intros acc N C; [reflexivity|].
  assert (I : last_answer n acc l = acc).
  { apply IH; [intros a H; apply (N a); now right|intros H; apply C; now right]. }
  destruct e as [b|b|k a|k|]; cbn; try exact I.
  - destruct (Nat.eqb n k) eqn:E; [|exact I]. apply Nat.eqb_eq in E. subst. destruct (N a). now left.
  - destruct C. now left.
Qed.
Theorem C102_each_its_own pre p1 a p2 : let n := requests pre in
  (forall b, ~ In (Answer n b) (pre ++ p1 ++ p2)) -> ~ In Cleanup (p1 ++ p2) -> ~ In (Pick n) (p1 ++ p2) ->
  of_num n (called (run (pre ++ Async true :: p1 ++ Answer n a :: p2))) = [(n, a)] /\
  of_num n (returned (run (pre ++ Sync true :: (p1 ++ Answer n a :: p2) ++ [Pick n]))) = [(n, a)].
Proof.
  intros n N C P.
  assert (N1 : forall b, ~ In (Answer n b) p1) by (intros b H; apply (N b); rewrite !in_app_iff; tauto).
  assert (N2 : forall b, ~ In (Answer n b) p2) by (intros b H; apply (N b); rewrite !in_app_iff; tauto).
  assert (C1 : ~ In Cleanup p1) by (intros H; apply C; rewrite in_app_iff; tauto).
  assert (C2 : ~ In Cleanup p2) by (intros H; apply C; rewrite in_app_iff; tauto).
  split.
  - etransitivity; [exact (C102_callbacks pre (p1 ++ Answer n a :: p2))|]. fold n. rewrite first_skip by assumption. cbn. now rewrite Nat.eqb_refl.
  - etransitivity; [apply (C102_waiting pre)|].
    2:{ fold n. rewrite last_app, last_app. cbn [last_answer]. rewrite Nat.eqb_refl. now apply last_skip. }
    fold n. intros H. apply P. rewrite in_app_iff in *. cbn in H. destruct H as [H|[H|H]]; [tauto|discriminate|tauto].
Qed.
(** The other side: a request is answered once under its own number, unless its handler ended in an exit or an
    interrupt that is kept local; by default an interrupt is, and then no answer comes *)
Theorem C102_other_side c n e :
  (respond c n e = [] <-> (e = Exits /\ exit_here c = true) \/ (e = Interrupted /\ interrupt_here c = true)) /\
  (respond c n e <> [] -> exists a, respond c n e = [(n, a)] /\
     (fst a = false <-> exists v, e = Gave v) /\ (forall v, e = Gave v \/ e = Failed v -> snd a = v)).
Proof.
  destruct e as [v|v| |]; cbn.
  - split; [split; [discriminate|intros [[E _]|[E _]]; discriminate]|]. intros _. exists (false, v). split; [reflexivity|].
    cbn. split; [split; eauto|]. intros w [E|E]; [now injection E|discriminate].
  - split; [split; [discriminate|intros [[E _]|[E _]]; discriminate]|]. intros _. exists (true, v). split; [reflexivity|].
    cbn. split; [split; [discriminate|intros [w E]; discriminate]|]. intros w [E|E]; [discriminate|now injection E].
  - destruct (exit_here c); cbn.
    + split; [split; [now left|reflexivity]|easy].
    + split; [split; [discriminate|intros [[_ E]|[E _]]; discriminate]|]. intros _. exists (true, 0). split; [reflexivity|].
      cbn. split; [split; [discriminate|intros [w E]; discriminate]|]. intros w [E|E]; discriminate.
  - destruct (interrupt_here c); cbn.
    + split; [split; [now right|reflexivity]|easy].
    + split; [split; [discriminate|intros [[E _]|[_ E]]; discriminate]|]. intros _. exists (true, 1). split; [reflexivity|].
      cbn. split; [split; [discriminate|intros [w E]; discriminate]|]. intros w [E|E]; discriminate.
Qed.
(** Both sides together: however many requests of both kinds are made, in whatever order their answers arrive, each
    gets what its own handler ended with *)
Definition made (kinds : list bool) : list event := map (fun k : bool => if k then Sync true else Async true) kinds.
Definition arrive (l : list (nat * answer)) : list event := map (fun x => Answer (fst x) (snd x)) l.
Lemma made_requests k : requests (made k) = List.length k.
Proof. unfold requests, made. induction k as [|[] k IH]; cbn; auto. Qed.
Lemma made_quiet k : (forall n a, ~ In (Answer n a) (made k)) /\ ~ In Cleanup (made k) /\ forall n, ~ In (Pick n) (made k).
Proof.
  unfold made. repeat split; [intros n a H|intros H|intros n H]; apply in_map_iff in H; destruct H as [[] [H _]]; discriminate.
Qed.
Lemma first_arrive n l r : of_num n l <> [] -> List.length (of_num n l) <= 1 -> first_answer n (arrive l ++ r) = of_num n l.
Proof.
  unfold of_num. induction l as [|[k a] l IH]; cbn; [easy|]. destruct (Nat.eqb n k) eqn:E.
  - cbn. intros _ Q. apply Nat.eqb_eq in E. subst. destruct (filter (fun x => Nat.eqb k (fst x)) l) eqn:F; [reflexivity|cbn in Q; lia].
  - exact IH.
Qed.
Lemma arrive_none n l : of_num n l = [] -> forall a, ~ In (Answer n a) (arrive l).
Proof.
  intros E a H. unfold arrive in H. apply in_map_iff in H. destruct H as [[k b] [H I]]. cbn in H. injection H as -> ->.
  assert (X : In (n, a) (of_num n l)) by (unfold of_num; apply filter_In; cbn; now rewrite Nat.eqb_refl).
  now rewrite E in X.
Qed.
Lemma last_arrive n : forall l acc, List.length (of_num n l) <= 1 ->
  last_answer n acc (arrive l) = match of_num n l with [] => acc | x => x end.
Proof.
  induction l as [|[k a] l IH]; intros acc; [reflexivity|]. cbn [arrive map last_answer fst snd].
  fold (arrive l). change (of_num n ((k, a) :: l)) with (if Nat.eqb n k then (k, a) :: of_num n l else of_num n l). destruct (Nat.eqb n k) eqn:E.
  - apply Nat.eqb_eq in E. subst k. cbn [List.length]. intros Q. rewrite IH by lia.
    destruct (of_num n l); [reflexivity|cbn in Q; lia].
  - apply IH.
Qed.
Lemma respond_num c n k e : of_num n (respond c k e) = if Nat.eqb n k then respond c k e else [].
Proof. destruct e; cbn; try (destruct (exit_here c)); try (destruct (interrupt_here c)); unfold of_num; cbn; now destruct (Nat.eqb n k). Qed.
Lemma respond_all c ends n : forall m, of_num n (flat_map (fun k => respond c k (ends k)) (seq 0 m)) =
  if Nat.ltb n m then respond c n (ends n) else [].
Proof.
  induction m as [|m IH]; [reflexivity|]. rewrite seq_S, flat_map_app, of_num_app, IH. cbn [flat_map Nat.add].
  rewrite app_nil_r, respond_num.
  destruct (Nat.ltb_spec n m), (Nat.eqb_spec n m), (Nat.ltb_spec n (S m)); try lia; [apply app_nil_r|now subst|reflexivity].
Qed.
Lemma of_num_perm n a b : Permutation a b -> List.length (of_num n b) <= 1 -> of_num n a = of_num n b.
Proof.
  intros P Q. assert (R : Permutation (of_num n a) (of_num n b)).
  { clear Q. unfold of_num. induction P as [|x l1 l2 P IH|x y l|l1 l2 l3 P1 IH1 P2 IH2]; cbn.
    - constructor.
    - destruct (Nat.eqb n (fst x)); [now constructor|exact IH].
    - destruct (Nat.eqb n (fst y)), (Nat.eqb n (fst x)); try reflexivity. apply perm_swap.
    - now transitivity (filter (fun x => Nat.eqb n (fst x)) l2). }
  destruct (of_num n b) as [|x [|y l]]; [now apply Permutation_sym, Permutation_nil in R|
    now apply Permutation_sym, Permutation_length_1_inv in R|cbn in Q; lia].
Qed.
Theorem C102_round_trip c kinds ends arrived n : n < List.length kinds ->
  Permutation arrived (flat_map (fun k => respond c k (ends k)) (seq 0 (List.length kinds))) ->
  let s := run (made kinds ++ arrive arrived ++ [Pick n]) in
  of_num n (called s) ++ of_num n (returned s) = respond c n (ends n) /\
  (nth n kinds true = true -> of_num n (called s) = []) /\ (nth n kinds true = false -> of_num n (returned s) = []).
Proof.
  intros Q P s.
  assert (L1 : List.length (respond c n (ends n)) <= 1).
  { destruct (ends n); cbn; try lia; [destruct (exit_here c)|destruct (interrupt_here c)]; cbn; lia. }
  assert (E : of_num n arrived = respond c n (ends n)).
  { rewrite (of_num_perm n _ _ P); rewrite respond_all; apply Nat.ltb_lt in Q; rewrite Q; [reflexivity|exact L1]. }
  destruct (nth_split kinds true Q) as [k1 [k2 [K1 K2]]]. set (x := nth n kinds true) in *.
  assert (RN : requests (made k1) = n) by now rewrite made_requests.
  destruct (made_quiet k1) as [A1 [A2 A3]]. destruct (made_quiet k2) as [B1 [B2 B3]].
  assert (S : s = run (made k1 ++ (if x then Sync true else Async true) :: (made k2 ++ arrive arrived) ++ [Pick n])).
  { unfold s. rewrite K1. unfold made. rewrite map_app. cbn [map]. rewrite <- !app_assoc. reflexivity. }
  destruct (C102_once (made kinds ++ arrive arrived ++ [Pick n]) n) as [ONE _]. fold s in ONE. rewrite app_length in ONE.
  destruct x.
  - assert (R : of_num n (returned s) = respond c n (ends n)).
    { rewrite S. rewrite <- RN at 1 2. rewrite C102_waiting.
      - rewrite RN, !last_app, (last_skip n (made k1)), (last_skip n (made k2)), last_arrive by (auto; now rewrite E).
        rewrite E. now destruct (respond c n (ends n)).
      - rewrite RN, in_app_iff. intros [H|H]; [now apply (B3 n)|]. unfold arrive in H. apply in_map_iff in H.
        destruct H as [y [H _]]. discriminate. }
    assert (Z : of_num n (called s) = []).
    { rewrite S, run_app. cbn [fold_left].
      destruct (new_number (run (made k1)) n (sane_run _)) as [X1 [_ [X2 _]]]; [rewrite next_run, RN; apply le_n|].
      destruct (no_callback n ((made k2 ++ arrive arrived) ++ [Pick n]) (step (run (made k1)) (Sync true))) as [Y _];
        [exact X2|cbn; rewrite next_run, RN; lia|]. rewrite Y. exact X1. }
    rewrite Z, R. repeat split. discriminate.
  - assert (R : of_num n (called s) = respond c n (ends n)).
    { rewrite S. rewrite <- RN at 1. rewrite C102_callbacks, RN, <- app_assoc, first_skip by auto.
      destruct (respond c n (ends n)) eqn:F.
      - rewrite first_skip; [reflexivity|now apply arrive_none|]. unfold arrive. intros H. apply in_map_iff in H.
        destruct H as [y [H _]]. discriminate.
      - rewrite first_arrive; rewrite E; [reflexivity|discriminate|exact L1]. }
    assert (Z : of_num n (returned s) = []).
    { rewrite S, run_app. cbn [fold_left]. set (l := (made k2 ++ arrive arrived) ++ [Pick n]).
      destruct (new_number (run (made k1)) n (sane_run _)) as [_ [X1 [_ X2]]]; [rewrite next_run, RN; apply le_n|].
      assert (G : forall l t, mem n (waiting t) = false -> n < next t -> of_num n (returned t) = [] ->
                of_num n (returned (fold_left step l t)) = []).
      { clear. induction l as [|e l IH]; intros t M Q R; [exact R|]. cbn [fold_left]. apply IH.
        - destruct e as [b|b|k a|k|]; cbn [step]; auto.
          + cbn. destruct b; [|exact M]. rewrite mem_cons, M, orb_false_r. apply Nat.eqb_neq. lia.
          + now destruct (mem k (callbacks t)).
          + destruct (mem k (waiting t)); [|exact M]. destruct (find_reply k (replies t)); [|exact M].
            cbn. now rewrite mem_drop, M.
        - pose proof (next_fold [e] t) as X. cbn [fold_left] in X. lia.
        - destruct e as [b|b|k a|k|]; cbn [step]; auto.
          + now destruct (mem k (callbacks t)).
          + destruct (mem k (waiting t)) eqn:K; [|exact R]. destruct (find_reply k (replies t)); [|exact R].
            cbn [returned]. rewrite of_num_app, of_num_one, R. destruct (Nat.eqb n k) eqn:E; [|reflexivity].
            apply Nat.eqb_eq in E. congruence. }
      apply G; [exact X2|cbn; rewrite next_run, RN; lia|exact X1]. }
    rewrite Z, R, app_nil_r. repeat split. discriminate.
Qed.
(** Refuted: that what a waiting request returns was sent after it was made. An answer nobody asked for is kept and is
    taken for the answer to the request that later gets its number. *)
Theorem C102_planted_answer_refuted :
  ~ (forall pre post, ~ In (Pick (requests pre)) post ->
     of_num (requests pre) (returned (run (pre ++ Sync true :: post ++ [Pick (requests pre)]))) =
     last_answer (requests pre) [] post).
Proof. intros H. specialize (H [Answer 0 (false, 9)] [] (fun x => x)). discriminate. Qed.
Theorem C102_unasked_answers_stay pre n a post : requests (pre ++ post) <= n ->
  (forall b, ~ In (Answer n b) post) -> ~ In Cleanup post ->
  find_reply n (replies (run (pre ++ Answer n a :: post))) = Some a.
Proof.
  intros Q N C. assert (K : kept n (run (pre ++ Answer n a :: post)) = [(n, a)]).
  { unfold run. rewrite kept_before; [|exact (sane_run [])|].
    - cbn [kept fresh replies find_reply]. rewrite last_app. cbn [last_answer]. rewrite Nat.eqb_refl. now apply last_skip.
    - cbn [next fresh]. rewrite requests_app in *. exact Q. }
  unfold kept in K. destruct (find_reply n _); [now injection K as ->|discriminate].
Qed.
Print Assumptions C102_callbacks.
Print Assumptions C102_waiting.
Print Assumptions C102_once.
Print Assumptions C102_unsent.
Print Assumptions C102_taken.
Print Assumptions C102_each_its_own.
Print Assumptions C102_other_side.
Print Assumptions C102_round_trip.
Print Assumptions C102_planted_answer_refuted.
Print Assumptions C102_unasked_answers_stay.
Example C102_case :
  let s := run [Async true; Sync true; Async false; Sync true; Answer 3 (true, 8); Answer 0 (false, 5); Answer 1 (false, 6);
                Answer 0 (false, 7); Pick 1; Pick 3; Pick 1] in
  called s = [(0, (false, 5))] /\ returned s = [(1, (false, 6)); (3, (true, 8))] /\ replies s = [(0, (false, 7))].
Proof. repeat split. Qed.
Example C102_case_both :
  let ends k := match k with 0 => Gave 4 | 1 => Failed 5 | 2 => Interrupted | _ => Exits end in
  let s := run (made [true; false; true; true] ++ arrive [(3, (true, 0)); (1, (true, 5)); (0, (false, 4))] ++ [Pick 3]) in
  called s = [(1, (true, 5))] /\ returned s = [(3, (true, 0))] /\
  flat_map (fun k => respond default_settings k (ends k)) (seq 0 4) = [(0, (false, 4)); (1, (true, 5)); (3, (true, 0))].
Proof. repeat split. Qed.

(** ** C103: closing *)

Lemma gone l : closed l = true -> root l = false -> forall hs,
  fst (hangs l hs) = l /\ snd (hangs l hs) = map (fun h => match h with Close _ _ => Quiet | OtherCloses => RaisesNone end) hs.
Proof.
  intros C R. induction hs as [|h hs IH]; [now split|]. cbn [hangs map].
  assert (H : hang l h = (l, match h with Close _ _ => Quiet | OtherCloses => RaisesNone end)).
  { destruct h as [c r|]; cbn [hang]; unfold close, cleanup.
    - now rewrite C.
    - rewrite R. destruct l; cbn in *. now subst. }
  rewrite H. destruct (hangs l hs) as [l' xs]. cbn in IH |- *. destruct IH as [-> ->]. now split.
Qed.
(** However often and from whichever side a connection is closed, its service is told exactly once, the other side is
    asked at most once and only when the first closing was ours, and the connection stays closed *)
Theorem C103_told_once h hs : let l := fst (hangs line0 (h :: hs)) in
  closed l = true /\ told l = 1 /\ asked_to_close l = match h with Close _ _ => 1 | OtherCloses => 0 end.
Proof.
  intros l. unfold l. cbn [hangs]. destruct h as [c r|]; cbn.
  - destruct (gone {| closed := true; root := false; told := 1; asked_to_close := 1 |} eq_refl eq_refl hs) as [A _].
    destruct (hangs _ hs) as [l' xs]. cbn in *. now subst.
  - destruct (gone {| closed := true; root := false; told := 1; asked_to_close := 0 |} eq_refl eq_refl hs) as [A _].
    destruct (hangs _ hs) as [l' xs]. cbn in *. now subst.
Qed.
(** Closing again is quiet; a closing message of the other side that is handled after that raises, and
    the first closing raises only when sending fails otherwise than by the end of the channel and the
    caller asked to hear of it *)
Theorem C103_what_is_raised h hs :
  snd (hangs line0 (h :: hs)) =
  match h with Close false SendFails => RaisesSend | _ => Quiet end ::
  map (fun h => match h with Close _ _ => Quiet | OtherCloses => RaisesNone end) hs.
Proof.
  cbn [hangs]. destruct h as [c r|]; cbn.
  - destruct (gone {| closed := true; root := false; told := 1; asked_to_close := 1 |} eq_refl eq_refl hs) as [_ A].
    destruct (hangs _ hs) as [l' xs]. cbn in *. subst. now destruct r, c.
  - destruct (gone {| closed := true; root := false; told := 1; asked_to_close := 0 |} eq_refl eq_refl hs) as [_ A].
    destruct (hangs _ hs) as [l' xs]. cbn in *. now subst.
Qed.
Print Assumptions C103_told_once.
Print Assumptions C103_what_is_raised.
Example C103_case : hangs line0 [Close true SendEOF; Close true SendOk; OtherCloses] =
  ({| closed := true; root := false; told := 1; asked_to_close := 1 |}, [Quiet; Quiet; RaisesNone]).
Proof. reflexivity. Qed.
