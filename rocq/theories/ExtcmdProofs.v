From Coq Require Import Ascii List Bool ZArith Lia.
From Verif Require Import ExtcmdModel ExtcmdSpec.
Import ListNotations.
Open Scope list_scope.

Definition r_hold (r : reader) : list bytes := match r with Putting d => [d] | _ => [] end.
Definition w_hold (x : stream) (w : worker) : list bytes :=
  match w with Calling y d => if stream_eqb x y then [d] else [] | _ => [] end.
Definition q_hold (x : stream) (q : list (option (stream * bytes))) : list bytes :=
  flat_map (fun e => match e with Some (y, d) => if stream_eqb x y then [d] else [] | None => [] end) q.

(** Everything that was read from a stream, in order. *)
Definition got (x : stream) (s : state) : list bytes :=
  data_of x (s_events s) ++ w_hold x (s_worker s) ++ q_hold x (s_queue s) ++ r_hold (s_reader s x).

Definition is_line (d : bytes) : Prop := exists l, d = l ++ [NL] /\ ~ In NL l.

Definition read_ok (chunked : bool) (x : stream) (s : state) : Prop :=
  exists consumed, s_written s x = consumed ++ s_pipe s x /\
    (if chunked then got x s = map (fun b => [b]) consumed
     else (Forall is_line (got x s) /\ concat (got x s) = consumed) \/
          (lines_of consumed (got x s) /\ s_closed s x = true /\ s_pipe s x = [])).

Definition all_some {A} (q : list (option A)) : Prop := Forall (fun e => e <> None) q.

Definition phase_ok (s : state) : Prop :=
  match s_main s with
  | Starting => s = init
  | Waiting => all_some (s_queue s) /\ s_worker s <> WorkerDone /\
               exists mid, s_events s = Begin :: mid /\ Forall in_between mid
  | Joining1 rc => all_some (s_queue s) /\ s_worker s <> WorkerDone /\ s_exit s = Some rc /\
               exists mid, s_events s = Begin :: mid /\ Forall in_between mid
  | Joining2 rc => all_some (s_queue s) /\ s_worker s <> WorkerDone /\ s_exit s = Some rc /\
               s_reader s Out = ReaderDone /\
               exists mid, s_events s = Begin :: mid /\ Forall in_between mid
  | Stopping rc => all_some (s_queue s) /\ s_worker s <> WorkerDone /\ s_exit s = Some rc /\
               s_reader s Out = ReaderDone /\ s_reader s Err = ReaderDone /\
               exists mid, s_events s = Begin :: mid /\ Forall in_between mid
  | Joining3 rc => ((exists q, s_queue s = q ++ [None] /\ all_some q /\ s_worker s <> WorkerDone) \/
                    (s_queue s = [] /\ s_worker s = WorkerDone)) /\ s_exit s = Some rc /\
               s_reader s Out = ReaderDone /\ s_reader s Err = ReaderDone /\
               exists mid, s_events s = Begin :: mid /\ Forall in_between mid
  | Ending rc => s_queue s = [] /\ s_worker s = WorkerDone /\ s_exit s = Some rc /\
               s_reader s Out = ReaderDone /\ s_reader s Err = ReaderDone /\
               exists mid, s_events s = Begin :: mid /\ Forall in_between mid
  | Returned rc => s_queue s = [] /\ s_worker s = WorkerDone /\ s_exit s = Some rc /\
               s_reader s Out = ReaderDone /\ s_reader s Err = ReaderDone /\
               exists mid, s_events s = Begin :: mid ++ [final_event rc] /\ Forall in_between mid
  end.

Definition done_ok (x : stream) (s : state) : Prop :=
  s_reader s x = ReaderDone -> s_pipe s x = [] /\ s_closed s x = true.

Definition inv (chunked : bool) (s : state) : Prop :=
  (forall x, read_ok chunked x s) /\ (forall x, done_ok x s) /\ phase_ok s.

Lemma stream_eqb_spec a b : reflect (a = b) (stream_eqb a b).
Proof. destruct a, b; constructor; congruence. Qed.
Lemma stream_eqb_refl a : stream_eqb a a = true.
Proof. now destruct a. Qed.

Lemma upd_same {A} (f : stream -> A) x v : upd f x v x = v.
Proof. unfold upd. now rewrite stream_eqb_refl. Qed.
Lemma upd_other {A} (f : stream -> A) x y v : y <> x -> upd f x v y = f y.
Proof. unfold upd. destruct (stream_eqb_spec y x); congruence. Qed.

Lemma data_of_app x a b : data_of x (a ++ b) = data_of x a ++ data_of x b.
Proof. apply flat_map_app. Qed.
Lemma q_hold_app x a b : q_hold x (a ++ b) = q_hold x a ++ q_hold x b.
Proof. apply flat_map_app. Qed.

(** Only the reader of [x] changes what was got from [x]. *)
Lemma read_ok_same chunked x s s' :
  read_ok chunked x s -> got x s' = got x s -> s_written s' x = s_written s x ->
  s_pipe s' x = s_pipe s x -> (s_closed s x = true -> s_closed s' x = true) -> read_ok chunked x s'.
Proof.
  intros (c & E & H) G W P C. exists c. rewrite W, P, G. split; auto.
  destruct chunked; auto. destruct H as [H|(H1 & H2 & H3)]; auto.
Qed.

Lemma lines_of_full ls : Forall is_line ls -> lines_of (concat ls) ls.
Proof.
  induction 1 as [|d ls (l & -> & N) F IH]; [constructor|]. cbn [concat].
  rewrite <- app_assoc. cbn [app]. now constructor.
Qed.
Lemma lines_of_full_last ls l : Forall is_line ls -> l <> [] -> ~ In NL l -> lines_of (concat ls ++ l) (ls ++ [l]).
Proof.
  intros F N Q. induction F as [|d ls (k & -> & K) F IH]; cbn [concat app]; [now constructor|].
  rewrite <- !app_assoc. cbn [app]. now constructor.
Qed.

Lemma read_ok_read chunked x s d rest s' :
  read_ok chunked x s -> read_data chunked (s_pipe s x) (s_closed s x) d rest ->
  got x s' = got x s ++ [d] -> s_written s' x = s_written s x -> s_pipe s' x = rest ->
  s_closed s' x = s_closed s x -> read_ok chunked x s'.
Proof.
  intros (c & E & H) R G W P C.
  assert (D : s_pipe s x = d ++ rest /\ d <> []).
  { inversion R; subst; split; auto; try discriminate; try (now rewrite app_nil_r).
    - now rewrite <- app_assoc.
    - destruct l; discriminate. }
  destruct D as [D D']. exists (c ++ d). split; [rewrite W, P, E, D; apply app_assoc|].
  rewrite G. destruct chunked.
  - inversion R; subst. rewrite map_app, H. reflexivity.
  - destruct H as [[F K]|(_ & _ & H3)]; [|rewrite H3 in D; destruct d; [congruence|discriminate D]].
    inversion R; try subst d; try subst c.
    + left. rewrite concat_app. cbn. rewrite app_nil_r. split; auto.
      apply Forall_app. split; auto. constructor; auto. exists l. auto.
    + right. rewrite C, P. repeat split; auto; try congruence. apply lines_of_full_last; auto.
Qed.

Lemma read_ok_write chunked x s b s' :
  read_ok chunked x s -> s_closed s x = false ->
  got x s' = got x s -> s_written s' x = s_written s x ++ [b] -> s_pipe s' x = s_pipe s x ++ [b] ->
  read_ok chunked x s'.
Proof.
  intros (c & E & H) R G W P. exists c. rewrite W, P, E, G. rewrite app_assoc. split; auto.
  destruct chunked; auto. destruct H as [H|(_ & H & _)]; auto. congruence.
Qed.

Lemma inv_init chunked : inv chunked init.
Proof.
  split; [|split].
  - intros x. exists []. split; auto. destruct chunked; cbn; [reflexivity|left; auto].
  - intros x H. discriminate H.
  - reflexivity.
Qed.

Lemma all_some_app {A} (a b : list (option A)) : all_some (a ++ b) <-> all_some a /\ all_some b.
Proof. apply Forall_app. Qed.

Ltac evs :=
  match goal with
  | H : exists mid, s_events ?s = Begin :: mid /\ Forall in_between mid |- _ =>
      let mid := fresh "mid" in let E := fresh "E" in let F := fresh "F" in
      destruct H as (mid & E & F)
  end.

Section NoFailure.
Variable fails : stream -> bytes -> bool.
Hypothesis never : forall x d, fails x d = false.

Lemma phase_step chunked s s' : (forall x, done_ok x s) -> phase_ok s -> step chunked fails s s' -> phase_ok s'.
Proof.
  intros D P St.
  inversion St; subst; unfold phase_ok in *; cbn [s_main s_queue s_worker s_events s_exit s_reader s_closed s_pipe s_written] in *.
  - (* begin *) rewrite H in P. rewrite P. cbn. split; [constructor|split; [discriminate|]]. exists []. auto.
  - destruct (s_main s); try congruence; exact P.
  - destruct (s_main s); try congruence; exact P.
  - destruct (s_main s); try congruence; intuition congruence.
  - (* read *) destruct (s_main s); try congruence; try exact P;
      intuition; destruct x; rewrite ?upd_same; try congruence; rewrite ?upd_other by discriminate; auto.
  - (* read_end *) destruct (s_main s); try congruence; try exact P;
      intuition; destruct x; rewrite ?upd_same; try congruence; rewrite ?upd_other by discriminate; auto.
  - (* put *)
    destruct (s_main s).
    + rewrite P in H. discriminate H.
    + destruct P as (Q & P). split; auto. apply all_some_app. split; auto. constructor; [discriminate|constructor].
    + destruct P as (Q & P). split; auto. apply all_some_app. split; auto. constructor; [discriminate|constructor].
    + destruct P as (Q & P1 & P2 & P3 & P4). split; [|split; [|split; [|split]]]; auto.
      * apply all_some_app. split; auto. constructor; [discriminate|constructor].
      * destruct x; [congruence|]. rewrite upd_other by discriminate. auto.
    + intuition; destruct x; congruence.
    + intuition; destruct x; congruence.
    + intuition; destruct x; congruence.
    + intuition; destruct x; congruence.
  - (* get *)
    destruct (s_main s).
    + rewrite P in H0. discriminate H0.
    + destruct P as (Q & P1 & P). rewrite H0 in Q. apply Forall_cons_iff in Q as [_ Q]. repeat split; auto. discriminate.
    + destruct P as (Q & P1 & P). rewrite H0 in Q. apply Forall_cons_iff in Q as [_ Q]. repeat split; auto; try tauto. discriminate.
    + destruct P as (Q & P1 & P). rewrite H0 in Q. apply Forall_cons_iff in Q as [_ Q]. repeat split; auto; try tauto. discriminate.
    + destruct P as (Q & P1 & P). rewrite H0 in Q. apply Forall_cons_iff in Q as [_ Q]. repeat split; auto; try tauto. discriminate.
    + destruct P as (Q & P). split; auto. left. destruct Q as [(q' & Q1 & Q2 & Q3)|[Q1 Q2]]; [|congruence].
      rewrite Q1 in H0. destruct q' as [|e q']; [discriminate H0|]. cbn in H0. injection H0 as -> <-.
      exists q'. apply Forall_cons_iff in Q2 as [_ Q2]. repeat split; auto. discriminate.
    + intuition congruence.
    + intuition congruence.
  - (* get none *)
    destruct (s_main s).
    + rewrite P in H0. discriminate H0.
    + destruct P as (Q & P). rewrite H0 in Q. apply Forall_cons_iff in Q as [Q _]. congruence.
    + destruct P as (Q & P). rewrite H0 in Q. apply Forall_cons_iff in Q as [Q _]. congruence.
    + destruct P as (Q & P). rewrite H0 in Q. apply Forall_cons_iff in Q as [Q _]. congruence.
    + destruct P as (Q & P). rewrite H0 in Q. apply Forall_cons_iff in Q as [Q _]. congruence.
    + destruct P as (Q & P). split; auto. right. destruct Q as [(q' & Q1 & Q2 & Q3)|[Q1 Q2]]; [|congruence].
      rewrite Q1 in H0. destruct q' as [|e q']; cbn in H0.
      * injection H0 as <-. auto.
      * injection H0 as -> _. apply Forall_cons_iff in Q2 as [Q2 _]. congruence.
    + intuition congruence.
    + intuition congruence.
  - (* call *)
    assert (EV : forall mid, s_events s = Begin :: mid -> Forall in_between mid ->
       exists mid', s_events s ++ [Data x d] = Begin :: mid' /\ Forall in_between mid').
    { intros mid E F. rewrite E. exists (mid ++ [Data x d]). split; auto. apply Forall_app. split; auto. constructor; cbn; auto. }
    destruct (s_main s).
    + rewrite P in H. discriminate H.
    + destruct P as (Q & P1 & mid & P2 & P3). repeat split; eauto. discriminate.
    + destruct P as (Q & P1 & P0 & mid & P2 & P3). repeat split; eauto. discriminate.
    + destruct P as (Q & P1 & P0 & P4 & mid & P2 & P3). repeat split; eauto. discriminate.
    + destruct P as (Q & P1 & P0 & P4 & P5 & mid & P2 & P3). repeat split; eauto. discriminate.
    + destruct P as (Q & P1 & P4 & P5 & mid & P2 & P3). repeat split; eauto.
      left. destruct Q as [(q & Q1 & Q2 & Q3)|[Q1 Q2]]; [|congruence]. exists q. repeat split; auto. discriminate.
    + intuition congruence.
    + intuition congruence.
  - rewrite never in *. discriminate.
  - (* interrupt *)
    rewrite H in *. destruct P as (Q & P1 & mid & P2 & P3). repeat split; auto. rewrite P2.
    exists (mid ++ [Interrupt]). split; auto. apply Forall_app. split; auto. constructor; cbn; auto.
  - rewrite H in P. destruct P as (Q & P1 & P2). auto.
  - rewrite H in P. intuition.
  - rewrite H in P. intuition.
  - rewrite H in P. destruct P as (Q & P1 & P2). split; [|tauto]. left. eauto.
  - rewrite H in P. destruct P as (Q & P1 & P2). destruct Q as [(q & Q1 & Q2 & Q3)|[Q1 Q2]]; [congruence|]. auto.
  - rewrite H in P. destruct P as (Q & P1 & P2 & P3 & P4 & mid & P5 & P6). repeat split; auto.
    exists mid. split; auto. rewrite P5. reflexivity.
Qed.

Lemma inv_step chunked s s' : inv chunked s -> step chunked fails s s' -> inv chunked s'.
Proof.
  intros (R & D & P) St. split; [|split]; [| |exact (phase_step _ _ _ D P St)].
  - intros y. specialize (R y).
    inversion St; subst;
      try (apply (read_ok_same _ _ _ _ R); [|reflexivity|reflexivity|auto]; unfold got; cbn [s_events s_worker s_queue s_reader]; reflexivity).
    + (* begin *)
      apply (read_ok_same _ _ _ _ R); auto. unfold got. cbn [s_events s_worker s_queue s_reader].
      rewrite data_of_app. cbn. now rewrite app_nil_r.
    + (* write *)
      destruct (stream_eqb_spec y x) as [->|N].
      * apply (read_ok_write _ _ _ b _ R); auto; cbn; now rewrite upd_same.
      * apply (read_ok_same _ _ _ _ R); auto; cbn; now rewrite upd_other.
    + (* close *)
      apply (read_ok_same _ _ _ _ R); auto. cbn. destruct (stream_eqb_spec y x) as [->|N];
        [now rewrite upd_same|now rewrite upd_other].
    + (* read *)
      destruct (stream_eqb_spec y x) as [->|N].
      * apply (read_ok_read _ _ _ d rest _ R); auto; cbn; try (now rewrite upd_same).
        unfold got. cbn [s_events s_worker s_queue s_reader]. rewrite upd_same, H0. cbn [r_hold].
        now rewrite !app_nil_r, !app_assoc.
      * apply (read_ok_same _ _ _ _ R); auto; cbn; try (now rewrite upd_other).
    + (* read_end *)
      apply (read_ok_same _ _ _ _ R); auto. unfold got. cbn [s_events s_worker s_queue s_reader].
      destruct (stream_eqb_spec y x) as [->|N]; [now rewrite upd_same, H0|now rewrite upd_other].
    + (* put *)
      apply (read_ok_same _ _ _ _ R); auto. unfold got. cbn [s_events s_worker s_queue s_reader].
      rewrite q_hold_app. cbn.
      destruct (stream_eqb_spec y x) as [->|N].
      * rewrite upd_same, H. cbn. now rewrite app_nil_r.
      * rewrite upd_other by auto. cbn. now rewrite app_nil_r.
    + (* get *)
      apply (read_ok_same _ _ _ _ R); auto. unfold got. cbn [s_events s_worker s_queue s_reader].
      rewrite H, H0. cbn. f_equal. now rewrite app_assoc.
    + (* get none *)
      apply (read_ok_same _ _ _ _ R); auto. unfold got. cbn [s_events s_worker s_queue s_reader].
      rewrite H, H0. reflexivity.
    + (* call *)
      apply (read_ok_same _ _ _ _ R); auto. unfold got. cbn [s_events s_worker s_queue s_reader].
      rewrite H, data_of_app. cbn. rewrite app_nil_r. now rewrite <- app_assoc.
    + rewrite never in *. discriminate.
    + (* interrupt *)
      apply (read_ok_same _ _ _ _ R); auto. unfold got. cbn [s_events s_worker s_queue s_reader].
      rewrite data_of_app. cbn. now rewrite app_nil_r.
    + (* stop *)
      apply (read_ok_same _ _ _ _ R); auto. unfold got. cbn [s_events s_worker s_queue s_reader].
      rewrite q_hold_app. cbn. now rewrite app_nil_r.
    + (* end *)
      apply (read_ok_same _ _ _ _ R); auto. unfold got. cbn [s_events s_worker s_queue s_reader].
      rewrite data_of_app. cbn. destruct (rc <? 0)%Z; cbn; now rewrite app_nil_r.
  - intros y. specialize (D y). unfold done_ok in *.
    inversion St; subst; cbn [s_reader s_pipe s_closed]; auto.
    + intros E. destruct (D E) as [D1 D2]. destruct (stream_eqb_spec y x) as [->|N]; [congruence|].
      now rewrite upd_other.
    + intros E. destruct (D E) as [D1 D2]. split; auto. unfold upd. destruct (stream_eqb y x); auto.
    + destruct (stream_eqb_spec y x) as [->|N].
      * rewrite upd_same. discriminate.
      * rewrite !upd_other by auto. auto.
    + destruct (stream_eqb_spec y x) as [->|N]; [auto|]. rewrite upd_other by auto. auto.
    + destruct (stream_eqb_spec y x) as [->|N].
      * rewrite upd_same. discriminate.
      * rewrite upd_other by auto. auto.
Qed.

Lemma inv_reachable chunked s : reachable chunked fails s -> inv chunked s.
Proof. induction 1; [apply inv_init|eapply inv_step; eauto]. Qed.

End NoFailure.

Lemma lines_of_unique t : forall l l', lines_of t l -> lines_of t l' -> l = l'.
Proof.
  assert (A : forall a b x y : bytes, ~ In NL a -> ~ In NL b -> a ++ NL :: x = b ++ NL :: y -> a = b /\ x = y).
  { induction a as [|c a IH]; intros [|d b] x y Ha Hb E; cbn in *.
    - injection E; auto.
    - injection E as E1 E2. exfalso. apply Hb. now left.
    - injection E as E1 E2. exfalso. apply Ha. now left.
    - injection E as -> E. destruct (IH b x y) as [-> ->]; auto. }
  intros l l' H. revert l'. induction H as [|l N Q|l t ls N H IH]; intros l' H'.
  - inversion H'; subst; auto; try congruence. destruct l; discriminate.
  - inversion H'; subst; auto; try congruence. exfalso. apply Q, in_app_iff. right. now left.
  - inversion H'; subst.
    + destruct l; discriminate.
    + exfalso. apply H1. apply in_app_iff. right. now left.
    + destruct (A _ _ _ _ H1 N H0) as [-> ->]. f_equal. apply IH. assumption.
Qed.
Lemma lines_of_exists t : exists l, lines_of t l.
Proof.
  assert (A : forall n t, length t <= n -> exists l, lines_of t l).
  { induction n as [|n IH]; intros u Hu.
    - destruct u; [exists []; constructor|cbn in Hu; lia].
    - destruct (in_dec ascii_dec NL u) as [I|I].
      + assert (S : exists a b, u = a ++ NL :: b /\ ~ In NL a).
        { clear -I. induction u as [|c u IH]; [destruct I|].
          destruct (ascii_dec c NL) as [->|N]; [exists [], u; auto|].
          destruct I as [I|I]; [congruence|]. destruct (IH I) as (a & b & -> & Ha).
          exists (c :: a), b. split; auto. intros [X|X]; auto. }
        destruct S as (a & b & -> & Ha). rewrite app_length in Hu. cbn in Hu.
        destruct (IH b ltac:(lia)) as [l L]. exists ((a ++ [NL]) :: l). now constructor.
      + destruct u as [|c u]; [exists []; constructor|]. exists [c :: u]. constructor; [discriminate|auto]. }
  exact (A _ _ (le_n _)).
Qed.
