(** * C92: results that come later come once, in time, and tell all who asked *)
From Coq Require Import List Bool ZArith Lia.
From Verif Require Import PendingModel.
Import ListNotations.
Local Open Scope list_scope.

Section Result.
  Variable object : Type.
  Variable raises : nat -> bool.
  Notation event := (event object).
  Notation Arrives := (Arrives object).
  Notation Add := (Add object).
  Notation Expiry := (Expiry object).
  Notation run := (run object raises).
  Notation new := (new object).

  (** Those who asked to be told, in that order, and the deadline that was set last *)
  Fixpoint asked (l : list event) : list nat :=
    match l with [] => [] | PendingModel.Add _ f :: r => f :: asked r | _ :: r => asked r end.
  Fixpoint deadline (d : option Z) (l : list event) : option Z :=
    match l with
    | [] => d
    | PendingModel.Expiry _ now (Some t) :: r => deadline (Some (now + t)%Z) r
    | PendingModel.Expiry _ _ None :: r => deadline None r
    | _ :: r => deadline d r
    end.
  Definition quiet (l : list event) : Prop := forall now exc o, ~ In (Arrives now exc o) l.

  Lemma run_app s l1 l2 : run s (l1 ++ l2) = let (s1, c1) := run s l1 in let (s2, c2) := run s1 l2 in (s2, c1 ++ c2).
  Proof.
    revert s. induction l1 as [|e l1 IH]; intros s; cbn [app PendingModel.run]; [now destruct (run s l2)|]. destruct (step object raises s e) as [s1 c1]. rewrite IH.
    destruct (run s1 l1) as [s2 c2]. destruct (run s2 l2) as [s3 c3]. now rewrite app_assoc.
  Qed.
  Lemma run_before l : quiet l -> forall s, is_ready _ s = false ->
    run s l = (Result _ false (is_exc _ s) (obj _ s) (callbacks _ s ++ asked l) (deadline (ttl _ s) l), []).
  Proof.
    induction l as [|e l IH]; intros Q s R.
    - destruct s as [a b c d t]. cbn in R. subst a. cbn. now rewrite app_nil_r.
    - assert (Q' : quiet l) by (intros now exc o I; apply (Q now exc o); now right). destruct e as [now exc o|f|now t]; [now destruct (Q now exc o); left| |].
      + cbn [PendingModel.run step]. unfold add_callback. rewrite R. rewrite IH by (exact Q' || exact R || reflexivity). cbn. now rewrite <- app_assoc.
      + cbn [PendingModel.run step]. rewrite IH by (exact Q' || exact R || reflexivity). cbn. now destruct t.
  Qed.
  Lemma run_after l : quiet l -> forall s, is_ready _ s = true ->
    run s l = (Result _ true (is_exc _ s) (obj _ s) (callbacks _ s) (deadline (ttl _ s) l), asked l).
  Proof.
    induction l as [|e l IH]; intros Q s R.
    - destruct s as [a b c d t]. cbn in R. subst a. reflexivity.
    - assert (Q' : quiet l) by (intros now exc o I; apply (Q now exc o); now right). destruct e as [now exc o|f|now t]; [now destruct (Q now exc o); left| |].
      + cbn [PendingModel.run step]. unfold add_callback. rewrite R. rewrite IH by (exact Q' || exact R || reflexivity). reflexivity.
      + cbn [PendingModel.run step]. rewrite IH by (exact Q' || exact R || reflexivity). cbn. now destruct t.
  Qed.
  Lemma call_all_calm l : (forall f, In f l -> raises f = false) -> call_all raises l = (l, false).
  Proof. induction l as [|f l IH]; intros C; [reflexivity|]. cbn [call_all]. rewrite (C f) by now left. rewrite IH by (intros; apply C; now right). reflexivity. Qed.

  Definition in_time (now : Z) (d : option Z) : Prop := forall x, d = Some x -> (now <= x)%Z.
  Lemma in_time_expired (s : result object) now : is_ready _ s = false -> (expired _ now s = false <-> in_time now (ttl _ s)).
  Proof.
    intros R. unfold expired, in_time. rewrite R. destruct (ttl _ s) as [d|]; [|split; [intros _ x; discriminate|reflexivity]].
    rewrite Z.ltb_ge. split; [intros L x [= <-]; exact L|intros H; now apply H].
  Qed.

  (** ** Telling *)

  (** Everyone who asked is told once and in the order of asking, before and after the result came,
      if it came in time; nobody before that *)
  Theorem C92_told before now exc o after : quiet before -> quiet after -> (forall f, raises f = false) ->
    in_time now (deadline None before) ->
    snd (run new before) = [] /\
    snd (run new (before ++ [Arrives now exc o])) = asked before /\
    snd (run new (before ++ Arrives now exc o :: after)) = asked (before ++ after).
  Proof.
    intros QB QA C D. split; [now rewrite (run_before before QB new eq_refl)|].
    assert (X : forall after, quiet after -> snd (run new (before ++ Arrives now exc o :: after)) = asked before ++ asked after).
    { intros after' QA'. rewrite run_app, (run_before before QB new eq_refl). cbn [PendingModel.run step]. unfold arrives.
      rewrite (proj2 (in_time_expired (Result _ false (is_exc _ new) (obj _ new) (callbacks _ new ++ asked before) (deadline (ttl _ new) before)) now eq_refl) D).
      cbn [callbacks]. rewrite call_all_calm by (intros; apply C). rewrite (run_after after' QA') by reflexivity. reflexivity. }
    split; [rewrite (X []); [cbn; now rewrite app_nil_r|intros ? ? ? []]|]. rewrite (X after QA). clear. induction before as [|[] l IH]; cbn; congruence.
  Qed.
  (** What came in time stays, whatever deadline is set later *)
  Theorem C92_kept before now exc o after : quiet before -> quiet after -> in_time now (deadline None before) ->
    let s := fst (run new (before ++ Arrives now exc o :: after)) in
    is_ready _ s = true /\ obj _ s = Some o /\ is_exc _ s = exc /\ forall later, expired _ later s = false.
  Proof.
    intros QB QA D. rewrite run_app, (run_before before QB new eq_refl). cbn [PendingModel.run step]. unfold arrives.
    rewrite (proj2 (in_time_expired (Result _ false (is_exc _ new) (obj _ new) (callbacks _ new ++ asked before) (deadline (ttl _ new) before)) now eq_refl) D).
    destruct (call_all raises _) as [called raised]. rewrite (run_after after QA) by reflexivity. cbn. repeat split.
  Qed.
  (** What came too late is not there, and nobody is told *)
  Theorem C92_late before now exc o after : quiet before -> quiet after -> ~ in_time now (deadline None before) ->
    let (s, told) := run new (before ++ Arrives now exc o :: after) in is_ready _ s = false /\ told = [].
  Proof.
    intros QB QA D. rewrite run_app, (run_before before QB new eq_refl). cbn [PendingModel.run step]. unfold arrives.
    set (s0 := Result _ false _ _ _ _). assert (E : expired _ now s0 = true) by (apply not_false_is_true; intros E; apply in_time_expired in E; [now apply D|reflexivity]). rewrite E.
    rewrite (run_before after QA s0 eq_refl). cbn. split; reflexivity.
  Qed.
  (** One who raises keeps the others from being told, for ever *)
  Theorem C92_told_refuted f g now exc o after : raises f = true -> f <> g -> quiet after -> ~ In g (asked after) ->
    ~ In g (snd (run new (Add f :: Add g :: Arrives now exc o :: after))).
  Proof.
    intros R N Q A. change (Add f :: Add g :: Arrives now exc o :: after) with ([Add f; Add g] ++ Arrives now exc o :: after). rewrite run_app.
    rewrite (run_before [Add f; Add g]) by (try reflexivity; intros ? ? ? [I|[I|[]]]; discriminate). cbn [PendingModel.run step]. unfold arrives. cbn. rewrite R.
    rewrite (run_after after Q) by reflexivity. cbn. intros [->|I]; [now apply N|now apply A].
  Qed.

  (** ** Waiting *)

  Notation value := (value object raises).
  Definition timely (d : Z) (r : round object) : Prop := exists t exc o, snd r = Some (t, exc, o) /\ (t <= d)%Z.
  Definition outcome_of (exc : bool) (o : object) : outcome object := if exc then Error _ o else Value _ o.
  Lemma poll_late d s r : is_ready _ s = false -> ttl _ s = Some d -> (forall t exc o, r = Some (t, exc, o) -> ~ (t <= d)%Z) -> poll object raises r s = s.
  Proof.
    intros R D L. destruct r as [[[t exc] o]|]; [|reflexivity]. cbn [poll]. unfold arrives, expired. rewrite R, D. specialize (L t exc o eq_refl). destruct (Z.ltb_spec d t); [reflexivity|lia].
  Qed.
  Lemma poll_timely d s t exc o : is_ready _ s = false -> ttl _ s = Some d -> (t <= d)%Z ->
    let s1 := poll object raises (Some (t, exc, o)) s in is_ready _ s1 = true /\ value_ready _ s1 = outcome_of exc o.
  Proof.
    intros R D L. cbn [poll]. unfold arrives, expired. rewrite R, D. destruct (Z.ltb_spec d t); [lia|]. destruct (call_all raises (callbacks _ s)) as [c b]. cbn. unfold value_ready, outcome_of. cbn. now destruct exc.
  Qed.
  (** With a deadline: the first reply that comes by then, as long as no round began after it without
      one; and the timeout is reported once a round has begun at or after the deadline, and not before *)
  Theorem C92_wait d rounds s : is_ready _ s = false -> ttl _ s = Some d ->
    (forall exc o, value rounds s = outcome_of exc o <->
      exists r1 n t r2, rounds = r1 ++ (n, Some (t, exc, o)) :: r2 /\ (t <= d)%Z /\ forall r, In r r1 -> (fst r < d)%Z /\ ~ timely d r) /\
    (value rounds s = Timed_out _ <->
      exists r1 r r2, rounds = r1 ++ r :: r2 /\ (d <= fst r)%Z /\ ~ timely d r /\ forall q, In q r1 -> (fst q < d)%Z /\ ~ timely d q) /\
    (value rounds s = Waiting _ <-> forall r, In r rounds -> (fst r < d)%Z /\ ~ timely d r).
  Proof.
    intros R D. induction rounds as [|[n reply] rounds IH].
    - cbn [PendingModel.value]. rewrite R. split.
      + intros exc o. split; [unfold outcome_of; destruct exc; discriminate|]. intros (r1 & ? & ? & ? & E & _). now destruct r1.
      + split; [split; [discriminate|]; intros (r1 & ? & ? & E & _); now destruct r1|]. split; [intros _ r []|reflexivity].
    - cbn [PendingModel.value]. rewrite R, D.
      assert (T : {exists t exc o, reply = Some (t, exc, o) /\ (t <= d)%Z} + {forall t exc o, reply = Some (t, exc, o) -> ~ (t <= d)%Z}).
      { destruct reply as [[[t exc] o]|]; [|right; intros; discriminate]. destruct (Z_le_gt_dec t d); [left; eauto 6|right; intros ? ? ? [= <- <- <-]; lia]. }
      destruct T as [(t & exc & o & -> & L)|L].
      + destruct (poll_timely d s t exc o R D L) as [P1 P2]. rewrite P1, P2.
        assert (TM : timely d (n, Some (t, exc, o))) by (exists t, exc, o; split; [reflexivity|exact L]). split; [|split].
        * intros exc' o'. split.
          -- intros E. assert (exc' = exc /\ o' = o) as [-> ->] by (unfold outcome_of in E; destruct exc, exc'; try discriminate; now injection E as <-).
             exists [], n, t, rounds. split; [reflexivity|]. split; [exact L|intros r []].
          -- intros (r1 & n' & t' & r2 & E & L' & F). destruct r1 as [|q r1]; [injection E as <- <- <- <- <-; reflexivity|]. injection E as <- E. destruct (F _ (or_introl eq_refl)) as [_ N]. now destruct N.
        * split; [unfold outcome_of; destruct exc; discriminate|]. intros (r1 & r & r2 & E & Ld & N & F). destruct r1 as [|q r1]; [injection E as <- <-; now destruct N|].
          injection E as <- E. destruct (F _ (or_introl eq_refl)) as [_ N']. now destruct N'.
        * split; [unfold outcome_of; destruct exc; discriminate|]. intros F. destruct (F _ (or_introl eq_refl)) as [_ N']. now destruct N'.
      + rewrite (poll_late d s reply R D L), R.
        assert (TM : ~ timely d (n, reply)) by (intros (t & exc & o & E & L'); now apply (L t exc o)).
        destruct (Z.leb_spec (d - n) 0) as [G|G].
        * split; [|split].
          -- intros exc o. split; [unfold outcome_of; destruct exc; discriminate|]. intros (r1 & n' & t' & r2 & E & L' & F). destruct r1 as [|q r1].
             ++ injection E as -> -> _. destruct TM. exists t', exc, o. split; [reflexivity|exact L'].
             ++ injection E as <- E. destruct (F _ (or_introl eq_refl)) as [X _]. cbn [fst] in X. lia.
          -- split; [|reflexivity]. intros _. exists [], (n, reply), rounds. split; [reflexivity|]. split; [cbn; lia|]. split; [exact TM|intros q []].
          -- split; [discriminate|]. intros F. destruct (F _ (or_introl eq_refl)) as [X _]. cbn [fst] in X. lia.
        * destruct IH as (I1 & I2 & I3). split; [|split].
          -- intros exc o. rewrite I1. split.
             ++ intros (r1 & n' & t' & r2 & -> & L' & F). exists ((n, reply) :: r1), n', t', r2. split; [reflexivity|]. split; [exact L'|]. intros r [<-|I]; [split; [cbn; lia|exact TM]|now apply F].
             ++ intros (r1 & n' & t' & r2 & E & L' & F). destruct r1 as [|q r1]; [injection E as -> -> _; destruct TM; exists t', exc, o; now split|]. injection E as <- ->. exists r1, n', t', r2. split; [reflexivity|]. split; [exact L'|]. intros r I. apply F. now right.
          -- rewrite I2. split.
             ++ intros (r1 & r & r2 & -> & X & Y & F). exists ((n, reply) :: r1), r, r2. split; [reflexivity|]. split; [exact X|]. split; [exact Y|]. intros q [<-|I]; [split; [cbn; lia|exact TM]|now apply F].
             ++ intros (r1 & r & r2 & E & X & Y & F). destruct r1 as [|q r1]; [injection E as <- _; cbn [fst] in X; lia|]. injection E as <- ->. exists r1, r, r2. split; [reflexivity|]. split; [exact X|]. split; [exact Y|]. intros q I. apply F. now right.
          -- rewrite I3. split; [intros F r [<-|I]; [split; [cbn; lia|exact TM]|now apply F]|]. intros F r I. apply F. now right.
  Qed.
  (** Without a deadline: the first reply, whenever it comes *)
  Theorem C92_wait_for_ever rounds s : is_ready _ s = false -> ttl _ s = None ->
    (forall exc o, value rounds s = outcome_of exc o <->
      exists r1 n t r2, rounds = r1 ++ (n, Some (t, exc, o)) :: r2 /\ forall r, In r r1 -> snd r = None) /\
    (value rounds s <> Timed_out _) /\ (value rounds s = Waiting _ <-> forall r, In r rounds -> snd r = None).
  Proof.
    intros R D. induction rounds as [|[n reply] rounds IH]; cbn [PendingModel.value]; rewrite R.
    - split; [intros exc o; split; [unfold outcome_of; destruct exc; discriminate|]; intros (r1 & ? & ? & ? & E & _); now destruct r1|]. split; [discriminate|]. split; [intros _ r []|reflexivity].
    - rewrite D. destruct reply as [[[t exc] o]|].
      + assert (P : value rounds (poll object raises (Some (t, exc, o)) s) = outcome_of exc o).
        { cbn [poll]. unfold arrives, expired. rewrite R, D. destruct (call_all raises (callbacks _ s)) as [c b]. unfold outcome_of. destruct rounds as [|[] ]; cbn; now destruct exc. }
        rewrite P. split; [|split].
        * intros exc' o'. split.
          -- intros E. assert (exc' = exc /\ o' = o) as [-> ->] by (unfold outcome_of in E; destruct exc, exc'; try discriminate; now injection E as <-). exists [], n, t, rounds. split; [reflexivity|intros r []].
          -- intros (r1 & n' & t' & r2 & E & F). destruct r1 as [|q r1]; [injection E as <- <- <- <- <-; reflexivity|]. injection E as <- E. specialize (F _ (or_introl eq_refl)). discriminate.
        * unfold outcome_of. destruct exc; discriminate.
        * split; [unfold outcome_of; destruct exc; discriminate|]. intros F. specialize (F _ (or_introl eq_refl)). discriminate.
      + cbn [poll]. destruct IH as (I1 & I2 & I3). split; [|split; [exact I2|]].
        * intros exc o. rewrite I1. split.
          -- intros (r1 & n' & t' & r2 & -> & F). exists ((n, None) :: r1), n', t', r2. split; [reflexivity|]. intros r [<-|I]; [reflexivity|now apply F].
          -- intros (r1 & n' & t' & r2 & E & F). destruct r1 as [|q r1]; [discriminate|]. injection E as <- ->. exists r1, n', t', r2. split; [reflexivity|]. intros r I. apply F. now right.
        * rewrite I3. split; [intros F r [<-|I]; [reflexivity|now apply F]|]. intros F r I. apply F. now right.
  Qed.
  (** Asking whether it is there: it is if it was, or if it comes in time while asking, which is not
      done after the deadline; an error is told only of what is there *)
  Theorem C92_ready now replies s : is_ready _ s = false ->
    (fst (ready object raises now replies s) = true <->
      in_time now (ttl _ s) /\ exists t exc o, In (t, exc, o) replies /\ in_time t (ttl _ s)) /\
    (error object raises now replies s = true -> fst (ready object raises now replies s) = true).
  Proof.
    intros R. split.
    - unfold ready. destruct (expired _ now s) eqn:E.
      + cbn. split; [discriminate|]. intros [D _]. apply in_time_expired in D; [congruence|exact R].
      + rewrite R. cbn [fst]. apply in_time_expired in E; [|exact R].
        assert (K : forall replies s, is_ready _ s = true -> is_ready _ (fold_left (fun s r => poll object raises (Some r) s) replies s) = true).
        { induction replies0 as [|[[t exc] o] l IH]; intros s0 R0; [exact R0|]. cbn [fold_left]. apply IH. cbn [poll]. unfold arrives. destruct (expired _ t s0); [exact R0|]. now destruct (call_all raises (callbacks _ s0)). }
        assert (X : is_ready _ (fold_left (fun s r => poll object raises (Some r) s) replies s) = true <-> exists t exc o, In (t, exc, o) replies /\ in_time t (ttl _ s)).
        { clear E. induction replies as [|[[t exc] o] l IH]; cbn [fold_left]; [split; [congruence|intros (? & ? & ? & [] & _)]|].
          destruct (expired _ t s) eqn:X.
          - assert (P : poll object raises (Some (t, exc, o)) s = s) by (cbn [poll]; unfold arrives; now rewrite X). rewrite P, IH. split; [intros (t' & e' & o' & I & D); exists t', e', o'; split; [now right|exact D]|].
            intros (t' & e' & o' & [[= -> -> ->]|I] & D); [apply in_time_expired in D; [congruence|exact R]|eauto 6].
          - split; [|intros _; apply K; cbn [poll]; unfold arrives; rewrite X; now destruct (call_all raises (callbacks _ s))]. intros _. exists t, exc, o. split; [now left|now apply in_time_expired]. }
        rewrite X. tauto.
    - unfold error. destruct (ready object raises now replies s) as [b s1]. destruct b; [reflexivity|discriminate].
  Qed.
  (** And what is told is whether it is an exception *)
  Theorem C92_error now replies s : 
    (is_ready _ s = true -> ready object raises now replies s = (true, s) /\ error object raises now replies s = is_exc _ s) /\
    (forall t exc o, is_ready _ s = false -> in_time now (ttl _ s) -> in_time t (ttl _ s) -> replies = [(t, exc, o)] -> error object raises now replies s = exc).
  Proof.
    split.
    - intros R. unfold error, ready. assert (E : expired _ now s = false) by (unfold expired; now rewrite R). rewrite E. rewrite R. cbn iota beta. rewrite R. now split.
    - intros t exc o R D T ->. unfold error, ready. rewrite (proj2 (in_time_expired s now R) D), R. cbn [fold_left poll]. unfold arrives.
      rewrite (proj2 (in_time_expired s t R) T). now destruct (call_all raises (callbacks _ s)).
  Qed.
End Result.
Print Assumptions C92_error.
Print Assumptions C92_told.
Print Assumptions C92_kept.
Print Assumptions C92_late.
Print Assumptions C92_told_refuted.
Print Assumptions C92_wait.
Print Assumptions C92_wait_for_ever.
Print Assumptions C92_ready.

(** ** Cases *)

Example C92_case_told : run nat (fun _ => false) (new nat) [Add nat 1; Expiry nat 10 (Some 5%Z); Add nat 2; Arrives nat 15 false 99; Expiry nat 16 (Some 0%Z); Add nat 3] =
  (Result nat true false (Some 99) [] (Some 16%Z), [1; 2; 3]).
Proof. reflexivity. Qed.
Example C92_case_late : run nat (fun _ => false) (new nat) [Add nat 1; Expiry nat 10 (Some 5%Z); Arrives nat 16 false 99; Add nat 3] =
  (Result nat false false None [1; 3] (Some 15%Z), []).
Proof. reflexivity. Qed.
Example C92_case_wait : value nat (fun _ => false) [(10%Z, None); (14%Z, Some (15%Z, true, 7))] (set_expiry nat 5 (Some 10%Z) (new nat)) = Error nat 7 /\
  value nat (fun _ => false) [(10%Z, None); (14%Z, Some (16%Z, true, 7)); (16%Z, None)] (set_expiry nat 5 (Some 10%Z) (new nat)) = Timed_out nat.
Proof. split; reflexivity. Qed.
