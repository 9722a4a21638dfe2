(** * C79: messages of many threads are sent one at a time, in order, and none is forgotten *)
From Coq Require Import List Bool Arith Lia Permutation.
From Verif Require Import SendqModel SendqSpec.
Import ListNotations.
Local Open Scope nat_scope.
Local Open Scope list_scope.

Section P.
  Variable M : Type.
  Implicit Types (s : state M) (t : list (label M)).

  (** ** Invariants *)
  Definition holds (p : pc M) : bool := match p with Recheck | Pop | Sending _ | Release | Release_raising => true | _ => false end.
  Definition in_hand (p : pc M) : list M := match p with Sending d => [d] | _ => [] end.
  Definition holders s : nat := length (filter (fun c => holds (snd c)) (calls s)).
  Definition hands (c : list (M * pc M)) : list M := flat_map (fun c => in_hand (snd c)) c.
  Definition not_started (c : list (M * pc M)) : list M := flat_map (fun c => match snd c with Start => [fst c] | _ => [] end) c.
  Definition will_check (p : pc M) : Prop := p = Check \/ p = Acquire.
  Definition popping (s : state M) : Prop := forall m, In (m, Pop) (calls s) -> queue s <> [].

  Lemma holders_at q l a m p b : holders {| queue := q; locked := l; calls := a ++ (m, p) :: b |} =
    length (filter (fun c => holds (snd c)) a) + (if holds p then 1 else 0) + length (filter (fun c => holds (snd c)) b).
  Proof. unfold holders. cbn. rewrite filter_app, app_length. cbn. destruct (holds p); cbn; lia. Qed.
  Lemma inv_lock s0 t s : (forall m p, In (m, p) (calls s0) -> p = Start) -> locked s0 = false -> steps s0 t s -> holders s = if locked s then 1 else 0.
  Proof.
    intros S0 L0 H. induction H as [s|s x s' t s'' H IH ST].
    - unfold holders. rewrite L0. assert (E : filter (fun c => holds (snd c)) (calls s) = []).
      { induction (calls s) as [|[m p] c IHc]; [reflexivity|]. cbn. rewrite (S0 m p) by (now left). cbn. apply IHc. intros m' p' I. apply (S0 m'). now right. }
      now rewrite E.
    - specialize (IH S0 L0). inversion ST as [a b m p y p' q l q' l' A]; subst. rewrite holders_at in *. cbn [locked] in *.
      inversion A; subst; cbn [holds] in *; try lia; destruct l; try discriminate; lia.
  Qed.

  Section Run.
    Variable ms : list M.
    Notation s0 := (initial ms).
    Lemma start_only m p : In (m, p) (calls s0) -> p = Start.
    Proof. cbn. intros H. apply in_map_iff in H as (x & E & _). congruence. Qed.
    Lemma lock_ok t s : steps s0 t s -> holders s = if locked s then 1 else 0.
    Proof. intros H. apply (inv_lock s0 t s start_only eq_refl H). Qed.
    Lemma only_holder t q l a m p b : steps s0 t {| queue := q; locked := l; calls := a ++ (m, p) :: b |} -> holds p = true ->
      l = true /\ forall c, In c (a ++ b) -> holds (snd c) = false.
    Proof.
      intros H Hp. apply lock_ok in H. rewrite holders_at, Hp in H. cbn [locked] in H. destruct l; [|lia]. split; [reflexivity|].
      intros c I. destruct (holds (snd c)) eqn:E; [|reflexivity]. exfalso.
      apply in_app_iff in I. destruct I as [I|I].
      - assert (J : In c (filter (fun c => holds (snd c)) a)) by (apply filter_In; now split).
        destruct (filter _ a); [destruct J|cbn in H; lia].
      - assert (J : In c (filter (fun c => holds (snd c)) b)) by (apply filter_In; now split).
        destruct (filter _ b); [destruct J|cbn in H; lia].
    Qed.
    (** ** One at a time
        While a call is inside channel.send no other is. *)
    Theorem C79_one_at_a_time t s a m p b : steps s0 t s -> calls s = a ++ (m, p) :: b -> sending p ->
      forall m' p', In (m', p') (a ++ b) -> ~ sending p'.
    Proof.
      intros H E (d & ->) m' p' I (d' & ->). destruct s as [q l c]. cbn in E. subst c.
      destruct (only_holder _ _ _ _ _ _ _ H eq_refl) as [_ O]. specialize (O _ I). discriminate.
    Qed.

    Lemma no_hands c : (forall x, In x c -> holds (snd x) = false) -> hands c = [].
    Proof.
      induction c as [|[m p] c IH]; intros H; [reflexivity|]. unfold hands. cbn. fold (hands c). rewrite IH by (intros x I; apply H; now right).
      specialize (H (m, p) (or_introl eq_refl)). cbn in H. destruct p; cbn; try reflexivity; discriminate.
    Qed.
    Lemma hands_at a m p b : hands (a ++ (m, p) :: b) = hands a ++ in_hand p ++ hands b.
    Proof. unfold hands. rewrite flat_map_app. reflexivity. Qed.
    Lemma handed_snoc t (x : label M) : handed_in (t ++ [x]) = handed_in t ++ match x with Queued m => [m] | _ => [] end.
    Proof. unfold handed_in. rewrite flat_map_app. cbn. now rewrite app_nil_r. Qed.
    Lemma tried_snoc t (x : label M) : SendqSpec.tried (t ++ [x]) = SendqSpec.tried t ++ match x with Wrote m | Lost m => [m] | _ => [] end.
    Proof. unfold SendqSpec.tried. rewrite flat_map_app. cbn. now rewrite app_nil_r. Qed.
    Lemma inv_pop t s : steps s0 t s -> popping s.
    Proof.
      intros H. remember s0 as s1. induction H as [s|s x s' t s'' H IH ST]; [subst; intros m I; apply start_only in I; discriminate|].
      specialize (IH Heqs1). subst s. inversion ST as [a b m p y p' q l q' l' A]; subst. unfold popping in *. cbn in *. intros m' I.
      assert (Old : In (m', Pop) (a ++ b) -> q <> []).
      { intros J. apply (IH m'). apply in_app_iff in J. apply in_app_iff. destruct J; [now left|right; now right]. }
      assert (Or : In (m', Pop) (a ++ b) \/ Pop = p').
      { apply in_app_iff in I. destruct I as [I|[I|I]]; [left; apply in_app_iff; now left|right; congruence|left; apply in_app_iff; now right]. }
      inversion A; subst; try (destruct Or as [J|J]; [now apply Old|discriminate]).
      - destruct Or as [J|J]; [|discriminate]. intros E. apply app_eq_nil in E as [_ E]. discriminate.
      - assumption.
      - exfalso. destruct Or as [J|J]; [|discriminate].
        destruct (only_holder _ _ _ _ _ _ _ H eq_refl) as [_ O]. specialize (O _ J). discriminate.
    Qed.
    Lemma inv_order t s : steps s0 t s -> handed_in t = SendqSpec.tried t ++ hands (calls s) ++ queue s.
    Proof.
      intros H. remember s0 as s1. induction H as [s|s x s' t s'' H IH ST].
      - subst. cbn. rewrite app_nil_r. symmetry. apply no_hands. intros [m p] I. apply start_only in I. now subst.
      - specialize (IH Heqs1). subst s. inversion ST as [a b m p y p' q l q' l' A]; subst.
        pose proof (inv_pop _ _ H) as PO. rewrite handed_snoc, tried_snoc. cbn [calls queue] in *. rewrite hands_at in *.
        assert (O : holds p = true -> hands a = [] /\ hands b = []).
        { intros Hp. destruct (only_holder _ _ _ _ _ _ _ H Hp) as [_ O].
          split; apply no_hands; intros c I; apply O, in_app_iff; auto. }
        inversion A; subst; cbn [in_hand holds] in *;
          try (destruct (O eq_refl) as [Ea Eb]; rewrite Ea, Eb in IH |- *);
          rewrite IH; rewrite <- ?app_assoc; cbn [app]; rewrite ?app_nil_r; reflexivity.
    Qed.
    (** ** In order
        Messages are given to the channel in the order in which they were handed in, each
        of them once. *)
    Theorem C79_in_order t s : steps s0 t s -> starts_with (handed_in t) (SendqSpec.tried t).
    Proof. intros H. apply inv_order in H. rewrite H. eexists. reflexivity. Qed.
    Lemma tried_wire t : no_failure t -> SendqSpec.tried t = on_the_wire t.
    Proof.
      unfold no_failure. intros H. induction t as [|x t IH]; [reflexivity|]. unfold SendqSpec.tried, on_the_wire in *. cbn.
      destruct x; cbn; rewrite IH; try reflexivity; try (intros k I; apply (H k); now right). exfalso. apply (H m). now left.
    Qed.

    Lemma inv_started t s : steps s0 t s -> Permutation ms (handed_in t ++ not_started (calls s)).
    Proof.
      intros H. remember s0 as s1. induction H as [s|s x s' t s'' H IH ST].
      - subst. cbn. unfold not_started. induction ms as [|m l IHl]; [constructor|]. cbn. now constructor.
      - specialize (IH Heqs1). subst s. inversion ST as [a b m p y p' q l q' l' A]; subst. rewrite handed_snoc. cbn [calls] in *.
        unfold not_started in *. rewrite flat_map_app in *. cbn [flat_map snd fst] in *.
        inversion A; subst; cbn [app] in *; rewrite ?app_nil_r; try exact IH.
        rewrite IH. rewrite <- !app_assoc. apply Permutation_app_head. cbn. symmetry. apply Permutation_middle.
    Qed.
    (** a lock that is held or a call that will look at the queue *)
    Lemma inv_watched t s : steps s0 t s -> no_failure t -> queue s <> [] ->
      locked s = true \/ exists m p, In (m, p) (calls s) /\ will_check p.
    Proof.
      intros H. remember s0 as s1. induction H as [s|s x s' t s'' H IH ST]; intros NF Q.
      - subst. now destruct Q.
      - specialize (IH Heqs1). subst s.
        assert (NF' : no_failure t) by (intros m I; apply (NF m), in_app_iff; now left). specialize (IH NF').
        pose proof (inv_pop _ _ H) as PO.
        inversion ST as [a b m p y p' q l q' l' A]; subst. cbn [queue locked calls] in *.
        assert (New : will_check p' -> exists m0 p0, In (m0, p0) (a ++ (m, p') :: b) /\ will_check p0).
        { intros W. exists m, p'. split; [apply in_or_app; right; now left|exact W]. }
        assert (Keep : ~ will_check p -> (exists m0 p0, In (m0, p0) (a ++ (m, p) :: b) /\ will_check p0) -> exists m0 p0, In (m0, p0) (a ++ (m, p') :: b) /\ will_check p0).
        { intros N (m0 & p0 & I & W). exists m0, p0. split; [|exact W]. apply in_app_iff in I. apply in_app_iff.
          destruct I as [I|[I|I]]; [now left| |right; now right]. injection I as <- <-. now destruct N. }
        inversion A; subst.
        + right. apply New. now left.
        + now destruct Q.
        + right. apply New. now right.
        + now left.
        + now left.
        + now destruct Q.
        + left. destruct (only_holder _ _ _ _ _ _ _ H eq_refl) as [? _]. assumption.
        + left. destruct (only_holder _ _ _ _ _ _ _ H eq_refl) as [? _]. assumption.
        + exfalso. apply (PO m); [apply in_or_app; right; now left|reflexivity].
        + left. destruct (only_holder _ _ _ _ _ _ _ H eq_refl) as [? _]. assumption.
        + exfalso. apply (NF d), in_app_iff. right. now left.
        + right. apply New. now left.
        + exfalso. assert (R : forall t s, steps s0 t s -> no_failure t -> forall m, ~ In (m, Release_raising) (calls s)).
          { clear. intros t s H. remember s0 as s1. induction H as [s|s x s' t s'' H IH ST]; intros NF m I.
            - subst. apply start_only in I. discriminate.
            - specialize (IH Heqs1). subst s. assert (NF' : no_failure t) by (intros k J; apply (NF k), in_app_iff; now left).
              specialize (IH NF'). pose proof (inv_pop _ _ H) as PO. inversion ST as [a b k p y p' q l q' l' A]; subst. cbn in *.
              apply in_app_iff in I. destruct I as [I|[I|I]].
              + apply (IH m), in_app_iff. now left.
              + injection I as <- ->. inversion A; subst.
                * apply (PO k); [apply in_or_app; right; now left|reflexivity].
                * apply (NF d), in_app_iff. right. now left.
              + apply (IH m), in_app_iff. right. now right. }
          apply (R _ _ H NF' m). cbn. apply in_or_app. right. now left.
    Qed.
    (** ** Nothing is forgotten
        When all calls are over and the channel did not fail, every message went over the
        wire, once, in the order in which they were handed in. *)
    Theorem C79_nothing_forgotten t s : steps s0 t s -> no_failure t -> all_ended s ->
      on_the_wire t = handed_in t /\ Permutation ms (on_the_wire t) /\ queue s = [] /\ locked s = false.
    Proof.
      intros H NF E.
      assert (HL : locked s = false).
      { pose proof (lock_ok _ _ H) as L. destruct (locked s); [|reflexivity]. exfalso. unfold holders in L.
        destruct (filter (fun c => holds (snd c)) (calls s)) as [|[m p] r] eqn:F; [discriminate|].
        assert (I : In (m, p) (filter (fun c => holds (snd c)) (calls s))) by (rewrite F; now left).
        apply filter_In in I as [I J]. destruct (E m p I) as [-> | ->]; discriminate. }
      assert (Q : queue s = []).
      { destruct (queue s) as [|m r] eqn:Qs; [reflexivity|]. exfalso.
        destruct (inv_watched _ _ H NF) as [W|(k & p & I & W)]; [congruence|congruence|].
        destruct (E k p I) as [-> | ->]; destruct W; discriminate. }
      assert (Hh : hands (calls s) = []) by (apply no_hands; intros [m p] I; destruct (E m p I) as [-> | ->]; reflexivity).
      assert (Hn : not_started (calls s) = []).
      { clear - E. unfold all_ended in E. induction (calls s) as [|[m p] c IH]; [reflexivity|]. unfold not_started. cbn.
        fold (not_started c). rewrite IH by (intros m' p' I; apply (E m'); now right). destruct (E m p (or_introl eq_refl)) as [-> | ->]; reflexivity. }
      pose proof (inv_order _ _ H) as O. rewrite Q, Hh, !app_nil_r in O. rewrite (tried_wire t NF) in O.
      pose proof (inv_started _ _ H) as P. rewrite Hn, app_nil_r in P. rewrite O in P. auto.
    Qed.
    (** No call raises then. *)
    Theorem C79_nobody_raises t s m : steps s0 t s -> no_failure t -> ~ In (m, Raised) (calls s).
    Proof.
      intros H NF. assert (G : ~ In (m, Release_raising) (calls s) /\ ~ In (m, Raised) (calls s)); [|tauto]. revert m.
      remember s0 as s1. induction H as [s|s x s' t s'' H IH ST]; intros m.
      - subst. split; intros I; apply start_only in I; discriminate.
      - subst s. assert (NF' : no_failure t) by (intros k J; apply (NF k), in_app_iff; now left).
        specialize (IH eq_refl NF'). pose proof (inv_pop _ _ H) as PO. inversion ST as [a b k p y p' q l q' l' A]; subst. cbn [calls] in *.
        assert (Old : forall r, In (m, r) (a ++ (k, p') :: b) -> In (m, r) (a ++ (k, p) :: b) \/ (m = k /\ r = p')).
        { intros r I. apply in_app_iff in I. destruct I as [I|[I|I]]; [left; apply in_or_app; now left|right; injection I as <- <-; auto|left; apply in_or_app; right; now right]. }
        split; intros I; apply Old in I; destruct I as [I|[E I]]; try (now apply IH in I); subst; inversion A; subst.
        + apply (PO k); [apply in_or_app; right; now left|reflexivity].
        + apply (NF d), in_app_iff. right. now left.
        + apply (proj1 (IH k)), in_or_app. right. now left.
    Qed.
    (** ** Nobody waits
        Every call that is not over can do its next step. *)
    Theorem C79_never_waits t s a m p b : steps s0 t s -> calls s = a ++ (m, p) :: b -> ~ ended p ->
      exists x p' q l, step s x {| queue := q; locked := l; calls := a ++ (m, p') :: b |}.
    Proof.
      intros H E N. destruct s as [q l c]. cbn in E. subst c.
      assert (X : exists x p' q' l', act q l m p x p' q' l'); [|destruct X as (x & p' & q' & l' & X); exists x, p', q', l'; now constructor].
      destruct p; try (exfalso; apply N; unfold ended; tauto); try (do 4 eexists; constructor; fail).
      - destruct q; do 4 eexists; [apply a_check_empty; reflexivity|apply a_check; discriminate].
      - destruct l; do 4 eexists; [now apply a_busy|now apply a_acquire].
      - destruct q; do 4 eexists; [apply a_recheck_empty; reflexivity|apply a_recheck; discriminate].
      - destruct q as [|d r]; do 4 eexists; [now apply a_pop_empty|eapply a_pop; reflexivity].
    Qed.

    (** ** It comes to an end *)
    Definition rank (empty : bool) (p : pc M) : nat :=
      if empty then match p with Returned | Raised => 0 | Check => 1 | Release => 2 | Recheck => 3 | Acquire => 4 | Sending _ => 3 | Release_raising => 1 | Pop => 2 | Start => 0 end
      else match p with Returned | Raised => 0 | Pop => 1 | Recheck => 2 | Acquire => 3 | Check => 4 | Release => 5 | Sending _ => 6 | Release_raising => 1 | Start => 0 end.
    Definition is_empty (q : list M) : bool := match q with [] => true | _ => false end.
    Definition ranks (e : bool) (c : list (M * pc M)) : nat := fold_right (fun x n => rank e (snd x) + n) 0 c.
    Definition todo (c : list (M * pc M)) : nat := length (not_started c).
    Definition weight s : nat := 7 * length (calls s) * (2 * todo (calls s) + length (queue s)) + ranks (is_empty (queue s)) (calls s).
    Lemma ranks_at e a m p b : ranks e (a ++ (m, p) :: b) = ranks e a + rank e p + ranks e b.
    Proof. unfold ranks. induction a as [|x a IH]; cbn in *; [lia|]. rewrite IH. lia. Qed.
    Lemma ranks_bound e c : ranks e c <= 6 * length c.
    Proof.
      induction c as [|[m p] c IH]; cbn; [lia|]. fold (ranks e c). assert (rank e p <= 6) by (destruct e, p; cbn; lia). lia.
    Qed.
    Lemma todo_at a m p b : todo (a ++ (m, p) :: b) = todo a + (match p with Start => 1 | _ => 0 end) + todo b.
    Proof. unfold todo, not_started. rewrite flat_map_app, app_length. cbn [flat_map]. rewrite app_length. destruct p; cbn; lia. Qed.
    Lemma weight_falls s x s' : step s x s' -> weight s' < weight s.
    Proof.
      intros ST. inversion ST as [a b m p y p' q l q' l' A]; subst. unfold weight. cbn [calls queue].
      rewrite !ranks_at, !todo_at, !app_length. cbn [length].
      set (n := length a + S (length b)). assert (n = length a + S (length b)) by reflexivity. clearbody n.
      pose proof (ranks_bound (is_empty q') a). pose proof (ranks_bound (is_empty q') b).
      inversion A; subst; cbn [is_empty rank] in *.
      - rewrite app_length. cbn [length]. set (k := todo a) in *. set (k' := todo b) in *. clearbody k k'.
        assert (rank (is_empty (q ++ [m])) Check <= 4) by (destruct (is_empty (q ++ [m])); cbn; lia). nia.
      - lia.
      - destruct q' as [|d q'']; [congruence|]. cbn. lia.
      - destruct (is_empty q'); cbn [rank]; lia.
      - destruct (is_empty q'); cbn [rank]; lia.
      - cbn. lia.
      - destruct q' as [|d q]; [congruence|]. cbn. lia.
      - cbn [length]. assert (rank (is_empty q') (Sending d) <= 6) by (destruct (is_empty q'); cbn; lia). nia.
      - cbn. lia.
      - destruct (is_empty q'); cbn [rank]; lia.
      - destruct (is_empty q'); cbn [rank]; lia.
      - destruct (is_empty q'); cbn [rank]; lia.
      - destruct (is_empty q'); cbn [rank]; lia.
    Qed.
    (** However the steps of the calls interleave, there are only so many of them: with
        the theorem before, all calls end, whatever the others do. *)
    Theorem C79_ends t s : steps s0 t s -> length t <= 14 * length ms * length ms.
    Proof.
      intros H. assert (G : length t + weight s <= weight s0).
      { induction H as [s|s x s' t s'' H IH ST]; [cbn; lia|]. apply weight_falls in ST. rewrite app_length. cbn [length]. lia. }
      assert (W : weight s0 = 14 * length ms * length ms).
      { unfold weight. cbn [calls queue initial length is_empty]. rewrite map_length.
        assert (T : todo (map (fun m => (m, @Start M)) ms) = length ms) by (unfold todo, not_started; clear; induction ms; cbn; [reflexivity|now rewrite IHl]).
        assert (R : ranks true (map (fun m => (m, @Start M)) ms) = 0) by (clear; induction ms; cbn; [reflexivity|exact IHl]).
        rewrite T, R. lia. }
      lia.
    Qed.
  End Run.
End P.

Lemma steps_front {M} (s : state M) x s' t s'' : step s x s' -> steps s' t s'' -> steps s (x :: t) s''.
Proof.
  intros A B. revert A. induction B as [s'|s' y u t v B IH C]; intros A.
  - apply (ss_step _ s x s [] s'); [constructor|exact A].
  - change (x :: t ++ [y]) with ((x :: t) ++ [y]). eapply ss_step; [apply IH, A|exact C].
Qed.
Ltac go a b := eapply steps_front; [refine (st _ a b _ _ _ _ _ _ _ _ _); (constructor; first [reflexivity|discriminate]) || constructor|cbn [app]].
Ltac go_fail a b := eapply steps_front; [refine (st _ a b _ _ _ _ _ _ _ _ _); apply a_send_fails|cbn [app]].

(** ** When the channel fails
    A message whose call returned is then left in the queue after all calls are over. *)
Theorem C79_failure_strands_refuted :
  ~ (forall (ms : list nat) t s m, steps (initial ms) t s -> all_ended s -> In (m, Returned) (calls s) -> In m (SendqSpec.tried t)).
Proof.
  intros H.
  assert (X : exists t, steps (initial [1; 2]) t {| queue := [2]; locked := false; calls := [(1, Raised); (2, Returned)] |} /\ SendqSpec.tried t = [1]).
  { eexists. split.
    - unfold initial. cbn [map].
      do 5 go (@nil (nat * pc nat)) [(2, @Start nat)].
      do 3 go [(1, Sending 1)] (@nil (nat * pc nat)).
      go_fail (@nil (nat * pc nat)) [(2, @Returned nat)].
      go (@nil (nat * pc nat)) [(2, @Returned nat)].
      constructor.
    - reflexivity. }
  destruct X as (t & St & E). specialize (H _ _ _ 2 St).
  rewrite E in H. cbn in H. destruct H as [H|[]]; [|auto|discriminate].
  intros m p [I|[I|[]]]; injection I as <- <-; [now right|now left].
Qed.
(** The exception need not reach the call whose message was lost. *)
Theorem C79_failure_reaches_its_call_refuted :
  ~ (forall (ms : list nat) t s m, steps (initial ms) t s -> In (m, Returned) (calls s) -> ~ In (Lost m) t).
Proof.
  intros H.
  assert (X : exists t, steps (initial [1; 2]) t {| queue := [2]; locked := false; calls := [(1, Returned); (2, Raised)] |} /\ In (Lost 1) t).
  { eexists. split.
    - unfold initial. cbn [map].
      go (@nil (nat * pc nat)) [(2, @Start nat)].
      do 5 go [(1, @Check nat)] (@nil (nat * pc nat)).
      do 2 go (@nil (nat * pc nat)) [(2, Sending 1)].
      go_fail [(1, @Returned nat)] (@nil (nat * pc nat)).
      go [(1, @Returned nat)] (@nil (nat * pc nat)).
      constructor.
    - cbn. tauto. }
  destruct X as (t & St & E). apply (H _ _ _ 1 St); [now left|exact E].
Qed.

(** ** A case: the second call finds the lock held and returns, the first sends both *)
Example C79_case : exists t, steps (initial [1; 2]) t {| queue := []; locked := false; calls := [(1, Returned); (2, Returned)] |}
  /\ on_the_wire t = [1; 2] /\ no_failure t.
Proof.
  eexists. split; [|split].
  - unfold initial. cbn [map].
    do 5 go (@nil (nat * pc nat)) [(2, @Start nat)].
    do 3 go [(1, Sending 1)] (@nil (nat * pc nat)).
    do 9 go (@nil (nat * pc nat)) [(2, @Returned nat)].
    constructor.
  - reflexivity.
  - intros m. cbn. intuition discriminate.
Qed.
Print Assumptions C79_one_at_a_time.
Print Assumptions C79_in_order.
Print Assumptions C79_nothing_forgotten.
Print Assumptions C79_never_waits.
Print Assumptions C79_ends.
Print Assumptions C79_nobody_raises.
Print Assumptions C79_failure_strands_refuted.
Print Assumptions C79_failure_reaches_its_call_refuted.
