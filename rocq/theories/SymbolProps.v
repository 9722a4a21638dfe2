(** * C84: there is one symbol of a name *)
From Coq Require Import String Ascii List Bool Arith Lia.
From Verif Require Import ScanModel Rfc822Model Rfc822Proofs IniProofs OriginModel OriginSpec OriginProps SymbolModel SymbolSpec.
Import ListNotations.
Local Open Scope nat_scope.
Local Open Scope list_scope.

(** ** Making symbols *)

Lemma nth_set {A} (l : list A) : forall i j x, nth_error (set_nth i x l) j =
  if Nat.eqb i j then match nth_error l i with Some _ => Some x | None => None end else nth_error l j.
Proof.
  induction l as [|y l IH]; intros i j x.
  - destruct i, j; cbn; try reflexivity. now destruct (Nat.eqb i j).
  - destruct i, j; cbn; auto.
Qed.
Lemma in_set {A} (l : list A) i x y : In y (set_nth i x l) -> y = x \/ In y l.
Proof.
  revert i. induction l as [|z l IH]; intros [|i]; cbn; auto; intros [H|H]; auto. destruct (IH i H); auto.
Qed.

Record sound (s : state) : Prop := {
  s_fresh : forall o n, In (o, n) (st_names s) -> o < st_next s;
  s_table : forall n o, tget n (st_table s) = Some o -> name_of o (st_names s) = Some n;
  s_given : forall n o, was_given s n o -> name_of o (st_names s) = Some n
}.
Lemma name_of_in o l n : name_of o l = Some n -> In (o, n) l.
Proof. induction l as [|[p m] l IH]; [discriminate|]. cbn. destruct (Nat.eqb_spec o p) as [->|]; [intros [= ->]; now left|right; auto]. Qed.
Lemma sound_step s s' : sound s -> step s s' -> sound s'.
Proof.
  intros SO ST. destruct ST as [s0 i t tb nm nx t' N E]. destruct SO as [F T G]. assert (IN : In t (st_threads s0)) by (eapply nth_error_In; eauto).
  unfold thread_step in E. destruct (t_todo t) as [|n r]; [discriminate|]. destruct (t_creating t).
  - injection E as <- <- <- <-. constructor; cbn [st_names st_next st_table st_threads].
    + intros o m [[= <- <-]|I]; [lia|]. apply F in I. lia.
    + intros m o. rewrite tget_tset. cbn [name_of]. destruct (text_eqb m n) eqn:Q.
      * apply text_eqb_eq in Q as ->. intros [= <-]. now rewrite Nat.eqb_refl.
      * intros H. apply T in H. destruct (Nat.eqb_spec o (st_next s0)) as [->|]; [|exact H]. apply name_of_in, F in H. lia.
    + intros m o (u & U & D). cbn [st_threads] in U. cbn [name_of]. apply in_set in U as [->|U].
      * cbn [given t_done] in D. apply in_app_iff in D as [D|[[= <- <-]|[]]]; [|now rewrite Nat.eqb_refl].
        assert (H : name_of o (st_names s0) = Some m) by (apply G; exists t; auto).
        destruct (Nat.eqb_spec o (st_next s0)) as [->|]; [|exact H]. apply name_of_in, F in H. lia.
      * assert (H : name_of o (st_names s0) = Some m) by (apply G; exists u; auto).
        destruct (Nat.eqb_spec o (st_next s0)) as [->|]; [|exact H]. apply name_of_in, F in H. lia.
  - destruct (tget n (st_table s0)) as [o|] eqn:L; injection E as <- <- <- <-; constructor; cbn [st_names st_next st_table st_threads]; auto.
    + intros m p (u & U & D). cbn [st_threads] in U. apply in_set in U as [->|U]; [|apply G; exists u; auto].
      cbn [given t_done] in D. apply in_app_iff in D as [D|[[= <- <-]|[]]]; [apply G; exists t; auto|auto].
    + intros m p (u & U & D). cbn [st_threads] in U. apply in_set in U as [->|U]; [|apply G; exists u; auto].
      apply G. exists t. auto.
Qed.
Lemma sound_start reqs : sound (start reqs).
Proof.
  constructor; cbn; [intros o n []|discriminate|]. intros n o (t & I & D). cbn in I. apply in_map_iff in I as (r & <- & _). destruct D.
Qed.
Lemma sound_steps reqs s : steps (start reqs) s -> sound s.
Proof.
  remember (start reqs) as s0 eqn:E. induction 1; subst; [apply sound_start|]. eapply sound_step; eauto.
Qed.

(** Whatever the schedule, a thread is given a symbol of the name it asked for; so symbols of
    different names are different. *)
Theorem C84_named reqs s n o : steps (start reqs) s -> was_given s n o ->
  name_of o (st_names s) = Some n /\ forall m, was_given s m o -> m = n.
Proof.
  intros S G. pose proof (sound_steps reqs s S) as [_ _ X]. split; [auto|]. intros m M. apply X in G, M. congruence.
Qed.
Print Assumptions C84_named.

(** When no two threads make a symbol of one name at a time, in particular in one thread, there
    is one symbol of each name. *)
Record single (s : state) : Prop := {
  g_table : forall n o, was_given s n o -> tget n (st_table s) = Some o;
  g_making : forall i n, making s i n -> tget n (st_table s) = None
}.
Lemma single_step s s' : single s -> turns s -> step s s' -> single s'.
Proof.
  intros SO TU ST. destruct ST as [s0 i t tb nm nx t' N E]. destruct SO as [G M]. assert (IN : In t (st_threads s0)) by (eapply nth_error_In; eauto).
  unfold thread_step in E. destruct (t_todo t) as [|n r] eqn:TD; [discriminate|]. destruct (t_creating t) eqn:CR.
  - injection E as <- <- <- <-. assert (MK : making s0 i n) by (exists t, r; auto). pose proof (M _ _ MK) as NONE.
    constructor; cbn [st_table].
    + intros m o (u & U & D). cbn [st_threads] in U. rewrite tget_tset.
      assert (OLD : was_given s0 m o -> (if text_eqb m n then Some (st_next s0) else tget m (st_table s0)) = Some o).
      { intros W. pose proof (G _ _ W) as H. destruct (text_eqb m n) eqn:Q; [|exact H]. apply text_eqb_eq in Q as ->. congruence. }
      apply in_set in U as [->|U]; [|apply OLD; exists u; auto].
      cbn [given t_done] in D. apply in_app_iff in D as [D|[[= <- <-]|[]]]; [apply OLD; exists t; auto|]. now rewrite text_eqb_refl.
    + intros j m (u & q & U & C & TQ). cbn [st_threads] in U. rewrite nth_set in U. rewrite tget_tset. destruct (Nat.eqb_spec i j) as [->|D].
      * rewrite N in U. injection U as <-. discriminate.
      * assert (MJ : making s0 j m) by (exists u, q; auto). destruct (text_eqb m n) eqn:Q; [|eapply M; eauto].
        apply text_eqb_eq in Q as ->. exfalso. apply D. eapply TU; eauto.
  - destruct (tget n (st_table s0)) as [o|] eqn:L; injection E as <- <- <- <-; constructor; cbn [st_table].
    + intros m p (u & U & D). cbn [st_threads] in U. apply in_set in U as [->|U]; [|apply G; exists u; auto].
      cbn [given t_done] in D. apply in_app_iff in D as [D|[[= <- <-]|[]]]; [apply G; exists t; auto|auto].
    + intros j m (u & q & U & C & TQ). cbn [st_threads] in U. rewrite nth_set in U. destruct (Nat.eqb_spec i j) as [->|D].
      * rewrite N in U. injection U as <-. discriminate.
      * apply (M j m). exists u, q. auto.
    + intros m p (u & U & D). cbn [st_threads] in U. apply in_set in U as [->|U]; [|apply G; exists u; auto]. apply G. exists t. auto.
    + intros j m (u & q & U & C & TQ). cbn [st_threads] in U. rewrite nth_set in U. destruct (Nat.eqb_spec i j) as [->|D].
      * rewrite N in U. injection U as <-. cbn in TQ. injection TQ as <- <-. exact L.
      * apply (M j m). exists u, q. auto.
Qed.
Theorem C84_one_of_a_name reqs s n o o' : taking_turns (start reqs) s -> was_given s n o -> was_given s n o' -> o = o'.
Proof.
  intros S. assert (X : single s).
  { remember (start reqs) as s0 eqn:E. induction S as [s|s1 s2 s3 A IH TU ST]; subst.
    - constructor.
      + intros m p (t & I & D). cbn in I. apply in_map_iff in I as (r & <- & _). destruct D.
      + intros i m (t & r & I & C & _). cbn in I. apply nth_error_In in I. apply in_map_iff in I as (q & <- & _). discriminate.
    - eapply single_step; eauto. }
  intros A B. apply (g_table _ X) in A, B. congruence.
Qed.
Print Assumptions C84_one_of_a_name.
(** One thread takes turns *)
Lemma steps_length s s' : steps s s' -> length (st_threads s') = length (st_threads s).
Proof.
  assert (L : forall A (l : list A) i x, length (set_nth i x l) = length l) by (intros A; induction l as [|y l IH]; intros [|i] x; cbn; auto).
  induction 1 as [|s1 s2 s3 A IH B]; [reflexivity|]. rewrite <- IH. destruct B. cbn. apply L.
Qed.
Theorem C84_one_thread r s n o o' : steps (start [r]) s -> was_given s n o -> was_given s n o' -> o = o'.
Proof.
  intros S. apply (C84_one_of_a_name [r]). remember (start [r]) as s0 eqn:E. induction S as [|s1 s2 s3 A IH B]; [constructor|].
  econstructor; [apply IH; exact E| |exact B]. pose proof (steps_length _ _ A) as L. subst s1. cbn in L.
  intros i j m (t & q & I & _) (u & q' & J & _).
  assert (i < 1) by (rewrite <- L; apply nth_error_Some; congruence). assert (j < 1) by (rewrite <- L; apply nth_error_Some; congruence). lia.
Qed.
Print Assumptions C84_one_thread.

(** In any case: once there is a symbol of a name and nobody is making another, that symbol is
    the one that everybody is given from then on. *)
Lemma settled_step s s' n o : step s s' -> tget n (st_table s) = Some o -> (forall i, ~ making s i n) ->
  tget n (st_table s') = Some o /\ (forall i, ~ making s' i n) /\
  forall i t', nth_error (st_threads s') i = Some t' -> exists t new, nth_error (st_threads s) i = Some t /\
    t_done t' = t_done t ++ new /\ forall p, In (n, p) new -> p = o.
Proof.
  intros ST. destruct ST as [s0 i t tb nm nx t' N E]. intros T NM.
  assert (SAME : forall j u, j <> i -> nth_error (set_nth i t' (st_threads s0)) j = Some u -> exists t new, nth_error (st_threads s0) j = Some t /\
    t_done u = t_done t ++ new /\ forall p, In (n, p) new -> p = o).
  { intros j u D U. rewrite nth_set in U. destruct (Nat.eqb_spec i j); [congruence|]. exists u, []. rewrite app_nil_r. repeat split; auto. intros p []. }
  unfold thread_step in E. destruct (t_todo t) as [|m r] eqn:TD; [discriminate|]. destruct (t_creating t) eqn:CR.
  - injection E as <- <- <- <-. assert (D : n <> m) by (intros ->; apply (NM i); exists t, r; auto). cbn [st_table st_threads]. split; [|split].
    + rewrite tget_tset. replace (text_eqb n m) with false; [exact T|]. symmetry. now apply OriginProps.text_eqb_neq.
    + intros j (u & q & U & C & TQ). cbn [st_threads] in U. rewrite nth_set in U. destruct (Nat.eqb_spec i j) as [->|J].
      * rewrite N in U. injection U as <-. discriminate.
      * apply (NM j). exists u, q. auto.
    + intros j u U. destruct (Nat.eq_dec j i) as [->|J]; [|eauto]. rewrite nth_set, Nat.eqb_refl, N in U. injection U as <-.
      exists t, [(m, st_next s0)]. repeat split; auto. intros p [[= H _]|[]]. congruence.
  - destruct (tget m (st_table s0)) as [q|] eqn:L; injection E as <- <- <- <-; cbn [st_table st_threads].
    + split; [exact T|]. split.
      * intros j (u & q' & U & C & TQ). cbn [st_threads] in U. rewrite nth_set in U. destruct (Nat.eqb_spec i j) as [->|J].
        -- rewrite N in U. injection U as <-. discriminate.
        -- apply (NM j). exists u, q'. auto.
      * intros j u U. destruct (Nat.eq_dec j i) as [->|J]; [|eauto]. rewrite nth_set, Nat.eqb_refl, N in U. injection U as <-.
        exists t, [(m, q)]. repeat split; auto. intros p [[= -> ->]|[]]. congruence.
    + split; [exact T|]. split.
      * intros j (u & q' & U & C & TQ). cbn [st_threads] in U. rewrite nth_set in U. destruct (Nat.eqb_spec i j) as [->|J].
        -- rewrite N in U. injection U as <-. cbn in TQ. injection TQ as -> _. congruence.
        -- apply (NM j). exists u, q'. auto.
      * intros j u U. destruct (Nat.eq_dec j i) as [->|J]; [|eauto]. rewrite nth_set, Nat.eqb_refl, N in U. injection U as <-.
        exists t, []. rewrite app_nil_r. repeat split; auto. intros p [].
Qed.
Theorem C84_settled s s' n o : steps s s' -> tget n (st_table s) = Some o -> (forall i, ~ making s i n) ->
  forall i t', nth_error (st_threads s') i = Some t' -> exists t new, nth_error (st_threads s) i = Some t /\
    t_done t' = t_done t ++ new /\ forall p, In (n, p) new -> p = o.
Proof.
  intros S T NM. assert (X : tget n (st_table s') = Some o /\ (forall i, ~ making s' i n) /\
    forall i t', nth_error (st_threads s') i = Some t' -> exists t new, nth_error (st_threads s) i = Some t /\
    t_done t' = t_done t ++ new /\ forall p, In (n, p) new -> p = o); [|apply X].
  induction S as [s|s1 s2 s3 A IH B].
  - repeat split; auto. intros i t' H. exists t', []. rewrite app_nil_r. repeat split; auto. intros p [].
  - destruct (IH T NM) as (T2 & NM2 & H2). destruct (settled_step s2 s3 n o B T2 NM2) as (T3 & NM3 & H3). repeat split; auto.
    intros i t' N. destruct (H3 i t' N) as (t & new & N2 & D & P). destruct (H2 i t N2) as (t0 & new0 & N1 & D0 & P0).
    exists t0, (new0 ++ new). repeat split; auto; [rewrite D, D0; now rewrite app_assoc|]. intros p I. apply in_app_iff in I as [I|I]; auto.
Qed.
Print Assumptions C84_settled.

(** ** Comparing *)

(** Among symbols of which there is one for a name, and texts, comparing is comparing the texts,
    in whichever order symbols and texts stand. *)
Theorem C84_order name x y a b : (forall o p, name o = name p -> o = p) -> reads name x a -> reads name y b ->
  (op_eq x y = true <-> a = b) /\
  (exists l, op_lt x y = Says l /\ (l = true <-> before a b)) /\
  (exists l, op_le x y = Says l /\ (l = true <-> before a b \/ a = b)).
Proof.
  intros INJ X Y. assert (LT : forall u v, text_lt u v = true <-> before u v) by (intros u v; apply text_gt_spec).
  assert (GE : forall u v, negb (text_lt u v) = true <-> before v u \/ u = v).
  { intros u v. rewrite <- !text_gt_spec. unfold text_lt. destruct (list_eq_dec ascii_dec u v) as [->|D].
    - rewrite text_gt_irrefl. cbn. intuition.
    - rewrite <- text_gt_total by exact D. intuition. }
  assert (GT : forall u v, negb (text_lt u v) && negb (text_eqb u v) = true <-> before v u).
  { intros u v. rewrite andb_true_iff, GE, negb_true_iff, <- !text_gt_spec. split.
    - intros [[H| ->] E]; [exact H|]. rewrite text_eqb_refl in E. discriminate.
    - intros H. split; [now left|]. apply OriginProps.text_eqb_neq. intros ->. rewrite text_gt_irrefl in H. discriminate. }
  assert (OB : forall o p, Nat.eqb o p = text_eqb (name o) (name p)).
  { intros o p. apply Bool.eq_iff_eq_true. rewrite Nat.eqb_eq, text_eqb_eq. split; [now intros ->|apply INJ]. }
  destruct x as [o n|t|], y as [p m|u|]; cbn in X, Y; try contradiction;
    repeat match goal with H : _ /\ _ |- _ => destruct H end; subst; cbn [op_eq op_lt op_le sym_eq sym_lt sym_gt sym_le sym_ge final];
    rewrite ?OB; split; try (split; eexists; (split; [reflexivity|])).
  - apply text_eqb_eq.
  - apply LT.
  - rewrite orb_true_iff, LT, text_eqb_eq. reflexivity.
  - apply text_eqb_eq.
  - apply LT.
  - rewrite orb_true_iff, LT, text_eqb_eq. reflexivity.
  - rewrite text_eqb_eq. split; congruence.
  - apply GT.
  - rewrite GE. intuition.
  - apply text_eqb_eq.
  - apply LT.
  - change (text_gt t u) with (text_lt u t). rewrite GE. intuition.
Qed.
Print Assumptions C84_order.
(** What is equal has the same hash, even if there are several symbols of a name *)
Theorem C84_hash name x y a b : reads name x a -> reads name y b -> op_eq x y = true -> a = b /\ hashed x = hashed y.
Proof.
  intros X Y E. destruct x as [o n|t|], y as [p m|u|]; cbn in X, Y, E; try contradiction;
    repeat match goal with H : _ /\ _ |- _ => destruct H end; subst.
  - apply Nat.eqb_eq in E as ->. auto.
  - apply text_eqb_eq in E. cbn. split; congruence.
  - apply text_eqb_eq in E. cbn. split; congruence.
  - apply text_eqb_eq in E. cbn. split; congruence.
Qed.
Print Assumptions C84_hash.
(** A symbol is not equal to anything else, and cannot be ordered with it *)
Theorem C84_others o n : op_eq (Symbol_ o n) Other_object = false /\ op_eq Other_object (Symbol_ o n) = false /\
  op_lt (Symbol_ o n) Other_object = Type_error /\ op_lt Other_object (Symbol_ o n) = Type_error.
Proof. repeat split; reflexivity. Qed.
Print Assumptions C84_others.

(** ** Blocks *)

Lemma tmem_spec t l : tmem t l = true <-> In t l.
Proof.
  unfold tmem. rewrite existsb_exists. split; [intros (x & I & E); apply text_eqb_eq in E as ->; exact I|]. intros I. exists t. split; [exact I|apply text_eqb_refl].
Qed.
Lemma outer_spec outer n : match outer with Some l => tmem n l | None => false end = true <-> from_outside outer n.
Proof.
  unfold from_outside. destruct outer as [l|]; [rewrite tmem_spec|]; split.
  - intros I. exists l. auto.
  - intros (l' & [= <-] & I). exact I.
  - discriminate.
  - intros (l & [=] & _).
Qed.
Section Blocks.
  Variable outer : option (list text).
  Variable globals : text -> option value.
  Notation run := (run outer globals).
  Notation read := (read outer globals).

  Lemma read_spec m d d' v : read m d = (d', v) ->
    (forall n, n <> m -> tget n d' = tget n d) /\
    (plain_name outer m -> tget m d' = v /\ v = match tget m d with Some w => Some w | None => Some (VSym m) end) /\
    (~ plain_name outer m -> tget m d' = tget m d).
  Proof.
    unfold SymbolModel.read, get_item. destruct (tmem m passthru) eqn:P.
    { destruct (tget m d) eqn:G; intros [= <- <-]; (split; [auto|split; [|auto]]); intros (A & _); exfalso; apply A, tmem_spec; exact P. }
    assert (NP : ~ special m) by (intros S; apply tmem_spec in S; unfold passthru in P; cbn in S, P; congruence).
    pose proof (outer_spec outer m) as O. destruct (match outer with Some l => tmem m l | None => false end) eqn:OQ.
    { intros [= <- <-]. (split; [auto|split; [|auto]]); intros (_ & A & _); exfalso; apply A, O; reflexivity. }
    assert (NO : ~ from_outside outer m) by (rewrite <- O; discriminate).
    destruct (tget m d) as [w|] eqn:G; [intros [= <- <-]; split; [auto|split; [auto|auto]]|].
    destruct (text_eqb m w_Symbol) eqn:S.
    - apply text_eqb_eq in S. intros [= <- <-]. (split; [auto|split; [|auto]]); intros (_ & _ & A); exfalso; exact (A S).
    - intros [= <- <-]. assert (PL : plain_name outer m).
      { repeat split; auto. intros ->. change (list_ascii_of_string "Symbol") with w_Symbol in S. rewrite text_eqb_refl in S. discriminate. }
      split; [|split; [intros _; split; [|reflexivity]|contradiction]].
      + intros n N. rewrite tget_tset. now rewrite OriginProps.text_eqb_neq.
      + now rewrite tget_tset, text_eqb_refl.
  Qed.
  Lemma set_item_spec n v d d' : set_item n v d = Some d' ->
    (forall k, k <> n -> tget k d' = tget k d) /\
    (~ special n -> exists s, tget n d' = Some (VSym s) /\ (v = VStr s \/ v = VSym s)).
  Proof.
    unfold set_item. destruct (tmem n passthru) eqn:P.
    - intros [= <-]. split; [intros k N; rewrite tget_tset; now rewrite OriginProps.text_eqb_neq|]. intros S. exfalso. apply S, tmem_spec. exact P.
    - destruct v; intros [= <-]; (split; [intros k N; rewrite tget_tset; now rewrite OriginProps.text_eqb_neq|]; intros _; eexists; rewrite tget_tset, text_eqb_refl; split; [reflexivity|auto]).
  Qed.
  Definition symbols_only (d : list (text * value)) : Prop := forall n v, ~ special n -> tget n d = Some v -> exists s, v = VSym s.
  (** What a step does to one name, as far as the name is not assigned *)
  Lemma run_unassigned b : forall d d' n, run b d = Block d' -> ~ assigned b n ->
    tget n d' = match tget n d with Some v => Some v | None => if in_dec (list_eq_dec ascii_dec) n (flat_map (fun s => match s with Use m | Assign _ (EName m) => [m] | _ => [] end) b) then (if tmem n passthru || match outer with Some l => tmem n l | None => false end || text_eqb n w_Symbol then None else Some (VSym n)) else None end.
  Proof.
    assert (RD : forall m d d1 v n, read m d = (d1, v) -> tget n d1 = match tget n d with Some v => Some v | None => if list_eq_dec ascii_dec n m then (if tmem n passthru || match outer with Some l => tmem n l | None => false end || text_eqb n w_Symbol then None else Some (VSym n)) else None end).
    { intros m d d1 v n R. apply read_spec in R as (A & B & C). destruct (list_eq_dec ascii_dec n m) as [->|N]; [|rewrite A by exact N; now destruct (tget n d)].
      destruct (tmem m passthru || match outer with Some l => tmem m l | None => false end || text_eqb m w_Symbol) eqn:Q.
      - rewrite C; [now destruct (tget m d)|]. intros (S1 & S2 & S3). rewrite !orb_true_iff, outer_spec, text_eqb_eq, tmem_spec in Q. destruct Q as [[Q|Q]|Q]; auto.
      - rewrite !orb_false_iff in Q. destruct Q as [[Q1 Q2] Q3].
        assert (PL : plain_name outer m).
        { repeat split; [intros X; apply (proj2 (tmem_spec m passthru)) in X; congruence|rewrite <- outer_spec; congruence|].
          intros ->. change (list_ascii_of_string "Symbol") with w_Symbol in Q3. rewrite text_eqb_refl in Q3. discriminate. }
        destruct (B PL) as [-> ->]. now destruct (tget m d). }
    induction b as [|st b IH]; intros d d' n R NA.
    - injection R as <-. cbn. now destruct (tget n d).
    - assert (NA' : ~ assigned b n) by (intros (e & I); apply NA; exists e; now right). destruct st as [m|k e]; cbn [SymbolModel.run] in R.
      + destruct (read m d) as [d1 [v|]] eqn:RE; [|discriminate]. rewrite (IH _ _ _ R NA'), (RD _ _ _ _ n RE). destruct (tget n d) as [w|]; [reflexivity|].
        cbn [flat_map app]. destruct (list_eq_dec ascii_dec n m) as [->|N].
        * destruct (in_dec (list_eq_dec ascii_dec) m (m :: _)) as [_|X]; [|exfalso; apply X; now left]. destruct (_ || _ || _); [|reflexivity]. now destruct (in_dec (list_eq_dec ascii_dec) _ _).
        * destruct (in_dec (list_eq_dec ascii_dec) n (m :: _)) as [[X|X]|X]; [congruence| |].
          -- destruct (in_dec (list_eq_dec ascii_dec) _ _); [reflexivity|contradiction].
          -- destruct (in_dec (list_eq_dec ascii_dec) _ _) as [I|]; [|reflexivity]. exfalso. apply X. now right.
      + assert (K : n <> k) by (intros ->; apply NA; exists e; now left).
        destruct e as [t|m|]; cbn [flat_map app].
        * destruct (set_item k (VStr t) d) as [d2|] eqn:SE; [|discriminate]. apply set_item_spec in SE as [A _]. rewrite (IH _ _ _ R NA'), A by exact K. reflexivity.
        * destruct (read m d) as [d1 [v|]] eqn:RE; [|discriminate]. destruct (set_item k v d1) as [d2|] eqn:SE; [|discriminate].
          apply set_item_spec in SE as [A _]. rewrite (IH _ _ _ R NA'), A, (RD _ _ _ _ n RE) by exact K. destruct (tget n d) as [w|]; [reflexivity|].
          destruct (list_eq_dec ascii_dec n m) as [->|N].
          -- destruct (in_dec (list_eq_dec ascii_dec) m (m :: _)) as [_|X]; [|exfalso; apply X; now left]. destruct (_ || _ || _); [|reflexivity]. now destruct (in_dec (list_eq_dec ascii_dec) _ _).
          -- destruct (in_dec (list_eq_dec ascii_dec) n (m :: _)) as [[X|X]|X]; [congruence| |].
             ++ destruct (in_dec (list_eq_dec ascii_dec) _ _); [reflexivity|contradiction].
             ++ destruct (in_dec (list_eq_dec ascii_dec) _ _) as [I|]; [|reflexivity]. exfalso. apply X. now right.
        * destruct (set_item k VOther d) as [d2|] eqn:SE; [|discriminate]. apply set_item_spec in SE as [A _]. rewrite (IH _ _ _ R NA'), A by exact K. reflexivity.
  Qed.
  Lemma run_app b1 : forall b2 d, run (b1 ++ b2) d = match run b1 d with Block d1 => run b2 d1 | x => x end.
  Proof.
    induction b1 as [|[m|k e] b1 IH]; intros b2 d; [reflexivity| |]; cbn [app SymbolModel.run].
    - destruct (read m d) as [d1 [v|]]; [apply IH|reflexivity].
    - destruct (match e with EText t => _ | EName m => _ | EElse => _ end) as [d1 [v|]]; [|reflexivity]. destruct (set_item k v d1); [apply IH|reflexivity].
  Qed.
  Lemma mentioned_spec b n : mentioned b n <-> In n (flat_map (fun s => match s with Use m | Assign _ (EName m) => [m] | _ => [] end) b).
  Proof.
    unfold mentioned. rewrite in_flat_map. split.
    - intros [I|[m I]]; eexists; (split; [exact I|now left]).
    - intros ([m|k [t|m|]] & I & H); cbn in H; try contradiction; destruct H as [->|[]]; eauto.
  Qed.
  Lemma assigned_dec b n : {assigned b n} + {~ assigned b n}.
  Proof.
    induction b as [|[m|k e] b IH].
    - right. intros (e & []).
    - destruct IH as [I|I]; [left; destruct I as [e I]; exists e; now right|right; intros (e & [H|H]); [discriminate|apply I; now exists e]].
    - destruct (list_eq_dec ascii_dec k n) as [->|N]; [left; exists e; now left|].
      destruct IH as [I|I]; [left; destruct I as [e' I]; exists e'; now right|right; intros (e' & [H|H]); [congruence|apply I; now exists e']].
  Defined.
  Lemma last_assigned b n : assigned b n -> exists b1 e b2, b = b1 ++ Assign n e :: b2 /\ ~ assigned b2 n.
  Proof.
    induction b as [|st b IH]; intros A; [destruct A as [e []]|]. destruct (assigned_dec b n) as [I|I].
    - destruct (IH I) as (b1 & e & b2 & -> & N). exists (st :: b1), e, b2. auto.
    - destruct A as [e [->|H]]; [exists [], e, b; auto|]. exfalso. apply I. now exists e.
  Qed.

  (** The names that a block defines are those assigned and the ordinary ones that are mentioned;
      a name that is only mentioned stands for itself, one assigned a text last for that text, and
      one assigned another ordinary name for the same symbol. *)
  Theorem C84_block b d n : run b [] = Block d -> ~ special n ->
    (tget n d <> None <-> assigned b n \/ mentioned b n /\ plain_name outer n) /\
    (forall v, tget n d = Some v -> exists s, v = VSym s) /\
    (~ assigned b n -> mentioned b n -> plain_name outer n -> tget n d = Some (VSym n)) /\
    (forall b1 t b2, b = b1 ++ Assign n (EText t) :: b2 -> ~ assigned b2 n -> tget n d = Some (VSym t)) /\
    (forall b1 m b2, b = b1 ++ Assign n (EName m) :: b2 -> ~ assigned b2 n -> ~ assigned b2 m -> n <> m -> plain_name outer m -> tget n d = tget m d).
  Proof.
    intros R NS.
    assert (UN : ~ assigned b n -> tget n d = if in_dec (list_eq_dec ascii_dec) n (flat_map (fun s => match s with Use m | Assign _ (EName m) => [m] | _ => [] end) b) then (if tmem n passthru || match outer with Some l => tmem n l | None => false end || text_eqb n w_Symbol then None else Some (VSym n)) else None).
    { intros NA. rewrite (run_unassigned b [] d n R NA). reflexivity. }
    assert (PLN : plain_name outer n -> tmem n passthru || match outer with Some l => tmem n l | None => false end || text_eqb n w_Symbol = false).
    { intros (A & B & C). rewrite !orb_false_iff. repeat split; apply not_true_is_false.
      - rewrite tmem_spec. exact A.
      - rewrite outer_spec. exact B.
      - rewrite text_eqb_eq. exact C. }
    assert (LAST : forall b1 e b2, b = b1 ++ Assign n e :: b2 -> ~ assigned b2 n -> exists d1 d2 d3 v s, run b1 [] = Block d1 /\
        match e with EText t => (d1, Some (VStr t)) | EName m => read m d1 | EElse => (d1, Some VOther) end = (d2, Some v) /\
        set_item n v d2 = Some d3 /\ run b2 d3 = Block d /\ tget n d3 = Some (VSym s) /\ (v = VStr s \/ v = VSym s) /\ tget n d = Some (VSym s)).
    { intros b1 e b2 -> NA. rewrite run_app in R. destruct (run b1 []) as [d1| |] eqn:R1; try discriminate. cbn [SymbolModel.run] in R.
      destruct (match e with EText t => (d1, Some (VStr t)) | EName m => read m d1 | EElse => (d1, Some VOther) end) as [d2 [v|]] eqn:RE; [|discriminate].
      destruct (set_item n v d2) as [d3|] eqn:SE; [|discriminate]. destruct (set_item_spec _ _ _ _ SE) as [_ X]. destruct (X NS) as (s & G & V).
      exists d1, d2, d3, v, s. repeat split; auto. now rewrite (run_unassigned b2 d3 d n R NA), G. }
    repeat match goal with |- _ /\ _ => split end.
    - destruct (assigned_dec b n) as [A|A].
      + split; [auto|]. intros _. destruct (last_assigned b n A) as (b1 & e & b2 & E & N). destruct (LAST _ _ _ E N) as (d1 & d2 & d3 & v & s & _ & _ & _ & _ & _ & _ & ->). discriminate.
      + rewrite (UN A), mentioned_spec. destruct (in_dec (list_eq_dec ascii_dec) _ _) as [I|I].
        * split.
          -- intros H. right. split; [exact I|]. destruct (_ || _ || _) eqn:Q; [congruence|]. rewrite !orb_false_iff in Q. destruct Q as [[Q1 Q2] Q3]. repeat split; auto.
             ++ rewrite <- outer_spec. congruence.
             ++ intros E. change (list_ascii_of_string "Symbol") with w_Symbol in E. rewrite E, text_eqb_refl in Q3. discriminate.
          -- intros [H|[_ H]]; [contradiction|]. rewrite (PLN H). discriminate.
        * split; [congruence|]. intros [H|[H _]]; contradiction.
    - intros v G. destruct (assigned_dec b n) as [A|A].
      + destruct (last_assigned b n A) as (b1 & e & b2 & E & N). destruct (LAST _ _ _ E N) as (d1 & d2 & d3 & w & s & _ & _ & _ & _ & _ & _ & H). exists s. congruence.
      + rewrite (UN A) in G. destruct (in_dec (list_eq_dec ascii_dec) _ _); [|discriminate]. destruct (_ || _ || _); [discriminate|]. injection G as <-. eauto.
    - intros NA M PL. rewrite (UN NA). apply mentioned_spec in M. destruct (in_dec (list_eq_dec ascii_dec) _ _); [|contradiction]. now rewrite (PLN PL).
    - intros b1 t b2 E N. destruct (LAST _ _ _ E N) as (d1 & d2 & d3 & v & s & _ & V & _ & _ & _ & VS & ->). injection V as _ <-. destruct VS as [[= ->]|[=]]. reflexivity.
    - intros b1 m b2 E N NM D PL. destruct (LAST _ _ _ E N) as (d1 & d2 & d3 & v & s & R1 & V & SE & R2 & G & VS & ->).
      destruct (read_spec _ _ _ _ V) as (_ & RS & _). destruct (RS PL) as [RG _]. destruct (set_item_spec _ _ _ _ SE) as [OT _].
      rewrite (run_unassigned b2 d3 d m R2 NM), OT, RG by congruence. destruct VS as [->| ->]; [|reflexivity].
      exfalso. assert (SO : forall b d d', run b d = Block d' -> symbols_only d -> symbols_only d').
      { clear. induction b as [|st b IH]; intros d d' R S; [now injection R as <-|]. 
        assert (RSO : forall m d d1 v, read m d = (d1, v) -> symbols_only d -> symbols_only d1).
        { intros m d0 d1 v RE S0 k w NK G. destruct (read_spec _ _ _ _ RE) as (A & B & C). destruct (list_eq_dec ascii_dec k m) as [->|X]; [|rewrite A in G by exact X; eapply S0; eauto].
          unfold SymbolModel.read, get_item in RE. destruct (tmem m passthru) eqn:P; [exfalso; apply NK, tmem_spec; exact P|].
          destruct (match outer with Some l => tmem m l | None => false end); [injection RE as <- _; eapply S0; eauto|].
          destruct (tget m d0) eqn:G0; [injection RE as <- _; eapply S0; eauto|]. destruct (text_eqb m w_Symbol); [injection RE as <- _; eapply S0; eauto|].
          injection RE as <- _. rewrite tget_tset, text_eqb_refl in G. injection G as <-. eauto. }
        assert (SSO : forall k v d d1, set_item k v d = Some d1 -> symbols_only d -> symbols_only d1).
        { intros k v d0 d1 SE S0 j w NJ G. destruct (set_item_spec _ _ _ _ SE) as [A B]. destruct (list_eq_dec ascii_dec j k) as [->|X]; [|rewrite A in G by exact X; eapply S0; eauto].
          destruct (B NJ) as (s & G' & _). exists s. congruence. }
        destruct st as [m|k e]; cbn [SymbolModel.run] in R.
        - destruct (read m d) as [d1 [v|]] eqn:RE; [|discriminate]. eapply IH; eauto.
        - destruct (match e with EText t => (d, Some (VStr t)) | EName m => read m d | EElse => (d, Some VOther) end) as [d1 [v|]] eqn:RE; [|discriminate].
          destruct (set_item k v d1) as [d2|] eqn:SE; [|discriminate]. eapply IH; eauto. eapply SSO; eauto. destruct e; try (injection RE as <- _; exact S). eapply RSO; eauto. }
      assert (S1 : symbols_only d1) by (eapply SO; [exact R1|intros k w _ [=]]).
      destruct (RS PL) as [_ VV]. destruct (tget m d1) as [w|] eqn:G1; [|discriminate]. injection VV as <-. destruct (S1 m (VStr s)) as [q [=]]; [apply PL|exact G1].
  Qed.

  (** A block of texts and ordinary names is fine *)
  Theorem C84_block_fine b : (forall m, mentioned b m -> plain_name outer m) -> (forall n e, In (Assign n e) b -> e <> EElse) ->
    exists d, run b [] = Block d.
  Proof.
    assert (G : forall b d, (forall m, mentioned b m -> plain_name outer m) -> (forall n e, In (Assign n e) b -> e <> EElse) -> symbols_only d -> exists d', run b d = Block d').
    { clear b. induction b as [|st b IH]; intros d M E S; [eexists; reflexivity|].
      assert (M' : forall m, mentioned b m -> plain_name outer m) by (intros m [H|[k H]]; apply M; [left; now right|right; exists k; now right]).
      assert (E' : forall n e, In (Assign n e) b -> e <> EElse) by (intros n e H; apply (E n e); now right).
      assert (RF : forall m, plain_name outer m -> exists d1 s, read m d = (d1, Some (VSym s)) /\ symbols_only d1).
      { intros m PL. destruct (read m d) as [d1 v] eqn:RE. destruct (read_spec _ _ _ _ RE) as (A & B & _). destruct (B PL) as [G V].
        assert (exists s, v = Some (VSym s)) as [s ->].
        { destruct (tget m d) as [w|] eqn:GW; [|eauto]. destruct (S m w) as [s ->]; [apply PL|exact GW|eauto]. }
        exists d1, s. split; [reflexivity|]. intros k w NK GK. destruct (list_eq_dec ascii_dec k m) as [->|X]; [rewrite G in GK; injection GK as <-; eauto|]. rewrite A in GK by exact X. eapply S; eauto. }
      assert (SF : forall k v d1, symbols_only d1 -> (exists s, v = VStr s \/ v = VSym s) -> exists d2, set_item k v d1 = Some d2 /\ symbols_only d2).
      { intros k v d1 S1 (s & V). assert (exists d2, set_item k v d1 = Some d2) as [d2 SE].
        { unfold set_item. destruct (tmem k passthru); [eauto|]. destruct V as [->| ->]; eauto. }
        exists d2. split; [exact SE|]. intros j w NJ GJ. destruct (set_item_spec _ _ _ _ SE) as [A B]. destruct (list_eq_dec ascii_dec j k) as [->|X]; [|rewrite A in GJ by exact X; eapply S1; eauto].
        destruct (B NJ) as (q & G' & _). exists q. congruence. }
      destruct st as [m|k [t|m|]]; cbn [SymbolModel.run].
      - destruct (RF m) as (d1 & s & -> & S1); [apply M; left; now left|]. now apply IH.
      - destruct (SF k (VStr t) d S) as (d2 & -> & S2); [eauto|]. now apply IH.
      - destruct (RF m) as (d1 & s & -> & S1); [apply M; right; exists k; now left|]. destruct (SF k (VSym s) d1 S1) as (d2 & -> & S2); [eauto|]. now apply IH.
      - exfalso. apply (E k EElse); [now left|reflexivity]. }
    intros M E. apply (G b [] M E). intros n v _ [=].
  Qed.
End Blocks.
Print Assumptions C84_block.
Print Assumptions C84_block_fine.

(** All symbols of a block, whatever their names, but for the one of the method that tells *)
Theorem C84_all_symbols d s : In s (all_symbols d) <-> exists n, n <> T "get_all_symbols" /\ tget n d = Some (VSym s).
Proof.
  unfold all_symbols. rewrite in_flat_map. unfold attribute. split.
  - intros ([n v] & I & H). cbn [fst] in H. destruct (text_eqb n w_all) eqn:E; [destruct H|]. destruct (tget n d) as [[]|] eqn:G; try destruct H as [H|[]]; try destruct H. subst.
    exists n. split; [|exact G]. intros ->. change (T "get_all_symbols") with w_all in E. rewrite text_eqb_refl in E. discriminate.
  - intros (n & N & G). assert (I : exists v, In (n, v) d).
    { clear -G. induction d as [|[k w] d IH]; [discriminate|]. cbn in G. destruct (text_eqb n k) eqn:E; [apply text_eqb_eq in E as ->; exists w; now left|].
      destruct (IH G) as [v I]. exists v. now right. }
    destruct I as [v I]. exists (n, v). split; [exact I|]. cbn [fst]. change (T "get_all_symbols") with w_all in N. rewrite (OriginProps.text_eqb_neq _ _ N), G. now left.
Qed.
Print Assumptions C84_all_symbols.

(** ** Cases *)
Definition race : state :=
  mk_state [(T "a", 1)] [(1, T "a"); (0, T "a")] 2 [mk_thread [] false [(T "a", 0)]; mk_thread [] false [(T "a", 1)]].
Ltac go i := match goal with |- step ?s _ => refine (step_thread s i _ _ _ _ _ _ _); reflexivity end.
Lemma race_reached : steps (start [[T "a"]; [T "a"]]) race.
Proof.
  eapply steps_more; [eapply steps_more; [eapply steps_more; [eapply steps_more; [apply steps_none|go 0]|go 1]|go 0]|].
  refine (step_thread _ 1 _ _ _ _ _ _ _); reflexivity.
Qed.
Example C84_case_one_thread : exists s, steps (start [[T "a"; T "b"; T "a"]]) s /\ was_given s (T "a") 0 /\ was_given s (T "b") 1.
Proof.
  exists (mk_state [(T "a", 0); (T "b", 1)] [(1, T "b"); (0, T "a")] 2 [mk_thread [] false [(T "a", 0); (T "b", 1); (T "a", 0)]]). split.
  - eapply steps_more; [eapply steps_more; [eapply steps_more; [eapply steps_more; [eapply steps_more; [apply steps_none|go 0]|go 0]|go 0]|go 0]|].
    refine (step_thread _ 0 _ _ _ _ _ _ _); reflexivity.
  - split; eexists; (split; [now left|cbn; auto]).
Qed.
Example C84_case_block : run None (fun _ => None) [Use (T "a"); Assign (T "b") (EText (T "bee")); Assign (T "c") (EName (T "b"))] [] =
  Block [(T "a", VSym (T "a")); (T "b", VSym (T "bee")); (T "c", VSym (T "bee"))].
Proof. reflexivity. Qed.

(** ** What one may expect that is not so *)

(** Two threads may be given different symbols of one name, which are not equal and not ordered,
    though both are equal to the text *)
Theorem C84_one_symbol_refuted : exists s n o p, steps (start [[n]; [n]]) s /\ was_given s n o /\ was_given s n p /\ o <> p /\
  op_eq (Symbol_ o n) (Symbol_ p n) = false /\ op_lt (Symbol_ o n) (Symbol_ p n) = Says false /\ op_le (Symbol_ o n) (Symbol_ p n) = Says false /\
  op_eq (Symbol_ o n) (Text n) = true /\ op_eq (Text n) (Symbol_ p n) = true.
Proof.
  exists race, (T "a"), 0, 1. split; [exact race_reached|]. split; [eexists; split; [now left|now left]|].
  split; [eexists; split; [right; now left|now left]|]. repeat split; try reflexivity. discriminate.
Qed.
(** A symbol named like the method is lost *)
Theorem C84_no_symbol_lost_refuted : exists d, run None (fun _ => None) [Use (T "get_all_symbols")] [] = Block d /\
  attribute d (T "get_all_symbols") = Some VOther /\ all_symbols d = [].
Proof. eexists. split; [reflexivity|]. split; reflexivity. Qed.
(** A symbol defined under two names is listed twice *)
Theorem C84_listed_once_refuted : exists d, run None (fun _ => None) [Use (T "a"); Assign (T "b") (EName (T "a"))] [] = Block d /\ all_symbols d = [T "a"; T "a"].
Proof. eexists. split; reflexivity. Qed.
Print Assumptions C84_one_symbol_refuted.
Print Assumptions C84_no_symbol_lost_refuted.
Print Assumptions C84_listed_once_refuted.
