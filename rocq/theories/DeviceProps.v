(** * The units of a session: what holds *)
From Coq Require Import List Bool Arith Lia.
From Verif Require Import DeviceModel DeviceSpec.
Import ListNotations.

Lemma tree_induction (P : tree -> Prop) :
  (forall u children, Forall P children -> P (Tree u children)) -> forall t, P t.
Proof.
  intros H. fix IH 1. intros [u children]. apply H. induction children as [|t r IHr]; constructor; auto.
Qed.

(** ** Tables and lists *)

Lemma mem_In x l : mem x l = true <-> In x l.
Proof.
  unfold mem. rewrite existsb_exists. split.
  - intros (y & I & E). apply Nat.eqb_eq in E as ->. exact I.
  - intros I. exists x. split; [exact I|apply Nat.eqb_refl].
Qed.
Lemma mem_not x l : mem x l = false <-> ~ In x l.
Proof. rewrite <- mem_In. destruct (mem x l); split; congruence. Qed.

Lemma set_spec k u m x : set k u m x = if x =? k then Some u else m x.
Proof. reflexivity. Qed.

Section Universe.
  Variable U : unit -> Prop.
  Hypothesis apart : tells_apart U.

  Lemma present_In u l : U u -> (forall x, In x l -> U x) -> present u l = true <-> In u l.
  Proof.
    intros Hu Hl. unfold present. rewrite existsb_exists. split.
    - intros (y & I & E). apply Nat.eqb_eq in E. now rewrite <- (proj1 apart y u (Hl y I) Hu E).
    - intros I. exists u. split; [exact I|apply Nat.eqb_refl].
  Qed.
  Lemma remove_first_spec u l : U u -> (forall x, In x l -> U x) -> NoDup l -> remove_first u l = remove unit_dec u l.
  Proof.
    intros Hu. induction l as [|x l IH]; intros Hl N; [reflexivity|]. inversion N as [|? ? NI N']; subst.
    cbn [remove_first remove]. unfold unit_eqb. destruct (Nat.eqb_spec (u_sum x) (u_sum u)) as [E|E].
    - assert (x = u) as -> by (apply (proj1 apart); auto; apply Hl; now left).
      destruct (unit_dec u u) as [_|C]; [|congruence]. now rewrite notin_remove.
    - destruct (unit_dec u x) as [->|C]; [congruence|]. f_equal. apply IH; auto. intros y Y. apply Hl. now right.
  Qed.
  Lemma remove_In_iff u x (l : list unit) : In x (remove unit_dec u l) <-> In x l /\ x <> u.
  Proof.
    split.
    - intros I. apply in_remove in I. exact I.
    - intros [I N]. now apply in_in_remove.
  Qed.
  Lemma remove_NoDup u (l : list unit) : NoDup l -> NoDup (remove unit_dec u l).
  Proof.
    induction 1 as [|x l N H IH]; [constructor|]. cbn [remove]. destruct (unit_dec u x); [exact IH|].
    constructor; [|exact IH]. rewrite remove_In_iff. tauto.
  Qed.
  Lemma filter_remove u (l : list unit) : filter is_job (remove unit_dec u l) = remove unit_dec u (filter is_job l).
  Proof.
    induction l as [|x l IH]; [reflexivity|]. cbn [remove filter]. destruct (unit_dec u x) as [->|N].
    - destruct (is_job x); [cbn [remove]; now destruct (unit_dec x x); [|congruence]|exact IH].
    - cbn [filter]. destruct (is_job x); [cbn [remove]; destruct (unit_dec u x); [congruence|]; now rewrite IH|exact IH].
  Qed.
  Lemma filter_remove_other u (l : list unit) : is_job u = false -> filter is_job (remove unit_dec u l) = filter is_job l.
  Proof.
    intros J. induction l as [|x l IH]; [reflexivity|]. cbn [remove filter]. destruct (unit_dec u x) as [->|N].
    - now rewrite J.
    - cbn [filter]. now rewrite IH.
  Qed.
  Lemma NoDup_snoc (l : list unit) u : NoDup l -> ~ In u l -> NoDup (l ++ [u]).
  Proof.
    intros N I. apply NoDup_rev in N. rewrite <- (rev_involutive (l ++ [u])). apply NoDup_rev. rewrite rev_app_distr. cbn [rev app].
    constructor; [|exact N]. now rewrite <- in_rev.
  Qed.

  (** ** One view of the units *)

  (** [start]: the units at the beginning of the history *)
  Variable start : list unit.

  Record good (c : context) : Prop := mk_good {
    g_in : forall u, In u (units c) -> U u;
    g_nodup : NoDup (units c);
    g_jobs : jobs c = filter is_job (units c);
    g_jmap : forall i u, job_map c i = Some u <-> In u (units c) /\ u_what u = AJob i;
    g_id : forall i u, id_map c i = Some u <-> In u (units c) /\ with_id u = Some i;
    g_sums : forall u, In u (units c) -> is_job u = false -> In (u_sum u) (sums c);
    g_log : follow (log c) start = units c }.

  Lemma follow_app es es' l : follow (es ++ es') l = follow es' (follow es l).
  Proof. revert l. induction es as [|[u|u|p] es IH]; intros l; cbn [app follow]; auto. Qed.

  Lemma job_what u : is_job u = true -> exists i, u_what u = AJob i /\ with_id u = Some i.
  Proof. unfold is_job, with_id. destruct (u_what u); intros E; try discriminate. eauto. Qed.

  Definition with_sum (s : nat) (c : context) : context :=
    mk_context (units c) (jobs c) (job_map c) (id_map c) (s :: sums c) (providers c) (log c).
  Lemma good_sum s c : good c -> good (with_sum s c).
  Proof. intros [A B C D E F G]. constructor; cbn; auto. Qed.

  (** A new job *)
  Lemma good_new_job u i c : good c -> U u -> u_what u = AJob i -> job_map c i = None ->
    good (on_unit_added u (mk_context (units c ++ [u]) (jobs c ++ [u]) (set i u (job_map c)) (id_map c) (sums c) (providers c) (log c))).
  Proof.
    intros [A B C D E F G] Hu W N.
    assert (Wi : with_id u = Some i) by (unfold with_id; now rewrite W).
    assert (NI : ~ In u (units c)). { intros I. assert (X : job_map c i = Some u) by (apply D; auto). congruence. }
    unfold on_unit_added. rewrite Wi. constructor; cbn.
    - intros x I. apply in_app_or in I as [I|[<-|[]]]; auto.
    - now apply NoDup_snoc.
    - assert (J : is_job u = true) by (unfold is_job; now rewrite W). rewrite filter_app, C. cbn [filter]. now rewrite J.
    - intros k x. rewrite set_spec, in_app_iff. destruct (Nat.eqb_spec k i) as [->|K].
      + split.
        * intros X. injection X as <-. split; [right; now left|exact W].
        * intros [[I|[<-|[]]] X]; [|reflexivity]. f_equal. apply (proj2 apart u x i Hu (A x I) Wi). unfold with_id. now rewrite X.
      + rewrite D. split; [intros [I X]; auto|]. intros [[I|[<-|[]]] X]; [auto|]. rewrite W in X. congruence.
    - intros k x. rewrite set_spec, in_app_iff. destruct (Nat.eqb_spec k i) as [->|K].
      + split.
        * intros X. injection X as <-. split; [right; now left|exact Wi].
        * intros [[I|[<-|[]]] X]; [|reflexivity]. f_equal. exact (proj2 apart u x i Hu (A x I) Wi X).
      + rewrite E. split; [intros [I X]; auto|]. intros [[I|[<-|[]]] X]; [auto|]. congruence.
    - intros x I J. apply in_app_or in I as [I|[<-|[]]]; [auto|]. unfold is_job in J. now rewrite W in J.
    - rewrite follow_app, G. reflexivity.
  Qed.

  (** A new unit of another kind, its checksum registered *)
  Lemma good_new_other u c : good c -> U u -> is_job u = false -> ~ In u (units c) -> In (u_sum u) (sums c) -> good (add_other u c).
  Proof.
    intros [A B C D E F G] Hu J NI R. unfold add_other, on_unit_added. constructor; cbn.
    - intros x I. apply in_app_or in I as [I|[<-|[]]]; auto.
    - now apply NoDup_snoc.
    - rewrite filter_app, C. cbn [filter]. rewrite J. now rewrite app_nil_r.
    - intros k x. rewrite D, in_app_iff. split; [intros [I X]; auto|]. intros [[I|[<-|[]]] X]; [auto|].
      unfold is_job in J. now rewrite X in J.
    - intros k x. rewrite in_app_iff. destruct (with_id u) as [i|] eqn:Wi.
      + rewrite set_spec. destruct (Nat.eqb_spec k i) as [->|K].
        * split.
          { intros X. injection X as <-. split; [right; now left|exact Wi]. }
          { intros [[I|[<-|[]]] X]; [|reflexivity]. f_equal. exact (proj2 apart u x i Hu (A x I) Wi X). }
        * rewrite E. split; [intros [I X]; auto|]. intros [[I|[<-|[]]] X]; [auto|]. congruence.
      + rewrite E. split; [intros [I X]; auto|]. intros [[I|[<-|[]]] X]; [auto|]. congruence.
    - intros x I N. apply in_app_or in I as [I|[<-|[]]]; auto.
    - rewrite follow_app, G. reflexivity.
  Qed.

  Lemma grow_app us a b : grow us (a ++ b) = grow (grow us a) b.
  Proof. revert us. induction a as [|u a IH]; intros us; cbn [app grow]; auto. Qed.

  (** Only units are announced, and nothing else of the context changes *)
  Definition announces (c c' : context) : Prop :=
    exists us, log c' = log c ++ map Added us /\ providers c' = providers c /\ sums c' = sums c.
  Lemma announces_refl c : announces c c.
  Proof. exists []. cbn. now rewrite app_nil_r. Qed.
  Lemma announces_trans a b c : announces a b -> announces b c -> announces a c.
  Proof.
    intros (us & A & B & C) (us' & A' & B' & C'). exists (us ++ us'). rewrite map_app, app_assoc, <- A. rewrite A', B', C'. auto.
  Qed.

  Lemma add_job_works t : (forall u, In u (nodes t) -> U u) -> (forall u, In u (nodes t) -> is_job u = true) -> forall c, good c ->
    exists c', add_job t c = (c', None) /\ good c' /\ units c' = grow (units c) (nodes t) /\ announces c c'.
  Proof.
    induction t as [u children IH] using tree_induction. intros HU HJ c Gc.
    assert (Hu : U u) by (apply HU; now left). assert (Ju : is_job u = true) by (apply HJ; now left).
    destruct (job_what u Ju) as (i & W & Wi).
    (* the children *)
    assert (K : forall c, good c -> exists c',
        (fix add_children (l : list tree) (c : context) : context * option exn :=
          match l with
          | [] => (c, None)
          | t :: r => match add_job t c with (c, None) => add_children r c | (c, Some x) => (c, Some x) end
          end) children c = (c', None) /\ good c' /\ units c' = grow (units c) (concat (map nodes children)) /\ announces c c').
    { cbn [nodes] in HU, HJ. assert (HU' : forall x, In x (concat (map nodes children)) -> U x) by (intros x X; apply HU; now right).
      assert (HJ' : forall x, In x (concat (map nodes children)) -> is_job x = true) by (intros x X; apply HJ; now right).
      clear - IH HU' HJ'. induction IH as [|t r Ht Hr IHr]; intros c Gc.
      - exists c. split; [reflexivity|]. split; [exact Gc|]. split; [reflexivity|apply announces_refl].
      - cbn [map concat] in HU', HJ' |- *.
        destruct (Ht (fun x X => HU' x (in_or_app _ _ _ (or_introl X))) (fun x X => HJ' x (in_or_app _ _ _ (or_introl X))) c Gc)
          as (c1 & E1 & G1 & L1 & A1). rewrite E1.
        destruct (IHr (fun x X => HU' x (in_or_app _ _ _ (or_intror X))) (fun x X => HJ' x (in_or_app _ _ _ (or_intror X))) c1 G1)
          as (c2 & E2 & G2 & L2 & A2). exists c2. split; [exact E2|]. split; [exact G2|]. split.
        + now rewrite grow_app, <- L1.
        + exact (announces_trans _ _ _ A1 A2). }
    cbn [add_job nodes grow]. rewrite Wi. destruct (job_map c i) as [existing|] eqn:M.
    - assert (existing = u) as ->.
      { apply (g_jmap c Gc) in M as [I X]. apply (proj2 apart existing u i); auto; [apply (g_in c Gc), I|].
        unfold with_id. now rewrite X. }
      unfold unit_eqb. rewrite Nat.eqb_refl. destruct (in_dec unit_dec u (units c)) as [I|NI]; [exact (K c Gc)|].
      exfalso. apply NI. now apply (g_jmap c Gc i u).
    - destruct (in_dec unit_dec u (units c)) as [I|NI].
      { assert (X : job_map c i = Some u) by (apply (g_jmap c Gc); auto). congruence. }
      pose proof (good_new_job u i c Gc Hu W M) as G1. destruct (K _ G1) as (c' & E & G' & L & A).
      exists c'. split; [exact E|]. split; [exact G'|]. split.
      + rewrite L. reflexivity.
      + refine (announces_trans _ _ _ _ A). exists [u]. unfold on_unit_added. cbn. auto.
  Qed.

  Lemma proper_job_nodes t : proper t -> is_job (root t) = true -> forall u, In u (nodes t) -> is_job u = true.
  Proof. destruct t as [u ch]. cbn [proper root nodes]. intros [_ P] J x [<-|X]; auto. Qed.
  Lemma proper_other_nodes t : proper t -> is_job (root t) = false -> nodes t = [root t].
  Proof. destruct t as [u ch]. cbn [proper root nodes]. intros [P _] J. now rewrite (P J). Qed.
  Lemma root_In t : In (root t) (nodes t).
  Proof. destruct t. now left. Qed.

  (** Adding through the context *)
  Lemma add_unit_works t c : proper t -> (forall u, In u (nodes t) -> U u) -> good c -> ~ In (u_sum (root t)) (sums c) ->
    exists c', add_unit t c = (c', None) /\ good c' /\ units c' = grow (units c) (nodes t) /\
      (exists us, log c' = log c ++ map Added us) /\ providers c' = providers c /\ sums c' = u_sum (root t) :: sums c.
  Proof.
    intros P HU Gc N. unfold add_unit. apply mem_not in N. rewrite N. apply mem_not in N.
    pose proof (good_sum (u_sum (root t)) c Gc) as G1. unfold state_add. destruct (is_job (root t)) eqn:J.
    - destruct (add_job_works t HU (proper_job_nodes t P J) _ G1) as (c' & E & G' & L & us & A1 & A2 & A3).
      exists c'. split; [exact E|]. split; [exact G'|]. split; [exact L|]. split; [now exists us|]. split; [exact A2|exact A3].
    - rewrite (proper_other_nodes t P J). cbn [grow].
      assert (NI : ~ In (root t) (units c)). { intros I. apply N. now apply (g_sums c Gc). }
      destruct (in_dec unit_dec (root t) (units c)) as [I|_]; [contradiction|]. eexists. split; [reflexivity|].
      split; [|split; [reflexivity|split; [exists [root t]; reflexivity|split; reflexivity]]].
      apply good_new_other; auto; [apply HU, root_In|cbn; now left].
  Qed.
  Lemma add_unit_refused t c : In (u_sum (root t)) (sums c) -> exists x, add_unit t c = (c, Some x).
  Proof. intros I. unfold add_unit. apply mem_In in I. rewrite I. eauto. Qed.

  Lemma state_add_works t c : proper t -> is_job (root t) = true -> (forall u, In u (nodes t) -> U u) -> good c ->
    exists c', state_add t c = (c', None) /\ good c' /\ units c' = grow (units c) (nodes t) /\ announces c c'.
  Proof. intros P J HU Gc. unfold state_add. rewrite J. apply add_job_works; auto. exact (proper_job_nodes t P J). Qed.

  (** Removing *)
  Lemma state_remove_works u c : U u -> good c -> In u (units c) -> exists c', state_remove u c = (c', None) /\ good c' /\
    units c' = remove unit_dec u (units c) /\ log c' = log c ++ [Removed u] /\ providers c' = providers c /\ sums c' = sums c /\
    forall i, id_map c' i = if match with_id u with Some k => i =? k | None => false end then None else id_map c i.
  Proof.
    intros Hu Gc I. pose proof Gc as [A B C D E F G]. unfold state_remove.
    assert (P : present u (units c) = true) by now apply present_In. rewrite P.
    rewrite (remove_first_spec u (units c) Hu A B).
    assert (X : on_unit_removed u (mk_context (remove unit_dec u (units c)) (jobs c) (job_map c) (id_map c) (sums c) (providers c) (log c)) =
      (mk_context (remove unit_dec u (units c)) (jobs c) (job_map c)
        (match with_id u with Some k => unset k (id_map c) | None => id_map c end) (sums c) (providers c) (log c ++ [Removed u]), None)).
    { unfold on_unit_removed. cbn. destruct (with_id u) as [k|] eqn:Wk; [|reflexivity].
      assert (Y : id_map c k = Some u) by (apply E; auto). now rewrite Y. }
    rewrite X. clear X. cbn [units jobs job_map id_map sums providers log].
    assert (IDS : forall i x, (match with_id u with Some k => unset k (id_map c) | None => id_map c end) i = Some x <->
        In x (remove unit_dec u (units c)) /\ with_id x = Some i).
    { intros i x. rewrite remove_In_iff. destruct (with_id u) as [k|] eqn:Wk.
      - unfold unset. destruct (Nat.eqb_spec i k) as [->|K].
        + split; [discriminate|]. intros [[Ix Nx] Wx]. exfalso. apply Nx. exact (proj2 apart x u k (A x Ix) Hu Wx Wk).
        + rewrite E. split; [intros [Ix Wx]; split; [split; [exact Ix|congruence]|exact Wx]|tauto].
      - rewrite E. split; [intros [Ix Wx]; split; [split; [exact Ix|congruence]|exact Wx]|tauto]. }
    assert (SUMS : forall x, In x (remove unit_dec u (units c)) -> is_job x = false -> In (u_sum x) (sums c)).
    { intros x Ix. apply remove_In_iff in Ix as [Ix _]. auto. }
    assert (LOG : follow (log c ++ [Removed u]) start = remove unit_dec u (units c)) by (rewrite follow_app, G; reflexivity).
    assert (ID2 : forall i, (match with_id u with Some k => unset k (id_map c) | None => id_map c end) i =
       if match with_id u with Some k => i =? k | None => false end then None else id_map c i).
    { intros i. destruct (with_id u); reflexivity. }
    destruct (is_job u) eqn:J.
    - destruct (job_what u J) as (i & W & Wi). rewrite W.
      assert (Ij : In u (jobs c)). { rewrite C. apply filter_In. auto. }
      assert (Pj : present u (jobs c) = true). { apply present_In; auto. intros x Ix. rewrite C in Ix. apply filter_In in Ix as [Ix _]. auto. }
      rewrite Pj. assert (Y : job_map c i = Some u) by (apply D; auto). rewrite Y.
      eexists. split; [reflexivity|]. split; [|cbn; repeat split; auto].
      constructor; cbn; auto.
      + intros x Ix. apply remove_In_iff in Ix as [Ix _]. auto.
      + now apply remove_NoDup.
      + rewrite filter_remove, C. apply remove_first_spec; auto.
        * intros x Ix. apply filter_In in Ix as [Ix _]. auto.
        * now apply NoDup_filter.
      + intros k x. unfold unset. rewrite remove_In_iff. destruct (Nat.eqb_spec k i) as [->|K].
        * split; [discriminate|]. intros [[Ix Nx] Wx]. exfalso. apply Nx. apply (proj2 apart x u i (A x Ix) Hu); [|exact Wi]. unfold with_id. now rewrite Wx.
        * rewrite D. split; [intros [Ix Wx]; split; [split; [exact Ix|congruence]|exact Wx]|tauto].
    - assert (R : forall (a b : context * option exn), match u_what u with AJob _ => a | _ => b end = b).
      { intros a b. unfold is_job in J. destruct (u_what u); [discriminate|reflexivity..]. }
      assert (Z : exists c', c' = mk_context (remove unit_dec u (units c)) (jobs c) (job_map c)
        (match with_id u with Some k => unset k (id_map c) | None => id_map c end) (sums c) (providers c) (log c ++ [Removed u])) by eauto.
      destruct Z as (c' & Z). exists c'. split; [|split; [|rewrite Z; cbn; repeat split; auto]].
      + rewrite Z. unfold is_job in J. destruct (u_what u); [discriminate|reflexivity..].
      + rewrite Z. constructor; cbn; auto.
        * intros x Ix. apply remove_In_iff in Ix as [Ix _]. auto.
        * now apply remove_NoDup.
        * now rewrite filter_remove_other.
        * intros k x. rewrite D, remove_In_iff. split; [|tauto]. intros [Ix Wx]. split; [split; [exact Ix|]|exact Wx].
          intros ->. unfold is_job in J. now rewrite Wx in J.
  Qed.
  Lemma state_remove_absent u c : U u -> good c -> ~ In u (units c) -> state_remove u c = (c, Some Value_error).
  Proof.
    intros Hu Gc N. unfold state_remove. destruct (present u (units c)) eqn:P; [|reflexivity].
    apply present_In in P; [contradiction|exact Hu|exact (g_in c Gc)].
  Qed.

  Definition without_sum (s : nat) (c : context) : context :=
    mk_context (units c) (jobs c) (job_map c) (id_map c) (filter (fun x => negb (x =? s)) (sums c)) (providers c) (log c).

  Lemma without_sum_In s x l : In x (filter (fun x => negb (x =? s)) l) <-> In x l /\ x <> s.
  Proof. rewrite filter_In, negb_true_iff, Nat.eqb_neq. reflexivity. Qed.

  Lemma remove_unit_works u c : U u -> good c -> In u (units c) -> In (u_sum u) (sums c) -> exists c', remove_unit u c = (c', None) /\ good c' /\
    units c' = remove unit_dec u (units c) /\ log c' = log c ++ [Removed u] /\ providers c' = providers c /\
    (forall s, In s (sums c') <-> In s (sums c) /\ s <> u_sum u) /\
    forall i, id_map c' i = if match with_id u with Some k => i =? k | None => false end then None else id_map c i.
  Proof.
    intros Hu Gc I S. unfold remove_unit.
    assert (P : present u (units c) = true) by (apply present_In; auto; exact (g_in c Gc)). rewrite P.
    apply mem_In in S. rewrite S.
    (* the checksum is taken out before the unit: for the moment the unit counts as a job *)
    destruct (state_remove_works u c Hu Gc I) as (c1 & E1 & G1 & L1 & LG1 & PR1 & S1 & ID1).
    assert (X : state_remove u (without_sum (u_sum u) c) = (without_sum (u_sum u) c1, None)).
    { clear - E1. unfold state_remove in *. cbn [without_sum units jobs job_map id_map sums providers log] in *.
      destruct (present u (units c)); [|discriminate]. unfold on_unit_removed in *.
      cbn [units jobs job_map id_map sums providers log] in *.
      destruct (with_id u) as [k|].
      - destruct (id_map c k); [|discriminate]. cbn [units jobs job_map id_map sums providers log] in *. destruct (u_what u) as [i|kk i| |kk].
        + destruct (present u (jobs c)); [|discriminate]. destruct (job_map c i); [|discriminate]. injection E1 as <-. reflexivity.
        + injection E1 as <-. reflexivity.
        + injection E1 as <-. reflexivity.
        + injection E1 as <-. reflexivity.
      - cbn [units jobs job_map id_map sums providers log] in *. destruct (u_what u) as [i|kk i| |kk].
        + destruct (present u (jobs c)); [|discriminate]. destruct (job_map c i); [|discriminate]. injection E1 as <-. reflexivity.
        + injection E1 as <-. reflexivity.
        + injection E1 as <-. reflexivity.
        + injection E1 as <-. reflexivity. }
    exists (without_sum (u_sum u) c1). split; [exact X|]. split.
    - destruct G1 as [A B C D E F G]. constructor; cbn; auto. intros x Ix J. apply without_sum_In. split; [auto|].
      intros Z. assert (x = u). { apply (proj1 apart); auto. } subst x. rewrite L1 in Ix. apply remove_In_iff in Ix as [_ Ix]. congruence.
    - cbn [without_sum units log providers sums id_map]. split; [exact L1|]. split; [exact LG1|]. split; [exact PR1|]. split; [|exact ID1].
      intros s. rewrite without_sum_In, S1. reflexivity.
  Qed.

  Lemma add_units_good ts : (forall t, In t ts -> proper t /\ forall u, In u (nodes t) -> U u) -> forall c, good c -> good (fst (add_units ts c)) /\
    exists us, log (fst (add_units ts c)) = log c ++ map Added us /\ providers (fst (add_units ts c)) = providers c.
  Proof.
    induction ts as [|t ts IH]; intros H c Gc.
    - split; [exact Gc|]. exists []. cbn. now rewrite app_nil_r.
    - cbn [add_units]. destruct (H t (or_introl eq_refl)) as [P HU]. destruct (in_dec Nat.eq_dec (u_sum (root t)) (sums c)) as [I|N].
      + destruct (add_unit_refused t c I) as (x & ->). cbn [fst]. split; [exact Gc|]. exists []. cbn. now rewrite app_nil_r.
      + destruct (add_unit_works t c P HU Gc N) as (c' & -> & G' & _ & (us & LG) & PR & _).
        destruct (IH (fun t' I => H t' (or_intror I)) c' G') as (G2 & us2 & LG2 & PR2). split; [exact G2|].
        exists (us ++ us2). rewrite LG2, LG, map_app, <- app_assoc, PR2, PR. auto.
  Qed.

  Definition with_provider (p : nat) (c : context) : context :=
    mk_context (units c) (jobs c) (job_map c) (id_map c) (sums c) (providers c ++ [p]) (log c ++ [Provider p]).
  Lemma good_provider p c : good c -> good (with_provider p c).
  Proof. intros [A B C D E F G]. constructor; cbn; auto. now rewrite follow_app, G. Qed.

  Lemma do_op_good o c : op_in U o -> good c -> good (fst (do_op o c)).
  Proof.
    intros H Gc. destruct o as [t|u|p ts|t|u]; cbn [op_in do_op] in *.
    - destruct H as [P HU]. destruct (in_dec Nat.eq_dec (u_sum (root t)) (sums c)) as [I|N].
      + now destruct (add_unit_refused t c I) as (x & ->).
      + now destruct (add_unit_works t c P HU Gc N) as (c' & -> & G' & _).
    - destruct (in_dec unit_dec u (units c)) as [I|N].
      + destruct (in_dec Nat.eq_dec (u_sum u) (sums c)) as [S|S].
        * now destruct (remove_unit_works u c H Gc I S) as (c' & -> & G' & _).
        * unfold remove_unit. apply mem_not in S. rewrite S. now destruct (present u (units c)).
      + unfold remove_unit. destruct (present u (units c)) eqn:P; [|exact Gc]. apply present_In in P; [contradiction|exact H|exact (g_in c Gc)].
    - unfold add_provider. destruct (mem p (providers c)); [exact Gc|]. apply (add_units_good ts H (with_provider p c)), good_provider, Gc.
    - destruct H as (P & J & HU). now destruct (state_add_works t c P J HU Gc) as (c' & -> & G' & _).
    - destruct (in_dec unit_dec u (units c)) as [I|N].
      + now destruct (state_remove_works u c H Gc I) as (c' & -> & G' & _).
      + now rewrite (state_remove_absent u c H Gc N).
  Qed.
  Lemma run_good ops : Forall (op_in U) ops -> forall c, good c -> good (run ops c).
  Proof. induction 1 as [|o ops H _ IH]; intros c Gc; [exact Gc|]. cbn [run]. apply IH. now apply do_op_good. Qed.
End Universe.

Lemma good_fresh U : good U [] fresh.
Proof. constructor; cbn; try (intros; contradiction); try reflexivity; try constructor; intros; try discriminate; tauto. Qed.

(** A context for existing units *)
Lemma index_spec U (apart : tells_apart U) f us : (forall u i, f u = Some i -> with_id u = Some i) ->
  NoDup us -> forall m l, (forall u, In u (l ++ us) -> U u) -> NoDup (l ++ us) ->
  (forall i u, m i = Some u <-> In u l /\ f u = Some i) ->
  forall i u, index f us m i = Some u <-> In u (l ++ us) /\ f u = Some i.
Proof.
  intros W _. induction us as [|x us IH]; intros m l HU N M i u.
  - cbn [index]. now rewrite app_nil_r.
  - cbn [index]. replace (l ++ x :: us) with ((l ++ [x]) ++ us) in * by now rewrite <- app_assoc.
    apply IH; auto. intros k v. rewrite in_app_iff. assert (Ux : U x) by (apply HU; rewrite !in_app_iff; left; right; now left).
    assert (Ul : forall y, In y l -> U y) by (intros y Y; apply HU; rewrite !in_app_iff; auto).
    destruct (f x) as [j|] eqn:F.
    + unfold set. destruct (Nat.eqb_spec k j) as [->|K].
      * split.
        { intros E. injection E as <-. split; [right; now left|exact F]. }
        { intros [[I|[<-|[]]] E]; [|reflexivity]. f_equal. apply (proj2 apart x v j Ux (Ul v I)); auto. }
      * rewrite M. split; [tauto|]. intros [[I|[<-|[]]] E]; [auto|congruence].
    + rewrite M. split; [tauto|]. intros [[I|[<-|[]]] E]; [auto|congruence].
Qed.
Lemma good_from_state U us provider_of : tells_apart U -> (forall u, In u us -> U u) -> NoDup us -> good U us (from_state us provider_of).
Proof.
  intros apart HU N. constructor; cbn; auto.
  - intros i u. rewrite (index_spec U apart job_id us) with (l := []); auto.
    + cbn [app]. unfold job_id. destruct (u_what u) eqn:W; split; intros [I E]; split; auto; try congruence; try discriminate.
    + intros x k E. unfold job_id in E. unfold with_id. destruct (u_what x); try discriminate. exact E.
    + intros; cbn; split; [discriminate|tauto].
  - intros i u. rewrite (index_spec U apart with_id us) with (l := []); auto.
    + reflexivity.
    + intros; cbn; split; [discriminate|tauto].
  - intros u I _. now apply in_map.
Qed.

(** ** The theorems *)

(** In every history of a session in which units can be told apart, including
    calls that fail: no unit is listed twice; asking for an identifier gives
    the unit that is listed and has it, and nothing when there is none; the
    jobs are the listed units that are jobs; and who follows the signals knows
    exactly the units listed. *)
Theorem C64_one_view_of_the_units : forall U ops, tells_apart U -> Forall (op_in U) ops ->
  let c := run ops fresh in
  NoDup (units c) /\
  (forall i u, get_unit i None c = Some u <-> In u (units c) /\ with_id u = Some i) /\
  jobs c = filter is_job (units c) /\
  (forall i u, job_map c i = Some u <-> In u (jobs c) /\ u_what u = AJob i) /\
  follow (log c) [] = units c.
Proof.
  intros U ops apart H c. destruct (run_good U apart [] ops H fresh (good_fresh U)) as [A B C D E F G]. fold c in A, B, C, D, E, F, G.
  split; [exact B|]. split.
  - intros i u. unfold get_unit. rewrite <- E. destruct (id_map c i); reflexivity.
  - split; [exact C|]. split; [|exact G]. intros i u. rewrite D, C, filter_In. split; [|tauto].
    intros [I W]. repeat split; auto. unfold is_job. now rewrite W.
Qed.

(** The same for a session that is made for units that are already there. *)
Theorem C64_one_view_of_existing_units : forall U us provider_of ops, tells_apart U -> (forall u, In u us -> U u) -> NoDup us ->
  Forall (op_in U) ops -> let c := run ops (from_state us provider_of) in
  NoDup (units c) /\
  (forall i u, get_unit i None c = Some u <-> In u (units c) /\ with_id u = Some i) /\
  jobs c = filter is_job (units c) /\ follow (log c) us = units c.
Proof.
  intros U us po ops apart HU N H c. destruct (run_good U apart us ops H _ (good_from_state U us po apart HU N)) as [A B C D E F G].
  fold c in A, B, C, D, E, F, G. split; [exact B|]. split; [|split; [exact C|exact G]].
  intros i u. unfold get_unit. rewrite <- E. destruct (id_map c i); reflexivity.
Qed.

(** Asking for a unit of a kind gives only units of that kind. *)
Theorem C64_units_of_a_kind : forall c i k u,
  get_unit i (Some k) c = Some u <-> get_unit i None c = Some u /\ kind_of u = k.
Proof.
  intros c i k u. unfold get_unit. destruct (id_map c i) as [v|]; [|split; [discriminate|intros [E _]; discriminate]].
  assert (S : forall a b, same_kind a b = true <-> a = b).
  { intros [a|] [b|]; cbn; split; intros H; try discriminate; try reflexivity.
    - apply Nat.eqb_eq in H. congruence.
    - injection H as ->. apply Nat.eqb_refl. }
  destruct (same_kind (kind_of v) k) eqn:E.
  - apply S in E. split; [intros H; injection H as <-; auto|intros [H _]; exact H].
  - split; [discriminate|]. intros [H K]. injection H as <-. apply S in K. congruence.
Qed.

(** What adding a unit does: it is refused when its checksum is registered,
    and otherwise it and the jobs it makes are listed at the end, those that
    are not there already. *)
Theorem C64_adding_a_unit : forall U ops t, tells_apart U -> Forall (op_in U) ops -> proper t -> (forall u, In u (nodes t) -> U u) ->
  let c := run ops fresh in
  (In (u_sum (root t)) (sums c) -> exists x, add_unit t c = (c, Some x)) /\
  (~ In (u_sum (root t)) (sums c) -> exists c', add_unit t c = (c', None) /\ units c' = grow (units c) (nodes t) /\
     forall i, with_id (root t) = Some i -> get_unit i None c' = Some (root t)).
Proof.
  intros U ops t apart H P HU c. pose proof (run_good U apart [] ops H fresh (good_fresh U)) as Gc. fold c in Gc. split.
  - apply add_unit_refused.
  - intros N. destruct (add_unit_works U apart [] t c P HU Gc N) as (c' & E & G' & L & _). exists c'. split; [exact E|]. split; [exact L|].
    intros i W. assert (X : id_map c' i = Some (root t)).
    { apply (g_id _ _ _ G'). split; [|exact W]. rewrite L. clear - t. destruct t as [u ch]. cbn [root nodes grow].
      assert (K : forall l us, In u us -> In u (grow us l)).
      { induction l as [|x l IH]; intros us I; cbn [grow]; [exact I|]. apply IH. destruct (in_dec unit_dec x us); [exact I|]. apply in_or_app. now left. }
      apply K. destruct (in_dec unit_dec u (units c)) as [I|I]; [exact I|]. apply in_or_app. right. now left. }
    unfold get_unit. now rewrite X.
Qed.

Definition session_removes (o : op) : bool := match o with SessionRemoves _ => true | _ => false end.
Lemma sums_listed U ops : tells_apart U -> Forall (op_in U) ops -> forallb (fun o => negb (session_removes o)) ops = true ->
  forall s, In s (sums (run ops fresh)) -> exists u, In u (units (run ops fresh)) /\ u_sum u = s.
Proof.
  intros apart H R.
  assert (GROW : forall l us u, In u us -> In u (grow us l)).
  { induction l as [|x l IH]; intros us u I; cbn [grow]; [exact I|]. apply IH. destruct (in_dec unit_dec x us); [exact I|]. apply in_or_app. now left. }
  assert (ROOT : forall t us, In (root t) (grow us (nodes t))).
  { intros [u ch] us. cbn [root nodes grow]. apply GROW. destruct (in_dec unit_dec u us) as [I|I]; [exact I|]. apply in_or_app. right. now left. }
  assert (ADD : forall t c, proper t -> (forall u, In u (nodes t) -> U u) -> good U [] c -> (forall s, In s (sums c) -> exists u, In u (units c) /\ u_sum u = s) ->
    forall s, In s (sums (fst (add_unit t c))) -> exists u, In u (units (fst (add_unit t c))) /\ u_sum u = s).
  { intros t c P HU Gc L s. destruct (in_dec Nat.eq_dec (u_sum (root t)) (sums c)) as [I|N].
    - destruct (add_unit_refused t c I) as (x & ->). apply L.
    - destruct (add_unit_works U apart [] t c P HU Gc N) as (c' & -> & _ & Lu & _ & _ & S). cbn [fst]. rewrite S, Lu. intros [<-|I].
      + exists (root t). split; [apply ROOT|reflexivity].
      + destruct (L s I) as (u & Iu & E). exists u. split; [now apply GROW|exact E]. }
  assert (ADDS : forall ts c, (forall t, In t ts -> proper t /\ forall u, In u (nodes t) -> U u) -> good U [] c ->
    (forall s, In s (sums c) -> exists u, In u (units c) /\ u_sum u = s) ->
    forall s, In s (sums (fst (add_units ts c))) -> exists u, In u (units (fst (add_units ts c))) /\ u_sum u = s).
  { induction ts as [|t ts IH]; intros c K Gc L s; [apply L|]. cbn [add_units]. destruct (K t (or_introl eq_refl)) as [P HU].
    pose proof (ADD t c P HU Gc L) as L1. pose proof (do_op_good U apart [] (AddUnit t) c (conj P HU) Gc) as G1. cbn [do_op] in G1.
    destruct (add_unit t c) as [c1 [x|]]; cbn [fst] in *; [apply L1|]. apply IH; auto. intros t' I. apply K. now right. }
  cut (forall c, good U [] c -> (forall s, In s (sums c) -> exists u, In u (units c) /\ u_sum u = s) ->
    forall s, In s (sums (run ops c)) -> exists u, In u (units (run ops c)) /\ u_sum u = s).
  { intros K. apply (K fresh (good_fresh U)). intros s []. }
  induction H as [|o ops Ho H IH]; intros c Gc L s; [apply L|]. cbn [forallb] in R. apply andb_true_iff in R as [Ro R]. cbn [run].
  apply (IH R); [now apply do_op_good|]. clear s IH. intros s. destruct o as [t|u|p ts|t|u]; cbn [do_op op_in session_removes] in *; try discriminate.
  - destruct Ho as [P HU]. now apply ADD.
  - unfold remove_unit. destruct (in_dec unit_dec u (units c)) as [I|N].
    + destruct (in_dec Nat.eq_dec (u_sum u) (sums c)) as [S|S].
      * pose proof (remove_unit_works U apart [] u c Ho Gc I S) as (c' & E & _ & Lu & _ & _ & Sm & _). unfold remove_unit in E. rewrite E. cbn [fst].
        rewrite Sm, Lu. intros [Is Ns]. destruct (L s Is) as (v & Iv & Ev). exists v. split; [|exact Ev]. apply remove_In_iff. split; [exact Iv|]. intros ->. congruence.
      * apply mem_not in S. rewrite S. destruct (present u (units c)); apply L.
    + destruct (present u (units c)) eqn:P; [|apply L]. apply (present_In U apart) in P; [contradiction|exact Ho|exact (g_in _ _ _ Gc)].
  - unfold add_provider. destruct (mem p (providers c)); [apply L|]. apply (ADDS ts (with_provider p c) Ho (good_provider U [] p c Gc) L).
  - destruct Ho as (P & J & HU). destruct (state_add_works U apart [] t c P J HU Gc) as (c' & -> & _ & Lu & _ & _ & _ & S). cbn [fst].
    rewrite S, Lu. intros I. destruct (L s I) as (v & Iv & Ev). exists v. split; [now apply GROW|exact Ev].
Qed.

(** As long as units are only removed through the context, a unit that is not
    listed is never refused. *)
Theorem C64_new_units_are_never_refused : forall U ops t, tells_apart U -> Forall (op_in U) ops ->
  forallb (fun o => negb (session_removes o)) ops = true -> proper t -> (forall u, In u (nodes t) -> U u) ->
  let c := run ops fresh in ~ In (root t) (units c) ->
  exists c', add_unit t c = (c', None) /\ units c' = grow (units c) (nodes t).
Proof.
  intros U ops t apart H R P HU c N. pose proof (run_good U apart [] ops H fresh (good_fresh U)) as Gc. fold c in Gc.
  destruct (in_dec Nat.eq_dec (u_sum (root t)) (sums c)) as [I|I].
  - destruct (sums_listed U ops apart H R _ I) as (u & Iu & E). fold c in Iu. exfalso. apply N.
    rewrite <- (proj1 apart u (root t) (g_in _ _ _ Gc u Iu) (HU _ (root_In t)) E). exact Iu.
  - destruct (add_unit_works U apart [] t c P HU Gc I) as (c' & E & _ & L & _). eauto.
Qed.

(** What removing a unit does: it is gone from the list and cannot be asked
    for, everything else stays; a unit that is not there is refused.  Removed
    units can be added again. *)
Theorem C64_removing_a_unit : forall U ops u, tells_apart U -> Forall (op_in U) ops -> U u ->
  let c := run ops fresh in
  (~ In u (units c) -> remove_unit u c = (c, Some Value_error)) /\
  (In u (units c) -> In (u_sum u) (sums c) -> exists c', remove_unit u c = (c', None) /\
     units c' = remove unit_dec u (units c) /\
     (forall i, get_unit i None c' = if match with_id u with Some k => i =? k | None => false end then None else get_unit i None c) /\
     (exists c'', add_unit (Tree u []) c' = (c'', None) /\ units c'' = remove unit_dec u (units c) ++ [u])).
Proof.
  intros U ops u apart H Hu c. pose proof (run_good U apart [] ops H fresh (good_fresh U)) as Gc. fold c in Gc. split.
  - intros N. unfold remove_unit. destruct (present u (units c)) eqn:P; [|reflexivity].
    apply (present_In U apart) in P; [contradiction|exact Hu|exact (g_in _ _ _ Gc)].
  - intros I S. destruct (remove_unit_works U apart [] u c Hu Gc I S) as (c' & E & G' & L & _ & _ & Sm & ID). exists c'.
    split; [exact E|]. split; [exact L|]. split.
    + intros i. unfold get_unit. rewrite ID. destruct (match with_id u with Some k => i =? k | None => false end); reflexivity.
    + assert (P : proper (Tree u [])) by (cbn; tauto).
      assert (HU : forall x, In x (nodes (Tree u [])) -> U x) by (intros x [<-|[]]; exact Hu).
      assert (N : ~ In (u_sum (root (Tree u []))) (sums c')) by (rewrite Sm; cbn; tauto).
      destruct (add_unit_works U apart [] (Tree u []) c' P HU G' N) as (c'' & E2 & _ & L2 & _). exists c''. split; [exact E2|].
      rewrite L2, L. cbn [nodes map concat grow]. destruct (in_dec unit_dec u (remove unit_dec u (units c))) as [X|X]; [|reflexivity].
      exfalso. exact (remove_In unit_dec _ _ X).
Qed.

(** Providers: the same one is refused, nothing changes; a new one is listed
    and announced before its units; if all goes well all its units are there. *)
Theorem C64_adding_a_provider : forall U ops p ts, tells_apart U -> Forall (op_in U) ops ->
  (forall t, In t ts -> proper t /\ forall u, In u (nodes t) -> U u) ->
  let c := run ops fresh in
  (In p (providers c) -> add_provider p ts c = (c, Some Value_error)) /\
  (~ In p (providers c) -> exists us, let c' := fst (add_provider p ts c) in
     providers c' = providers c ++ [p] /\ log c' = log c ++ Provider p :: map Added us /\
     (snd (add_provider p ts c) = None -> units c' = grow (units c) (concat (map nodes ts)))).
Proof.
  intros U ops p ts apart H HT c. pose proof (run_good U apart [] ops H fresh (good_fresh U)) as Gc. fold c in Gc.
  unfold add_provider. split.
  - intros I. apply mem_In in I. now rewrite I.
  - intros N. apply mem_not in N. rewrite N. fold (with_provider p c).
    destruct (add_units_good U apart [] ts HT (with_provider p c) (good_provider U [] p c Gc)) as (_ & us & LG & PR).
    exists us. cbv zeta. split; [exact PR|]. split; [rewrite LG; cbn; now rewrite <- app_assoc|].
    assert (K : forall ts c, (forall t, In t ts -> proper t /\ forall u, In u (nodes t) -> U u) -> good U [] c ->
      snd (add_units ts c) = None -> units (fst (add_units ts c)) = grow (units c) (concat (map nodes ts))).
    { clear - apart. induction ts as [|t ts IH]; intros c HT Gc E; [reflexivity|]. cbn [add_units map concat] in *.
      destruct (HT t (or_introl eq_refl)) as [P HU]. destruct (in_dec Nat.eq_dec (u_sum (root t)) (sums c)) as [I|N].
      - destruct (add_unit_refused t c I) as (x & Ex). rewrite Ex in E. discriminate.
      - destruct (add_unit_works U apart [] t c P HU Gc N) as (c1 & E1 & G1 & L1 & _). rewrite E1 in *.
        rewrite grow_app, <- L1. apply IH; auto. intros t' I. apply HT. now right. }
    apply (K ts (with_provider p c)); auto. now apply good_provider.
Qed.

(** ** What does not hold *)

(** Two providers with the same text of a unit, under different names, cannot
    be in one session: the second is refused, half added. *)
Theorem C64_the_same_text_in_two_providers_refuted : forall u v p q, with_id u <> with_id v -> u_sum u = u_sum v -> p <> q ->
  let c := fst (add_provider p [Tree u []] fresh) in
  snd (add_provider p [Tree u []] fresh) = None /\
  (exists x, snd (add_provider q [Tree v []] c) = Some x) /\
  providers (fst (add_provider q [Tree v []] c)) = [p; q] /\ ~ In v (units (fst (add_provider q [Tree v []] c))).
Proof.
  intros u v p q N E K c.
  assert (C : exists d, add_provider p [Tree u []] fresh = (d, None) /\ sums d = [u_sum u] /\ providers d = [p] /\ units d = [u]).
  { unfold add_provider, add_units, add_unit, state_add. cbn [mem existsb fresh providers sums root].
    destruct (is_job u) eqn:J.
    - destruct (job_what u J) as (i & W & Wi). cbn [add_job]. rewrite Wi. cbn [job_map]. unfold on_unit_added. rewrite Wi. cbn.
      eexists. split; [reflexivity|]. cbn. auto.
    - eexists. split; [reflexivity|]. cbn. auto. }
  destruct C as (d & E0 & S & P & L). unfold c. rewrite E0. cbn [fst snd]. split; [reflexivity|].
  unfold add_provider. rewrite P. cbn [mem existsb]. assert (Q : (q =? p) = false) by (apply Nat.eqb_neq; congruence). rewrite Q. cbn [orb].
  cbn [add_units]. unfold add_unit. cbn [root sums]. rewrite S, <- E. cbn [mem existsb]. rewrite Nat.eqb_refl. cbn [orb fst snd providers units].
  split; [eauto|]. split; [reflexivity|]. rewrite L. intros [<-|[]]. congruence.
Qed.

(** Jobs that the session makes from other jobs, or from templates, cannot be
    removed through the context. *)
Theorem C64_jobs_the_session_made_refuted : exists t u, proper t /\ In u (nodes t) /\
  let c := fst (add_unit t fresh) in In u (units c) /\ remove_unit u c = (c, Some Key_error).
Proof.
  exists (Tree (mk_unit 0 0 (AJob 0)) [Tree (mk_unit 1 1 (AJob 1)) []]), (mk_unit 1 1 (AJob 1)). split; [|split; [|split]].
  - cbn. split; [discriminate|]. intros x [<-|[]]. reflexivity.
  - cbn. auto.
  - vm_compute. auto.
  - reflexivity.
Qed.

(** A unit that clashed with another is refused for ever, even when the other
    is gone. *)
Theorem C64_a_clash_is_remembered_refuted : forall i a b x y, a <> b -> let u := mk_unit x a (AJob i) in let v := mk_unit y b (AJob i) in
  let c := run [AddUnit (Tree u []); AddUnit (Tree v []); RemoveUnit u] fresh in
  units c = [] /\ add_unit (Tree v []) c = (c, Some Value_error).
Proof.
  intros i a b x y N u v c.
  assert (Q : (b =? a) = false) by (apply Nat.eqb_neq; congruence). assert (Q' : (a =? b) = false) by (apply Nat.eqb_neq; congruence).
  assert (C : exists jm im lg, c = mk_context [] [] jm im [b] [] lg).
  { unfold c, u, v, run, do_op, add_unit, state_add, remove_unit, state_remove, on_unit_added, on_unit_removed, present, unit_eqb, mem, set, unset.
    repeat (cbn [add_job with_id u_what u_sum root is_job fresh sums existsb job_map units jobs id_map providers log app fst snd orb remove_first negb filter
      on_unit_added] || rewrite Q || rewrite Q' || rewrite Nat.eqb_refl || unfold on_unit_added, set, unset, unit_eqb). eauto. }
  destruct C as (jm & im & lg & ->). split; [reflexivity|]. unfold add_unit, v. cbn. rewrite Nat.eqb_refl. reflexivity.
Qed.

(** Identifiers are shared by all kinds of units: removing one of two units
    with the same identifier hides the other, which then cannot be removed
    properly. *)
Theorem C64_units_of_two_kinds_refuted : exists u v, with_id u = with_id v /\ u_sum u <> u_sum v /\
  let c := run [AddUnit (Tree u []); AddUnit (Tree v []); RemoveUnit u] fresh in
  units c = [v] /\ (forall i, get_unit i None c = None) /\
  exists c', remove_unit v c = (c', Some Key_error) /\ units c' = [] /\ follow (log c') [] = [v].
Proof.
  exists (mk_unit 0 0 (AUnit 1 7)), (mk_unit 1 1 (AUnit 2 7)). split; [reflexivity|]. split; [discriminate|].
  split; [vm_compute; reflexivity|]. split.
  - intros i. cbn. unfold get_unit. cbn. unfold unset, set. destruct (i =? 7); reflexivity.
  - eexists. split; [reflexivity|]. split; vm_compute; reflexivity.
Qed.

(** Units other than jobs that are made from templates pile up each time the
    resource job is run again. *)
Theorem C64_made_units_pile_up_refuted : forall u n, is_job u = false ->
  units (run (repeat (SessionAdds (Tree u [])) n) fresh) = repeat u n.
Proof.
  intros u n J. assert (K : forall c, units (run (repeat (SessionAdds (Tree u [])) n) c) = units c ++ repeat u n).
  { induction n as [|n IH]; intros c; [cbn; now rewrite app_nil_r|]. cbn [repeat run]. rewrite IH. cbn [do_op]. unfold state_add. cbn [root]. rewrite J.
    unfold add_other, on_unit_added. cbn. now rewrite <- app_assoc. }
  now rewrite K.
Qed.

(** Adding a unit without identifier twice is not refused with the documented
    exception. *)
Theorem C64_no_identifier_refuted : forall x s k,
  snd (add_unit (Tree (mk_unit x s (ABare k)) []) (fst (add_unit (Tree (mk_unit x s (ABare k)) []) fresh))) = Some Attribute_error.
Proof. intros x s k. unfold add_unit. cbn. now rewrite Nat.eqb_refl. Qed.

(** ** Session managers *)

Definition in_step (m : manager) : Prop := length (contexts m) <= 1 /\ forall k, In k (contexts m) -> plans_of m k = plans m.
Lemma propagate_step m : length (contexts m) <= 1 -> in_step (propagate m).
Proof. intros L. split; [exact L|]. intros k I. cbn in *. apply mem_In in I. now rewrite I. Qed.

(** A manager never has more than one device, and that device always has the
    test plans of the session, whatever comes first: the device or the plans. *)
Theorem C64_the_device_has_the_plans_of_the_session : forall ks po m ops, (forall k, In k ks -> po k = []) -> create ks po = Some m ->
  let m' := mrun ops m in length (contexts m') <= 1 /\ forall k, In k (contexts m') -> plans_of m' k = plans m'.
Proof.
  intros ks po m ops F C. assert (I : in_step m).
  { destruct ks as [|k [|k' ks]]; cbn in C; try discriminate; injection C as <-; split; cbn; auto; try (intros x X; contradiction). }
  clear F C. revert m I. induction ops as [|o ops IH]; intros m I; [exact I|]. cbn [mrun]. apply IH.
  destruct I as [L P]. destruct o as [k|k|l]; cbn [do_mop].
  - unfold add_context. destruct (contexts m) eqn:E; [|split; cbn [fst]; rewrite E; assumption]. apply propagate_step. cbn. lia.
  - unfold remove_context. destruct (mem k (contexts m)); [|now split]. apply propagate_step. cbn.
    assert (X : forall l : list nat, length (remove Nat.eq_dec k l) <= length l). { induction l as [|x l IHl]; cbn; [lia|]. destruct (Nat.eq_dec k x); cbn; lia. }
    specialize (X (contexts m)). lia.
  - unfold set_plans. destruct (distinct l); [|now split]. apply propagate_step. exact L.
Qed.
(** What is refused: a second device, removing one that is not there, and plans
    that repeat; then nothing changes. *)
Theorem C64_what_a_manager_refuses : forall o m, snd (do_mop o m) <> None <->
  match o with AddContext _ => contexts m <> [] | RemoveContext k => ~ In k (contexts m) | SetPlans l => ~ NoDup l end.
Proof.
  intros o m. destruct o as [k|k|l]; cbn [do_mop].
  - unfold add_context. destruct (contexts m); cbn; split; intros; congruence.
  - unfold remove_context. destruct (mem k (contexts m)) eqn:E; cbn.
    + apply mem_In in E. tauto.
    + apply mem_not in E. split; [auto|discriminate].
  - unfold set_plans. assert (D : distinct l = true <-> NoDup l).
    { induction l as [|x l IH]; cbn [distinct]; [split; [constructor|reflexivity]|]. rewrite andb_true_iff, negb_true_iff, mem_not, IH.
      split; [intros [A B]; now constructor|]. intros N. inversion N; auto. }
    destruct (distinct l); cbn.
    + split; [congruence|]. intros X. exfalso. apply X. now apply D.
    + split; [|discriminate]. intros _ N. apply D in N. discriminate.
Qed.
Theorem C64_a_refusal_changes_nothing : forall o m, snd (do_mop o m) <> None -> fst (do_mop o m) = m.
Proof.
  intros o m. destruct o as [k|k|l]; cbn [do_mop].
  - unfold add_context. destruct (contexts m); cbn; congruence.
  - unfold remove_context. destruct (mem k (contexts m)); cbn; congruence.
  - unfold set_plans. destruct (distinct l); cbn; congruence.
Qed.

(** ** A case *)
Definition case_job : tree := Tree (mk_unit 0 10 (AJob 1)) [Tree (mk_unit 1 11 (AJob 2)) []].
Definition case_category : tree := Tree (mk_unit 2 12 (AUnit 5 3)) [].
Definition case_file : tree := Tree (mk_unit 3 13 (ABare 6)) [].
Definition case_ops : list op := [AddProvider 0 [case_job; case_file]; AddUnit case_category; AddProvider 0 []; RemoveUnit (mk_unit 0 10 (AJob 1)); SessionAdds case_job].
Definition case_universe (u : unit) : Prop := In u [mk_unit 0 10 (AJob 1); mk_unit 1 11 (AJob 2); mk_unit 2 12 (AUnit 5 3); mk_unit 3 13 (ABare 6)].
Example C64_case_told_apart : tells_apart case_universe /\ Forall (op_in case_universe) case_ops.
Proof.
  split.
  - split.
    + intros a b A B. cbn in A, B. destruct A as [<-|[<-|[<-|[<-|[]]]]], B as [<-|[<-|[<-|[<-|[]]]]]; cbn; intros E; try reflexivity; discriminate.
    + intros a b i A B. cbn in A, B. destruct A as [<-|[<-|[<-|[<-|[]]]]], B as [<-|[<-|[<-|[<-|[]]]]]; cbn; intros E F; try reflexivity; congruence.
  - assert (J : proper case_job /\ forall u, In u (nodes case_job) -> case_universe u).
    { split; [split; [discriminate|intros x [<-|[]]; reflexivity]|]. intros u [<-|[<-|[]]]; unfold case_universe; cbn; tauto. }
    assert (K : proper case_file /\ forall u, In u (nodes case_file) -> case_universe u).
    { split; [split; [reflexivity|intros x []]|]. intros u [<-|[]]; unfold case_universe; cbn; tauto. }
    unfold case_ops. apply Forall_forall. intros o [<-|[<-|[<-|[<-|[<-|[]]]]]]; cbn [op_in].
    + intros t [<-|[<-|[]]]; assumption.
    + split; [split; [reflexivity|intros x []]|]. intros u [<-|[]]. unfold case_universe. cbn. tauto.
    + intros t [].
    + unfold case_universe. cbn. tauto.
    + split; [exact (proj1 J)|]. split; [reflexivity|exact (proj2 J)].
Qed.
Example C64_case_units : map u_obj (units (run case_ops fresh)) = [1; 3; 2; 0] /\
  log (run case_ops fresh) = [Provider 0; Added (mk_unit 0 10 (AJob 1)); Added (mk_unit 1 11 (AJob 2)); Added (mk_unit 3 13 (ABare 6));
    Added (mk_unit 2 12 (AUnit 5 3)); Removed (mk_unit 0 10 (AJob 1)); Added (mk_unit 0 10 (AJob 1))].
Proof. vm_compute. auto. Qed.

Print Assumptions C64_one_view_of_the_units.
Print Assumptions C64_one_view_of_existing_units.
Print Assumptions C64_units_of_a_kind.
Print Assumptions C64_adding_a_unit.
Print Assumptions C64_new_units_are_never_refused.
Print Assumptions C64_removing_a_unit.
Print Assumptions C64_adding_a_provider.
Print Assumptions C64_the_same_text_in_two_providers_refuted.
Print Assumptions C64_jobs_the_session_made_refuted.
Print Assumptions C64_a_clash_is_remembered_refuted.
Print Assumptions C64_units_of_two_kinds_refuted.
Print Assumptions C64_made_units_pile_up_refuted.
Print Assumptions C64_no_identifier_refuted.
Print Assumptions C64_the_device_has_the_plans_of_the_session.
Print Assumptions C64_what_a_manager_refuses.
Print Assumptions C64_a_refusal_changes_nothing.
