(** Lemmas about test plans. *)
From Coq Require Import String Ascii List Bool Arith Lia Permutation.
From Verif Require Import Base BaseFacts ScanModel ScanSpec ScanProofs ScanProps Rfc822Model.
From Verif Require Import XparseModel XparseSpec XparseProofs XparseProps.
From Verif Require Import QualModel QualSpec QualProps TestplanModel TestplanSpec.
Import ListNotations.
Local Open Scope nat_scope.
Local Open Scope string_scope.
Local Open Scope list_scope.

Lemma plan_induction (P : plan -> Prop) :
  (forall n i e m b c s l, Forall P l -> P (Plan n i e m b c s l)) -> forall p, P p.
Proof.
  intros H. fix IH 1. intros [n i e m b c s l]. apply H.
  induction l as [|p l IHl]; constructor; [apply IH|exact IHl].
Qed.

Lemma part_iff p r : part p r <-> r = p \/ exists q, In q (nested p) /\ part q r.
Proof.
  split.
  - intros H. destruct H; eauto.
  - intros [->|(q & A & B)]; [constructor|]. econstructor; eauto.
Qed.

Lemma category_part_iff p r : category_part p r <->
  category p <> None /\ (r = p \/ exists q, In q (nested p) /\ category_part q r).
Proof.
  split.
  - intros H. destruct H; split; eauto.
  - intros [C [->|(q & A & B)]]; [now constructor|]. econstructor; eauto.
Qed.

Lemma in_namespace_iff n i full : in_namespace n i full <-> full = qualify n i.
Proof. unfold in_namespace, qualify. destruct (String.index 0 "::" i), n; tauto. Qed.

Lemma ends_dollar_app t : ends_dollar (t ++ ["$"%char]) = true.
Proof. unfold ends_dollar. rewrite rev_app_distr. reflexivity. Qed.

Lemma ends_dollar_inv t : ends_dollar t = true -> exists u, t = u ++ ["$"%char].
Proof.
  unfold ends_dollar. intros H. destruct (rev t) as [|c r] eqn:E; [discriminate|].
  apply Ascii.eqb_eq in H. subst c. exists (rev r).
  rewrite <- (rev_involutive t), E. reflexivity.
Qed.

Lemma starts_caret_inv t : starts_caret t = true -> exists u, t = "^"%char :: u.
Proof. destruct t; [discriminate|]. cbn. intros H. apply Ascii.eqb_eq in H. subst. eauto. Qed.

Lemma whole_pattern_iff n t re : whole_pattern n t re <-> re = qualify_pattern n t.
Proof.
  unfold whole_pattern, qualify_pattern, between. split.
  - intros (bare & full & U & Q & ->). apply in_namespace_iff in Q as ->. inversion U; subst.
    + replace (starts_caret _) with true by reflexivity.
      rewrite (ends_dollar_app ("^"%char :: bare) : ends_dollar ("^"%char :: bare ++ ["$"%char]) = true).
      cbn [andb tl]. now rewrite removelast_last.
    + rewrite H. reflexivity.
    + rewrite H, ends_dollar_app. cbn [andb]. now rewrite removelast_last.
    + rewrite H, H0. reflexivity.
  - intros ->. destruct (starts_caret t) eqn:S1, (ends_dollar t) eqn:E1; cbn [andb].
    + destruct (starts_caret_inv _ S1) as (u & ->). destruct (ends_dollar_inv _ E1) as (w & E).
      destruct w as [|c w]; [discriminate|]. injection E as <- ->.
      exists w. eexists. split; [apply un_both|]. split; [now apply in_namespace_iff|].
      cbn [tl]. now rewrite removelast_last.
    + destruct (starts_caret_inv _ S1) as (u & ->). exists u. eexists. split; [now apply un_start|].
      split; [now apply in_namespace_iff|]. reflexivity.
    + destruct (ends_dollar_inv _ E1) as (w & ->). exists w. eexists. split; [now apply un_end|].
      split; [now apply in_namespace_iff|]. now rewrite removelast_last.
    + exists t. eexists. split; [now apply un_none|]. split; [now apply in_namespace_iff|]. reflexivity.
Qed.

Lemma bind_inl {A B} (x : res A) (f : A -> res B) b : bind x f = inl b -> exists a, x = inl a /\ f a = inl b.
Proof. destruct x; cbn; [eauto|discriminate]. Qed.

Lemma of_outcome_inl {A} (x : outcome A) a : of_outcome x = inl a -> x = Done a.
Proof. destruct x; cbn; congruence. Qed.

Lemma collect_inl {A B} (f : A -> res (list B)) l : forall r, collect f l = inl r ->
  (forall y, In y r <-> exists x a, In x l /\ f x = inl a /\ In y a) /\
  (forall x, In x l -> exists a, f x = inl a).
Proof.
  induction l as [|x l IH]; intros r H; cbn in H.
  - injection H as <-. split; [|now intros x []]. intros y. split; [intros []|].
    intros (x & a & [] & _).
  - apply bind_inl in H as (a & E & H). apply bind_inl in H as (b & Eb & H). injection H as <-.
    destruct (IH _ Eb) as [I1 I2]. split.
    + intros y. rewrite in_app_iff, I1. split.
      * intros [H|(x' & a' & H1 & H2 & H3)]; [exists x, a; cbn; auto|exists x', a'; cbn; auto].
      * intros (x' & a' & [<-|H1] & H2 & H3); [left; congruence|right; eauto].
    + intros x' [<-|H]; eauto.
Qed.

Lemma in_each_line {A} (f : text -> outcome (list A)) ls : forall n r, each_line f n ls = Done r ->
  (forall x, (exists k, In (k, x) r) <-> exists l part, In l ls /\ f l = Done part /\ In x part) /\
  (forall l, In l ls -> exists part, f l = Done part).
Proof.
  induction ls as [|l ls IH]; intros n r H; cbn [each_line] in H.
  - injection H as <-. split; [|now intros x []]. intros x. split; [intros (k & [])|].
    intros (x' & a & [] & _).
  - destruct (f l) as [a| |] eqn:E; try discriminate. cbn [obind] in H.
    destruct (each_line f (S n) ls) as [b| |] eqn:Eb; try discriminate. cbn in H. injection H as <-.
    destruct (IH _ _ Eb) as [I1 I2]. split.
    + intros x. split.
      * intros (k & H). apply in_app_iff in H as [H|H].
        { apply in_map_iff in H as (y & Y & H). injection Y as _ ->. exists l, a. cbn; auto. }
        { destruct (proj1 (I1 x) (ex_intro _ k H)) as (l' & p & H1 & H2 & H3). exists l', p. cbn; auto. }
      * intros (l' & p & [<-|H1] & H2 & H3).
        { exists n. apply in_app_iff. left. rewrite E in H2. injection H2 as ->. now apply in_map. }
        { destruct (proj2 (I1 x)) as (k & H); [eauto|]. exists k. apply in_app_iff. now right. }
    + intros l' [<-|H]; eauto.
Qed.

(** The statements of an include field. *)
Lemma include_statements s n r : ~ In NUL (txt s) -> parse_include_list (txt s) n = Done r ->
  forall t ov, (exists k, In (k, inl (t, ov)) r) <-> includes_stmt (Some s) t ov.
Proof.
  intros N H t ov. unfold parse_include_list in H. destruct (in_each_line _ _ _ _ H) as [I1 I2].
  rewrite I1. pose proof (lines_clean _ N) as C. rewrite Forall_forall in C. split.
  - intros (l & part & Hl & F & Hin). exists s, l. split; auto. split; auto.
    apply C46_include; auto. destruct (next l 0) as [[[tok lx] p]| |]; try discriminate. cbn [obind] in F.
    destruct tok; try (injection F as <-; now destruct Hin);
      destruct (parse_include l) as [x| |]; try discriminate; injection F as <-; destruct Hin as [->|[]]; auto.
  - intros (s' & l & E & Hl & R). injection E as <-. exists l.
    pose proof (proj2 (C46_include l t ov (C l Hl)) R) as P.
    destruct (I2 l Hl) as (part & F). exists part. split; auto. split; auto.
    destruct (next_symbol l 0 _ _ _ (reads_ahead _ _ R (C l Hl))) as (p' & E & _).
    rewrite E in F. cbn [tok_of obind] in F. rewrite P in F. injection F as <-. now left.
Qed.

Lemma override_statements s n r : ~ In NUL (txt s) -> parse_override_list (txt s) n = Done r ->
  forall v p, (exists k, In (k, inl (v, p)) r) <-> override_stmt (Some s) v p.
Proof.
  intros N H v p. unfold parse_override_list in H. destruct (in_each_line _ _ _ _ H) as [I1 I2].
  rewrite I1. pose proof (lines_clean _ N) as C. rewrite Forall_forall in C. split.
  - intros (l & part & Hl & F & Hin). exists s, l. split; auto. split; auto. apply C46_override; auto.
    destruct (parse_override l) as [x| |]; try discriminate. injection F as <-. destruct Hin as [->|[]]. reflexivity.
  - intros (s' & l & E & Hl & R). injection E as <-.
    pose proof (proj2 (C46_override l v p (C l Hl)) R) as P.
    exists l, [inl (v, p)]. rewrite P. cbn. auto.
Qed.

(** The fields of the parts of a clean plan. *)
Lemma clean_nested p q : clean p -> In q (nested p) -> clean q.
Proof. intros C Hq r Hr. apply C. econstructor; eauto. Qed.

Lemma clean_field p f s : clean p -> In f [include p; exclude p; mandatory p; bootstrap p; category p; certification p] ->
  f = Some s -> ~ In NUL (txt s).
Proof. intros C. apply C. constructor. Qed.

Lemma clean_words p s : clean p -> bootstrap p = Some s ->
  forall r, of_outcome (parse_words (S (length (txt s))) (txt s)) = inl r ->
  forall w, In (Text w) r <-> lists_word (Some s) w.
Proof.
  intros C E r H w. apply of_outcome_inl in H.
  assert (N : ~ In NUL (txt s)).
  { apply (clean_field p (bootstrap p) s C); auto. cbn. tauto. }
  assert (X : forall items, pieces (txt s) items [] -> r = flat_map entry_for items).
  { intros items P. unfold parse_words in H. pose proof (pieces_short _ _ _ P).
    rewrite (parse_pieces (txt s) (length items) items [] 0 (txt s)) in H; auto; try lia. congruence. }
  assert (Y : forall items, In (Text w) (flat_map entry_for items) <-> In (IWord w) items \/ In (IQuoted w) items).
  { intros items. rewrite in_flat_map. split.
    - intros (i & Hi & Hw). destruct i; cbn in Hw; try tauto; destruct Hw as [Hw|[]]; try discriminate;
        injection Hw as ->; auto.
    - intros [Hi|Hi]; eexists; split; try exact Hi; cbn; auto. }
  split.
  - intros Hw. destruct (C p (part_self p)) as [_ C2]. destruct (C2 s E) as (items & P).
    exists s, items. split; auto. split; auto. rewrite (X _ P) in Hw. now apply Y.
  - intros (s' & items & E' & P & Hw). injection E' as <-. rewrite (X _ P). now apply Y.
Qed.

Section Select.
  Variable job : Type.
  Variable job_id : job -> string.
  Variable re_parse : string -> re_kind.
  Variable compiles : string -> bool.
  Variable re_match : string -> string -> bool.
  Variable set_order : list string -> list string.
  Hypothesis set_members : forall l x, In x (set_order l) <-> In x l.

  Local Notation gen := (gen_qualifiers job job_id re_parse compiles re_match).
  Local Notation selects := (selects job job_id re_parse re_match).

  Lemma gen_ok n v inclusive qs :
    (forall s, v = Some s -> ~ In NUL (txt s)) ->
    gen n v inclusive = inl qs ->
    (forall q, In q qs -> exists m, q = Simple m inclusive) /\
    (forall j, (exists m, In (Simple m inclusive) qs /\ matches job job_id m j) <->
               exists t ov, includes_stmt v t ov /\ selects n t j).
  Proof.
    intros N H. unfold gen_qualifiers in H. destruct v as [s|].
    2: { injection H as <-. split; [intros q []|]. intros j. split.
         - intros (m & [] & _).
         - intros (t & ov & (s & l & E & _) & _). discriminate. }
    specialize (N s eq_refl).
    apply bind_inl in H as (ms & H1 & H). unfold parse_matchers in H1.
    apply bind_inl in H1 as (stmts & H0 & H1). apply of_outcome_inl in H0.
    pose proof (include_statements _ _ _ N H0) as St.
    destruct (collect_inl _ _ _ H1) as [A1 A2]. destruct (collect_inl _ _ _ H) as [B1 B2].
    assert (Ok : forall x, In x stmts -> exists t ov m, snd x = inl (t, ov) /\
      matcher_of job job_id re_parse compiles re_match n (snd x) = inl (inl m)).
    { intros x Hx. destruct (A2 x Hx) as (a & Ea). apply bind_inl in Ea as (m & Em & Ea). injection Ea as <-.
      assert (Hm : In m ms).
      { apply A1. exists x, [m]. rewrite Em. cbn. auto. }
      destruct (B2 m Hm) as (a & Ea). destruct m as [m|e]; [|discriminate].
      destruct (snd x) as [[t ov]|pr] eqn:Ex; [exists t, ov, m; auto|]. cbn in Em. discriminate. }
    split.
    - intros q Hq. apply B1 in Hq as (m & a & Hm & Ea & Hq). destruct m; [|discriminate].
      injection Ea as <-. destruct Hq as [<-|[]]. eauto.
    - intros j. split.
      + intros (m & Hm & M). apply B1 in Hm as (m' & a & Hm & Ea & Hq). destruct m' as [m'|]; [|discriminate].
        injection Ea as <-. destruct Hq as [E|[]]. injection E as ->.
        apply A1 in Hm as (x & a & Hx & Ea & Hm). apply bind_inl in Ea as (m'' & Em & Ea). injection Ea as <-.
        destruct Hm as [->|[]]. destruct (Ok x Hx) as (t & ov & m' & Ex & Em').
        rewrite Em in Em'. injection Em' as <-. exists t, ov. split.
        * apply St. exists (fst x). destruct x as [k y]. cbn in *. now subst y.
        * rewrite Ex in Em. cbn in Em. unfold TestplanSpec.selects.
          destruct (re_parse (str t)); try discriminate.
          { injection Em as <-. apply in_namespace_iff. cbn in M. now symmetry. }
          { unfold pattern_matcher in Em. destruct (compiles _); [|discriminate]. cbn in Em.
            injection Em as <-. cbn in M. eexists. split; [now apply whole_pattern_iff|]. exact M. }
      + intros (t & ov & R & Sel). apply St in R as (k & Hx). destruct (Ok _ Hx) as (t' & ov' & m & Ex & Em).
        cbn in Ex. injection Ex as <- <-. exists m. split.
        * apply B1. exists (inl m), [Simple m inclusive]. split; [|cbn; auto].
          apply A1. exists (k, inl (t, ov)), [inl m]. split; auto. split; [|now left].
          cbn [snd] in *. rewrite Em. reflexivity.
        * cbn in Em. unfold TestplanSpec.selects in Sel. destruct (re_parse (str t)); try contradiction.
          { injection Em as <-. cbn. symmetry. now apply in_namespace_iff. }
          { unfold pattern_matcher in Em. destruct (compiles _); [|discriminate]. cbn in Em. injection Em as <-.
            cbn. destruct Sel as (re & Wp & M). apply whole_pattern_iff in Wp as ->. exact M. }
  Qed.

  Lemma bootstrap_ids_ok p : clean p -> forall ids, bootstrap_job_ids p = inl ids ->
    forall i, In i ids <-> exists q w, part p q /\ lists_word (bootstrap q) w /\ in_namespace (ns q) (str w) i.
  Proof.
    induction p as [n i e m b c s l IH] using plan_induction. intros C ids H x.
    cbn [bootstrap_job_ids bootstrap ns] in H.
    apply bind_inl in H as (here & Hh & H). apply bind_inl in H as (there & Ht & H). injection H as <-.
    set (p := Plan n i e m b c s l) in *.
    assert (Hh' : In x here <-> exists w, lists_word (bootstrap p) w /\ in_namespace (ns p) (str w) x).
    { destruct b as [b|]; cbn [bootstrap ns p].
      - apply bind_inl in Hh as (es & He & Hh). injection Hh as <-.
        pose proof (clean_words p b C eq_refl es He) as W. rewrite in_flat_map. split.
        + intros (en & Hen & Hx). destruct en as [w|]; [|destruct Hx]. destruct Hx as [<-|[]].
          exists w. split; [now apply W|]. now apply in_namespace_iff.
        + intros (w & Hw & Q). exists (Text w). split; [now apply W|]. left. symmetry. now apply in_namespace_iff.
      - injection Hh as <-. split; [intros []|]. intros (w & (s' & it & E & _) & _). discriminate. }
    rewrite in_app_iff, Hh'. destruct (collect_inl _ _ _ Ht) as [T1 T2].
    rewrite Forall_forall in IH. split.
    - intros [(w & A & B)|A].
      + exists p, w. split; [constructor|]. auto.
      + apply T1 in A as (q & a & Hq & Ea & Hx).
        destruct (proj1 (IH q Hq (clean_nested p q C Hq) a Ea x) Hx) as (r & w & R & A & B).
        exists r, w. split; auto. eapply part_nested; [exact Hq|exact R].
    - intros (q & w & R & A & B). apply part_iff in R as [->|(r & Hr & R)]; [left; eauto|].
      right. apply T1. destruct (T2 r Hr) as (a & Ea). exists r, a. split; auto. split; auto.
      apply (IH r Hr (clean_nested p r C Hr) a Ea). eauto.
  Qed.

  Lemma primitive_app l l' m i : primitive job (Composite (l ++ l')) m i <->
    primitive job (Composite l) m i \/ primitive job (Composite l') m i.
  Proof.
    split.
    - intros H. inversion H; subst. apply in_app_iff in H1 as [H1|H1]; [left|right]; econstructor; eauto.
    - intros [H|H]; inversion H; subst; econstructor; eauto; apply in_app_iff; auto.
  Qed.

  Lemma primitive_simple m0 i0 m i : primitive job (Simple m0 i0) m i <-> m = m0 /\ i = i0.
  Proof. split; [intros H; inversion H; auto|]. intros [-> ->]. constructor. Qed.

  Lemma primitive_composite l m i : primitive job (Composite l) m i <-> exists q, In q l /\ primitive job q m i.
  Proof. split; [intros H; inversion H; eauto|]. intros (q & A & B). econstructor; eauto. Qed.

  Lemma nested_collect {A} (f : plan -> res A) l r :
    collect (fun q => bind (f q) (fun x => inl [x])) l = inl r ->
    (forall y, In y r <-> exists q, In q l /\ f q = inl y).
  Proof.
    intros H y. destruct (collect_inl _ _ _ H) as [T1 _]. rewrite T1. split.
    - intros (x & a & Hx & Ea & Hy). apply bind_inl in Ea as (z & Ez & Ea). injection Ea as <-.
      destruct Hy as [<-|[]]. eauto.
    - intros (q & Hq & E). exists q, [y]. rewrite E. cbn. auto.
  Qed.

  Lemma nested_collect_all {A} (f : plan -> res A) l r :
    collect (fun q => bind (f q) (fun x => inl [x])) l = inl r ->
    forall q, In q l -> exists y, f q = inl y.
  Proof.
    intros H q Hq. destruct (collect_inl _ _ _ H) as [_ T2]. destruct (T2 q Hq) as (a & Ea).
    apply bind_inl in Ea as (z & Ez & _). eauto.
  Qed.

  Definition boots (p : plan) (j : job) : Prop :=
    exists q w, part p q /\ lists_word (bootstrap q) w /\ in_namespace (ns q) (str w) (job_id j).

  Lemma bootstrap_qualifier_ok excluding p : clean p -> forall q,
    bootstrap_qualifier job set_order excluding p = inl q ->
    forall j inclusive,
      (exists m, primitive job q m inclusive /\ matches job job_id m j) <->
      (inclusive = negb excluding /\ boots p j).
  Proof.
    induction p as [n i e m b c s l IH] using plan_induction. intros C x H j inclusive.
    cbn [bootstrap_qualifier] in H.
    apply bind_inl in H as (here & Hh & H). apply bind_inl in H as (there & Ht & H). injection H as <-.
    set (p := Plan n i e m b c s l) in *. rewrite Forall_forall in IH.
    assert (Hn : (exists m, primitive job (Composite there) m inclusive /\ matches job job_id m j) <->
                 inclusive = negb excluding /\ exists q, In q l /\ boots q j).
    { pose proof (nested_collect _ _ _ Ht) as T. pose proof (nested_collect_all _ _ _ Ht) as T'. split.
      - intros (m0 & P & M). apply primitive_composite in P as (q & Hq & P). apply T in Hq as (r & Hr & E).
        destruct (proj1 (IH r Hr (clean_nested p r C Hr) q E j inclusive)) as [A B]; eauto.
      - intros (A & r & Hr & B). destruct (T' r Hr) as (y & Ey).
        destruct (proj2 (IH r Hr (clean_nested p r C Hr) y Ey j inclusive)) as (m0 & P & M); auto.
        exists m0. split; auto. apply primitive_composite. exists y. split; auto. apply T. eauto. }
    assert (Hb : (exists m, primitive job (Composite here) m inclusive /\ matches job job_id m j) ->
                 inclusive = negb excluding /\ boots p j).
    { intros (m0 & P & M). apply primitive_composite in P as (q & Hq & P).
      destruct (bootstrap p) as [bs|] eqn:Eb; [|injection Hh as <-; destruct Hq].
      apply bind_inl in Hh as (ids & Hi & Hh). injection Hh as <-.
      apply in_map_iff in Hq as (y & <- & Hy). apply primitive_simple in P as [-> ->].
      split; auto. apply (proj1 (set_members _ _)) in Hy. apply (bootstrap_ids_ok p C _ Hi) in Hy.
      cbn in M. subst y. exact Hy. }
    assert (Hb' : (exists w, lists_word (bootstrap p) w /\ in_namespace (ns p) (str w) (job_id j)) ->
                  inclusive = negb excluding ->
                  (exists m, primitive job (Composite here) m inclusive /\ matches job job_id m j)).
    { intros (w & Hw & Q) ->. destruct (bootstrap p) as [bs|] eqn:Eb; [|destruct Hw as (? & ? & ? & _); discriminate].
      apply bind_inl in Hh as (ids & Hi & Hh). injection Hh as <-.
      exists (MId (job_id j)). split; [|reflexivity]. apply primitive_composite.
      exists (Simple (MId (job_id j)) (negb excluding)). split; [|constructor].
      apply (in_map (fun i => Simple (MId i) (negb excluding))). apply set_members. apply (bootstrap_ids_ok p C _ Hi).
      exists p, w. rewrite Eb. split; [constructor|]. auto. }
    split.
    - intros (m0 & P & M). apply primitive_app in P as [P|P].
      + apply Hb. eauto.
      + destruct (proj1 Hn) as (A & q & Hq & r & w & R & B); [eauto|]. split; auto.
        exists r, w. split; auto. eapply part_nested; [exact Hq|exact R].
    - intros (A & r & w & R & B & D). apply part_iff in R as [->|(q & Hq & R)].
      + destruct Hb' as (m0 & P & M); eauto. exists m0. split; auto. apply primitive_app. auto.
      + destruct (proj2 Hn) as (m0 & P & M); [split; auto; exists q; split; [exact Hq|exists r, w; auto]|].
        exists m0. split; auto. apply primitive_app. auto.
  Qed.

  Lemma gen_primitive n v inclusive qs :
    (forall s, v = Some s -> ~ In NUL (txt s)) ->
    gen n v inclusive = inl qs ->
    forall j b, (exists m, primitive job (Composite qs) m b /\ matches job job_id m j) <->
      b = inclusive /\ exists t ov, includes_stmt v t ov /\ selects n t j.
  Proof.
    intros N H j b. destruct (gen_ok n v inclusive qs N H) as [G1 G2]. rewrite <- G2. split.
    - intros (m & P & M). apply primitive_composite in P as (q & Hq & P).
      destruct (G1 q Hq) as (m0 & ->). apply primitive_simple in P as [-> ->]. split; eauto.
    - intros (-> & m & Hm & M). exists m. split; auto. apply primitive_composite. eexists. split; [exact Hm|]. constructor.
  Qed.

  Lemma exists_or {A} (P Q M : A -> Prop) :
    (exists m, (P m \/ Q m) /\ M m) <-> (exists m, P m /\ M m) \/ (exists m, Q m /\ M m).
  Proof. firstorder. Qed.

  Lemma qualifier_ok p : clean p -> forall q,
    get_qualifier job job_id re_parse compiles re_match set_order p = inl q ->
    forall j b, (exists m, primitive job q m b /\ matches job job_id m j) <->
      (b = true /\ plan_includes job job_id re_parse re_match p j) \/
      (b = false /\ plan_excludes job job_id re_parse re_match p j).
  Proof.
    induction p as [n i e m bo c s l IH] using plan_induction. intros C x H j b.
    cbn [get_qualifier] in H.
    apply bind_inl in H as (inc & Hi & H). apply bind_inl in H as (exc & He & H).
    apply bind_inl in H as (boot & Hb & H). apply bind_inl in H as (there & Ht & H). injection H as <-.
    set (p := Plan n i e m bo c s l) in *. rewrite Forall_forall in IH.
    pose proof (gen_primitive _ _ _ _ (fun s E => clean_field p (include p) s C ltac:(cbn; tauto) E) Hi j b) as GI.
    pose proof (gen_primitive _ _ _ _ (fun s E => clean_field p (exclude p) s C ltac:(cbn; tauto) E) He j b) as GE.
    pose proof (bootstrap_qualifier_ok true p C boot Hb j b) as GB.
    assert (GB' : (exists m, primitive job (Composite [boot]) m b /\ matches job job_id m j) <-> b = false /\ boots p j).
    { rewrite <- GB. split; intros (m0 & P & M); exists m0; split; auto.
      - apply primitive_composite in P as (q & [->|[]] & P). auto.
      - apply primitive_composite. exists boot. cbn. auto. }
    assert (GN : (exists m, primitive job (Composite there) m b /\ matches job job_id m j) <->
      exists q, In q l /\ ((b = true /\ plan_includes job job_id re_parse re_match q j) \/
                           (b = false /\ plan_excludes job job_id re_parse re_match q j))).
    { pose proof (nested_collect _ _ _ Ht) as T. pose proof (nested_collect_all _ _ _ Ht) as T'. split.
      - intros (m0 & P & M). apply primitive_composite in P as (q & Hq & P). apply T in Hq as (r & Hr & E).
        exists r. split; auto. apply (IH r Hr (clean_nested p r C Hr) q E). eauto.
      - intros (r & Hr & A). destruct (T' r Hr) as (y & Ey).
        destruct (proj2 (IH r Hr (clean_nested p r C Hr) y Ey j b) A) as (m0 & P & M).
        exists m0. split; auto. apply primitive_composite. exists y. split; auto. apply T. eauto. }
    assert (Sp : (exists m, primitive job (Composite (inc ++ exc ++ [boot] ++ there)) m b /\ matches job job_id m j) <->
      (exists m, primitive job (Composite inc) m b /\ matches job job_id m j) \/
      (exists m, primitive job (Composite exc) m b /\ matches job job_id m j) \/
      (exists m, primitive job (Composite [boot]) m b /\ matches job job_id m j) \/
      (exists m, primitive job (Composite there) m b /\ matches job job_id m j)).
    { split.
      - intros (m0 & P & M). apply primitive_app in P as [P|P]; [eauto|].
        apply primitive_app in P as [P|P]; [eauto|]. apply primitive_app in P as [P|P]; eauto 6.
      - intros [(m0 & P & M)|[(m0 & P & M)|[(m0 & P & M)|(m0 & P & M)]]]; exists m0; split; auto;
          rewrite !primitive_app; auto. }
    rewrite Sp, GI, GE, GB', GN. clear - p. split.
    - intros [(-> & t & ov & A & B)|[(-> & t & ov & A & B)|[(-> & q & w & R & A & B)|(q & Hq & [(-> & A)|(-> & A)])]]].
      + left. split; auto. exists p, t, ov. split; [constructor|auto].
      + right. split; auto. exists p. split; [constructor|]. left. eauto.
      + right. split; auto. exists q. split; auto. right. eauto.
      + left. split; auto. destruct A as (r & t & ov & R & A). exists r, t, ov. split; auto. eapply part_nested; [exact Hq|exact R].
      + right. split; auto. destruct A as (r & R & A). exists r. split; auto. eapply part_nested; [exact Hq|exact R].
    - intros [(-> & q & t & ov & R & A & B)|(-> & q & R & [(t & ov & A & B)|(w & A & B)])].
      + apply part_iff in R as [->|(r & Hr & R)]; [left; eauto|].
        right; right; right. exists r. split; [exact Hr|]. left. split; auto. exists q, t, ov. auto.
      + apply part_iff in R as [->|(r & Hr & R)]; [right; left; eauto|].
        right; right; right. exists r. split; [exact Hr|]. right. split; auto. exists q. split; [exact R|]. left. exists t, ov. auto.
      + right; right; left. split; auto. exists q, w. auto.
  Qed.

  Lemma mandatory_ok p : clean p -> forall q,
    mandatory_qualifier job job_id re_parse compiles re_match p = inl q ->
    forall j b, (exists m, primitive job q m b /\ matches job job_id m j) <->
      (b = true /\ plan_requires job job_id re_parse re_match p j).
  Proof.
    induction p as [n i e m bo c s l IH] using plan_induction. intros C x H j b.
    cbn [mandatory_qualifier] in H.
    apply bind_inl in H as (inc & Hi & H). apply bind_inl in H as (there & Ht & H). injection H as <-.
    set (p := Plan n i e m bo c s l) in *. rewrite Forall_forall in IH.
    pose proof (gen_primitive _ _ _ _ (fun s E => clean_field p (mandatory p) s C ltac:(cbn; tauto) E) Hi j b) as GI.
    pose proof (nested_collect _ _ _ Ht) as T. pose proof (nested_collect_all _ _ _ Ht) as T'. split.
    - intros (m0 & P & M). apply primitive_app in P as [P|P].
      + destruct (proj1 GI) as (A & t & ov & B & D); [eauto|]. split; auto. exists p, t, ov. split; [constructor|auto].
      + apply primitive_composite in P as (q & Hq & P). apply T in Hq as (r & Hr & E).
        destruct (proj1 (IH r Hr (clean_nested p r C Hr) q E j b)) as (A & r' & t & ov & R & B); [eauto|].
        split; auto. exists r', t, ov. split; auto. eapply part_nested; [exact Hr|exact R].
    - intros (A & q & t & ov & R & B & D). apply part_iff in R as [->|(r & Hr & R)].
      + destruct (proj2 GI) as (m0 & P & M); eauto. exists m0. split; auto. apply primitive_app. auto.
      + destruct (T' r Hr) as (y & Ey).
        destruct (proj2 (IH r Hr (clean_nested p r C Hr) y Ey j b)) as (m0 & P & M).
        { split; auto. exists q, t, ov. auto. }
        exists m0. split; auto. apply primitive_app. right. apply primitive_composite. exists y. split; auto.
        apply T. eauto.
  Qed.
End Select.

(** ** Overrides *)

Definition entry {A} (m : dict (list A)) (k : string) (x : A) : Prop := exists l, In (k, l) m /\ In x l.

Lemma in_dset {A} (k : string) (v : A) m : NoDup (dkeys m) -> forall k' v',
  In (k', v') (dset k v m) <-> (k' = k /\ v' = v) \/ (k' <> k /\ In (k', v') m).
Proof.
  induction m as [|[k0 v0] m IH]; intros N k' v'; cbn [dset].
  - cbn. split; [intros [E|[]]; injection E as -> ->; auto|intros [[-> ->]|[_ []]]; auto].
  - cbn in N. inversion N as [|? ? N1 N2]; subst. destruct (String.eqb_spec k k0) as [->|NE].
    + cbn. split.
      * intros [E|H]; [injection E as -> ->; auto|]. right. split; auto. intros ->.
        apply N1. apply (in_map fst) in H. exact H.
      * intros [[-> ->]|[NE [E|H]]]; auto. injection E as -> ->. congruence.
    + cbn. rewrite (IH N2). split.
      * intros [E|[H|[H1 H2]]]; auto. injection E as -> ->. auto.
      * intros [H|[H1 [H2|H2]]]; auto.
Qed.

Lemma extend_entry {A} k (l : list A) m : NoDup (dkeys m) -> forall k' x,
  entry (extend k l m) k' x <-> entry m k' x \/ (k' = k /\ In x l).
Proof.
  intros N k' x. unfold entry, extend. split.
  - intros (l' & H & Hx). apply in_dset in H as [[-> ->]|[NE H]]; auto; [|eauto].
    destruct (dget k m) as [old|] eqn:E; [|auto]. apply in_app_iff in Hx as [Hx|Hx]; auto.
    left. exists old. split; auto. now apply dget_In.
  - intros [(l' & H & Hx)|[-> Hx]].
    + destruct (String.eqb_spec k' k) as [->|NE].
      * eexists. split; [apply in_dset; auto|]. rewrite (In_dget _ _ _ N H). apply in_app_iff. auto.
      * exists l'. split; auto. apply in_dset; auto.
    + eexists. split; [apply in_dset; auto|]. destruct (dget k m); auto. apply in_app_iff. auto.
Qed.

Lemma extend_fold {A B} (key : B -> string) (vals : B -> list A) L : forall m, NoDup (dkeys m) ->
  let m' := fold_left (fun m x => extend (key x) (vals x) m) L m in
  NoDup (dkeys m') /\
  forall k x, entry m' k x <-> entry m k x \/ exists b, In b L /\ key b = k /\ In x (vals b).
Proof.
  induction L as [|b L IH]; intros m N m'.
  - split; [exact N|]. intros k x. split; auto. intros [H|(b & [] & _)]; auto.
  - cbn [fold_left] in m'. assert (N' : NoDup (dkeys (extend (key b) (vals b) m))) by now apply NoDup_dset.
    destruct (IH _ N') as [I1 I2]. split; [exact I1|]. intros k x. unfold m'. rewrite I2, extend_entry by auto.
    split.
    + intros [[H|[-> H]]|(b' & H & E & Hx)]; auto; right; [exists b|exists b']; cbn; auto.
    + intros [H|(b' & [<-|H] & <- & Hx)]; eauto.
Qed.

Lemma insert_pair_perm {A} k (a : A) l : Permutation (insert_pair k a l) ((k, a) :: l).
Proof.
  induction l as [|[k' a'] l IH]; cbn; auto.
  destruct (String.compare k k'); auto. rewrite IH. apply perm_swap.
Qed.

Lemma sorted_pairs_perm {A} (l : list (string * A)) : Permutation (sorted_pairs l) l.
Proof.
  induction l as [|[k a] l IH]; cbn; auto. rewrite insert_pair_perm. now constructor.
Qed.

Lemma inline_ok p : clean p -> forall r, inline_overrides p = inl r -> forall pat fn v,
  (exists fvs, In (pat, fvs) r /\ In (fn, v) fvs) <->
  exists q t ov fname value, part p q /\ includes_stmt (include q) t ov /\ In (fname, value) ov /\
    fn = underscored fname /\ v = str value /\ pat = between (qualify (ns q) (str t)).
Proof.
  induction p as [n i e m bo c s l IH] using plan_induction. intros C r H pat fn v.
  cbn [inline_overrides] in H.
  apply bind_inl in H as (here & Hh & H). apply bind_inl in H as (there & Ht & H). injection H as <-.
  set (p := Plan n i e m bo c s l) in *. rewrite Forall_forall in IH.
  assert (H0 : (exists fvs, In (pat, fvs) here /\ In (fn, v) fvs) <->
    exists t ov fname value, includes_stmt (include p) t ov /\ In (fname, value) ov /\
      fn = underscored fname /\ v = str value /\ pat = between (qualify (ns p) (str t))).
  { destruct (include p) as [s0|] eqn:Ei.
    2: { injection Hh as <-. split; [intros (? & [] & _)|]. intros (t & ov & f & va & (? & ? & E & _) & _). discriminate. }
    apply bind_inl in Hh as (stmts & Hs & Hh). injection Hh as <-. apply of_outcome_inl in Hs.
    assert (N : ~ In NUL (txt s0)) by (eapply (clean_field p (include p)); eauto; cbn; tauto).
    pose proof (include_statements _ _ _ N Hs) as St. split.
    - intros (fvs & Hin & Hv). apply in_flat_map in Hin as ([k x] & Hx & Hin). cbn [snd] in Hin.
      destruct x as [[t ov]|]; [|destruct Hin].
      destruct ov as [|o ov]; [destruct Hin|]. destruct Hin as [E|[]]. injection E as <- <-.
      apply (in_map_iff (fun fv => (underscored (fst fv), str (snd fv))) (o :: ov)) in Hv as ([f va] & E & Hf).
      injection E as <- <-.
      exists t, (o :: ov), f, va. repeat split; auto. apply St. eauto.
    - intros (t & ov & f & va & R & Hf & -> & -> & ->). apply St in R as (k & Hx).
      exists (map (fun fv => (underscored (fst fv), str (snd fv))) ov). split.
      + apply in_flat_map. exists (k, inl (t, ov)). split; auto. cbn [snd].
        destruct ov; [destruct Hf|]. now left.
      + apply in_map_iff. exists (f, va). auto. }
  destruct (collect_inl _ _ _ Ht) as [T1 T2]. split.
  - intros (fvs & Hin & Hv). apply in_app_iff in Hin as [Hin|Hin].
    + destruct (proj1 H0) as (t & ov & f & va & R); [eauto|]. exists p, t, ov, f, va. split; [constructor|exact R].
    + apply T1 in Hin as (q & a & Hq & Ea & Hin).
      destruct (proj1 (IH q Hq (clean_nested p q C Hq) a Ea pat fn v)) as (r & t & ov & f & va & R & X); [eauto|].
      exists r, t, ov, f, va. split; [|exact X]. eapply part_nested; [exact Hq|exact R].
  - intros (q & t & ov & f & va & R & X). apply part_iff in R as [->|(r & Hr & R)].
    + destruct (proj2 H0) as (fvs & A & B); [exists t, ov, f, va; exact X|]. exists fvs. split; auto.
      apply in_app_iff. auto.
    + destruct (T2 r Hr) as (a & Ea).
      destruct (proj2 (IH r Hr (clean_nested p r C Hr) a Ea pat fn v)) as (fvs & A & B).
      { exists q, t, ov, f, va. split; [exact R|exact X]. }
      exists fvs. split; auto. apply in_app_iff. right. apply T1. eauto.
Qed.

Lemma overrides_in_ok s r : ~ In NUL (txt s) -> overrides_in s = inl r ->
  forall v t, In (v, t) r <-> override_stmt (Some s) v t.
Proof.
  intros N H v t. unfold overrides_in in H. apply bind_inl in H as (stmts & Hs & H). injection H as <-.
  apply of_outcome_inl in Hs. rewrite <- (override_statements _ _ _ N Hs v t). split.
  - intros Hin. apply in_flat_map in Hin as ([k x] & Hx & Hin). cbn [snd] in Hin.
    destruct x as [vp|]; [|destruct Hin]. destruct Hin as [->|[]]. eauto.
  - intros (k & Hx). apply in_flat_map. exists (k, inl (v, t)). split; auto. now left.
Qed.

Lemma category_ok p : clean p -> forall r, category_overrides p = inl r -> forall pat fn v,
  In (pat, fn, v) r <->
  fn = "category_id" /\ exists q t value, category_part p q /\ override_stmt (category q) value t /\
    v = qualify (ns q) (str value) /\ pat = between (qualify (ns q) (str t)).
Proof.
  induction p as [n i e m bo c s l IH] using plan_induction. intros C r H pat fn v.
  cbn [category_overrides] in H. set (p := Plan n i e m bo c s l) in *. rewrite Forall_forall in IH.
  destruct (category p) as [s0|] eqn:Ec.
  2: { injection H as <-. split; [intros []|]. intros (_ & q & t & va & R & _).
       apply category_part_iff in R as [R _]. congruence. }
  apply bind_inl in H as (here & Hh & H). apply bind_inl in H as (there & Ht & H). injection H as <-.
  assert (N : ~ In NUL (txt s0)) by (eapply (clean_field p (category p)); eauto; cbn; tauto).
  pose proof (overrides_in_ok _ _ N Hh) as St.
  destruct (collect_inl _ _ _ Ht) as [T1 T2]. rewrite in_app_iff. split.
  - intros [Hin|Hin].
    + apply in_map_iff in Hin as ([va t] & E & Hin). injection E as <- <- <-. split; auto.
      exists p, t, va. split; [constructor; congruence|]. rewrite Ec. split; [now apply St|]. auto.
    + apply T1 in Hin as (q & a & Hq & Ea & Hin).
      destruct (proj1 (IH q Hq (clean_nested p q C Hq) a Ea pat fn v) Hin) as (E & r & t & va & R & X).
      split; auto. exists r, t, va. split; [|exact X]. eapply cp_nested; [congruence|exact Hq|exact R].
  - intros (-> & q & t & va & R & X). apply category_part_iff in R as [_ [->|(r & Hr & R)]].
    + left. destruct X as (X & -> & ->). rewrite Ec in X. apply in_map_iff. exists (va, t).
      split; auto. now apply St.
    + right. destruct (T2 r Hr) as (a & Ea). apply T1. exists r, a. split; auto. split; auto.
      apply (IH r Hr (clean_nested p r C Hr) a Ea). split; auto. exists q, t, va. split; [exact R|exact X].
Qed.

Lemma status_ok p : clean p -> forall r, status_overrides p = inl r -> forall pat fn v,
  In (pat, fn, v) r <->
  fn = "certification_status" /\ exists q t value, part p q /\ override_stmt (certification q) value t /\
    v = str value /\ pat = between (qualify (ns q) (str t)).
Proof.
  induction p as [n i e m bo c s l IH] using plan_induction. intros C r H pat fn v.
  cbn [status_overrides] in H. set (p := Plan n i e m bo c s l) in *. rewrite Forall_forall in IH.
  apply bind_inl in H as (here & Hh & H). apply bind_inl in H as (there & Ht & H). injection H as <-.
  assert (H0 : In (pat, fn, v) here <-> fn = "certification_status" /\ exists t value,
    override_stmt (certification p) value t /\ v = str value /\ pat = between (qualify (ns p) (str t))).
  { destruct (certification p) as [s0|] eqn:Ec.
    2: { injection Hh as <-. split; [intros []|]. intros (_ & t & va & (? & ? & E & _) & _). discriminate. }
    apply bind_inl in Hh as (l0 & Hl & Hh). injection Hh as <-.
    assert (N : ~ In NUL (txt s0)) by (eapply (clean_field p (certification p)); eauto; cbn; tauto).
    pose proof (overrides_in_ok _ _ N Hl) as St. split.
    - intros Hin. apply in_map_iff in Hin as ([va t] & E & Hin). injection E as <- <- <-. split; auto.
      exists t, va. split; [now apply St|]. auto.
    - intros (-> & t & va & X & -> & ->). apply in_map_iff. exists (va, t). split; auto. now apply St. }
  destruct (collect_inl _ _ _ Ht) as [T1 T2]. rewrite in_app_iff, H0. split.
  - intros [(E & t & va & X)|Hin].
    + split; auto. exists p, t, va. split; [constructor|exact X].
    + apply T1 in Hin as (q & a & Hq & Ea & Hin).
      destruct (proj1 (IH q Hq (clean_nested p q C Hq) a Ea pat fn v) Hin) as (E & r & t & va & R & X).
      split; auto. exists r, t, va. split; [|exact X]. eapply part_nested; [exact Hq|exact R].
  - intros (-> & q & t & va & R & X). apply part_iff in R as [->|(r & Hr & R)].
    + left. split; auto. exists t, va. exact X.
    + right. destruct (T2 r Hr) as (a & Ea). apply T1. exists r, a. split; auto. split; auto.
      apply (IH r Hr (clean_nested p r C Hr) a Ea). split; auto. exists q, t, va. split; [exact R|exact X].
Qed.

(** A statement of the test plan (or a nested part) sets a field, by name, for a
    regular expression. *)
Definition sets (p : plan) (pat : string) (fn v : string) : Prop :=
  (exists q t ov fname value, part p q /\ includes_stmt (include q) t ov /\ In (fname, value) ov /\
     fn = underscored fname /\ v = str value /\ pat = between (qualify (ns q) (str t))) \/
  (fn = "category_id" /\ exists q t value, category_part p q /\ override_stmt (category q) value t /\
     v = qualify (ns q) (str value) /\ pat = between (qualify (ns q) (str t))) \/
  (fn = "certification_status" /\ exists q t value, part p q /\ override_stmt (certification q) value t /\
     v = str value /\ pat = between (qualify (ns q) (str t))).

Lemma override_list_ok p : clean p -> forall r, override_list p = inl r ->
  forall pat fn v, entry r pat (fn, v) <-> sets p pat fn v.
Proof.
  intros C r H pat fn v. unfold override_list in H.
  apply bind_inl in H as (a & Ha & H). apply bind_inl in H as (b & Hb & H). apply bind_inl in H as (c & Hc & H).
  injection H as <-. unfold sets.
  rewrite <- (inline_ok p C a Ha), <- (category_ok p C b Hb), <- (status_ok p C c Hc).
  destruct (extend_fold (@fst _ (list (string * string))) snd a [] (NoDup_nil _)) as [N1 E1].
  destruct (extend_fold (fun x : string * string * string => fst (fst x))
              (fun x => [(snd (fst x), snd x)]) b _ N1) as [N2 E2].
  destruct (extend_fold (fun x : string * string * string => fst (fst x))
              (fun x => [(snd (fst x), snd x)]) c _ N2) as [N3 E3].
  cbv zeta in E3. unfold entry at 1.
  assert (X : forall l, In (pat, l) (sorted_pairs
    (fold_left (fun m x => extend (fst (fst x)) [(snd (fst x), snd x)] m) c
       (fold_left (fun m x => extend (fst (fst x)) [(snd (fst x), snd x)] m) b
          (fold_left (fun m x => extend (fst x) (snd x) m) a [])))) <->
    In (pat, l) (fold_left (fun m x => extend (fst (fst x)) [(snd (fst x), snd x)] m) c
       (fold_left (fun m x => extend (fst (fst x)) [(snd (fst x), snd x)] m) b
          (fold_left (fun m x => extend (fst x) (snd x) m) a [])))).
  { intros l. split; intros H; eapply Permutation_in; try exact H; [|symmetry]; apply sorted_pairs_perm. }
  assert (Y : forall m : dict (list (string * string)), (exists l, In (pat, l) m /\ In (fn, v) l) <-> entry m pat (fn, v)) by reflexivity.
  setoid_rewrite X. rewrite Y. rewrite E3, E2, E1. clear. split.
  - intros [[[(l & [] & _)|(x & Hx & <- & Hin)]|([[p' f'] v'] & Hx & <- & [E|[]])]|([[p' f'] v'] & Hx & <- & [E|[]])].
    + left. exists (snd x). destruct x. auto.
    + cbn in *. injection E as -> ->. auto.
    + cbn in *. injection E as -> ->. auto.
  - intros [(l & Hx & Hin)|[Hx|Hx]].
    + left. left. right. exists (pat, l). auto.
    + left. right. exists (pat, fn, v). cbn. auto.
    + right. exists (pat, fn, v). cbn. auto.
Qed.

Section Context.
  Variable job : Type.
  Variable job_id : job -> string.
  Variable own : job -> field -> string.
  Variable re_parse : string -> re_kind.
  Variable compiles : string -> bool.
  Variable re_match : string -> string -> bool.

  Local Notation support := (support job job_id re_parse compiles re_match).
  Local Notation compute := (compute_override_map job job_id re_parse compiles re_match).
  Local Notation says := (says job job_id re_match).
  Local Notation apply_map := (apply_map job job_id compiles re_match).
  Local Notation perform := (perform job job_id re_parse compiles re_match).
  Local Notation perform_all := (perform_all job job_id re_parse compiles re_match).

  Lemma compute_ok ps : Forall clean ps -> forall m0, NoDup (dkeys m0) -> forall m, compute ps m0 = inl m ->
    forall pat fn v, entry m pat (fn, v) <-> entry m0 pat (fn, v) \/ exists p, In p ps /\ sets p pat fn v.
  Proof.
    induction ps as [|p ps IH]; intros C m0 N m H pat fn v; cbn in H.
    - injection H as <-. split; auto. intros [H|(p & [] & _)]; auto.
    - apply bind_inl in H as (l & Hl & H). unfold TestplanModel.support in Hl.
      apply bind_inl in Hl as (l' & Hl' & Hl). apply bind_inl in Hl as (? & _ & Hl).
      apply bind_inl in Hl as (? & _ & Hl). injection Hl as ->.
      inversion C as [|? ? C1 C2]; subst.
      destruct (extend_fold (@fst _ (list (string * string))) snd l m0 N) as [N1 E1].
      rewrite (IH C2 _ N1 _ H), E1. clear IH H. pose proof (override_list_ok p C1 l Hl' pat fn v) as O. split.
      + intros [[H|(b & Hb & <- & Hx)]|(q & Hq & X)]; auto.
        * right. exists p. split; [now left|]. apply O. exists (snd b). destruct b. auto.
        * right. exists q. split; [now right|]. exact X.
      + intros [H|(q & [<-|Hq] & X)]; [auto| |right; eauto].
        apply O in X as (fvs & A & B). left. right. exists (pat, fvs). auto.
  Qed.

  Lemma says_sets p j f v :
    says p j f v <-> exists pat fn, sets p pat fn v /\ field_called fn = Some f /\ re_match pat (job_id j) = true.
  Proof.
    unfold TestplanSpec.says, inline_says, category_says, status_says, applies, sets. split.
    - intros [(q & R & t & ov & fn & va & A & B & D & -> & full & Q & M)
             |[(-> & q & R & t & va & A & Q' & full & Q & M)|(-> & q & R & t & va & A & -> & full & Q & M)]];
        apply in_namespace_iff in Q as ->.
      + do 2 eexists. split; [left; exists q, t, ov, fn, va; eauto 10|]. split; [exact D|exact M].
      + apply in_namespace_iff in Q' as ->.
        do 2 eexists. split; [right; left; split; [reflexivity|]; exists q, t, va; eauto 10|]. split; [reflexivity|exact M].
      + do 2 eexists. split; [right; right; split; [reflexivity|]; exists q, t, va; eauto 10|]. split; [reflexivity|exact M].
    - intros (pat & fn & [(q & t & ov & fname & va & R & A & B & -> & -> & ->)
             |[(-> & q & t & va & R & A & -> & ->)|(-> & q & t & va & R & A & -> & ->)]] & F & M).
      + left. exists q. split; auto. exists t, ov, fname, va. repeat split; auto.
        eexists. split; [now apply in_namespace_iff|exact M].
      + cbn in F. injection F as <-. right. left. split; auto. exists q. split; auto. exists t, va. split; auto.
        split; [now apply in_namespace_iff|]. eexists. split; [now apply in_namespace_iff|exact M].
      + cbn in F. injection F as <-. right. right. split; auto. exists q. split; auto. exists t, va. split; auto.
        split; auto. eexists. split; [now apply in_namespace_iff|exact M].
  Qed.

  Lemma field_eqb_spec a b : reflect (a = b) (field_eqb a b).
  Proof. destruct a, b; constructor; congruence. Qed.

  Lemma apply_overrides_ok l : forall s s', apply_overrides job l s = inl s' ->
    fst s' = fst s /\
    forall f, (exists fn v, In (fn, v) l /\ field_called fn = Some f /\ snd s' f = Some v) \/
              ((forall fn v, In (fn, v) l -> field_called fn <> Some f) /\ snd s' f = snd s f).
  Proof.
    induction l as [|[fn v] l IH]; intros s s' H; cbn in H.
    - injection H as <-. split; auto.
    - destruct (field_called fn) as [g|] eqn:E; [|discriminate]. destruct (IH _ _ H) as [I1 I2].
      split; [exact I1|]. intros f. destruct (I2 f) as [(fn' & v' & A & B & D)|[A B]].
      + left. exists fn', v'. cbn. auto.
      + cbn in B. destruct (field_eqb_spec f g) as [->|NE].
        * left. exists fn, v. cbn. auto.
        * right. split; auto. intros fn' v' [X|X]; [injection X as <- <-; congruence|eauto].
  Qed.

  Lemma apply_map_ok m : forall s s', apply_map m s = inl s' ->
    fst s' = fst s /\
    forall f, (exists pat fn v, entry m pat (fn, v) /\ field_called fn = Some f /\
                 re_match pat (job_id (fst s)) = true /\ snd s' f = Some v) \/
              ((forall pat fn v, entry m pat (fn, v) -> re_match pat (job_id (fst s)) = true -> field_called fn <> Some f) /\
               snd s' f = snd s f).
  Proof.
    induction m as [|[pat l] m IH]; intros s s' H; cbn in H.
    - injection H as <-. split; auto. intros f. right. split; auto. intros pat fn v (l & [] & _).
    - apply bind_inl in H as (b & Hb & H). apply bind_inl in H as (s1 & H1 & H).
      unfold rmatch in Hb. destruct (compiles pat); [|discriminate]. injection Hb as Hb.
      destruct (IH _ _ H) as [I1 I2].
      assert (X : fst s1 = fst s /\ forall f,
        (b = true /\ exists fn v, In (fn, v) l /\ field_called fn = Some f /\ snd s1 f = Some v) \/
        ((b = true -> forall fn v, In (fn, v) l -> field_called fn <> Some f) /\ snd s1 f = snd s f)).
      { destruct b.
        - destruct (apply_overrides_ok _ _ _ H1) as [A B]. split; auto. intros f.
          destruct (B f) as [B'|[B1 B2]]; auto.
        - injection H1 as <-. split; auto. intros f. right. split; auto. discriminate. }
      destruct X as [X1 X2]. split; [congruence|]. intros f. rewrite X1 in I2.
      destruct (I2 f) as [(pat' & fn & v & (l' & A & A') & B & D & E)|[A B]].
      + left. exists pat', fn, v. repeat split; auto. exists l'. split; [now right|exact A'].
      + destruct (X2 f) as [(-> & fn & v & X & Y & Z)|[X Y]].
        * left. exists pat, fn, v. repeat split; auto; [|congruence]. exists l. split; [now left|exact X].
        * right. split; [|congruence]. intros pat' fn v (l' & [E|Hl] & Hv) M.
          { injection E as <- <-. apply (X ltac:(congruence) fn v Hv). }
          { eapply A; eauto. exists l'. split; [exact Hl|exact Hv]. }
  Qed.

  (** The state of a job in a context whose test plans have been set. *)
  Definition settled (ps : list plan) (c : context job) : Prop :=
    plans job c = ps /\ NoDup (dkeys (states job c)) /\
    (forall m, cache job c = Some m -> compute ps [] = inl m) /\
    (forall i s, In (i, s) (states job c) -> exists m, compute ps [] = inl m /\
       apply_map m (fst s, fun _ => None) = inl s /\ i = job_id (fst s)).

  Definition no_set (l : list (op job)) : Prop := forall o ps, In o l -> o <> SetTestPlans job ps.

  Lemma override_map_ok ps c m c' : settled ps c -> override_map job job_id re_parse compiles re_match c = inl (m, c') ->
    compute ps [] = inl m /\ settled ps c' /\ states job c' = states job c.
  Proof.
    intros (S1 & S2 & S3 & S4) H. unfold override_map in H. destruct (cache job c) as [m'|] eqn:E.
    - injection H as <- <-. split; [now apply S3|]. split; auto. split; auto. split; auto. split; [rewrite E; exact S3|]. exact S4.
    - apply bind_inl in H as (m' & Hm & H). injection H as <- <-. rewrite S1 in Hm. split; auto. split; auto.
      split; [exact S1|]. split; [exact S2|]. cbn. split; [congruence|]. exact S4.
  Qed.

  Lemma apply_map_fst m s s' : apply_map m s = inl s' -> fst s' = fst s.
  Proof. intros H. now destruct (apply_map_ok _ _ _ H). Qed.

  Lemma perform_settled ps c o c' : settled ps c -> (forall l, o <> SetTestPlans job l) ->
    perform o c = inl c' -> settled ps c'.
  Proof.
    intros S0 NS H. pose proof S0 as (S1 & S2 & S3 & S4). destruct o as [j|i|l]; cbn in H.
    - destruct (dmem (job_id j) (states job c)); [now injection H as <-|].
      apply bind_inl in H as ([m c1] & Hm & H). apply bind_inl in H as (s & Hs & H). injection H as <-.
      destruct (override_map_ok _ _ _ _ S0 Hm) as (Em & (T1 & T2 & T3 & T4) & Est).
      split; [exact T1|]. cbn. split; [now apply NoDup_dset|]. split; [exact T3|].
      intros i s' Hin. apply in_dset in Hin as [[-> ->]|[_ Hin]]; auto.
      exists m. pose proof (apply_map_fst _ _ _ Hs) as F. cbn in F. rewrite F. auto.
    - injection H as <-. split; [exact S1|]. cbn. split; [now apply NoDup_ddel|]. split; [exact S3|].
      intros i' s' Hin. apply S4. clear -Hin. induction (states job c) as [|[k v] d IH]; cbn in *; auto.
      destruct (String.eqb i k); [now right|]. destruct Hin as [E|Hin]; [now left|right; auto].
    - exfalso. eapply NS. reflexivity.
  Qed.

  Lemma perform_all_settled ps l : forall c c', settled ps c -> no_set l -> perform_all l c = inl c' -> settled ps c'.
  Proof.
    induction l as [|o l IH]; intros c c' S0 NS H; cbn in H.
    - now injection H as <-.
    - apply bind_inl in H as (c1 & H1 & H). eapply IH; [|intros o' ps' Hin; apply NS; now right|exact H].
      eapply perform_settled; eauto. intros ps' E. eapply NS; [now left|exact E].
  Qed.

  Lemma fresh_settled : settled [] (fresh job).
  Proof. split; auto. cbn. split; [constructor|]. split; [discriminate|]. intros i s []. Qed.

  Lemma apply_all_ok m d : forall d', apply_all job job_id compiles re_match m d = inl d' ->
    dkeys d' = dkeys d /\ forall i s', In (i, s') d' -> exists s, In (i, s) d /\ apply_map m s = inl s'.
  Proof.
    induction d as [|[i s] d IH]; intros d' H; cbn in H.
    - injection H as <-. split; auto. intros i s' [].
    - apply bind_inl in H as (s1 & H1 & H). apply bind_inl in H as (r & Hr & H). injection H as <-.
      destruct (IH _ Hr) as [I1 I2]. split; [cbn; unfold dkeys in I1; now rewrite I1|].
      intros i' s' [E|Hin]; [injection E as <- <-; exists s; cbn; auto|].
      destruct (I2 _ _ Hin) as (s2 & A & B). exists s2. cbn. auto.
  Qed.

  Lemma set_settled ps c c' : settled [] c -> perform (SetTestPlans job ps) c = inl c' -> settled ps c'.
  Proof.
    intros (S1 & S2 & S3 & S4) H. cbn in H. destruct (states job c) as [|x d] eqn:E.
    - injection H as <-. split; auto. cbn. split; [constructor|]. split; [discriminate|]. intros i s [].
    - apply bind_inl in H as ([m c1] & Hm & H). cbn in Hm. apply bind_inl in Hm as (m' & Hm' & Hm).
      injection Hm as <- <-. cbn in H. apply bind_inl in H as (d' & Hd & H). injection H as <-.
      destruct (apply_all_ok m' (x :: d) d' Hd) as [A1 A2].
      split; auto. cbn. split; [change (NoDup (dkeys d')); rewrite A1; exact S2|]. split; [congruence|].
      intros i s Hin. destruct (A2 _ _ Hin) as (s0 & H0 & Hs). destruct (S4 _ _ H0) as (m0 & Em0 & Es0 & ->).
      cbn in Em0. injection Em0 as <-. cbn in Es0. injection Es0 as Es0.
      exists m'. split; auto. pose proof (apply_map_fst _ _ _ Hs) as F. rewrite F. split; auto.
      rewrite Es0. exact Hs.
  Qed.

  Lemma history_settled ps before after c : no_set before -> no_set after ->
    perform_all (before ++ SetTestPlans job ps :: after) (fresh job) = inl c -> settled ps c.
  Proof.
    intros NB NA H.
    assert (X : forall l c0 r, perform_all (l ++ r) c0 = bind (perform_all l c0) (fun c => perform_all r c)).
    { induction l as [|o l IH]; intros c0 r; cbn; auto. destruct (perform o c0); cbn; auto. }
    rewrite X in H. apply bind_inl in H as (c1 & H1 & H). cbn [TestplanModel.perform_all] in H.
    apply bind_inl in H as (c2 & H2 & H).
    eapply perform_all_settled; [|exact NA|exact H]. eapply set_settled; [|exact H2].
    eapply perform_all_settled; [|exact NB|exact H1]. apply fresh_settled.
  Qed.

  Lemma settled_effective ps c i s : Forall clean ps -> settled ps c -> dget i (states job c) = Some s -> forall f,
    (exists p v, In p ps /\ says p (fst s) f v /\ effective job own s f = v) \/
    ((forall p v, In p ps -> ~ says p (fst s) f v) /\ effective job own s f = own (fst s) f).
  Proof.
    intros C (S1 & S2 & S3 & S4) H f. apply dget_In in H. destruct (S4 _ _ H) as (m & Em & Es & Ei).
    pose proof (compute_ok ps C [] (NoDup_nil _) m Em) as K.
    destruct (apply_map_ok _ _ _ Es) as [_ A]. cbn [fst snd] in A. unfold effective.
    destruct (A f) as [(pat & fn & v & En & F & M & ->)|[B ->]].
    - left. apply K in En as [(? & [] & _)|(p & Hp & St)]. exists p, v. split; auto. split; auto.
      apply says_sets. eauto.
    - right. split; auto. intros p v Hp Sy. apply says_sets in Sy as (pat & fn & St & F & M).
      eapply B; eauto. apply K. right. eauto.
  Qed.

  (** The category according to the test plan itself. *)
  Lemma category_statements p s r : clean p -> category p = Some s ->
    parse_category_overrides (ns p) s = inl r ->
    forall c pat, In (c, pat) r <-> exists t value, override_stmt (category p) value t /\
      c = qualify (ns p) (str value) /\ pat = between (qualify (ns p) (str t)).
  Proof.
    intros C E H c pat. unfold parse_category_overrides in H. apply bind_inl in H as (stmts & Hs & H).
    apply of_outcome_inl in Hs.
    assert (N : ~ In NUL (txt s)) by (eapply (clean_field p (category p)); eauto; cbn; tauto).
    pose proof (override_statements _ _ _ N Hs) as St. destruct (collect_inl _ _ _ H) as [A B].
    rewrite A, E. split.
    - intros ([k x] & a & Hx & Ea & Hin). cbn [snd] in Ea. destruct x as [[va t]|]; [|discriminate].
      injection Ea as <-. destruct Hin as [X|[]]. injection X as <- <-. exists t, va. split; auto. apply St. eauto.
    - intros (t & va & X & -> & ->). apply St in X as (k & Hx). eexists (k, inl (va, t)), _. split; [exact Hx|].
      split; [reflexivity|]. now left.
  Qed.

  Lemma category_says_iff p j v : category_says job job_id re_match p j v <->
    exists pat, (exists t value, override_stmt (category p) value t /\
      v = qualify (ns p) (str value) /\ pat = between (qualify (ns p) (str t))) /\ re_match pat (job_id j) = true.
  Proof.
    unfold category_says, applies. split.
    - intros (t & va & A & Q & full & Q' & M). apply in_namespace_iff in Q as ->. apply in_namespace_iff in Q' as ->.
      eexists. split; [exists t, va; eauto|exact M].
    - intros (pat & (t & va & A & -> & ->) & M). exists t, va. split; auto. split; [now apply in_namespace_iff|].
      eexists. split; [now apply in_namespace_iff|exact M].
  Qed.

  Lemma effective_category_ok p j e : clean p ->
    effective_category job job_id own compiles re_match p j = inl e ->
    category_says job job_id re_match p j e \/
    ((forall v, ~ category_says job job_id re_match p j v) /\ e = own j CATEGORY).
  Proof.
    intros C H. unfold effective_category in H. destruct (category p) as [s|] eqn:E.
    - apply bind_inl in H as (r & Hr & H). pose proof (category_statements p s r C E Hr) as St.
      assert (X : (exists pat, In (e, pat) r /\ re_match pat (job_id j) = true) \/
                  ((forall c pat, In (c, pat) r -> re_match pat (job_id j) = false) /\ e = own j CATEGORY)).
      { clear -H. induction r as [|[c pat] r IH]; cbn in H.
        - right. injection H as <-. split; auto. intros c pat [].
        - apply bind_inl in H as (b & Hb & H). unfold rmatch in Hb. destruct (compiles pat); [|discriminate].
          injection Hb as Hb. destruct b.
          + injection H as ->. left. exists pat. split; [now left|exact Hb].
          + destruct (IH H) as [(pat' & A & B)|[A B]].
            * left. exists pat'. split; [now right|exact B].
            * right. split; auto. intros c' pat' [X|X]; [injection X as <- <-; auto|eauto]. }
      destruct X as [(pat & A & B)|[A ->]].
      + left. apply category_says_iff. exists pat. split; auto. now apply St.
      + right. split; auto. intros v Sy. apply category_says_iff in Sy as (pat & X & M). apply St in X.
        rewrite (A _ _ X) in M. discriminate.
    - injection H as <-. right. split; auto. intros v (t & va & (s & l & X & _) & _). congruence.
  Qed.

  Lemma category_map_ok p jobs m : clean p -> NoDup (map job_id jobs) ->
    effective_category_map job job_id own compiles re_match p jobs = inl m ->
    forall j, In j jobs -> exists e, dget (job_id j) m = Some e /\
      (category_says job job_id re_match p j e \/
       ((forall v, ~ category_says job job_id re_match p j v) /\ e = own j CATEGORY)).
  Proof.
    intros C U H j Hj. unfold effective_category_map in H.
    set (m0 := fold_left (fun m j => dset (job_id j) (own j CATEGORY) m) jobs []) in H.
    assert (H0 : dget (job_id j) m0 = Some (own j CATEGORY)).
    { unfold m0. generalize (@nil (name * string)). clear -U Hj. induction jobs as [|k jobs IH]; intros d; [destruct Hj|].
      cbn [fold_left]. cbn in U. inversion U as [|? ? U1 U2]; subst. destruct Hj as [->|Hj]; [|now apply IH].
      assert (X : forall l d, ~ In (job_id j) (map job_id l) ->
        dget (job_id j) (fold_left (fun m j => dset (job_id j) (own j CATEGORY) m) l d) = dget (job_id j) d).
      { clear. induction l as [|k l IH]; intros d N; auto. cbn. cbn in N. rewrite IH by tauto.
        rewrite dget_dset_other; auto. }
      rewrite X by auto. apply dget_dset_same. }
    assert (OJ : forall c pat l m1 m2, NoDup (map job_id l) -> over_jobs job job_id compiles re_match c pat l m1 = inl m2 ->
      (In j l -> dget (job_id j) m2 = if re_match pat (job_id j) then Some c else dget (job_id j) m1) /\
      (~ In (job_id j) (map job_id l) -> dget (job_id j) m2 = dget (job_id j) m1)).
    { clear. intros c pat. induction l as [|k l IH]; intros m1 m2 U H; cbn in H.
      - injection H as <-. split; [intros []|auto].
      - apply bind_inl in H as (b & Hb & H). unfold rmatch in Hb. destruct (compiles pat); [|discriminate].
        injection Hb as Hb. cbn in U. inversion U as [|? ? U1 U2]; subst.
        destruct (IH _ _ U2 H) as [I1 I2]. split.
        + intros [->|Hj].
          * rewrite I2 by auto. destruct (re_match pat (job_id j)); [apply dget_dset_same|reflexivity].
          * rewrite I1 by auto. destruct (re_match pat (job_id j)); auto.
            destruct (re_match pat (job_id k)); auto. apply dget_dset_other. intros E. apply U1. rewrite <- E.
            now apply in_map.
        + intros N. cbn in N. rewrite I2 by tauto. destruct (re_match pat (job_id k)); auto.
          apply dget_dset_other. intros E. apply N. now left. }
    destruct (category p) as [s|] eqn:E.
    - apply bind_inl in H as (r & Hr & H). pose proof (category_statements p s r C E Hr) as St.
      assert (X : forall r m1 m2, over_overrides job job_id compiles re_match r jobs m1 = inl m2 ->
        (exists c pat, In (c, pat) r /\ re_match pat (job_id j) = true /\ dget (job_id j) m2 = Some c) \/
        ((forall c pat, In (c, pat) r -> re_match pat (job_id j) = false) /\ dget (job_id j) m2 = dget (job_id j) m1)).
      { clear -OJ U Hj. induction r as [|[c pat] r IH]; intros m1 m2 H; cbn in H.
        - injection H as <-. right. split; auto. intros c pat [].
        - apply bind_inl in H as (m3 & H3 & H). destruct (OJ _ _ _ _ _ U H3) as [O _]. specialize (O Hj).
          destruct (IH _ _ H) as [(c' & pat' & A & B & D)|[A B]].
          + left. exists c', pat'. split; [now right|auto].
          + rewrite B, O. destruct (re_match pat (job_id j)) eqn:M.
            * left. exists c, pat. split; [now left|auto].
            * right. split; auto. intros c' pat' [X|X]; [injection X as <- <-; auto|eauto]. }
      destruct (X _ _ _ H) as [(c & pat & A & B & D)|[A B]].
      + exists c. split; auto. left. apply category_says_iff. exists pat. split; auto. now apply St.
      + exists (own j CATEGORY). split; [congruence|]. right. split; auto. intros v Sy.
        apply category_says_iff in Sy as (pat & Y & M). apply St in Y. rewrite (A _ _ Y) in M. discriminate.
    - injection H as <-. exists (own j CATEGORY). split; auto. right. split; auto.
      intros v (t & va & (s & l & X & _) & _). congruence.
  Qed.
End Context.
