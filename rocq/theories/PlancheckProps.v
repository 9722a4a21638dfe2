(** * C81: validating a test plan points out exactly the selectors that select nothing, or too much *)
From Coq Require Import String Ascii List Bool Arith Lia.
From Verif Require Import Base BaseFacts ScanModel ScanSpec ScanProofs ScanProps Rfc822Model.
From Verif Require Import XparseModel XparseSpec XparseProofs XparseProps.
From Verif Require Import QualModel QualSpec QualProps TestplanModel TestplanSpec TestplanProofs PlancheckModel PlancheckSpec.
Import ListNotations.
Local Open Scope nat_scope.
Local Open Scope string_scope.
Local Open Scope list_scope.

Lemma at_line {A} (f : text -> outcome (list A)) ls : forall n r, each_line f n ls = Done r ->
  forall k x, In (k, x) r <-> exists i l part, k = n + i /\ nth_error ls i = Some l /\ f l = Done part /\ In x part.
Proof.
  induction ls as [|l ls IH]; intros n r H; cbn [each_line] in H.
  - injection H as <-. intros k x. split; [intros []|]. intros (i & l & part & _ & E & _). destruct i; discriminate.
  - destruct (f l) as [a| |] eqn:E; try discriminate. cbn [obind] in H.
    destruct (each_line f (S n) ls) as [b| |] eqn:Eb; try discriminate. cbn in H. injection H as <-.
    intros k x. rewrite in_app_iff, in_map_iff, (IH _ _ Eb). split.
    + intros [(y & Y & I)|(i & l' & p & -> & N & F & I)].
      * injection Y as -> ->. exists 0, l, a. auto.
      * exists (S i), l', p. split; [lia|auto].
    + intros (i & l' & p & -> & N & F & I). destruct i as [|i].
      * cbn in N. injection N as <-. left. exists x. rewrite Nat.add_0_r. split; [reflexivity|congruence].
      * right. exists i, l', p. split; [lia|auto].
Qed.
Lemma line_once {A} (f : text -> outcome (list A)) ls : (forall l part, f l = Done part -> length part <= 1) ->
  forall n r, each_line f n ls = Done r -> NoDup (map fst r) /\ forall k, In k (map fst r) -> n <= k.
Proof.
  intros S1. induction ls as [|l ls IH]; intros n r H; cbn [each_line] in H.
  - injection H as <-. split; [constructor|intros k []].
  - destruct (f l) as [a| |] eqn:E; try discriminate. cbn [obind] in H.
    destruct (each_line f (S n) ls) as [b| |] eqn:Eb; try discriminate. cbn in H. injection H as <-.
    destruct (IH _ _ Eb) as [D L]. specialize (S1 _ _ E). destruct a as [|x [|y a]]; [| |cbn in S1; lia]; cbn.
    + split; [exact D|]. intros k I. specialize (L k I). lia.
    + split; [constructor; [|exact D]|].
      * intros I. specialize (L n I). lia.
      * intros k [<-|I]; [lia|]. specialize (L k I). lia.
Qed.

Section P.
  Variable re_parse : string -> re_kind.
  Variable compiles : string -> bool.
  Variable re_match : string -> string -> bool.
  Variable set_order : list string -> list string.
  Hypothesis set_members : forall l x, In x (set_order l) <-> In x l.
  Notation quals := (qualifiers re_parse compiles re_match).
  Notation hits := (hits re_parse re_match).
  Notation hits_unit := (hits_unit re_parse re_match).
  Notation hits_included := (hits_included re_parse re_match).
  Notation check := (check_plan re_parse compiles re_match set_order).
  Notation matcher_of := (matcher_of string (fun i => i) re_parse compiles re_match).

  Notation usable := (usable re_parse compiles).
  Notation readable := (readable re_parse compiles).

  Lemma matcher_usable n t ov : (exists m, matcher_of n (inl (t, ov)) = inl (inl m)) <-> usable n t.
  Proof.
    unfold PlancheckSpec.usable. cbn. destruct (re_parse (str t)); cbn.
    - split; [intros (m & E); discriminate|intros []].
    - split; [auto|eauto].
    - unfold pattern_matcher. split.
      + intros (m & E). eexists. split; [now apply whole_pattern_iff|]. destruct (compiles _); [reflexivity|discriminate].
      + intros (re & W & C). apply whole_pattern_iff in W as ->. rewrite C. cbn. eauto.
  Qed.
  Lemma matcher_hits n t ov m i : matcher_of n (inl (t, ov)) = inl (inl m) -> (matches m i = true <-> hits n t i).
  Proof.
    cbn. unfold PlancheckSpec.hits, selects. destruct (re_parse (str t)); cbn; try discriminate.
    - intros [= <-]. unfold matches. cbn. rewrite String.eqb_eq, in_namespace_iff. split; congruence.
    - unfold pattern_matcher. destruct (compiles _); cbn; [|discriminate]. intros [= <-]. unfold matches. cbn. split.
      + intros H. eexists. split; [now apply whole_pattern_iff|exact H].
      + intros (re & W & H). apply whole_pattern_iff in W as ->. exact H.
  Qed.
  Lemma until_ok ms : forall l, until_error ms = (l, None) -> (forall k m, In (k, m) l <-> In (k, inl m) ms) /\ (forall k e, ~ In (k, inr e) ms) /\ map fst l = map fst ms.
  Proof.
    induction ms as [|[k [m|e]] ms IH]; intros l H; cbn in H.
    - injection H as <-. split; [now intros|]. split; [intros k e []|reflexivity].
    - destruct (until_error ms) as [l' e'] eqn:E. injection H as <- ->. destruct (IH _ eq_refl) as (A & B & C). split; [|split].
      + intros k' m'. cbn. rewrite A. split; (intros [H|H]; [left; congruence|now right]).
      + intros k' e [H|H]; [discriminate|now apply B in H].
      + cbn. now rewrite C.
    - discriminate.
  Qed.
  Lemma until_fine ms : (forall k e, ~ In (k, inr e) ms) -> exists l, until_error ms = (l, None).
  Proof.
    induction ms as [|[k [m|e]] ms IH]; intros H; cbn.
    - eauto.
    - destruct IH as (l & ->); [|eauto]. intros k' e I. apply (H k' e). now right.
    - exfalso. apply (H k e). now left.
  Qed.
  Lemma in_lines_nth s l : In l (lines_of s) <-> exists k, nth_error (lines_of s) k = Some l.
  Proof. split; [apply In_nth_error|]. intros (k & E). now apply nth_error_In in E. Qed.
  Lemma one_part l part : obind (next l 0) (fun '(tok, _, _) => match tok with EOF => Done [] | _ => obind (parse_include l) (fun x => Done [x]) end) = Done part -> length part <= 1.
  Proof.
    intros H. destruct (next l 0) as [[[tok lx] p]| |]; try discriminate. cbn [obind] in H.
    destruct tok; try (injection H as <-; cbn; lia); destruct (parse_include l); try discriminate; injection H as <-; cbn; lia.
  Qed.
  Lemma collect_lines n stmts : forall ms,
    collect (fun x => bind (matcher_of n (snd x)) (fun m => inl [(fst x, m)])) stmts = inl ms ->
    map fst ms = map (@fst nat ((text * list (text * text)) + problem)) stmts.
  Proof.
    induction stmts as [|x stmts IH]; intros ms H; cbn [collect] in H; [now injection H as <-|].
    apply bind_inl in H as (a & Ea & H). apply bind_inl in H as (b & Eb & H). injection H as <-.
    apply bind_inl in Ea as (m & _ & Ea). injection Ea as <-. cbn. now rewrite (IH _ Eb).
  Qed.
  Lemma collect_all {A B} (f : A -> res (list B)) l : (forall x, In x l -> exists a, f x = inl a) -> exists r, collect f l = inl r.
  Proof.
    induction l as [|x l IH]; intros H; cbn; [eauto|]. destruct (H x) as (a & E); [now left|]. rewrite E. cbn.
    destruct IH as (r & ->); [intros y I; apply H; now right|]. cbn. eauto.
  Qed.
  (** what the lines of a clean field become *)
  Lemma line_done l : ~ In NUL l -> forall part,
    obind (next l 0) (fun '(tok, _, _) => match tok with EOF => Done [] | _ => obind (parse_include l) (fun x => Done [x]) end) = Done part ->
    (empty_line l /\ part = []) \/ exists x, part = [x] /\ parse_include l = Done x.
  Proof.
    intros N part H.
    assert (B : ~ bad_start l) by (intros B; rewrite (next_bad_start _ B) in H by auto; discriminate).
    destruct (next l 0) as [[[tok lx] p]| |] eqn:En; try discriminate. cbn [obind] in H.
    destruct tok; try (right; destruct (parse_include l) as [x| |]; try discriminate; injection H as <-; solve [eauto]).
    left. split; [|now injection H]. destruct (reads_or_broken l) as [(s & R)|(s & R)].
    - destruct (next_first_start _ _ _ (reads_ahead _ _ R N) B) as (p' & E' & _). rewrite En in E'. injection E' as E' _. destruct s as [|[]]; try discriminate. exact R.
    - destruct (next_first_start _ _ _ (broken_ahead _ _ R N) B) as (p' & E' & _). rewrite En in E'. injection E' as E' _. destruct s as [|[]]; discriminate.
  Qed.
  Lemma stmt_done l t ov : ~ In NUL l -> include_line l t ov ->
    obind (next l 0) (fun '(tok, _, _) => match tok with EOF => Done [] | _ => obind (parse_include l) (fun x => Done [x]) end) = Done [inl (t, ov)].
  Proof.
    intros N R. pose proof (proj2 (C46_include l t ov N) R) as P.
    destruct (next_symbol l 0 _ _ _ (reads_ahead _ _ R N)) as (p' & E & _). rewrite E. cbn [tok_of obind]. now rewrite P.
  Qed.
  Lemma empty_done l : ~ In NUL l -> empty_line l ->
    obind (next l 0) (fun '(tok, _, _) => match tok with EOF => Done [] | _ => obind (parse_include l) (fun x => Done [x]) end) = Done [].
  Proof. intros N R. destruct (next_end _ _ (reads_ahead _ _ R N)) as (p & ->). reflexivity. Qed.

  Lemma quals_ok n v ms : (forall s, v = Some s -> ~ In NUL (txt s)) -> quals n v = (ms, None) ->
    (forall k m, In (k, m) ms -> exists t, says_at v k t /\ forall i, matches m i = true <-> hits n t i) /\
    (forall k t, says_at v k t -> exists m, In (k, m) ms /\ forall i, matches m i = true <-> hits n t i) /\
    NoDup (map fst ms) /\ readable n v.
  Proof.
    intros N H. unfold qualifiers in H. destruct v as [s|].
    2: { injection H as <-. split; [intros k m []|]. split; [intros k t (s & l & ov & E & _); discriminate|]. split; [constructor|intros s l E; discriminate]. }
    specialize (N s eq_refl). destruct (bind _ _) as [x|e] eqn:B; [|discriminate].
    apply bind_inl in B as (stmts & P & C). apply of_outcome_inl in P.
    destruct (collect_inl _ _ _ C) as [C1 C2]. pose proof (collect_lines _ _ _ C) as C3. destruct (until_ok _ _ H) as (U1 & U2 & U3).
    unfold parse_include_list in P. pose proof (at_line _ _ _ _ P) as L. pose proof (lines_clean _ N) as Cl. rewrite Forall_forall in Cl.
    assert (ST : forall k y, In (k, y) stmts -> exists t ov m, y = inl (t, ov) /\ matcher_of n y = inl (inl m) /\ In (k, m) ms).
    { intros k y I. destruct (C2 _ I) as (a & Ea). apply bind_inl in Ea as (m & Em & Ea). injection Ea as <-. cbn in Em.
      assert (J : In (k, m) x) by (apply C1; exists (k, y), [(k, m)]; cbn; rewrite Em; cbn; auto).
      destruct m as [m|e]; [|now apply U2 in J]. destruct y as [[t ov]|pr]; [|discriminate]. exists t, ov, m. split; [reflexivity|]. split; [exact Em|]. now apply U1. }
    split; [|split; [|split]].
    - intros k m I. apply U1 in I. apply C1 in I as ([k' y] & a & I & Ea & J). apply bind_inl in Ea as (m' & Em & Ea). injection Ea as <-.
      destruct J as [J|[]]. cbn in J. injection J as -> ->. cbn in Em.
      destruct y as [[t ov]|pr]; [|discriminate]. exists t. split; [|intros i; eapply matcher_hits, Em].
      apply L in I as (i & l & part & -> & Nl & F & I). exists s, l, ov. split; [reflexivity|]. split; [exact Nl|].
      assert (Il : ~ In NUL l) by (apply Cl; now apply nth_error_In in Nl).
      destruct (line_done l Il _ F) as [[_ ->]|(z & -> & Pz)]; [destruct I|]. destruct I as [->|[]]. now apply C46_include.
    - intros k t (s' & l & ov & E & Nl & R). injection E as <-.
      assert (Il : ~ In NUL l) by (apply Cl; now apply nth_error_In in Nl).
      assert (I : In (k, inl (t, ov)) stmts) by (apply L; exists k, l, [inl (t, ov)]; repeat split; auto; [now apply stmt_done|now left]).
      destruct (ST _ _ I) as (t' & ov' & m & Y & Em & J). injection Y as <- <-. exists m. split; [exact J|]. intros i. eapply matcher_hits, Em.
    - assert (Z : map fst ms = map fst stmts) by (transitivity (map fst x); [exact U3|exact C3]). rewrite Z. destruct (line_once _ _ one_part _ _ P) as [D _]. exact D.
    - intros s' l E I. injection E as <-. specialize (Cl l I) as Il. apply in_lines_nth in I as (k & Nl).
      destruct (in_each_line _ _ _ _ P) as [_ I2]. destruct (I2 l) as (part & F); [now apply nth_error_In in Nl|].
      destruct (line_done l Il _ F) as [[E _]|(z & -> & Pz)]; [now left|right].
      assert (J : In (k, z) stmts) by (apply L; exists k, l, [z]; repeat split; auto; now left).
      destruct (ST _ _ J) as (t & ov & m & -> & Em & _). exists t, ov. split; [now apply C46_include|]. apply (matcher_usable n t ov). now exists m.
  Qed.
  Lemma each_line_all {A} (f : text -> outcome (list A)) ls : (forall l, In l ls -> exists p, f l = Done p) -> forall n, exists r, each_line f n ls = Done r.
  Proof.
    induction ls as [|l ls IH]; intros H n; cbn; [eauto|]. destruct (H l) as (p & ->); [now left|]. cbn.
    destruct (IH (fun x I => H x (or_intror I)) (S n)) as (r & ->). cbn. eauto.
  Qed.
  Lemma quals_fine n v : (forall s, v = Some s -> ~ In NUL (txt s)) -> readable n v -> snd (quals n v) = None.
  Proof.
    intros N R. unfold qualifiers. destruct v as [s|]; [|reflexivity]. specialize (N s eq_refl).
    pose proof (lines_clean _ N) as Cl. rewrite Forall_forall in Cl. unfold parse_include_list.
    destruct (each_line_all (fun l => obind (next l 0) (fun '(tok, _, _) => match tok with EOF => Done [] | _ => obind (parse_include l) (fun x => Done [x]) end)) (lines_of (txt s))) with (n := 0) as (stmts & P).
    { intros l I. destruct (R s l eq_refl I) as [E|(t & ov & E & _)]; [exists []; now apply empty_done, E; apply Cl|exists [inl (t, ov)]; apply stmt_done; auto]. }
    pose proof (at_line _ _ _ _ P) as L.
    assert (ST : forall k y, In (k, y) stmts -> exists t ov m, y = inl (t, ov) /\ matcher_of n y = inl (inl m)).
    { intros k y I. apply L in I as (i & l & part & -> & Nl & F & I). apply nth_error_In in Nl. specialize (Cl l Nl).
      destruct (R s l eq_refl Nl) as [E|(t & ov & E & U)].
      - rewrite (empty_done l Cl E) in F. injection F as <-. destruct I.
      - rewrite (stmt_done l t ov Cl E) in F. injection F as <-. destruct I as [<-|[]]. apply (matcher_usable n t ov) in U as (m & U). exists t, ov, m. auto. }
    rewrite P. cbn [of_outcome bind].
    destruct (collect_all (fun x => bind (matcher_of n (snd x)) (fun m => inl [(fst x, m)])) stmts) as (ms & C).
    { intros [k y] I. destruct (ST k y I) as (t & ov & m & -> & E). cbn [snd fst]. rewrite E. cbn. eauto. }
    rewrite C. destruct (until_fine ms) as (l & ->); [|reflexivity].
    intros k e I. apply (collect_inl _ _ _ C) in I as ([k' y] & a & I & Ea & J). destruct (ST _ _ I) as (t & ov & m & -> & E).
    cbn [snd fst] in Ea. rewrite E in Ea. cbn in Ea. injection Ea as <-. destruct J as [J|[]]. discriminate.
  Qed.

  (** ** Putting the checks together *)
  Lemma follow_none a b : snd (followed_by a b) = None -> snd a = None /\ snd b = None /\ fst (followed_by a b) = fst a ++ fst b.
  Proof. unfold followed_by. destruct a as [l [e|]]; cbn; [discriminate|auto]. Qed.
  Lemma follow_fine a b : snd a = None -> snd b = None -> snd (followed_by a b) = None.
  Proof. unfold followed_by. destruct a as [l [e|]]; cbn; [discriminate|auto]. Qed.
  Lemma known_in us i : In i (known us) <-> exists u, In u us /\ called u i.
  Proof.
    unfold known, called. rewrite in_flat_map. split; intros (u & I & H); exists u; split; auto.
    - destruct (u_id u) as [[j|]|]; try destruct H as [<-|[]]; try destruct H; reflexivity.
    - rewrite H. now left.
  Qed.
  Definition clean_texts (p : plan) (part : option string) : Prop := forall f s, text_of p part f = Some s -> ~ In NUL (txt s).

  Lemma sel_app f sev a b : selector_lines f sev (a ++ b) = selector_lines f sev a ++ selector_lines f sev b.
  Proof. unfold selector_lines. apply flat_map_app. Qed.

  Lemma non_empty_lines f n v us ms e : quals n v = (ms, e) ->
    selector_lines f Advice (fst (non_empty re_parse compiles re_match f n v (known us))) =
      map fst (filter (fun km => negb (existsb (matches (snd km)) (known us))) ms) /\
    snd (non_empty re_parse compiles re_match f n v (known us)) = e.
  Proof.
    intros H. unfold non_empty. rewrite H. cbn [fst snd]. split; [|reflexivity]. clear H. induction ms as [|[k m] ms IH]; [reflexivity|]. cbn [flat_map filter fst snd].
    rewrite sel_app, IH. destruct (existsb _ _); cbn; [reflexivity|]. destruct f; reflexivity.
  Qed.
  Lemma non_empty_other f g sev n v us : (f, Advice) <> (g, sev) -> selector_lines g sev (fst (non_empty re_parse compiles re_match f n v (known us))) = [].
  Proof.
    intros D. unfold non_empty. destruct (quals n v) as [ms e]. cbn [fst snd]. induction ms as [|[k m] ms IH]; [reflexivity|]. cbn [flat_map fst snd].
    rewrite sel_app, IH, app_nil_r. destruct (existsb _ _); [reflexivity|]. destruct f, g, sev; try reflexivity; now destruct D.
  Qed.
  Lemma no_base_lines f n inc v us base ms e : quals n inc = (base, None) -> quals n v = (ms, e) ->
    selector_lines f Warning (fst (no_base re_parse compiles re_match f n inc v (known us))) =
      map fst (filter (fun km => existsb (matches (snd km)) (included base (known us))) ms) /\
    snd (no_base re_parse compiles re_match f n inc v (known us)) = e.
  Proof.
    intros I H. unfold no_base. rewrite I, H. cbn [fst snd]. split; [|reflexivity]. clear H. induction ms as [|[k m] ms IH]; [reflexivity|]. cbn [flat_map filter fst snd].
    rewrite sel_app, IH. destruct (existsb _ _); cbn; [|reflexivity]. destruct f; reflexivity.
  Qed.
  Lemma no_base_other f g sev n inc v us : (f, Warning) <> (g, sev) -> selector_lines g sev (fst (no_base re_parse compiles re_match f n inc v (known us))) = [].
  Proof.
    intros D. unfold no_base. destruct (quals n inc) as [base [e|]]; [reflexivity|]. destruct (quals n v) as [ms e]. cbn [fst snd].
    induction ms as [|[k m] ms IH]; [reflexivity|]. cbn [flat_map fst snd].
    rewrite sel_app, IH, app_nil_r. destruct (existsb _ _); [|reflexivity]. destruct f, g, sev; try reflexivity; now destruct D.
  Qed.
  Lemma no_base_none f n inc v us : snd (no_base re_parse compiles re_match f n inc v (known us)) = None -> snd (quals n inc) = None /\ snd (quals n v) = None.
  Proof. unfold no_base. destruct (quals n inc) as [base [e|]]; [discriminate|]. destruct (quals n v) as [ms e]. auto. Qed.
  Lemma no_base_fine f n inc v us : snd (quals n inc) = None -> snd (quals n v) = None -> snd (no_base re_parse compiles re_match f n inc v (known us)) = None.
  Proof. unfold no_base. destruct (quals n inc) as [base [e|]]; [discriminate|]. destruct (quals n v) as [ms e]. auto. Qed.
  Lemma non_empty_snd f n v us : snd (non_empty re_parse compiles re_match f n v (known us)) = snd (quals n v).
  Proof. unfold non_empty. now destruct (quals n v). Qed.

  Definition plain_errors (l : list issue) : Prop := forall i, In i l -> i = mk_issue Bootstrap Error None.
  Lemma unit_plain x : plain_errors (fst (bootstrap_unit x)).
  Proof.
    intros i. unfold bootstrap_unit, followed_by. cbn [snd fst].
    destruct (u_plugin x) as [[w|]|]; cbn [fst snd]; intros I; apply in_app_iff in I as [I|I];
      repeat match type of I with context [match ?o with _ => _ end] => destruct o end; try (destruct I as [<-|[]]; reflexivity); destruct I.
  Qed.
  Lemma reference_plain us i : plain_errors (fst (bootstrap_reference us i)).
  Proof.
    unfold bootstrap_reference. destruct (filter _ us) as [|x [|y l]]; [|apply unit_plain|]; intros j [<-|[]]; reflexivity.
  Qed.
  Lemma follow_plain a b : plain_errors (fst a) -> plain_errors (fst b) -> plain_errors (fst (followed_by a b)).
  Proof. unfold followed_by. destruct a as [l [e|]]; cbn; [auto|]. intros A B i I. apply in_app_iff in I as [I|I]; auto. Qed.
  Lemma references_plain us p : plain_errors (fst (bootstrap_references set_order us p)).
  Proof.
    unfold bootstrap_references. destruct (bootstrap_job_ids p); [|intros j [<-|[]]; reflexivity].
    induction (set_order l) as [|i r IH]; cbn; [intros j []|]. apply follow_plain; [apply reference_plain|exact IH].
  Qed.
  Lemma plain_sel f sev l : plain_errors l -> selector_lines f sev l = [].
  Proof.
    intros H. induction l as [|i l IH]; [reflexivity|]. change (i :: l) with ([i] ++ l). rewrite sel_app, IH by (intros j I; apply H; now right).
    rewrite (H i) by (now left). reflexivity.
  Qed.

  Section Whole.
    Variables (us : list unit_) (p : plan) (part : option string).
    Hypothesis clean_plan : clean_texts p part.
    Notation nonem f := (non_empty re_parse compiles re_match f (ns p) (text_of p part f) (known us)).
    Notation nobase f := (no_base re_parse compiles re_match f (ns p) (include p) (text_of p part f) (known us)).
    Lemma whole : snd (check us p part) = None ->
      fst (check us p part) = fst (nobase Bootstrap) ++ fst (bootstrap_references set_order us p) ++ fst (nonem Exclude) ++ fst (nonem Include)
        ++ fst (nonem Mandatory) ++ fst (nobase Mandatory) ++ fst (nonem Nested_part) /\
      snd (bootstrap_references set_order us p) = None /\ forall f, snd (quals (ns p) (text_of p part f)) = None.
    Proof.
      unfold check_plan. intros H.
      apply follow_none in H as (H1 & H & ->). apply follow_none in H as (H2 & H & ->). apply follow_none in H as (H3 & H & ->).
      apply follow_none in H as (H4 & H & ->). apply follow_none in H as (H5 & H & ->). apply follow_none in H as (H6 & H & ->).
      split; [reflexivity|]. split; [exact H2|]. rewrite non_empty_snd in *. apply no_base_none in H1 as [_ H1].
      intros []; assumption.
    Qed.
    Lemma quals_at f : snd (quals (ns p) (text_of p part f)) = None -> exists ms, quals (ns p) (text_of p part f) = (ms, None) /\
      (forall k m, In (k, m) ms -> exists t, says_at (text_of p part f) k t /\ forall i, matches m i = true <-> hits (ns p) t i) /\
      (forall k t, says_at (text_of p part f) k t -> exists m, In (k, m) ms /\ forall i, matches m i = true <-> hits (ns p) t i) /\
      NoDup (map fst ms) /\ readable (ns p) (text_of p part f).
    Proof.
      intros E. destruct (quals (ns p) (text_of p part f)) as [ms e] eqn:Q. cbn in E. subst e. exists ms. split; [reflexivity|]. apply (quals_ok _ _ _ (fun s H => clean_plan f s H) Q).
    Qed.
    Lemma nodup_map_filter {A} (g : nat * A -> bool) l : NoDup (map fst l) -> NoDup (map fst (filter g l)).
    Proof.
      induction l as [|x l IH]; cbn; [auto|]. intros H. inversion H; subst. destruct (g x); cbn; [constructor|]; auto.
      intros I. apply H2. apply in_map_iff in I as (y & E & I). apply filter_In in I as [I _]. rewrite <- E. now apply in_map.
    Qed.
    Lemma exists_known m n t : (forall i, matches m i = true <-> hits n t i) -> (existsb (matches m) (known us) = true <-> hits_unit us n t).
    Proof.
      intros M. rewrite existsb_exists. unfold PlancheckSpec.hits_unit. split.
      - intros (i & I & E). apply known_in in I as (u & I & C). exists u, i. rewrite <- M. auto.
      - intros (u & i & I & C & H). exists i. rewrite M. split; [apply known_in; eauto|exact H].
    Qed.

    (** ** Selectors that select nothing
        are pointed out, each once and at its line, in the fields include, exclude,
        mandatory_include and nested_part; all others are not. *)
    Theorem C81_selects_nothing : snd (check us p part) = None -> forall f, f <> Bootstrap ->
      (forall k, In (mk_issue f Advice (Some k)) (fst (check us p part)) <-> exists t, says_at (text_of p part f) k t /\ ~ hits_unit us (ns p) t) /\
      NoDup (selector_lines f Advice (fst (check us p part))).
    Proof.
      intros H f NB. destruct (whole H) as (E & _ & Q). destruct (quals_at f (Q f)) as (ms & Qf & A & B & D & _).
      destruct (non_empty_lines f (ns p) (text_of p part f) us ms None Qf) as [L _].
      assert (SL : selector_lines f Advice (fst (check us p part)) = map fst (filter (fun km => negb (existsb (matches (snd km)) (known us))) ms)).
      { rewrite E, !sel_app, !no_base_other, (plain_sel _ _ _ (references_plain us p)) by congruence. cbn [app]. rewrite <- L.
        assert (O : forall g, g <> f -> selector_lines f Advice (fst (nonem g)) = []) by (intros g Ng; apply non_empty_other; congruence).
        destruct f; try (now destruct NB); try rewrite (O Exclude) by discriminate; try rewrite (O Include) by discriminate;
          try rewrite (O Mandatory) by discriminate; try rewrite (O Nested_part) by discriminate; cbn [app]; rewrite ?app_nil_r; reflexivity. }
      split; [|rewrite SL; now apply nodup_map_filter].
      intros k. assert (X : In (mk_issue f Advice (Some k)) (fst (check us p part)) <-> In k (selector_lines f Advice (fst (check us p part)))).
      { unfold selector_lines. rewrite in_flat_map. split.
        - intros I. exists (mk_issue f Advice (Some k)). split; [exact I|]. cbn. destruct f; now left.
        - intros ([g s [k'|]] & I & J); cbn in J; [|destruct J]. destruct g, f; try destruct J; destruct s; try destruct J as [<-|[]]; try destruct J; exact I. }
      rewrite X, SL, in_map_iff. split.
      - intros ([k' m] & <- & I). apply filter_In in I as [I N]. destruct (A _ _ I) as (t & St & M). exists t. split; [exact St|].
        rewrite <- (exists_known m (ns p) t M). cbn in N. destruct (existsb _ _); [discriminate|auto].
      - intros (t & St & N). destruct (B _ _ St) as (m & I & M). exists (k, m). split; [reflexivity|]. apply filter_In. split; [exact I|]. cbn.
        rewrite <- (exists_known m (ns p) t M) in N. destruct (existsb _ _); [now destruct N|reflexivity].
    Qed.

    (** ** Selectors that select what include selects already
        are pointed out in the fields mandatory_include and bootstrap_include. *)
    Theorem C81_selected_twice : snd (check us p part) = None -> forall f, f = Mandatory \/ f = Bootstrap ->
      (forall k, In (mk_issue f Warning (Some k)) (fst (check us p part)) <-> exists t, says_at (text_of p part f) k t /\ hits_included us p t) /\
      NoDup (selector_lines f Warning (fst (check us p part))).
    Proof.
      intros H f NB. destruct (whole H) as (E & _ & Q). destruct (quals_at f (Q f)) as (ms & Qf & A & B & D & _).
      destruct (quals_at Include (Q Include)) as (base & Qi & Ai & Bi & _). cbn [text_of] in Qi, Ai, Bi.
      destruct (no_base_lines f (ns p) (include p) (text_of p part f) us base ms None Qi Qf) as [L _].
      assert (SL : selector_lines f Warning (fst (check us p part)) = map fst (filter (fun km => existsb (matches (snd km)) (included base (known us))) ms)).
      { rewrite E, !sel_app, (plain_sel _ _ _ (references_plain us p)), !non_empty_other by congruence. cbn [app]. rewrite app_nil_r. rewrite <- L.
        destruct NB as [-> | ->].
        - rewrite (no_base_other Bootstrap Mandatory) by congruence. reflexivity.
        - rewrite (no_base_other Mandatory Bootstrap) by congruence. now rewrite app_nil_r. }
      split; [|rewrite SL; now apply nodup_map_filter].
      intros k. assert (X : In (mk_issue f Warning (Some k)) (fst (check us p part)) <-> In k (selector_lines f Warning (fst (check us p part)))).
      { unfold selector_lines. rewrite in_flat_map. split.
        - intros I. exists (mk_issue f Warning (Some k)). split; [exact I|]. cbn. destruct f; now left.
        - intros ([g s [k'|]] & I & J); cbn in J; [|destruct J]. destruct g, f; try destruct J; destruct s; try destruct J as [<-|[]]; try destruct J; exact I. }
      assert (M2 : forall m t, (forall i, matches m i = true <-> hits (ns p) t i) -> (existsb (matches m) (included base (known us)) = true <-> hits_included us p t)).
      { intros m t M. rewrite existsb_exists. unfold PlancheckSpec.hits_included, included. split.
        - intros (i & I & Mi). apply in_flat_map in I as ([k' m'] & J & I). apply filter_In in I as [I Mi']. apply known_in in I as (u & I & C).
          destruct (Ai _ _ J) as (t' & St & M'). exists u, i, k', t'. split; [exact I|]. split; [exact C|]. split; [now apply M|]. split; [exact St|]. now apply M'.
        - intros (u & i & k' & t' & I & C & Hi & St & Hi'). exists i. split; [|now apply M]. destruct (Bi _ _ St) as (m' & J & M').
          apply in_flat_map. exists (k', m'). split; [exact J|]. apply filter_In. split; [apply known_in; eauto|]. now apply M'. }
      rewrite X, SL, in_map_iff. split.
      - intros ([k' m] & <- & I). apply filter_In in I as [I N]. destruct (A _ _ I) as (t & St & M). exists t. split; [exact St|]. now apply (M2 m t M).
      - intros (t & St & N). destruct (B _ _ St) as (m & I & M). exists (k, m). split; [reflexivity|]. apply filter_In. split; [exact I|]. now apply (M2 m t M).
    Qed.

    Lemma filter_called i (l : list unit_) : (forall x, In x l -> ~ called x i) ->
      filter (fun u => match u_id u with Some (Some j) => String.eqb i j | _ => false end) l = [].
    Proof.
      induction l as [|x l IH]; intros H; [reflexivity|]. cbn. rewrite IH by (intros y I; apply H; now right).
      specialize (H x (or_introl eq_refl)). unfold called in H. destruct (u_id x) as [[j|]|]; try reflexivity.
      destruct (String.eqb_spec i j); [|reflexivity]. subst j. now destruct H.
    Qed.
    Lemma filter_single i (l : list unit_) x : filter (fun u => match u_id u with Some (Some j) => String.eqb i j | _ => false end) l = [x] ->
      exists a b, l = a ++ x :: b /\ called x i /\ forall y, In y (a ++ b) -> ~ called y i.
    Proof.
      induction l as [|y l IH]; cbn; [discriminate|].
      destruct (match u_id y with Some (Some j) => String.eqb i j | _ => false end) eqn:E.
      - intros [= <- F]. exists [], l. split; [reflexivity|]. split.
        + unfold called. destruct (u_id y) as [[j|]|]; try discriminate. apply String.eqb_eq in E. now subst.
        + intros z I C. assert (J : In z (filter (fun u => match u_id u with Some (Some j) => String.eqb i j | _ => false end) l)).
          { apply filter_In. split; [exact I|]. unfold called in C. rewrite C. apply String.eqb_refl. }
          rewrite F in J. destruct J.
      - intros F. destruct (IH F) as (a & b & -> & C & N). exists (y :: a), b. split; [reflexivity|]. split; [exact C|].
        intros z [<-|I]; [|now apply N]. unfold called. intros Z. rewrite Z, String.eqb_refl in E. discriminate.
    Qed.
    Lemma reference_good i : bootstrap_reference us i = ([], None) <-> only_resource us i.
    Proof.
      unfold bootstrap_reference, only_resource. split.
      - destruct (filter _ us) as [|x [|y l]] eqn:F; try discriminate. intros G. apply filter_single in F as (a & b & -> & C & N).
        exists a, x, b. split; [reflexivity|]. split; [exact C|]. split; [exact N|]. unfold bootstrap_unit, followed_by in G. cbn [snd fst] in G.
        destruct (u_plugin x) as [[w|]|]; cbn [fst snd] in G.
        + destruct (u_kind x) as [k|]; [|discriminate]. destruct (String.eqb_spec k "job"); [|discriminate]. destruct (String.eqb_spec w "resource"); [|discriminate]. now subst.
        + injection G as G. apply app_eq_nil in G as [_ G]. discriminate.
        + discriminate.
      - intros (a & x & b & -> & C & N & K & Pl). rewrite filter_app. cbn [filter]. rewrite C at 1. rewrite String.eqb_refl.
        rewrite !filter_called by (intros y I; apply N, in_app_iff; auto). cbn. unfold bootstrap_unit. rewrite K, Pl. reflexivity.
    Qed.
    (** ** Bootstrap jobs
        There is an error exactly when a job listed in bootstrap_include, here or in a
        nested part, is not the only unit of its name or not a resource job. *)
    Theorem C81_bootstrap : clean p -> snd (check us p part) = None -> forall ids, bootstrap_job_ids p = inl ids ->
      ((forall f l, ~ In (mk_issue f Error l) (fst (check us p part))) <->
       forall q w i, TestplanSpec.part p q -> lists_word (bootstrap q) w -> in_namespace (ns q) (str w) i -> only_resource us i).
    Proof.
      intros C H ids J. destruct (whole H) as (E & R & _).
      assert (X : (forall f l, ~ In (mk_issue f Error l) (fst (check us p part))) <-> fst (bootstrap_references set_order us p) = []).
      { rewrite E. split.
        - intros N. destruct (fst (bootstrap_references set_order us p)) as [|i r] eqn:F; [reflexivity|]. exfalso.
          pose proof (references_plain us p i) as Pl. rewrite F in Pl. rewrite (Pl (or_introl eq_refl)) in *. apply (N Bootstrap None).
          apply in_app_iff. right. apply in_app_iff. left. now left.
        - intros F f l I. rewrite F in I. cbn [app] in I.
          assert (NE : forall g n v, ~ In (mk_issue f Error l) (fst (non_empty re_parse compiles re_match g n v (known us)))).
          { intros g n v. unfold non_empty. destruct (quals n v) as [ms e]. cbn. intros K. apply in_flat_map in K as (km & _ & K). destruct (existsb _ _); [destruct K|destruct K as [K|[]]; discriminate]. }
          assert (NB : forall g n v w, ~ In (mk_issue f Error l) (fst (no_base re_parse compiles re_match g n v w (known us)))).
          { intros g n v w. unfold no_base. destruct (quals n v) as [ms [e|]]; [intros []|]. destruct (quals n w) as [ms' e']. cbn. intros K. apply in_flat_map in K as (km & _ & K). destruct (existsb _ _); [destruct K as [K|[]]; discriminate|destruct K]. }
          repeat (apply in_app_iff in I as [I|I]; [now (apply NE in I || apply NB in I)|]). now apply NE in I. }
      rewrite X. unfold bootstrap_references in *. rewrite J in *.
      assert (Y : fst (fold_right (fun i r => followed_by (bootstrap_reference us i) r) ([], None) (set_order ids)) = [] <-> forall i, In i (set_order ids) -> only_resource us i).
      { clear X E H. induction (set_order ids) as [|i r IH]; cbn [fold_right] in *; [split; [intros _ i []|reflexivity]|].
        apply follow_none in R as (R1 & R2 & ->). specialize (IH R2). split.
        - intros Z. apply app_eq_nil in Z as [Z1 Z2]. intros j [<-|I]; [|now apply IH]. apply reference_good. destruct (bootstrap_reference us i). cbn in *. now subst.
        - intros Z. rewrite (proj2 IH) by (intros j I; apply Z; now right). rewrite (proj2 (reference_good i)) by (apply Z; now left). reflexivity. }
      rewrite Y. split.
      - intros Z q w i Pq W N. apply Z, set_members, (bootstrap_ids_ok p C ids J). eauto.
      - intros Z i I. apply (proj1 (set_members _ _)) in I. apply (bootstrap_ids_ok p C ids J) in I as (q & w & Pq & W & N). eauto.
    Qed.

    (** ** When validation raises
        instead of reporting: a line of one of the fields, also of bootstrap_include, is not
        a statement with a usable pattern, or a bootstrap job is called like a unit without
        the attribute plugin. *)
    Theorem C81_raises : snd (check us p part) = None <->
      (forall f, readable (ns p) (text_of p part f)) /\
      (forall ids i a u b, bootstrap_job_ids p = inl ids -> In i ids -> us = a ++ u :: b -> called u i -> (forall x, In x (a ++ b) -> ~ called x i) -> u_plugin u <> None).
    Proof.
      split.
      - intros H. destruct (whole H) as (_ & R & Q). split.
        + intros f. destruct (quals_at f (Q f)) as (ms & _ & _ & _ & _ & Rd). exact Rd.
        + intros ids i a u b J I E C N PN. unfold bootstrap_references in R. rewrite J in R. apply (proj2 (set_members _ _)) in I.
          induction (set_order ids) as [|j r IH]; [destruct I|]. cbn [fold_right] in R. apply follow_none in R as (R1 & R2 & _).
          destruct I as [->|I]; [|now apply IH]. unfold bootstrap_reference in R1. rewrite E, filter_app in R1. cbn [filter] in R1. rewrite C, String.eqb_refl in R1 at 1.
          rewrite !filter_called in R1 by (intros y K; apply N, in_app_iff; auto). cbn in R1. unfold bootstrap_unit, followed_by in R1. rewrite PN in R1. discriminate.
      - intros [R B]. assert (Q : forall f, snd (quals (ns p) (text_of p part f)) = None) by (intros f; apply quals_fine; [exact (clean_plan f)|apply R]).
        pose proof (Q Include) as Q1. pose proof (Q Exclude) as Q2. pose proof (Q Mandatory) as Q3. pose proof (Q Bootstrap) as Q4. pose proof (Q Nested_part) as Q5.
        cbn [text_of] in *. unfold check_plan.
        apply follow_fine; [now apply no_base_fine|]. apply follow_fine.
        + unfold bootstrap_references. destruct (bootstrap_job_ids p) as [ids|e] eqn:J; [|reflexivity].
          assert (S : forall i, In i (set_order ids) -> snd (bootstrap_reference us i) = None).
          { intros i I. apply (proj1 (set_members _ _)) in I. unfold bootstrap_reference. destruct (filter _ us) as [|x [|y l]] eqn:F; try reflexivity.
            apply filter_single in F as (a & b & E & C & N). specialize (B ids i a x b eq_refl I E C N).
            unfold bootstrap_unit, followed_by. cbn [snd fst]. destruct (u_plugin x); [reflexivity|now destruct B]. }
          induction (set_order ids) as [|i r IH]; [reflexivity|]. cbn [fold_right]. apply follow_fine; [apply S; now left|apply IH; intros j K; apply S; now right].
        + apply follow_fine; [rewrite non_empty_snd; exact Q2|]. apply follow_fine; [rewrite non_empty_snd; exact Q1|].
          apply follow_fine; [rewrite non_empty_snd; exact Q3|]. apply follow_fine; [now apply no_base_fine|]. rewrite non_empty_snd. exact Q5.
    Qed.
  End Whole.
End P.

(** ** Cases and counterexamples, with three patterns *)
Definition toy_parse (s : string) : re_kind :=
  if String.eqb s "[" then ReErr else if String.eqb s ".*" then RePattern else ReFixed.
Definition toy_match (re i : string) : bool := (String.eqb re "^a::.*$" && String.prefix "a::" i)%bool.
Notation toy := (check_plan toy_parse (fun _ => true) toy_match (fun l => l)).
Definition job_one := mk_unit (Some (Some "a::one")) (Some "job") (Some (Some "resource")).
Definition category_two := mk_unit (Some (Some "a::two")) (Some "category") None.
Definition plan_of (inc mand boot : option string) : plan := Plan (Some "a") inc None mand boot None None [].
Definition lf : string := String "010" "".

Example C81_case :
  toy [job_one; category_two] (plan_of (Some ("one" ++ lf ++ "b::three" ++ lf ++ lf ++ "four")%string) (Some ("two" ++ lf ++ ".*")%string) (Some "one")) (Some "five") =
  ([mk_issue Bootstrap Warning (Some 0); mk_issue Include Advice (Some 1); mk_issue Include Advice (Some 3);
    mk_issue Mandatory Warning (Some 1); mk_issue Nested_part Advice (Some 0)], None).
Proof. vm_compute. reflexivity. Qed.
Example C81_case_errors :
  toy [job_one; job_one; mk_unit (Some (Some "a::job")) (Some "job") (Some (Some "shell"))] (plan_of None None (Some "job one none")) None =
  ([], Some ValueError).
Proof. vm_compute. reflexivity. Qed.
Example C81_case_errors_by_line :
  toy [job_one; job_one; mk_unit (Some (Some "a::job")) (Some "job") (Some (Some "shell"))] (plan_of None None (Some ("job" ++ lf ++ "one" ++ lf ++ "none")%string)) None =
  ([mk_issue Bootstrap Error None; mk_issue Bootstrap Error None; mk_issue Bootstrap Error None], None).
Proof. vm_compute. reflexivity. Qed.

(** Validation that says nothing about include does not mean that it selects jobs: a unit of
    any kind will do. *)
Theorem C81_silent_means_jobs_refuted :
  ~ (forall us p part, snd (toy us p part) = None -> (forall k, ~ In (mk_issue Include Advice (Some k)) (fst (toy us p part))) ->
     forall k t, says_at (include p) k t -> exists u i, In u us /\ u_kind u = Some "job" /\ called u i /\ hits toy_parse toy_match (ns p) t i).
Proof.
  intros H. specialize (H [category_two] (plan_of (Some "two") None None) None eq_refl).
  destruct (H (fun k I => I) 0 (txt "two")) as (u & i & [<-|[]] & K & _); [|discriminate].
  exists "two", (txt "two"), []. split; [reflexivity|]. split; [reflexivity|]. apply C46_include; [|reflexivity].
  cbn. intuition discriminate.
Qed.
(** A pattern that is not a regular expression, words of bootstrap_include on one line, or a
    bootstrap job that is the name of a category, end the validation of the whole provider *)
Theorem C81_validation_reports_refuted :
  toy [job_one] (plan_of (Some "[") None None) None = ([], Some ReError) /\
  toy [job_one] (plan_of None None (Some "one one")) None = ([], Some ValueError) /\
  toy [category_two] (plan_of None None (Some "two")) None = ([mk_issue Bootstrap Error None], Some AttributeError).
Proof. vm_compute. auto. Qed.

Print Assumptions C81_selects_nothing.
Print Assumptions C81_selected_twice.
Print Assumptions C81_bootstrap.
Print Assumptions C81_raises.
Print Assumptions C81_silent_means_jobs_refuted.
Print Assumptions C81_validation_reports_refuted.
