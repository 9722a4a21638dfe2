(** Theorems about test plans (properties C33 and C47). *)
From Coq Require Import String Ascii List Bool Arith Lia Permutation.
From Verif Require Import Base BaseFacts ScanModel ScanSpec Rfc822Model XparseModel XparseSpec.
From Verif Require Import QualModel QualSpec QualProps TestplanModel TestplanSpec TestplanProofs.
Import ListNotations.
Local Open Scope nat_scope.
Local Open Scope string_scope.
Local Open Scope list_scope.

(** * Selection *)

(** A job is designated by a test plan iff a statement of the test plan, or of one
    nested in it, includes it, and none of them excludes it or lists it as a
    bootstrap job. *)
Theorem C47_selection :
  forall job job_id re_parse compiles re_match set_order,
    (forall l x, In x (set_order l) <-> In x l) ->
    forall p q (j : job), clean p ->
      get_qualifier job job_id re_parse compiles re_match set_order p = inl q ->
      (designates job job_id q j = true <->
       plan_includes job job_id re_parse re_match p j /\ ~ plan_excludes job job_id re_parse re_match p j).
Proof.
  intros job job_id re_parse compiles re_match set_order SO p q j C H.
  pose proof (qualifier_ok job job_id re_parse compiles re_match set_order SO p C q H j) as Q.
  destruct (C18_votes job job_id q j) as (_ & V & _).
  transitivity (get_vote job job_id q j = INCLUDE).
  { unfold designates. destruct (get_vote job job_id q j); split; congruence. }
  rewrite V. unfold includes, excludes. rewrite (Q true), (Q false).
  intuition congruence.
Qed.
Print Assumptions C47_selection.

(** Selecting from jobs with different identifiers gives these jobs exactly. *)
Theorem C47_select_jobs :
  forall job job_id re_parse compiles re_match set_order,
    (forall l x, In x (set_order l) <-> In x l) ->
    forall p q (jobs : list job) j, clean p -> NoDup (map job_id jobs) ->
      get_qualifier job job_id re_parse compiles re_match set_order p = inl q ->
      (In j (select_jobs job job_id jobs [q]) <->
       In j jobs /\
       plan_includes job job_id re_parse re_match p j /\ ~ plan_excludes job job_id re_parse re_match p j).
Proof.
  intros job job_id re_parse compiles re_match set_order SO p q jobs j C U H.
  pose proof (qualifier_ok job job_id re_parse compiles re_match set_order SO p C q H j) as Q.
  rewrite (C17_selects_exactly job job_id jobs [q] j U).
  unfold wanted, includes, excludes.
  assert (A : (exists q', In q' [q] /\ exists m, primitive job q' m true /\ matches job job_id m j) <->
              plan_includes job job_id re_parse re_match p j).
  { split.
    - intros (q' & [<-|[]] & X). apply (Q true) in X as [[_ X]|[X _]]; [exact X|discriminate].
    - intros X. exists q. split; [now left|]. apply (Q true). auto. }
  assert (B : (forall q', In q' [q] -> ~ exists m, primitive job q' m false /\ matches job job_id m j) <->
              ~ plan_excludes job job_id re_parse re_match p j).
  { split.
    - intros N X. apply (N q (or_introl eq_refl)). apply (Q false). auto.
    - intros N q' [<-|[]] X. apply (Q false) in X as [[X _]|[_ X]]; [discriminate|auto]. }
  rewrite A, B. reflexivity.
Qed.
Print Assumptions C47_select_jobs.

(** The mandatory jobs are those that a mandatory_include statement selects:
    nothing excludes them. *)
Theorem C47_mandatory :
  forall job job_id re_parse compiles re_match p q (j : job), clean p ->
    mandatory_qualifier job job_id re_parse compiles re_match p = inl q ->
    (designates job job_id q j = true <-> plan_requires job job_id re_parse re_match p j).
Proof.
  intros job job_id re_parse compiles re_match p q j C H.
  pose proof (mandatory_ok job job_id re_parse compiles re_match p C q H j) as Q.
  destruct (C18_votes job job_id q j) as (_ & V & _).
  transitivity (get_vote job job_id q j = INCLUDE).
  { unfold designates. destruct (get_vote job job_id q j); split; congruence. }
  rewrite V. unfold includes, excludes. rewrite (Q true), (Q false).
  intuition congruence.
Qed.
Print Assumptions C47_mandatory.

(** The bootstrap identifiers are the words of the bootstrap_include fields, in
    the namespace of their test plan; the bootstrap qualifier designates the jobs
    with these identifiers. *)
Theorem C47_bootstrap :
  forall p ids, clean p -> bootstrap_job_ids p = inl ids -> forall i,
    (In i ids <-> exists q w, part p q /\ lists_word (bootstrap q) w /\ in_namespace (ns q) (str w) i).
Proof. intros p ids C H i. now apply bootstrap_ids_ok. Qed.
Print Assumptions C47_bootstrap.

Theorem C47_bootstrap_jobs :
  forall job job_id set_order,
    (forall l x, In x (set_order l) <-> In x l) ->
    forall p q (j : job), clean p ->
    bootstrap_qualifier job set_order false p = inl q ->
    (designates job job_id q j = true <->
     exists r w, part p r /\ lists_word (bootstrap r) w /\ in_namespace (ns r) (str w) (job_id j)).
Proof.
  intros job job_id set_order SO p q j C H.
  pose proof (bootstrap_qualifier_ok job job_id set_order SO false p C q H j) as Q.
  destruct (C18_votes job job_id q j) as (_ & V & _).
  transitivity (get_vote job job_id q j = INCLUDE).
  { unfold designates. destruct (get_vote job job_id q j); split; congruence. }
  rewrite V. unfold includes, excludes. rewrite (Q true), (Q false). unfold boots. cbn.
  intuition congruence.
Qed.
Print Assumptions C47_bootstrap_jobs.

(** A nested exclusion counts for the test plan around it. *)
Theorem C47_nested_exclusion :
  forall job job_id re_parse re_match p q (j : job),
    part p q -> plan_excludes job job_id re_parse re_match q j ->
    plan_excludes job job_id re_parse re_match p j.
Proof.
  intros job job_id re_parse re_match p q j R (r & R' & X). exists r. split; auto.
  clear X. induction R; auto. econstructor; eauto.
Qed.
Print Assumptions C47_nested_exclusion.

(** * Overrides *)

(** Jobs come and go in a device context and the test plans are set once, at any
    time.  The effective value of a field of a job is then one that a test plan
    says; if none says any, it is the job's own. *)
Theorem C33_effective :
  forall job job_id own re_parse compiles re_match ps before after (c : context job) i s f,
    Forall clean ps -> no_set job before -> no_set job after ->
    perform_all job job_id re_parse compiles re_match (before ++ SetTestPlans job ps :: after) (fresh job) = inl c ->
    dget i (states job c) = Some s ->
    (exists p v, In p ps /\ says job job_id re_match p (fst s) f v /\ effective job own s f = v) \/
    ((forall p v, In p ps -> ~ says job job_id re_match p (fst s) f v) /\ effective job own s f = own (fst s) f).
Proof.
  intros job job_id own re_parse compiles re_match ps before after c i s f C NB NA H D.
  eapply settled_effective; eauto. eapply history_settled; [exact NB|exact NA|exact H].
Qed.
Print Assumptions C33_effective.

(** It does not matter when the job came: with the same test plans the same job
    has the same effective values. *)
Theorem C33_any_time :
  forall job job_id own re_parse compiles re_match ps b1 a1 b2 a2 (c1 c2 : context job) i1 i2 s1 s2 f,
    no_set job b1 -> no_set job a1 -> no_set job b2 -> no_set job a2 ->
    perform_all job job_id re_parse compiles re_match (b1 ++ SetTestPlans job ps :: a1) (fresh job) = inl c1 ->
    perform_all job job_id re_parse compiles re_match (b2 ++ SetTestPlans job ps :: a2) (fresh job) = inl c2 ->
    dget i1 (states job c1) = Some s1 -> dget i2 (states job c2) = Some s2 -> fst s1 = fst s2 ->
    effective job own s1 f = effective job own s2 f.
Proof.
  intros job job_id own re_parse compiles re_match ps b1 a1 b2 a2 c1 c2 i1 i2 s1 s2 f N1 N2 N3 N4 H1 H2 D1 D2 E.
  apply history_settled in H1 as (_ & _ & _ & K1); auto.
  apply history_settled in H2 as (_ & _ & _ & K2); auto.
  apply dget_In in D1. apply dget_In in D2.
  destruct (K1 _ _ D1) as (m1 & A1 & B1 & _). destruct (K2 _ _ D2) as (m2 & A2 & B2 & _).
  congruence.
Qed.
Print Assumptions C33_any_time.

(** get_effective_category gives a category that a statement of category-overrides
    says, else the job's own. *)
Theorem C33_category :
  forall job job_id own compiles re_match p (j : job) e, clean p ->
    effective_category job job_id own compiles re_match p j = inl e ->
    category_says job job_id re_match p j e \/
    ((forall v, ~ category_says job job_id re_match p j v) /\ e = own j CATEGORY).
Proof. intros. eapply (effective_category_ok _ _ _ (fun _ => ReErr)); eauto. Qed.
Print Assumptions C33_category.

(** get_effective_category_map does the same for each of the jobs. *)
Theorem C33_category_map :
  forall job job_id own compiles re_match p (jobs : list job) m, clean p -> NoDup (map job_id jobs) ->
    effective_category_map job job_id own compiles re_match p jobs = inl m ->
    forall j, In j jobs -> exists e, dget (job_id j) m = Some e /\
      (category_says job job_id re_match p j e \/
       ((forall v, ~ category_says job job_id re_match p j v) /\ e = own j CATEGORY)).
Proof. intros. eapply (category_map_ok _ _ _ (fun _ => ReErr)); eauto. Qed.
Print Assumptions C33_category_map.

(** All three agree about a job, if the test plan has no nested parts, no inline
    override for the category of the job, and does not say two different
    categories for it. *)
Theorem C33_agree :
  forall job job_id own re_parse compiles re_match p before after (c : context job) i s jobs e m,
    clean p -> nested p = [] ->
    (forall v, ~ inline_says job job_id re_match p (fst s) CATEGORY v) ->
    (forall v w, category_says job job_id re_match p (fst s) v -> category_says job job_id re_match p (fst s) w -> v = w) ->
    no_set job before -> no_set job after ->
    perform_all job job_id re_parse compiles re_match (before ++ SetTestPlans job [p] :: after) (fresh job) = inl c ->
    dget i (states job c) = Some s ->
    effective_category job job_id own compiles re_match p (fst s) = inl e ->
    NoDup (map job_id jobs) -> In (fst s) jobs ->
    effective_category_map job job_id own compiles re_match p jobs = inl m ->
    effective job own s CATEGORY = e /\ dget (job_id (fst s)) m = Some e.
Proof.
  intros job job_id own re_parse compiles re_match p before after c i s jobs e m C NN NI AG NB NA H D He U Hj Hm.
  destruct (category_map_ok _ _ _ re_parse _ _ _ _ _ C U Hm _ Hj) as (e' & De & He').
  pose proof (effective_category_ok _ _ _ re_parse _ _ _ _ _ C He) as Hc.
  assert (E : e' = e).
  { destruct He' as [X|[X ->]], Hc as [Y|[Y ->]]; [now apply AG| | |reflexivity]; exfalso; [eapply Y|eapply X]; eauto. }
  subst e'. split; auto.
  assert (SC : forall v, says job job_id re_match p (fst s) CATEGORY v <-> category_says job job_id re_match p (fst s) v).
  { intros v. split.
    - intros [(q & R & X)|[(_ & q & R & X)|(X & _)]]; [| |discriminate].
      + apply part_iff in R as [->|(r & Hr & _)]; [exfalso; eapply NI; eauto|]. rewrite NN in Hr. destruct Hr.
      + apply category_part_iff in R as [_ [->|(r & Hr & _)]]; [exact X|]. rewrite NN in Hr. destruct Hr.
    - intros X. right. left. split; auto. exists p. split; auto. constructor.
      destruct X as (t & va & (s0 & l & X & _) & _). congruence. }
  assert (Z : (exists q v, In q [p] /\ says job job_id re_match q (fst s) CATEGORY v /\ effective job own s CATEGORY = v) \/
    ((forall q v, In q [p] -> ~ says job job_id re_match q (fst s) CATEGORY v) /\ effective job own s CATEGORY = own (fst s) CATEGORY)).
  { eapply C33_effective; [constructor; [exact C|constructor]|exact NB|exact NA|exact H|exact D]. }
  destruct Z as [(q & v & [<-|[]] & X & ->)|[X ->]].
  - apply SC in X. destruct Hc as [Y|[Y ->]]; [now apply AG|]. exfalso. eapply Y; eauto.
  - destruct Hc as [Y|[Y ->]]; auto. exfalso. eapply (X p e); [now left|]. now apply SC.
Qed.
Print Assumptions C33_agree.

(** * Concrete test plans *)

Lemma clean_by_computation : forall p,
  (forall q, part p q -> (forallb (fun f => match f with None => true | Some s => negb (existsb (Ascii.eqb NUL) (txt s)) end)
     [include q; exclude q; mandatory q; bootstrap q; category q; certification q] = true) /\ bootstrap q = None) ->
  clean p.
Proof.
  intros p H q R. destruct (H q R) as [A B]. split.
  - intros f s Hf -> X. rewrite forallb_forall in A. apply A in Hf. cbn in Hf. apply negb_true_iff in Hf.
    assert (T : existsb (Ascii.eqb NUL) (txt s) = true) by (apply existsb_exists; exists NUL; split; auto; apply Ascii.eqb_refl).
    congruence.
  - rewrite B. discriminate.
Qed.

Definition lf : string := String NL EmptyString.
(** jobs are their identifiers; the regular expressions below match the text
    between the anchors only *)
Definition toy_own (j : string) (f : field) : string :=
  match f with CATEGORY => "own" | STATUS => "unspecified" | RETRY => "yes" end.
Definition toy_match (pattern s : string) : bool := String.eqb pattern (between s).
Definition toy_parse (s : string) : re_kind :=
  if String.eqb s "^a$" then RePattern else ReFixed.

Definition inner : plan :=
  Plan (Some "ns") (Some "c") (Some "b") None None (Some "apply deep to c") None [].
Definition outer : plan :=
  Plan (Some "ns") (Some ("^a$ certification-status=blocker" ++ lf ++ "b" ++ lf ++ "d")%string) None None None
       (Some "apply x to a") (Some "apply non-blocker to c") [inner].

Lemma outer_clean : clean outer.
Proof.
  apply clean_by_computation. intros q R.
  apply part_iff in R as [->|(r & [<-|[]] & R)]; [split; reflexivity|].
  apply part_iff in R as [->|(r & [] & R)]. split; reflexivity.
Qed.

Example outer_selects :
  match get_qualifier string (fun j => j) toy_parse (fun _ => true) toy_match (fun l => l) outer with
  | inl q => select_jobs string (fun j => j) ["ns::a"; "ns::b"; "ns::c"; "ns::d"; "ns::e"] [q]
  | inr _ => []
  end = ["ns::a"; "ns::d"; "ns::c"].
Proof. reflexivity. Qed.

Example outer_overrides :
  match perform_all string (fun j => j) toy_parse (fun _ => true) toy_match
          [AddJob string "ns::a"; SetTestPlans string [outer]; AddJob string "ns::c"; AddJob string "ns::d"]
          (fresh string) with
  | inl c => map (fun s => (fst s, effective string toy_own (snd s) CATEGORY, effective string toy_own (snd s) STATUS)) (states string c)
  | inr _ => []
  end = [("ns::a", "ns::x", "unspecified"); ("ns::c", "ns::deep", "non-blocker"); ("ns::d", "own", "unspecified")].
Proof. reflexivity. Qed.

(** * Where the three differ *)

(** In general they do not agree: *)

(** two statements about the same job: the first counts for
    get_effective_category, the last for get_effective_category_map *)
Definition twice : plan :=
  Plan (Some "ns") None None None None (Some ("apply x to a" ++ lf ++ "apply y to a")%string) None [].
Theorem C33_agree_refuted :
  exists p j, clean p /\ nested p = [] /\
    effective_category string (fun j => j) toy_own (fun _ => true) toy_match p j = inl "ns::x" /\
    effective_category_map string (fun j => j) toy_own (fun _ => true) toy_match p [j] = inl [(j, "ns::y")].
Proof.
  exists twice, "ns::a". split; [|repeat split].
  apply clean_by_computation. intros q R. apply part_iff in R as [->|(r & [] & R)]. split; reflexivity.
Qed.
Print Assumptions C33_agree_refuted.

(** a blank line: get_effective_category raises, a device context ignores it *)
Definition blank : plan :=
  Plan (Some "ns") None None None None (Some ("apply x to a" ++ lf ++ lf ++ "apply y to b")%string) None [].
Theorem C33_blank_line_refuted :
  exists p, clean p /\
    effective_category string (fun j => j) toy_own (fun _ => true) toy_match p "ns::a" = inr ValueError /\
    exists c s, perform_all string (fun j => j) toy_parse (fun _ => true) toy_match
      ([AddJob string "ns::a"] ++ SetTestPlans string [p] :: []) (fresh string) = inl c /\
      dget "ns::a" (states string c) = Some s /\ effective string toy_own s CATEGORY = "ns::x".
Proof.
  exists blank. split; [|split; [reflexivity|]].
  - apply clean_by_computation. intros q R. apply part_iff in R as [->|(r & [] & R)]. split; reflexivity.
  - eexists _, _. split; [cbv - [String.eqb]; reflexivity|]. split; reflexivity.
Qed.
Print Assumptions C33_blank_line_refuted.

(** category overrides of a nested test plan do not count, if the test plan around
    it has none, whereas its certification status overrides do *)
Definition wrapped : plan :=
  Plan (Some "ns") None None None None None None
    [Plan (Some "ns") (Some "a") None None None (Some "apply x to a") (Some "apply blocker to a") []].
Theorem C33_nested_category_refuted :
  exists p q j v w, clean p /\ part p q /\
    category_says string (fun j => j) toy_match q j v /\ status_says string (fun j => j) toy_match q j w /\
    exists c s, perform_all string (fun j => j) toy_parse (fun _ => true) toy_match
      ([AddJob string j] ++ SetTestPlans string [p] :: []) (fresh string) = inl c /\
      dget j (states string c) = Some s /\
      effective string toy_own s CATEGORY = toy_own j CATEGORY /\ toy_own j CATEGORY <> v /\
      effective string toy_own s STATUS = w.
Proof.
  exists wrapped. eexists (Plan (Some "ns") (Some "a") None None None (Some "apply x to a") (Some "apply blocker to a") []).
  exists "ns::a", "ns::x", "blocker". split.
  { apply clean_by_computation. intros q R. apply part_iff in R as [->|(r & [<-|[]] & R)]; [split; reflexivity|].
    apply part_iff in R as [->|(r & [] & R)]. split; reflexivity. }
  split. { eapply part_nested; [now left|constructor]. }
  split. { exists (txt "a"), (txt "x"). split; [|split; [reflexivity|]].
    - exists "apply x to a", (txt "apply x to a"). split; [reflexivity|]. split; [now left|].
      apply XparseProps.C46_override; [|reflexivity]. cbn. intuition discriminate.
    - eexists. split; reflexivity. }
  split. { exists (txt "a"), (txt "blocker"). split; [|split; [reflexivity|]].
    - exists "apply blocker to a", (txt "apply blocker to a"). split; [reflexivity|]. split; [now left|].
      apply XparseProps.C46_override; [|reflexivity]. cbn. intuition discriminate.
    - eexists. split; reflexivity. }
  eexists _, _. split; [cbv - [String.eqb]; reflexivity|]. repeat split. discriminate.
Qed.
Print Assumptions C33_nested_category_refuted.

(** an inline override next to a pattern with its own anchors is lost: the pattern
    selects the job (see [outer_selects]) but the override does not apply to it (see
    [outer_overrides]), because of the namespace *)
Theorem C33_anchored_inline_refuted :
  exists p j t ov, clean p /\ includes_stmt (include p) t ov /\ ov <> [] /\
    selects string (fun j => j) toy_parse toy_match (ns p) t j /\
    ~ applies string (fun j => j) toy_match (ns p) t j.
Proof.
  exists outer, "ns::a", (txt "^a$"). exists [(txt "certification-status", txt "blocker")].
  split; [apply outer_clean|]. split; [|split; [discriminate|split]].
  - exists ("^a$ certification-status=blocker" ++ lf ++ "b" ++ lf ++ "d")%string, (txt "^a$ certification-status=blocker").
    split; [reflexivity|]. split; [left; reflexivity|].
    apply XparseProps.C46_include; [|reflexivity]. cbn. intuition discriminate.
  - exists "^ns::a$". split; [|reflexivity]. exists (txt "a"), "ns::a". split; [apply (un_both (txt "a"))|].
    split; reflexivity.
  - intros (full & A & B). cbn in A. subst full. discriminate.
Qed.
Print Assumptions C33_anchored_inline_refuted.
