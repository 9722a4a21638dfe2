(** * C88: jobs named on the command line are listed; graphs show their links *)
From Coq Require Import String Ascii List Bool Arith Lia Sorted.
From Verif Require Import Base ScanModel Rfc822Model QualModel QualSpec QualProps RegexModel RegexProofs OriginModel OriginSpec OriginProps Rfc822Proofs SpecialModel SpecialSpec.
Import ListNotations.
Local Open Scope list_scope.

(** ** Which jobs *)

Lemma L_inj a b : L a = L b -> a = b.
Proof. intros H. rewrite <- (string_of_list_ascii_of_string a), <- (string_of_list_ascii_of_string b). unfold L in H. now rewrite H. Qed.
Lemma anchored_spec l t : anchored l t = true <-> exists l' r, l = l' ++ [r] /\ (whole r t \/ exists r', In r' l' /\ starts r' t).
Proof.
  induction l as [|r l IH]; cbn [anchored]; [split; [discriminate|intros ([|x0 l0] & r & E & _); discriminate]|].
  destruct l as [|r2 l].
  - rewrite match_end_spec. split.
    + intros H. exists [], r. split; [reflexivity|]. left. exact H.
    + intros (l' & r0 & E & H). destruct l' as [|x l']; [|destruct l'; discriminate]. injection E as <-. destruct H as [H|(r' & [] & _)]. exact H.
  - rewrite orb_true_iff, match_start_spec, IH. split.
    + intros [H|(l' & r0 & E & H)].
      * destruct (exists_last (l := r2 :: l)) as (l' & r0 & E); [discriminate|]. exists (r :: l'), r0. rewrite E. split; [reflexivity|]. right. exists r. split; [now left|exact H].
      * exists (r :: l'), r0. rewrite E. split; [reflexivity|]. destruct H as [H|(r' & I & H)]; [auto|]. right. exists r'. split; [now right|exact H].
    + intros (l' & r0 & E & H). destruct l' as [|x l']; [discriminate|]. injection E as <- E. destruct H as [H|(r' & [<-|I] & H)].
      * right. exists l', r0. auto.
      * left. exact H.
      * right. exists l', r0. split; [exact E|]. right. exists r'. auto.
Qed.
Lemma first_plan_spec l q : In q (first_plan l) <-> exists l1 l2, l = l1 ++ Test_plan q :: l2 /\ forall q', ~ In (Test_plan q') l1.
Proof.
  induction l as [|[q0|] l IH]; cbn [first_plan].
  - split; [intros []|]. intros ([|x0 l0] & l2 & E & _); discriminate.
  - split.
    + intros [<-|[]]. exists [], l. split; [reflexivity|]. intros q' [].
    + intros (l1 & l2 & E & N). destruct l1 as [|u l1]; [injection E as <- _; now left|]. injection E as <- _. destruct (N q0). now left.
  - rewrite IH. split; intros (l1 & l2 & E & N).
    + exists (Other_unit :: l1), l2. rewrite E. split; [reflexivity|]. intros q' [H|H]; [discriminate|exact (N _ H)].
    + destruct l1 as [|u l1]; [discriminate|]. injection E as <- E. exists l1, l2. split; [exact E|]. intros q' H. apply (N q'). now right.
Qed.

Section Listing.
  Variable alternatives : text -> option (list re).
  Notation chooses := (chooses alternatives).
  Notation chosen := (chosen alternatives).
  Notation special_jobs := (special_jobs alternatives).
  Notation matching_jobs := (matching_jobs alternatives).
  Notation run_special := (run_special alternatives).
  Notation pattern_qualifiers := (pattern_qualifiers alternatives).

  Lemma patterns_spec i l q : In q (pattern_qualifiers i l) <->
    exists p r, In p l /\ alternatives p = Some r /\ q = Simple (MPred (fun j => anchored r (L (j_id j)))) i.
  Proof.
    unfold SpecialModel.pattern_qualifiers. rewrite in_flat_map. split.
    - intros (p & I & H). destruct (alternatives p) as [r|] eqn:E; [|destruct H]. destruct H as [<-|[]]. now exists p, r.
    - intros (p & r & I & E & ->). exists p. split; [exact I|]. rewrite E. now left.
  Qed.
  Lemma simple_votes (m : matcher job) i j :
    (includes job j_id (Simple m i) j <-> i = true /\ matches job j_id m j) /\ (excludes job j_id (Simple m i) j <-> i = false /\ matches job j_id m j).
  Proof.
    split; split.
    - intros (m' & P & H). inversion P; subst. auto.
    - intros [-> H]. exists m. split; [constructor|exact H].
    - intros (m' & P & H). inversion P; subst. auto.
    - intros [-> H]. exists m. split; [constructor|exact H].
  Qed.
  Lemma chooses_spec p j : chooses p j <-> exists r, alternatives p = Some r /\ anchored r (L (j_id j)) = true.
  Proof.
    split.
    - intros (l & r & E & H). exists (l ++ [r]). split; [exact E|]. apply anchored_spec. now exists l, r.
    - intros (r & E & H). apply anchored_spec in H as (l & r0 & -> & H). now exists l, r0.
  Qed.
  Lemma matching_spec a ps jobs j : NoDup (map j_id jobs) -> In j (matching_jobs a ps jobs) <-> In j jobs /\ chosen a ps j.
  Proof.
    intros U. unfold SpecialModel.matching_jobs. cbv zeta. rewrite (C17_selects_exactly job j_id) by exact U.
    enough (W : forall quals, quals = (match a_test_plan a with Some n => flat_map (fun p => first_plan (p n)) ps | None => [] end) ->
       (wanted job j_id (quals ++ pattern_qualifiers true (a_include a) ++ pattern_qualifiers false (a_exclude a)) j <-> chosen a ps j)) by (rewrite (W _ eq_refl); reflexivity).
    intros quals EQ.
    assert (PL : forall q, In q quals <-> exists n p, a_test_plan a = Some n /\ In p ps /\ plan_in p n q).
    { intros q. subst quals. destruct (a_test_plan a) as [n|].
      - rewrite in_flat_map. split; [intros (p & I & H)|intros (n' & p & [= <-] & I & H)]; [exists n, p; split; [reflexivity|]; split; [exact I|]|exists p; split; [exact I|]]; now apply first_plan_spec.
      - split; [intros []|intros (n & p & E & _); discriminate]. }
    clear EQ. unfold wanted, SpecialSpec.chosen.
    assert (INC : (exists q, In q (quals ++ pattern_qualifiers true (a_include a) ++ pattern_qualifiers false (a_exclude a)) /\ includes job j_id q j) <->
      (some_plan a ps (fun q => includes job j_id q j) \/ exists p, In p (a_include a) /\ chooses p j)).
    { split.
      - intros (q & I & H). rewrite !in_app_iff, PL, !patterns_spec in I. destruct I as [(n & p & A & B & C)|[(p & r & A & B & ->)|(p & r & A & B & ->)]].
        + left. exists n, p, q. auto.
        + right. apply simple_votes in H as [_ H]. exists p. split; [exact A|]. apply chooses_spec. now exists r.
        + apply simple_votes in H as [H _]. discriminate.
      - intros [(n & p & q & A & B & C & D)|(p & A & C)].
        + exists q. split; [rewrite in_app_iff; left; apply PL; now exists n, p|exact D].
        + apply chooses_spec in C as (r & B & C). eexists. split; [rewrite !in_app_iff, !patterns_spec; right; left; exists p, r; eauto|]. apply simple_votes. auto. }
    rewrite INC. apply and_iff_compat_l. split.
    - intros N [(n & p & q & A & B & C & D)|(p & A & C)].
      + apply (N q); [rewrite in_app_iff; left; apply PL; now exists n, p|exact D].
      + apply chooses_spec in C as (r & B & C). eapply N; [rewrite !in_app_iff, !patterns_spec; right; right; exists p, r; eauto|]. apply simple_votes. auto.
    - intros N q I H. apply N. rewrite !in_app_iff, PL, !patterns_spec in I. destruct I as [(n & p & A & B & C)|[(p & r & A & B & ->)|(p & r & A & B & ->)]].
      + left. exists n, p, q. auto.
      + apply simple_votes in H as [H _]. discriminate.
      + right. apply simple_votes in H as [_ H]. exists p. split; [exact A|]. apply chooses_spec. now exists r.
  Qed.

  (** With a choice of jobs, exactly the jobs chosen are listed, each once; with none, all of them
      are, in order *)
  Theorem C88_listed a ps jobs : NoDup (map j_id jobs) -> a_special a <> None ->
    (no_choice a -> special_jobs a ps jobs = jobs) /\
    (~ no_choice a -> NoDup (map j_id (special_jobs a ps jobs)) /\ forall j, In j (special_jobs a ps jobs) <-> In j jobs /\ chosen a ps j).
  Proof.
    intros U S. unfold SpecialModel.special_jobs. cbv zeta. destruct (a_special a); [|congruence]. cbn [andb].
    match goal with |- context [if ?b then _ else _] => assert (B : b = true <-> no_choice a) end.
    { unfold no_choice. destruct (a_include a); [|split; [discriminate|intros [E _]; discriminate]]. cbn [andb].
      destruct (a_test_plan a) as [n|]; [|intuition]. destruct n; cbn; [intuition|]. split; [discriminate|]. intros [_ [E|E]]; discriminate. }
    match goal with |- context [if ?b then _ else _] => destruct b eqn:E end.
    - split; [reflexivity|]. intros N. destruct N. now apply B.
    - split; [intros N; apply B in N; discriminate|]. intros _. split; [now apply (C17_each_once job j_id)|]. intros j. now apply matching_spec.
  Qed.
  (** Each listing prints one line for each of these, and gets to the end *)
  Theorem C88_lines a ps jobs :
    (a_special a = Some (L "list-jobs") -> run_special a ps jobs = (map (fun j => L (j_id j)) (special_jobs a ps jobs), true)) /\
    (a_special a = Some (L "list-job-hashes") ->
      run_special a ps jobs = (map (fun j => j_checksum j ++ " "%char :: L (j_id j)) (special_jobs a ps jobs), true)).
  Proof. unfold SpecialModel.run_special. split; intros ->; reflexivity. Qed.

  (** ** Expressions *)

  Lemma insert_in x y l : In y (insert_text x l) <-> y = x \/ In y l.
  Proof.
    induction l as [|z l IH]; cbn [insert_text]; [cbn; intuition|]. destruct (text_eqb x z) eqn:E.
    - apply text_eqb_eq in E as ->. cbn. intuition.
    - destruct (text_gt x z); cbn [In]; rewrite ?IH; intuition.
  Qed.
  Lemma insert_sorted x l : StronglySorted before l -> StronglySorted before (insert_text x l).
  Proof.
    induction 1 as [|z l S IH F]; cbn [insert_text]; [repeat constructor|]. destruct (text_eqb x z) eqn:E; [now constructor|].
    destruct (text_gt x z) eqn:G.
    - constructor; [exact IH|]. apply Forall_forall. intros y I. apply insert_in in I as [->|I]; [now apply text_gt_spec|]. now apply (proj1 (Forall_forall _ _) F).
    - assert (B : before x z).
      { apply text_gt_spec. rewrite text_gt_total; [now rewrite G|]. intros ->. rewrite (proj2 (text_eqb_eq _ _) eq_refl) in E. discriminate. }
      constructor; [now constructor|]. constructor; [exact B|]. apply Forall_forall. intros y I. pose proof (proj1 (Forall_forall _ _) F y I) as H.
      apply text_gt_spec. apply text_gt_spec in H, B. eapply text_gt_trans; eauto.
  Qed.
  Lemma expressions_spec l : match expressions l with
    | None => exists j, In j l /\ j_program j = None
    | Some e => (forall j, In j l -> j_program j <> None) /\
        forall x, In x e <-> exists j p rs, In j l /\ j_program j = Some (Some p) /\ In (x, rs) p
    end.
  Proof.
    induction l as [|j l IH]; cbn [expressions].
    - split; [intros j []|]. intros x. split; [intros []|intros (j & p & rs & [] & _)].
    - destruct (j_program j) as [p|] eqn:P; [|exists j; split; [now left|exact P]]. destruct (expressions l) as [e|].
      + destruct IH as [A B]. split; [intros k [<-|K]; [congruence|now apply A]|]. intros x. rewrite in_app_iff, B. split.
        * intros [H|(k & q & rs & I & E & H)].
          -- destruct p as [p|]; [|destruct H]. apply in_map_iff in H as ((x' & rs) & <- & H). exists j, p, rs. split; [now left|auto].
          -- exists k, q, rs. split; [now right|auto].
        * intros (k & q & rs & [<-|I] & E & H); [left|right; now exists k, q, rs]. rewrite P in E. injection E as ->. apply in_map_iff. now exists (x, rs).
      + destruct IH as (k & I & E). exists k. split; [now right|exact E].
  Qed.
  (** All expressions of the jobs are printed, each once, sorted; if one job has a wrong program,
      nothing is *)
  Theorem C88_expressions a ps jobs : a_special a = Some (L "list-expr") ->
    let jobs' := special_jobs a ps jobs in
    ((exists j, In j jobs' /\ j_program j = None) /\ run_special a ps jobs = ([], false)) \/
    exists e, run_special a ps jobs = (e, true) /\ StronglySorted before e /\ (forall j, In j jobs' -> j_program j <> None) /\
      forall x, In x e <-> exists j p rs, In j jobs' /\ j_program j = Some (Some p) /\ In (x, rs) p.
  Proof.
    intros S jobs'. assert (E : run_special a ps jobs = print_expressions jobs').
    { unfold SpecialModel.run_special. rewrite S. reflexivity. }
    rewrite E. unfold print_expressions. pose proof (expressions_spec jobs') as X. destruct (expressions jobs') as [e|]; [right|left; auto].
    exists (fold_right insert_text [] e). split; [reflexivity|]. destruct X as [A B]. split; [|split; [exact A|]].
    - clear -alternatives. induction e as [|x e IH]; cbn [fold_right]; [apply SSorted_nil|]. now apply insert_sorted.
    - intros x. rewrite <- B. clear -alternatives. induction e as [|y e IH]; cbn [fold_right In]; [reflexivity|]. rewrite insert_in, IH. intuition.
  Qed.
End Listing.
Print Assumptions C88_listed.
Print Assumptions C88_lines.
Print Assumptions C88_expressions.

(** An exclusion alone is not heeded: what it excludes is listed *)
Theorem C88_excluded_alone_refuted alternatives a ps jobs j p : a_special a <> None -> no_choice a ->
  In j jobs -> In p (a_exclude a) -> chooses alternatives p j -> In j (special_jobs alternatives a ps jobs).
Proof.
  intros S [I P] J _ _. unfold special_jobs. cbv zeta. destruct (a_special a); [|congruence]. rewrite I. cbn [andb].
  destruct P as [-> | ->]; exact J.
Qed.
Print Assumptions C88_excluded_alone_refuted.
(** A pattern without alternatives is compared with the whole identifier *)
Theorem C88_whole_identifier alternatives p r j : alternatives p = Some [r] -> (chooses alternatives p j <-> whole r (L (j_id j))).
Proof.
  intros E. split.
  - intros (l & r' & E' & H). rewrite E in E'. destruct l as [|x l]; [|destruct l; discriminate]. injection E' as ->.
    destruct H as [H|(x & [] & _)]. exact H.
  - intros H. exists [], r. auto.
Qed.
Print Assumptions C88_whole_identifier.
(** With alternatives it is not: all but the last choose whatever begins like them *)
Theorem C88_whole_identifier_refuted alternatives p r r' j rest : alternatives p = Some [r; r'] ->
  lang r (L (j_id j)) -> forall j', L (j_id j') = L (j_id j) ++ rest -> chooses alternatives p j'.
Proof.
  intros E H j' E'. exists [r], r'. split; [exact E|]. right. exists r. split; [now left|]. exists (L (j_id j)), rest. auto.
Qed.
Print Assumptions C88_whole_identifier_refuted.

(** ** Graphs *)

Lemma quoted_spec t : quoted t = in_quotes t.
Proof. reflexivity. Qed.
Lemma no_quotes_spec e : Forall2 (fun c c' => c = """"%char /\ c' = "'"%char \/ c <> """"%char /\ c' = c) e (no_quotes e).
Proof.
  unfold no_quotes. induction e as [|c e IH]; cbn [map]; constructor; [|exact IH]. destruct (Ascii.eqb_spec c """"); auto.
Qed.
Lemma no_quotes_only e e' : Forall2 (fun c c' => c = """"%char /\ c' = "'"%char \/ c <> """"%char /\ c' = c) e e' -> e' = no_quotes e.
Proof.
  unfold no_quotes. induction 1 as [|c c' e e' H F IH]; [reflexivity|]. cbn [map]. rewrite IH. f_equal.
  destruct (Ascii.eqb_spec c """"); destruct H as [[A B]|[A B]]; congruence.
Qed.
Lemma node_spec j line : In line (node_line j) <-> exists s, look (j_plugin j) s /\ line = box_line (L (j_id j)) s.
Proof.
  unfold node_line. cbv zeta. destruct (text_eqb (j_plugin j) (L "resource")) eqn:E1.
  { apply text_eqb_eq in E1. rewrite E1. split; [intros [<-|[]]; eexists; split; [constructor|reflexivity]|]. intros (s & H & ->). left. inversion H; subst; reflexivity. }
  destruct (text_eqb (j_plugin j) (L "attachment")) eqn:E2.
  { apply text_eqb_eq in E2. rewrite E2. split; [intros [<-|[]]; eexists; split; [constructor|reflexivity]|]. intros (s & H & ->). left. inversion H; subst; reflexivity. }
  destruct (text_eqb (j_plugin j) (L "shell")) eqn:E3.
  { apply text_eqb_eq in E3. rewrite E3. split; [intros [<-|[]]; eexists; split; [constructor|reflexivity]|]. intros (s & H & ->). left. inversion H; subst; reflexivity. }
  destruct (existsb (text_eqb (j_plugin j)) _) eqn:E4.
  { apply existsb_exists in E4 as (x & I & E). apply text_eqb_eq in E. rewrite E. clear - I.
    split.
    - intros [<-|[]]. exists (L "color=orange"). split; [|reflexivity]. destruct I as [<-|[<-|[<-|[]]]]; constructor.
    - intros (s & H & ->). left. destruct I as [<-|[<-|[<-|[]]]]; inversion H; reflexivity. }
  split; [intros []|]. intros (s & H & _). exfalso. cbn [existsb] in E4.
  inversion H as [E|E|E|E|E|E]; rewrite <- E in *; rewrite (proj2 (text_eqb_eq _ _) eq_refl) in *; cbn in *; try rewrite ?orb_true_r in *; discriminate.
Qed.
Lemma resource_spec j p line : In line (resource_lines j p) <-> exists e rs r, In (e, rs) p /\ In r rs /\
  (line = box_line r (L "shape=ellipse,color=blue") \/ link_line (L (j_id j)) r (Requires e) line).
Proof.
  unfold resource_lines. rewrite in_flat_map. split.
  - intros ((e & rs) & I & H). cbn [fst snd] in H. apply in_flat_map in H as (r & I' & H). exists e, rs, r. split; [exact I|]. split; [exact I'|].
    destruct H as [<-|[<-|[]]]; [left; reflexivity|right]. unfold arrow. rewrite !quoted_spec. unfold TAB. rewrite <- !app_assoc. cbn [app].
    pose proof (line_requires (L (j_id j)) r e (no_quotes e) (no_quotes_spec e)) as X. exact X.
  - intros (e & rs & r & I & I' & H). exists (e, rs). split; [exact I|]. cbn [fst snd]. apply in_flat_map. exists r. split; [exact I'|].
    destruct H as [->|H]; [left; reflexivity|right; left]. inversion H as [| |e0 e' F]; subst. rewrite (no_quotes_only _ _ F).
    unfold arrow. rewrite !quoted_spec. unfold TAB. rewrite <- !app_assoc. reflexivity.
Qed.
Lemma dot_job_spec res j : let (lines, ok) := dot_job res j in
  (ok = true <-> j_program j <> None) /\ (ok = true -> forall line, In line lines <-> drawn res j line).
Proof.
  unfold dot_job. cbv zeta. destruct (j_program j) as [p|] eqn:P; [|split; [split; congruence|discriminate]].
  split; [split; [discriminate|reflexivity]|]. intros _ line. rewrite !in_app_iff, node_spec, !in_map_iff. split.
  - intros [[(s & H & ->)|[(d & <- & H)|(d & <- & H)]]|H].
    + now constructor.
    + eapply drawn_link with (k := Depends); [exact H|]. constructor.
    + eapply drawn_link with (k := Runs_after); [exact H|]. constructor.
    + destruct res; [|destruct H]. destruct p as [p|]; [|destruct H]. apply resource_spec in H as (e & rs & r & I & I' & H).
      assert (K : linked true j r (Requires e)) by (split; [reflexivity|]; exists p, rs; auto).
      destruct H as [->|H]; [now apply (drawn_resource _ _ _ e)|]. now apply (drawn_link _ _ r (Requires e)).
  - intros [s H|b [| |e] line' K H|b e K].
    + left. left. now exists s.
    + left. right. left. exists b. split; [|exact K]. inversion H. reflexivity.
    + left. right. right. exists b. split; [|exact K]. inversion H. reflexivity.
    + right. destruct K as [-> (q & rs & E & I & I')]. rewrite P in E. injection E as ->. apply resource_spec. exists e, rs, b. auto.
    + right. destruct K as [-> (q & rs & E & I & I')]. rewrite P in E. injection E as ->. apply resource_spec. exists e, rs, b. auto.
Qed.
Lemma dot_jobs_spec res l : let (lines, ok) := dot_jobs res l in
  (ok = true <-> forall j, In j l -> j_program j <> None) /\
  (ok = true -> exists mid, lines = mid ++ [L "}"] /\ forall line, In line mid <-> exists j, In j l /\ drawn res j line).
Proof.
  induction l as [|j l IH]; cbn [dot_jobs].
  - split; [split; [intros _ j []|reflexivity]|]. intros _. exists []. split; [reflexivity|]. intros line. split; [intros []|intros (j & [] & _)].
  - pose proof (dot_job_spec res j) as D. destruct (dot_job res j) as [a ok]. destruct D as [D1 D2]. destruct ok.
    + destruct (dot_jobs res l) as [b ok']. destruct IH as [A B]. split.
      * rewrite A. split; [intros H k [<-|K]; [now apply D1|auto]|]. intros H k K. apply H. now right.
      * intros E. destruct (B E) as (mid & -> & M). exists (a ++ mid). rewrite app_assoc. split; [reflexivity|]. intros line. rewrite in_app_iff, M, (D2 eq_refl). split.
        -- intros [H|(k & K & H)]; [exists j; split; [now left|exact H]|exists k; split; [now right|exact H]].
        -- intros (k & [<-|K] & H); [now left|right; now exists k].
    + split; [|discriminate]. split; [discriminate|]. intros H. destruct (D1) as [_ D]. assert (false = true) by (apply D, H; now left). discriminate.
Qed.
(** The graph shows these jobs and their links, and nothing else, between its first two lines and
    its last; if one job has a wrong program, it is not finished *)
Theorem C88_graph alternatives a ps jobs : a_special a = Some (L "dep-graph") ->
  let jobs' := special_jobs alternatives a ps jobs in
  (snd (run_special alternatives a ps jobs) = true <-> forall j, In j jobs' -> j_program j <> None) /\
  (snd (run_special alternatives a ps jobs) = true -> exists mid,
    fst (run_special alternatives a ps jobs) = [L "digraph dependency_graph {"; "009"%char :: L "node [shape=box];"] ++ mid ++ [L "}"] /\
    forall line, In line mid <-> exists j, In j jobs' /\ drawn (a_dot_resources a) j line).
Proof.
  intros S jobs'. assert (E : run_special alternatives a ps jobs = print_dot (a_dot_resources a) jobs').
  { unfold run_special. rewrite S. reflexivity. }
  rewrite E. unfold print_dot. pose proof (dot_jobs_spec (a_dot_resources a) jobs') as D.
  destruct (dot_jobs (a_dot_resources a) jobs') as [lines ok]. cbn [fst snd]. destruct D as [A B]. split; [exact A|].
  intros H. destruct (B H) as (mid & -> & M). exists mid. auto.
Qed.
Print Assumptions C88_graph.

Lemma quote_split (a a' r r' : text) : ~ In """"%char a -> ~ In """"%char a' -> a ++ """"%char :: r = a' ++ """"%char :: r' -> a = a' /\ r = r'.
Proof.
  revert a'. induction a as [|c a IH]; intros [|c' a'] N N' E; cbn [app] in E; [injection E; auto| | |].
  - injection E as <- _. destruct N'. now left.
  - injection E as -> _. destruct N. now left.
  - injection E as <- E. destruct (IH a') as [-> ->]; auto; intros H; [apply N|apply N']; now right.
Qed.
(** Different links are drawn differently, if identifiers have no quotes in them; of expressions,
    quotes are not told apart from apostrophes *)
Theorem C88_links_apart a b k a' b' k' line : ~ In """"%char a -> ~ In """"%char b -> ~ In """"%char a' -> ~ In """"%char b' ->
  link_line a b k line -> link_line a' b' k' line -> a = a' /\ b = b' /\
  match k, k' with Depends, Depends => True | Runs_after, Runs_after => True | Requires e, Requires e' => no_quotes e = no_quotes e' | _, _ => False end.
Proof.
  intros NA NB NA' NB' H H'.
  assert (X : forall a b k line, link_line a b k line -> exists s, line = "009"%char :: """"%char :: a ++ """"%char :: " "%char :: "-"%char :: ">"%char :: " "%char :: """"%char :: b ++ """"%char :: s /\
     match k with Depends => s = L ";" | Runs_after => s = L " [style=dotted];" | Requires e => s = L " [style=dashed, label=" ++ """"%char :: no_quotes e ++ """"%char :: L "];" end).
  { clear. intros a b k line [| |e e' F]; unfold in_quotes; (eexists; split; [cbn [app]; rewrite <- !app_assoc; cbn [app L list_ascii_of_string]; rewrite <- ?app_assoc; reflexivity|]); try reflexivity.
    rewrite (no_quotes_only _ _ F). cbn [app L list_ascii_of_string]. rewrite <- ?app_assoc. reflexivity. }
  destruct (X _ _ _ _ H) as (s & E & K). destruct (X _ _ _ _ H') as (s' & E' & K'). rewrite E in E'. injection E' as E'.
  apply quote_split in E' as [-> E']; auto. injection E' as E'. apply quote_split in E' as [-> E']; auto. split; [reflexivity|]. split; [reflexivity|].
  destruct k, k'; rewrite K, K' in E'; try exact I; try (cbn in E'; discriminate).
  apply app_inv_head in E'. injection E' as E'.
  assert (NQ : forall e, ~ In """"%char (no_quotes e)).
  { clear. intros e I. unfold no_quotes in I. apply in_map_iff in I as (c & E & _). destruct (Ascii.eqb_spec c """"); congruence. }
  apply quote_split in E' as [-> _]; auto.
Qed.
Print Assumptions C88_links_apart.
(** With quotes they may not be *)
Theorem C88_links_apart_refuted : exists a b a' b' line, a <> a' /\ b <> b' /\ link_line a b Depends line /\ link_line a' b' Depends line.
Proof.
  exists (L "x"), (L "y" ++ Q ++ L " -> " ++ Q ++ L "z"), (L "x" ++ Q ++ L " -> " ++ Q ++ L "y"), (L "z"). eexists.
  split; [discriminate|]. split; [discriminate|]. split; [apply line_depends|].
  match goal with |- link_line ?a ?b _ ?l => change l with ("009"%char :: in_quotes a ++ L " -> " ++ in_quotes b ++ L ";") end. apply line_depends.
Qed.
Print Assumptions C88_links_apart_refuted.
(** Jobs of some kinds are not in the graph, unless they have links *)
Theorem C88_all_jobs_drawn_refuted : exists j, j_plugin j = L "user-interact-verify" /\ forall res line, ~ drawn res j line.
Proof.
  exists (mk_job "a"%string [] (L "user-interact-verify") [] [] (Some None)). split; [reflexivity|]. intros res line H.
  destruct H as [s H|b [| |e] line' K H|b e K]; cbn in *.
  - inversion H.
  - exact K.
  - exact K.
  - destruct K as (_ & p & rs & E & _). discriminate.
  - destruct K as (_ & p & rs & E & _). discriminate.
Qed.
Print Assumptions C88_all_jobs_drawn_refuted.

(** ** Cases *)

Definition words (p : text) : option (list re) :=
  if text_eqb p (L "net/.*") then Some [RCat (word "net/") (RStar (RChr (fun _ => true)))]
  else if text_eqb p (L "cpu|net/a") then Some [word "cpu"; word "net/a"]
  else if text_eqb p (L "net/b") then Some [word "net/b"] else None.
Definition case_jobs : list job :=
  [mk_job "cpu"%string (L "1") (L "shell") [] [] (Some (Some [(L "cpu.n == ""2""", [L "cpu_info"])]));
   mk_job "net/a"%string (L "2") (L "manual") [L "cpu"] [] (Some None);
   mk_job "net/b"%string (L "3") (L "resource") [] [L "net/a"] (Some (Some [(L "a.x", []); (L "cpu.n == ""2""", [])]));
   mk_job "cpu2"%string (L "4") (L "shell") [] [] (Some None)].
Definition case_args (special : string) (inc exc : list string) : args := mk_args (Some (L special)) None (map L inc) (map L exc) true.
Example C88_case_patterns : NoDup (map j_id case_jobs) /\
  run_special words (case_args "list-jobs" ["net/.*"; "wrong"]%string ["net/b"]%string) [] case_jobs = ([L "net/a"], true) /\
  run_special words (case_args "list-jobs" ["cpu|net/a"]%string []%string) [] case_jobs = ([L "cpu"; L "net/a"; L "cpu2"], true).
Proof. split; [repeat constructor; cbn; intuition congruence|]. split; vm_compute; reflexivity. Qed.
Example C88_case_all :
  run_special words (case_args "list-jobs" []%string ["net/b"]%string) [] case_jobs = ([L "cpu"; L "net/a"; L "net/b"; L "cpu2"], true) /\
  fst (run_special words (case_args "list-expr" []%string []%string) [] case_jobs) = [L "a.x"; L "cpu.n == ""2"""] /\
  length (fst (run_special words (case_args "dep-graph" []%string []%string) [] case_jobs)) = 11.
Proof. repeat split; vm_compute; reflexivity. Qed.
Example C88_case_plan :
  run_special words (mk_args (Some (L "list-jobs")) (Some "plan"%string) [] [] false)
    [fun n => [Other_unit; Test_plan (Composite [Simple (MId "net/b"%string) true; Simple (MId "cpu"%string) true]); Test_plan (Simple (MId "cpu2"%string) true)]] case_jobs
  = ([L "net/b"; L "cpu"], true).
Proof. vm_compute. reflexivity. Qed.
