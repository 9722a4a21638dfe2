(** Resuming from an arbitrary document. *)
From Coq Require Import Ascii String List Relations Bool NArith ZArith Arith Lia.
From Verif Require Import ScanModel JsonModel IologModel PathModel Base BaseFacts JobModel
  SolverModel SolverSpec SolverProofs SessionModel SessionSpec SelectProofs SessionProofs
  HistoryProofs ResumeModel ResumeSpec ResumeCodec ResumeSolve ResumeProofs ResumeRestore.
Import ListNotations.
Local Open Scope nat_scope.
Local Open Scope list_scope.

Lemma rbind_inr {A B} (x : rexn + A) (f : A -> rexn + B) y :
  rbind x f = inr y -> exists a, x = inr a /\ f a = inr y.
Proof. destruct x; cbn; [discriminate|eauto]. Qed.

Lemma rbind_inl {A B} (x : rexn + A) (f : A -> rexn + B) e :
  rbind x f = inl e -> x = inl e \/ exists a, x = inr a /\ f a = inl e.
Proof. destruct x; cbn; [|eauto]. intros [= ->]. auto. Qed.

Lemma rmap_In {A B} (f : A -> rexn + B) l ys y : rmap f l = inr ys -> In y ys ->
  exists x, In x l /\ f x = inr y.
Proof.
  revert ys. induction l as [|x l IH]; cbn [rmap]; intros ys H Hy.
  - injection H as <-. destruct Hy.
  - apply rbind_inr in H. destruct H as (b & E & H). apply rbind_inr in H. destruct H as (bs & E2 & H).
    injection H as <-. destruct Hy as [<-|Hy].
    + exists x. cbn. auto.
    + destruct (IH bs E2 Hy) as (x' & Hx & Hf). exists x'. cbn. auto.
Qed.

Lemma rmap_inl {A B} (f : A -> rexn + B) l e : rmap f l = inl e -> exists x, In x l /\ f x = inl e.
Proof.
  induction l as [|x l IH]; cbn [rmap]; [discriminate|]. intros H.
  apply rbind_inl in H. destruct H as [H|(b & E & H)].
  - exists x. cbn. auto.
  - apply rbind_inl in H. destruct H as [H|(bs & E2 & H)]; [|discriminate].
    destruct (IH H) as (x' & Hx & Hf). exists x'. cbn. auto.
Qed.

(** The jobs that are there stay there. *)
Definition keeps (S S' : state) : Prop :=
  forall k js, dget k (st_map S) = Some js ->
    exists js', dget k (st_map S') = Some js' /\ js_job js' = js_job js.

Lemma keeps_refl S : keeps S S.
Proof. intros k js H. eauto. Qed.

Lemma keeps_trans A B C : keeps A B -> keeps B C -> keeps A C.
Proof.
  intros X Y k js H. destruct (X k js H) as (js1 & H1 & E1). destruct (Y k js1 H1) as (js2 & H2 & E2).
  exists js2. split; congruence.
Qed.

Lemma keeps_frame A S S' : frame S S' -> keeps A S -> keeps A S'.
Proof.
  intros F H. apply (keeps_trans A S S' H). intros k js Hk.
  destruct (x_old _ _ (ext_frame _ _ F) k js Hk) as (js' & H' & E). exists js'. split; auto.
  unfold core in E. congruence.
Qed.

Lemma keeps_added A S j : dget (j_id j) (st_map S) = None -> keeps A S -> keeps A (added j S).
Proof.
  intros Hn H. apply (keeps_trans A S _ H). intros k js Hk. exists js. cbn. rewrite dget_dset.
  destruct (String.eqb_spec k (j_id j)); [congruence|auto].
Qed.

Lemma keeps_set A S k js js' : dget k (st_map S) = Some js -> js_job js' = js_job js ->
  keeps A S -> keeps A (with_map (dset k js' (st_map S)) S).
Proof.
  intros Hg Hj H. apply (keeps_trans A S _ H). intros k2 js2 Hk. cbn. rewrite dget_dset.
  destruct (String.eqb_spec k2 k); eauto. subst k2. exists js'. split; congruence.
Qed.

(** ** Where the jobs come from *)

Section Sourced.
  Variable eval_expr : expr -> list (list resource) -> bool.
  Variable records_of : result -> list resource.
  Variable P : job -> Prop.

  Definition sourced (S : state) : Prop :=
    forall k js, dget k (st_map S) = Some js -> P (js_job js).

  Lemma sourced_frame S S' : frame S S' -> sourced S -> sourced S'.
  Proof.
    intros F H k js Hk. destruct (frame_dget S S' k js F Hk) as (js0 & Hg & He).
    apply erase_eq in He. destruct He as (He & _). rewrite He. now apply (H k).
  Qed.

  Lemma sourced_added S j : P j -> sourced S -> sourced (added j S).
  Proof.
    intros Hj H k js. cbn. rewrite dget_dset. destruct (String.eqb_spec k (j_id j)).
    - intros [= <-]. exact Hj.
    - apply H.
  Qed.

  Lemma sourced_set S k js js' : dget k (st_map S) = Some js -> js_job js' = js_job js ->
    sourced S -> sourced (with_map (dset k js' (st_map S)) S).
  Proof.
    intros Hg Hj H k2 js2. cbn. rewrite dget_dset. destruct (String.eqb_spec k2 k).
    - intros [= <-]. rewrite Hj. now apply (H k).
    - apply H.
  Qed.

  Lemma sourced_add_tree t : forall b S, (forall x, in_tree x t -> P x) -> sourced S ->
    sourced (fst (add_tree eval_expr b t S)).
  Proof.
    induction t as [j cs IH] using jtree_ind'. intros b S Ht HS.
    assert (Hch : forall S, sourced S -> sourced (fst (add_children eval_expr b cs S))).
    { assert (Hc : forall c x, In c cs -> in_tree x c -> P x).
      { intros c x Hc Hx. apply Ht. econstructor; eauto. }
      clear S HS Ht. induction cs as [|c cs IHc]; cbn [add_children]; intros S HS; auto.
      inversion IH as [|? ? H1 H2]; subst.
      assert (Hs1 : sourced (fst (add_tree eval_expr b c S))).
      { apply H1; auto. intros x. apply Hc. cbn. auto. }
      destruct (add_tree eval_expr b c S) as [S' [x|]]; auto. apply IHc; auto.
      intros c' x' Hc'. apply Hc. cbn. auto. }
    assert (Hb : sourced (fst (add_body eval_expr b j cs S))).
    { unfold add_body. destruct (dget (j_id j) (st_map S)) as [js|] eqn:E.
      - destruct (job_eqb j (js_job js)); cbn; auto.
      - apply Hch. apply sourced_added; auto. apply Ht. constructor. }
    rewrite add_tree_eq. destruct b; auto.
    pose proof (sourced_frame _ _ (recompute_frame eval_expr (fst (add_body eval_expr true j cs S))) Hb) as G.
    destruct (recompute eval_expr (fst (add_body eval_expr true j cs S))) as [S' [x|]]; auto.
  Qed.

  Lemma sourced_generated via l : forall S, (forall t x, In t l -> in_tree x t -> P x) -> sourced S ->
    sourced (fst (add_generated eval_expr via l S)).
  Proof.
    induction l as [|[g cs] l IH]; intros S Ht HS; auto.
    cbn [add_generated].
    assert (Hs1 : sourced (fst (add_tree eval_expr true (JTree g cs) S))).
    { apply sourced_add_tree; auto. intros x. apply Ht. cbn. auto. }
    destruct (add_tree eval_expr true (JTree g cs) S) as [S' [x|]]; auto. cbn [fst] in Hs1.
    destruct (dget (j_id g) (st_map S')) as [js|] eqn:Eg.
    - apply IH; [intros t x Hx; apply Ht; cbn; auto|]. now apply (sourced_set S' _ js).
    - first [exact Hs1|apply IH; [intros t x Hx; apply Ht; cbn; auto|exact Hs1]].
  Qed.

  Lemma sourced_update j r g S :
    (forall t x, In t g -> in_tree x t -> r_outcome r <> None ->
       j_plugin j = "resource"%string -> P x) ->
    sourced S -> (exists js, dget (j_id j) (st_map S) = Some js) ->
    sourced (fst (update_job_result eval_expr records_of j r g S)).
  Proof.
    intros HP H (js & Hg). unfold update_job_result. rewrite (observe_eq _ _ _ _ _ _ _ Hg).
    assert (K : sourced (noted records_of j r js S)).
    { intros k jk Hk. rewrite noted_map, dget_dset in Hk. destruct (String.eqb_spec k (j_id j)).
      - injection Hk as <-. rewrite set_result_job. now apply (H (j_id j)).
      - now apply (H k). }
    set (O := if String.eqb (j_plugin j) "resource" then _ else _).
    assert (KO : sourced (fst O)).
    { unfold O. destruct (String.eqb_spec (j_plugin j) "resource"); auto.
      destruct (r_outcome r) eqn:Er; auto.
      apply sourced_generated; auto. intros t x Ht Hx. apply (HP t); auto. congruence. }
    destruct O as [S1 [x|]]; auto. cbn [fst] in *.
    apply (sourced_frame S1); auto. apply recompute_frame.
  Qed.
End Sourced.

Section Any.
  Variable deps_of : job -> list (dep_type * name).
  Variable eval_expr : expr -> list (list resource) -> bool.
  Variable records_of : result -> list resource.
  Variable readable : result -> bool.
  Variable siblings : job -> list jtree.
  Variable instantiate : job -> result -> list jtree.
  Variable isfile : string -> bool.
  Variable rewrite : string -> string -> option string.
  Variable supplied : list job.
  Variable flags : rflags.
  Variable location : option string.

  Notation reachable := (reachable deps_of eval_expr records_of).
  Notation made := (made siblings instantiate supplied).
  Notation update := (update_job_result eval_expr records_of).

  Lemma keeps_update A j r g S : keeps A S -> (exists js, dget (j_id j) (st_map S) = Some js) ->
    keeps A (fst (update j r g S)).
  Proof.
    intros H (js & Hg). unfold update_job_result. rewrite (observe_eq _ _ _ _ _ _ _ Hg).
    assert (K : keeps A (noted records_of j r js S)).
    { intros k jk Hk. destruct (H k jk Hk) as (j1 & H1 & E1). rewrite noted_map, dget_dset.
      destruct (String.eqb_spec k (j_id j)); eauto. subst k. eexists. split; [reflexivity|].
      rewrite set_result_job. congruence. }
    set (O := if String.eqb (j_plugin j) "resource" then _ else _).
    assert (KO : keeps A (fst O)).
    { unfold O. destruct (String.eqb (j_plugin j) "resource"); auto.
      destruct (r_outcome r); auto.
      apply (Q_add_generated eval_expr (keeps A)).
      - intros. eapply keeps_frame; eauto.
      - intros. now apply keeps_added.
      - intros s k j0 v Hk. now apply (keeps_set A s k j0).
      - exact K. }
    destruct O as [S1 [x|]]; auto. cbn [fst] in *.
    apply (keeps_frame A S1); auto. apply recompute_frame.
  Qed.

  Lemma keeps_add_tree A t b S : keeps A S -> keeps A (fst (add_tree eval_expr b t S)).
  Proof.
    apply (Q_add_tree eval_expr (keeps A)).
    - intros. eapply keeps_frame; eauto.
    - intros. now apply keeps_added.
  Qed.

  Notation sourced := (sourced made).

  (** ** The loops *)

  Lemma reach_add S t b : reachable S -> reachable (fst (add_tree eval_expr b t S)).
  Proof. intros H. apply (reach_op _ _ _ S (OpAdd t b) H). exact I. Qed.

  Lemma reach_update S j r g : reachable S -> present S j -> reachable (fst (update j r g S)).
  Proof.
    intros H (js & Hg & Hj). apply (reach_op _ _ _ S (OpResult j r g) H). cbn.
    intros x Hx Hid. pose proof (Inv_reachable _ _ _ _ H) as I.
    destruct (Inv_entry S _ js I Hg) as [Hin _]. rewrite Hj in Hin.
    pose proof (i_unique _ I) as Hu.
    pose proof (dget_jobs_In _ _ Hu Hx) as E1. pose proof (dget_jobs_In _ _ Hu Hin) as E2.
    rewrite Hid in E1. congruence.
  Qed.

  Notation replay := (replay eval_expr records_of readable instantiate).

  Lemma replay_any j rs : forall S A, reachable S -> sourced S -> present S j -> keeps A S ->
    reachable (fst (replay j rs S)) /\ sourced (fst (replay j rs S)) /\ keeps A (fst (replay j rs S)).
  Proof.
    induction rs as [|r rs IH]; cbn [replay]; intros S A HR HS HP HK; auto.
    destruct (_ && _ && _); auto.
    pose proof (reach_update S j r (instantiate j r) HR HP) as R1.
    assert (S1 : sourced (fst (update j r (instantiate j r) S))).
    { pose proof HP as (js & Hg & Hj). apply sourced_update; eauto.
      intros t x Ht Hx Ho Hp. apply (made_generated _ _ _ j r t x); auto.
      rewrite <- Hj. now apply (HS (j_id j)). }
    assert (Hex : exists js, dget (j_id j) (st_map S) = Some js) by (destruct HP as (js & Hg & _); eauto).
    pose proof (keeps_update A j r (instantiate j r) S HK Hex) as K1.
    pose proof (keeps_update S j r (instantiate j r) S (keeps_refl S) Hex) as K2.
    destruct (update j r (instantiate j r) S) as [S' [x|]]; cbn [fst] in *.
    - destruct x; auto.
    - apply IH; auto. destruct HP as (js & Hg & Hj). destruct (K2 _ _ Hg) as (js' & Hg' & E).
      exists js'. split; congruence.
  Qed.

  Section Doc.
    Variable version : nat.
    Variables jobs results : list (text * json).

    Notation process := (process_job eval_expr records_of readable instantiate isfile rewrite
      flags location version jobs results).
    Notation pass := (pass eval_expr records_of readable instantiate isfile rewrite flags
      location version jobs results).
    Notation leftovers := (fun n => leftovers eval_expr records_of readable instantiate isfile
      rewrite flags location n version jobs results).

    (** The job is there, as the document wants it. *)
    Definition as_wanted (k : name) (S : state) : Prop :=
      exists c js, jget k jobs = Some (JStr c) /\ dget k (st_map S) = Some js /\
        (f_ignore flags = false -> j_sum (js_job js) = of_text c).

    Lemma as_wanted_keeps k S S' : keeps S S' -> as_wanted k S -> as_wanted k S'.
    Proof.
      intros K (c & js & Hc & Hg & Hs). destruct (K k js Hg) as (js' & Hg' & E).
      exists c, js'. split; auto. split; auto. rewrite E. exact Hs.
    Qed.

    Lemma process_any k S A : reachable S -> sourced S -> keeps A S ->
      reachable (fst (process k S)) /\ sourced (fst (process k S)) /\ keeps A (fst (process k S)) /\
      (snd (process k S) = PDone -> as_wanted k (fst (process k S))).
    Proof.
      intros HR HS HK. unfold process_job.
      destruct (let* c := vkey (JObj jobs) k in vstr c) as [e|c] eqn:Ec.
      { cbn. split; [|split; [|split]]; auto; discriminate. }
      destruct (dget k (st_map S)) as [js|] eqn:Ek.
      2:{ cbn. split; [|split; [|split]]; auto; discriminate. }
      destruct (Inv_entry S k js (Inv_reachable _ _ _ _ HR) Ek) as [_ Hid].
      destruct (negb (String.eqb (j_sum (js_job js)) c) && negb (f_ignore flags)) eqn:Eb.
      { cbn. split; [|split; [|split]]; auto; discriminate. }
      assert (W : as_wanted k S).
      { apply rbind_inr in Ec. destruct Ec as (v & E1 & E2). cbn in E1.
        destruct (jget k jobs) as [w|] eqn:Ej; [|discriminate]. injection E1 as ->.
        destruct v as [| | |w| |]; try discriminate. cbn in E2. injection E2 as <-.
        exists w, js. split; auto. split; auto. intros Ei. rewrite Ei in Eb. cbn in Eb.
        rewrite andb_true_r in Eb. apply negb_false_iff in Eb. now apply String.eqb_eq in Eb. }
      destruct (jget (j_id (js_job js)) results).
      2:{ cbn. split; [|split; [|split]]; auto. }
      destruct (let* v := vkey (JObj results) k in _) as [e|rs].
      { cbn. split; [|split; [|split]]; auto; discriminate. }
      assert (HP : present S (js_job js)) by (exists js; split; congruence).
      destruct (replay_any (js_job js) rs S A HR HS HP HK) as (R1 & R2 & R3).
      destruct (replay_any (js_job js) rs S S HR HS HP (keeps_refl S)) as (_ & _ & R4).
      split; [|split; [|split]]; auto. intros _. now apply (as_wanted_keeps k S).
    Qed.

    Lemma pass_any ks : forall S A S' rest, reachable S -> sourced S -> keeps A S ->
      pass ks S = inr (S', rest) ->
      reachable S' /\ sourced S' /\ keeps A S' /\ incl rest ks /\ length rest <= length ks /\
      (forall k, In k ks -> In k rest \/ as_wanted k S').
    Proof.
      induction ks as [|k ks IH]; cbn [ResumeModel.pass]; intros S A S' rest HR HS HK H.
      - injection H as <- <-. split; [|split; [|split; [|split; [|split]]]]; auto; try easy.
      - destruct (process_any k S A HR HS HK) as (R1 & R2 & R3 & R4).
        destruct (process k S) as [S1 [| |e]]; cbn [fst snd] in *; [| |discriminate].
        + destruct (IH S1 A S' rest R1 R2 R3 H) as (Q1 & Q2 & Q3 & Q4 & Q5 & Q6).
          destruct (IH S1 S1 S' rest R1 R2 (keeps_refl S1) H) as (_ & _ & Q7 & _).
          split; [|split; [|split; [|split; [|split]]]]; auto.
          * intros x Hx. right. auto.
          * cbn. lia.
          * intros k' [<-|Hk']; auto. right. apply (as_wanted_keeps k S1); auto.
        + apply rbind_inr in H. destruct H as ([S2 rest2] & E & H). injection H as <- <-.
          destruct (IH S1 A S2 rest2 R1 R2 R3 E) as (Q1 & Q2 & Q3 & Q4 & Q5 & Q6).
          split; [|split; [|split; [|split; [|split]]]]; auto.
          * intros x [<-|Hx]; cbn; auto.
          * cbn. lia.
          * intros k' [<-|Hk']; cbn; auto. destruct (Q6 k' Hk'); auto.
    Qed.

    Lemma leftovers_any n : forall ks S A S', reachable S -> sourced S -> keeps A S ->
      leftovers n ks S = inr S' ->
      reachable S' /\ sourced S' /\ keeps A S' /\ (forall k, In k ks -> as_wanted k S').
    Proof.
      induction n as [|n IH]; intros ks S A S' HR HS HK H.
      - destruct ks; [|discriminate]. injection H as <-. split; [|split; [|split]]; auto; easy.
      - destruct ks as [|k0 ks0].
        { injection H as <-. split; [|split; [|split]]; auto; easy. }
        cbn [ResumeModel.leftovers] in H. set (ks := k0 :: ks0) in *.
        apply rbind_inr in H. destruct H as ([S2 rest] & E & H).
        destruct (Nat.eqb (length rest) (length ks)); [discriminate|].
        destruct (pass_any ks S A S2 rest HR HS HK E) as (Q1 & Q2 & Q3 & Q4 & Q5 & Q6).
        destruct (IH rest S2 A S' Q1 Q2 Q3 H) as (T1 & T2 & T3 & T4).
        destruct (IH rest S2 S2 S' Q1 Q2 (keeps_refl S2) H) as (_ & _ & T5 & _).
        split; [|split; [|split]]; auto. intros k Hk. destruct (Q6 k Hk) as [Hr|Hw]; auto.
        now apply (as_wanted_keeps k S2).
    Qed.
  End Doc.

  Lemma add_supplied_any l : incl l supplied -> forall S S', reachable S -> sourced S ->
    add_supplied eval_expr siblings l S = inr S' -> reachable S' /\ sourced S'.
  Proof.
    intros Hl. induction l as [|j l IH]; cbn [add_supplied]; intros S S' HR HS H.
    - injection H as <-. auto.
    - pose proof (reach_add S (JTree j (siblings j)) true HR) as R1.
      assert (S1 : sourced (fst (add_tree eval_expr true (JTree j (siblings j)) S))).
      { apply sourced_add_tree; auto. intros x Hx. apply (made_supplied _ _ _ j); auto.
        apply Hl. cbn. auto. }
      destruct (add_tree eval_expr true (JTree j (siblings j)) S) as [S2 [x|]]; [discriminate|].
      apply (IH ltac:(intros x Hx; apply Hl; cbn; auto) S2 S'); auto.
  Qed.

  Lemma init_sourced S : init_session supplied = SOk S -> sourced S.
  Proof.
    unfold init_session.
    pose proof (dedup_spec (Datatypes.S (length supplied)) supplied _ ltac:(lia) eq_refl) as G.
    destruct (dedup_jobs (Datatypes.S (length supplied)) supplied) as [js|e|]; try discriminate.
    intros [= <-] k x Hk. cbn in Hk. apply dget_In in Hk. apply in_map_iff in Hk.
    destruct Hk as (y & [= <- <-] & Hy). cbn. apply (made_supplied _ _ _ y).
    - now apply G.
    - constructor.
  Qed.

  Lemma mandatory_any v S S' : reachable S -> sourced S -> restore_mandatory v S = inr S' ->
    reachable S' /\ sourced S' /\ st_map S' = st_map S.
  Proof.
    intros HR HS H. unfold restore_mandatory in H. apply rbind_inr in H. destruct H as (a & _ & H).
    apply rbind_inr in H. destruct H as (l & _ & H). injection H as <-. split; [|split]; auto.
    apply (reach_op _ _ _ S (OpMandatory l) HR). exact I.
  Qed.

  Lemma desired_any v S S' : reachable S -> sourced S ->
    restore_desired deps_of eval_expr v S = inr S' ->
    reachable S' /\ sourced S' /\ keeps S S'.
  Proof.
    intros HR HS H. unfold restore_desired in H. apply rbind_inr in H. destruct H as (a & _ & H).
    apply rbind_inr in H. destruct H as (l & _ & H).
    pose proof (reach_op _ _ _ S (OpDesired l true) HR I) as R1. cbn [exec_op] in R1.
    destruct (update_desired_job_list deps_of eval_expr l true S) as [[S1 [x|p]]|] eqn:E;
      [destruct x; discriminate| |discriminate].
    injection H as <-. cbn in R1. split; auto.
    unfold update_desired_job_list in E.
    destruct (select _ _ _ _ _) as [D run P|D|]; try discriminate.
    set (S0 := mk_state (st_jobs S) (st_units S) (st_map S) D (st_mandatory S) run (st_resources S)) in *.
    pose proof (recompute_frame eval_expr S0) as F. destruct (recompute eval_expr S0) as [S2 [x|]];
      [discriminate|]. injection E as <- _. cbn [fst] in F. split.
    - apply (sourced_frame made S0); auto.
    - apply (keeps_frame S S0); auto. intros k js Hk. exists js. auto.
  Qed.

  Lemma vkey_path v k w : vkey v k = inr w -> forall p, at_path (k :: p) v = at_path p w.
  Proof.
    destruct v; cbn; try discriminate. destruct (jget k _); [|discriminate].
    now intros [= ->].
  Qed.

  Lemma vdict_obj v o : vdict v = inr o -> v = JObj o.
  Proof. destruct v; cbn; try discriminate. now intros [= ->]. Qed.

  Lemma jget_key k o v : jget k o = Some v -> In k (map (fun kv => of_text (fst kv)) o).
  Proof.
    induction o as [|[k' w] o IH]; cbn [map In jget fst]; [discriminate|].
    destruct (jget k o) eqn:Eo; [intros H; right; now apply IH|].
    destruct (text_eqb (to_text k) k') eqn:E; [|discriminate].
    intros _. left. apply text_eqb_eq in E. subst k'. apply of_to_text.
  Qed.

  Lemma key_jget k o : In k (map (fun kv => of_text (fst kv)) o) -> jget k o <> None.
  Proof.
    induction o as [|[k' w] o IH]; cbn [map In jget fst]; [easy|]. intros [<-|H].
    - destruct (jget (of_text k') o); [congruence|].
      assert (E : text_eqb (to_text (of_text k')) k' = true).
      { apply text_eqb_eq. apply to_of_text. }
      rewrite E. congruence.
    - apply IH in H. destruct (jget k o); congruence.
  Qed.

  (** Whatever the document, a resumed session is a possible one; it has every
      job that the document mentions, with the checksum it gives; every job it
      has is mentioned or on the run list, and comes from the supplied jobs. *)
  Lemma resume_any doc R :
    resume deps_of eval_expr records_of readable siblings instantiate isfile rewrite supplied
      flags location doc = inr R ->
    reachable (se_state R) /\
    (forall k, mentioned doc k -> exists c js,
       at_path ["session"; "jobs"; k]%string doc = Some (JStr c) /\
       dget k (st_map (se_state R)) = Some js /\
       (f_ignore flags = false -> j_sum (js_job js) = of_text c)) /\
    (forall j, In j (st_jobs (se_state R)) ->
       (mentioned doc (j_id j) \/ In (j_id j) (map j_id (st_run (se_state R)))) /\ made j).
  Proof.
    intros H. unfold resume in H. apply rbind_inr in H. destruct H as (d & Ed & H).
    apply rbind_inr in H. destruct H as (v0 & _ & H). apply rbind_inr in H. destruct H as (v & _ & H).
    destruct (find_version v) as [n|]; [|discriminate].
    apply rbind_inr in H. destruct H as (repr & Er & H). apply rbind_inr in H. destruct H as (o & Eo & H).
    pose proof (vkey_path _ _ _ Er) as Pr.
    unfold build_session in H. destruct (init_session supplied) as [S0| |] eqn:E0; try discriminate.
    assert (R0 : reachable S0) by now apply (reach_init _ _ _ supplied).
    pose proof (init_sourced S0 E0) as Q0.
    apply rbind_inr in H. destruct H as (S1 & E1 & H). apply rbind_inr in H. destruct H as (m & _ & H).
    unfold restore_jobs in E1. apply rbind_inr in E1. destruct E1 as (vj & Evj & E1).
    apply rbind_inr in E1. destruct E1 as (jobs & Ejobs & E1).
    apply rbind_inr in E1. destruct E1 as (vr & Evr & E1).
    apply rbind_inr in E1. destruct E1 as (results & Eresults & E1).
    apply rbind_inr in E1. destruct E1 as (Sa & Ea & E1).
    set (ids := sorted_set _) in E1.
    apply rbind_inr in E1. destruct E1 as ([Sb rest] & Eb & E1).
    apply vdict_obj in Ejobs. subst vj. apply vdict_obj in Eresults. subst vr.
    pose proof (vkey_path _ _ _ Evj) as Pj. pose proof (vkey_path _ _ _ Evr) as Pres.
    destruct (add_supplied_any supplied (incl_refl _) S0 Sa R0 Q0 Ea) as [Ra Qa].
    destruct (pass_any n jobs results ids Sa Sa Sb rest Ra Qa (keeps_refl _) Eb) as (Rb & Qb & _ & _ & _ & Wb).
    destruct (leftovers_any n jobs results _ rest Sb Sb S1 Rb Qb (keeps_refl _) E1) as (R1 & Q1 & K1 & W1).
    assert (W : forall k, In k ids -> as_wanted jobs k S1).
    { intros k Hk. destruct (Wb k Hk) as [Hr|Hw]; auto. now apply (as_wanted_keeps jobs k Sb). }
    apply rbind_inr in H. destruct H as (S2 & E2 & H).
    assert (H2 : reachable S2 /\ sourced S2 /\ st_map S2 = st_map S1).
    { destruct (Nat.ltb n 6); [injection E2 as <-; auto|]. now apply (mandatory_any repr). }
    destruct H2 as (R2 & Q2 & M2).
    apply rbind_inr in H. destruct H as (S3 & E3 & H).
    destruct (desired_any repr S2 S3 R2 Q2 E3) as (R3 & Q3 & K3).
    apply rbind_inr in H. destruct H as (S4 & E4 & H). injection H as <-. cbn [se_state].
    unfold restore_job_list in E4. apply rbind_inr in E4. destruct E4 as (vj & Evj' & E4).
    assert (vj = JObj jobs) by congruence. subst vj. cbn [vdict rbind] in E4.
    set (retain := map j_id (st_run S3) ++ _) in E4.
    set (q := fun j => negb (smem (j_id j) retain)) in E4.
    pose proof (reach_op _ _ _ S3 (OpTrim q) R3 I) as R4. cbn [exec_op] in R4.
    destruct (trim_job_list q S3) as [S4' b] eqn:Et. destruct b; [discriminate|].
    injection E4 as <-. cbn [fst] in R4. split; [exact R4|].
    pose proof (Inv_reachable _ _ _ _ R3) as I3.
    unfold trim_job_list in Et. destruct (existsb _ (filter q (st_jobs S3))); [discriminate|].
    injection Et as <-. cbn [st_map st_jobs st_run].
    assert (Hment : forall k, mentioned doc k -> In k ids).
    { intros k Hm. apply sorted_set_In. rewrite in_app_iff. destruct Hm as [Hm|Hm].
      - left. rewrite Pr, Pj in Hm. cbn [at_path] in Hm. destruct (jget k jobs) eqn:E; [|contradiction].
        now apply jget_key in E.
      - right. rewrite Pr, Pres in Hm. cbn [at_path] in Hm. destruct (jget k results) eqn:E; [|contradiction].
        now apply jget_key in E. }
    split.
    - intros k Hm. destruct (W k (Hment k Hm)) as (c & js & Hc & Hg & Hs).
      rewrite <- M2 in Hg. destruct (K3 k js Hg) as (js' & Hg' & Ej). exists c, js'.
      split; [|split].
      + rewrite Pr, Pj. cbn [at_path]. now rewrite Hc.
      + rewrite (proj2 (dget_fold_ddel (filter q (st_jobs S3)) (st_map S3) k (inv_nodup S3 I3))).
        destruct (in_dec _ _ _) as [Hi|_]; auto. exfalso. apply in_map_iff in Hi.
        destruct Hi as (x & Ex & Hx). apply filter_In in Hx. destruct Hx as [_ Hx].
        unfold q in Hx. apply negb_true_iff in Hx. rewrite Ex in Hx.
        assert (T : smem k retain = true).
        { apply smem_In. unfold retain. rewrite in_app_iff. right. now apply jget_key in Hc. }
        congruence.
      + rewrite Ej. exact Hs.
    - intros j Hj. apply filter_In in Hj. destruct Hj as [Hj Hq]. split.
      + unfold q in Hq. rewrite negb_involutive in Hq. apply smem_In in Hq. unfold retain in Hq.
        apply in_app_iff in Hq. destruct Hq as [Hq|Hq]; auto. left. left.
        rewrite Pr, Pj. cbn [at_path]. apply key_jget in Hq.
        destruct (jget (j_id j) jobs); congruence.
      + pose proof (dget_jobs_In _ _ (i_unique _ I3) Hj) as G. rewrite <- (i_map _ I3), dget_jobmap in G.
        destruct (dget (j_id j) (st_map S3)) as [js|] eqn:E; [|discriminate]. cbn in G.
        injection G as G. rewrite <- G. now apply (Q3 (j_id j) js).
  Qed.
End Any.
