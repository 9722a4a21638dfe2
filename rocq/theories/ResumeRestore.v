(** Resuming a saved session restores it. *)
From Coq Require Import Ascii String List Relations Bool NArith ZArith Arith Lia.
From Verif Require Import ScanModel JsonModel IologModel PathModel Base BaseFacts JobModel
  SolverModel SolverSpec SolverProofs SessionModel SessionSpec SelectProofs SessionProofs
  HistoryProofs ResumeModel ResumeSpec ResumeCodec ResumeSolve ResumeProofs.
Import ListNotations.
Local Open Scope nat_scope.
Local Open Scope list_scope.

Definition core (js : jstate) : job * result * list result :=
  (js_job js, js_result js, js_history js).

Lemma core_erase a b : erase a = erase b -> core a = core b.
Proof. intros H. apply erase_eq in H. destruct H as (H1 & H2 & H3). unfold core. congruence. Qed.

(** [j] is in the session. *)
Definition present (S : state) (j : job) : Prop :=
  exists js, dget (j_id j) (st_map S) = Some js /\ js_job js = j.

Definition fresh (js : jstate) : Prop := js_result js = empty_result /\ js_history js = [].

(** [S'] has the jobs of [S] in the same condition, and perhaps further jobs that
    were not run; nothing is selected in either. *)
Record ext (S S' : state) : Prop := {
  x_old : forall k js, dget k (st_map S) = Some js ->
    exists js', dget k (st_map S') = Some js' /\ core js' = core js;
  x_new : forall k js', dget k (st_map S') = Some js' -> dget k (st_map S) = None -> fresh js';
  x_res : st_resources S' = st_resources S
}.

Lemma ext_refl S : ext S S.
Proof. split; eauto. congruence. Qed.

Lemma ext_trans A B C : ext A B -> ext B C -> ext A C.
Proof.
  intros X Y. split.
  - intros k js H. destruct (x_old _ _ X k js H) as (js1 & H1 & E1).
    destruct (x_old _ _ Y k js1 H1) as (js2 & H2 & E2). exists js2. split; auto. congruence.
  - intros k js H Hn. destruct (dget k (st_map B)) as [jb|] eqn:Eb.
    + pose proof (x_new _ _ X k jb Eb Hn) as [F1 F2].
      destruct (x_old _ _ Y k jb Eb) as (jc & Hc & Ec). rewrite H in Hc. injection Hc as <-.
      unfold core in Ec. injection Ec as E1 E2 E3. split; congruence.
    + apply (x_new _ _ Y k js H Eb).
  - rewrite (x_res _ _ Y). apply (x_res _ _ X).
Qed.

Lemma ext_present A B j : ext A B -> present A j -> present B j.
Proof.
  intros X (js & H & Hj). destruct (x_old _ _ X _ _ H) as (js' & H' & E). exists js'.
  split; auto. unfold core in E. congruence.
Qed.

Lemma ext_frame S S' : frame S S' -> ext S S'.
Proof.
  intros F. pose proof F as (_ & _ & _ & _ & _ & H6 & H7). split; auto.
  - intros k js H. pose proof (em_dget S S' k H7) as G. rewrite H in G.
    destruct (dget k (st_map S')) as [js'|]; [|discriminate]. exists js'. split; auto.
    apply core_erase. cbn in G. injection G as G1 G2 G3 G4 G5. unfold erase, set_inhibitors. congruence.
  - intros k js' H Hn. destruct (frame_dget _ _ _ _ F H) as (js & E & _). congruence.
Qed.

Lemma ext_added S j : dget (j_id j) (st_map S) = None -> ext S (added j S).
Proof.
  intros Hn. split; auto; cbn.
  - intros k js H. exists js. rewrite dget_dset. destruct (String.eqb_spec k (j_id j)); [congruence|auto].
  - intros k js'. rewrite dget_dset. destruct (String.eqb_spec k (j_id j)).
    + intros [= <-] _. split; auto.
    + congruence.
Qed.

Lemma ext_via S k js v : dget k (st_map S) = Some js ->
  ext S (with_map (dset k (set_via v js) (st_map S)) S).
Proof.
  intros Hg. split; auto; cbn.
  - intros k' js' H. rewrite dget_dset. destruct (String.eqb_spec k' k); eauto.
    subst k'. eexists. split; [reflexivity|]. assert (js' = js) by congruence. now subst.
  - intros k' js'. rewrite dget_dset. destruct (String.eqb_spec k' k); [|congruence].
    intros [= <-]. congruence.
Qed.

Section Restore.
  Variable eval_expr : expr -> list (list resource) -> bool.
  Variable records_of : result -> list resource.

  (** ** Adding jobs to a session in which nothing is selected *)

  Section Adding.
    (** The jobs that may be added. *)
    Variable P : job -> Prop.
    Hypothesis P_unique : forall a b, P a -> P b -> j_id a = j_id b -> a = b.

    Record Good (S : state) : Prop := {
      g_inv : HistoryProofs.Inv S;
      g_res : Res records_of S;
      g_run : st_run S = [];
      g_desired : st_desired S = [];
      g_mandatory : st_mandatory S = [];
      g_jobs : forall k js, dget k (st_map S) = Some js -> P (js_job js)
    }.

    Lemma Good_frame S S' : frame S S' -> Good S -> Good S'.
    Proof.
      intros F G. pose proof F as (H1 & H2 & H3 & H4 & H5 & H6 & H7). split.
      - apply (Inv_frame _ _ F). apply G.
      - apply (Res_frame _ _ _ F). apply G.
      - rewrite H5. apply G.
      - rewrite H3. apply G.
      - rewrite H4. apply G.
      - intros k js H. destruct (frame_dget _ _ _ _ F H) as (js0 & H0 & E).
        apply erase_eq in E. destruct E as (-> & _). apply (g_jobs _ G k js0 H0).
    Qed.

    Lemma Good_added S j : dget (j_id j) (st_map S) = None -> P j -> Good S -> Good (added j S).
    Proof.
      intros Hn Hj G. split; try apply G.
      - apply Inv_added; auto. apply G.
      - apply Res_added; auto. apply G.
      - intros k js. cbn. rewrite dget_dset. destruct (String.eqb k (j_id j)).
        + intros [= <-]. exact Hj.
        + apply G.
    Qed.

    Lemma Good_via S k js v : dget k (st_map S) = Some js -> Good S ->
      Good (with_map (dset k (set_via v js) (st_map S)) S).
    Proof.
      intros Hg G. split; try apply G.
      - apply Inv_via; auto. apply G.
      - apply Res_via; auto. apply G.
      - intros k' js'. cbn. rewrite dget_dset. destruct (String.eqb k' k).
        + intros [= <-]. apply (g_jobs _ G k js Hg).
        + apply G.
    Qed.

    Lemma recompute_idle S : st_run S = [] -> exists S', recompute eval_expr S = (S', None) /\ frame S S'.
    Proof.
      intros H. pose proof (recompute_frame eval_expr S) as F.
      assert (E : snd (recompute eval_expr S) = None).
      { unfold recompute. rewrite H. reflexivity. }
      destruct (recompute eval_expr S) as [S' x]. cbn in *. subst x. eauto.
    Qed.

    Lemma add_tree_ok t : forall S, Good S -> (forall x, in_tree x t -> P x) ->
      exists S', add_tree eval_expr true t S = (S', None) /\ Good S' /\ ext S S' /\
        forall x, in_tree x t -> present S' x.
    Proof.
      induction t as [j cs IH] using jtree_ind'. intros S G Ht.
      assert (Hch : forall l S0, Forall (fun t => forall S, Good S -> (forall x, in_tree x t -> P x) ->
          exists S', add_tree eval_expr true t S = (S', None) /\ Good S' /\ ext S S' /\
            forall x, in_tree x t -> present S' x) l ->
        (forall c x, In c l -> in_tree x c -> P x) -> Good S0 ->
        exists S', add_children eval_expr true l S0 = (S', None) /\ Good S' /\ ext S0 S' /\
          forall c x, In c l -> in_tree x c -> present S' x).
      { clear. induction l as [|c l IHl]; cbn [add_children]; intros S0 HF HP G.
        - exists S0. split; auto. split; auto. split; [apply ext_refl|]. intros ? ? [].
        - inversion HF as [|? ? Hc HF']; subst.
          destruct (Hc S0 G) as (S1 & -> & G1 & X1 & P1).
          { intros x Hx. apply (HP c); cbn; auto. }
          destruct (IHl S1 HF') as (S2 & -> & G2 & X2 & P2); auto.
          { intros c' x Hc' Hx. apply (HP c'); cbn; auto. }
          exists S2. split; auto. split; auto. split; [eapply ext_trans; eauto|].
          intros c' x [<-|Hc'] Hx; [|eauto]. eapply ext_present; eauto. }
      assert (Pj : P j) by (apply Ht; constructor).
      assert (HPc : forall c x, In c cs -> in_tree x c -> P x).
      { intros c x Hc Hx. apply Ht. now apply (in_child x j cs c). }
      assert (Hb : exists S', add_body eval_expr true j cs S = (S', None) /\ Good S' /\ ext S S' /\
        forall x, in_tree x (JTree j cs) -> present S' x).
      { assert (Hs : exists S0, Good S0 /\ ext S S0 /\ present S0 j /\
          add_body eval_expr true j cs S = add_children eval_expr true cs S0).
        { unfold add_body. destruct (dget (j_id j) (st_map S)) as [js|] eqn:E.
          - assert (Ej : js_job js = j).
            { apply P_unique; auto; [apply (g_jobs _ G _ _ E)|].
              apply (Inv_entry S _ _ (g_inv _ G) E). }
            exists S. split; auto. split; [apply ext_refl|]. split; [exists js; auto|].
            rewrite Ej. unfold job_eqb. rewrite String.eqb_refl. reflexivity.
          - exists (added j S). split; [now apply Good_added|]. split; [now apply ext_added|].
            split; auto. exists (new_jstate j). cbn. rewrite dget_dset_same. auto. }
        destruct Hs as (S0 & G0 & X0 & P0 & ->).
        destruct (Hch cs S0 IH HPc G0) as (S1 & E1 & G1 & X1 & P1). exists S1. split; auto.
        split; auto. split; [eapply ext_trans; eauto|]. intros x Hx.
        inversion Hx as [cs' E|i cs' c Hc Hxc E]; subst.
        - eapply ext_present; eauto.
        - eauto. }
      destruct Hb as (S1 & E1 & G1 & X1 & P1).
      rewrite add_tree_eq, E1. cbn [fst snd].
      destruct (recompute_idle S1 (g_run _ G1)) as (S2 & -> & F2).
      exists S2. split; auto. split; [eapply Good_frame; eauto|].
      split; [eapply ext_trans; [exact X1|now apply ext_frame]|].
      intros x Hx. eapply ext_present; [apply ext_frame; exact F2|auto].
    Qed.

    Lemma add_generated_ok via l : forall S, Good S -> (forall t x, In t l -> in_tree x t -> P x) ->
      exists S', add_generated eval_expr via l S = (S', None) /\ Good S' /\ ext S S' /\
        forall t x, In t l -> in_tree x t -> present S' x.
    Proof.
      induction l as [|[g cs] l IH]; cbn [add_generated]; intros S G HP.
      - exists S. split; auto. split; auto. split; [apply ext_refl|]. intros ? ? [].
      - destruct (add_tree_ok (JTree g cs) S G) as (S1 & -> & G1 & X1 & P1).
        { intros x Hx. apply (HP (JTree g cs)); cbn; auto. }
        destruct (P1 g) as (js & Hg & Hj); [constructor|]. rewrite Hg.
        destruct (IH (with_map (dset (j_id g) (set_via via js) (st_map S1)) S1))
          as (S2 & -> & G2 & X2 & P2).
        { now apply Good_via. }
        { intros t x Ht Hx. apply (HP t); cbn; auto. }
        exists S2. split; auto. split; auto.
        assert (X12 : ext S1 S2) by (eapply ext_trans; [apply ext_via; exact Hg|exact X2]).
        split; [eapply ext_trans; eauto|].
        intros t x [<-|Ht] Hx; [|eauto]. eapply ext_present; eauto.
    Qed.

    (** ** Results *)

    Lemma Good_noted j r js S : Good S -> dget (j_id j) (st_map S) = Some js -> js_job js = j ->
      Good (noted records_of j r js S).
    Proof.
      intros G Hg Hj.
      assert (E : HistoryProofs.Inv (noted records_of j r js S)).
      { pose proof (Inv_result eval_expr records_of j r [] S (g_inv _ G)) as I.
        assert (Hs : forall x, In x (st_jobs S) -> j_id x = j_id j -> x = j).
        { intros x Hx He. subst j. apply (unique_ids_inj (st_jobs S)); auto.
          - apply G.
          - apply (Inv_entry S _ _ (g_inv _ G) Hg). }
        specialize (I Hs). unfold update_job_result in I.
        rewrite (observe_eq eval_expr records_of j r [] S js Hg) in I.
        assert (E : (if String.eqb (j_plugin j) "resource"
          then match r_outcome r with
               | Some _ => add_generated eval_expr j [] (noted records_of j r js S)
               | None => (noted records_of j r js S, None)
               end else (noted records_of j r js S, None)) = (noted records_of j r js S, None)).
        { destruct (String.eqb (j_plugin j) "resource"); auto. now destruct (r_outcome r). }
        rewrite E in I.
        eapply Inv_frame; [|exact I].
        pose proof (recompute_frame eval_expr (noted records_of j r js S)) as F.
        unfold frame in *. intuition congruence. }
      split; auto.
      - apply Res_noted; auto. apply G.
      - unfold noted, parse_and_store_resource.
        destruct (String.eqb _ _); [destruct (r_outcome r)|]; apply G.
      - unfold noted, parse_and_store_resource.
        destruct (String.eqb _ _); [destruct (r_outcome r)|]; apply G.
      - unfold noted, parse_and_store_resource.
        destruct (String.eqb _ _); [destruct (r_outcome r)|]; apply G.
      - intros k js'. rewrite noted_map, dget_dset. destruct (String.eqb k (j_id j)).
        + intros [= <-]. rewrite set_result_job. apply (g_jobs _ G _ _ Hg).
        + apply G.
    Qed.

    Lemma update_ok j r g S js : Good S -> dget (j_id j) (st_map S) = Some js -> js_job js = j ->
      (forall t x, In t g -> in_tree x t -> r_outcome r <> None -> j_plugin j = "resource"%string -> P x) ->
      exists S', update_job_result eval_expr records_of j r g S = (S', None) /\ Good S' /\
        ext (noted records_of j r js S) S' /\
        (forall t x, In t g -> in_tree x t -> r_outcome r <> None -> j_plugin j = "resource"%string ->
           present S' x).
    Proof.
      intros G Hg Hj HP. unfold update_job_result. rewrite (observe_eq _ _ _ _ _ _ _ Hg).
      pose proof (Good_noted j r js S G Hg Hj) as G1.
      assert (H : exists S1,
        (if String.eqb (j_plugin j) "resource" then
          match r_outcome r with
          | None => (noted records_of j r js S, None)
          | Some _ => add_generated eval_expr j g (noted records_of j r js S)
          end
        else (noted records_of j r js S, None)) = (S1, None) /\ Good S1 /\
        ext (noted records_of j r js S) S1 /\
        (forall t x, In t g -> in_tree x t -> r_outcome r <> None ->
          j_plugin j = "resource"%string -> present S1 x)).
      { destruct (String.eqb_spec (j_plugin j) "resource") as [Ep|Ep].
        - destruct (r_outcome r) as [o|] eqn:Eo.
          + destruct (add_generated_ok j g _ G1) as (S1 & E1 & G2 & X & Pr).
            { intros t x Ht Hx. apply (HP t); auto. discriminate. }
            exists S1. split; [exact E1|]. split; [exact G2|]. split; [exact X|]. eauto.
          + exists (noted records_of j r js S). split; [reflexivity|]. split; [exact G1|]. split; [apply ext_refl|].
            intros; congruence.
        - exists (noted records_of j r js S). split; [reflexivity|]. split; [exact G1|]. split; [apply ext_refl|].
          intros; congruence. }
      destruct H as (S1 & -> & G2 & X & Pr).
      destruct (recompute_idle S1 (g_run _ G2)) as (S2 & -> & F). exists S2. split; auto.
      split; [eapply Good_frame; eauto|]. split.
      - eapply ext_trans; [exact X|now apply ext_frame].
      - intros t x H1 H2 H3 H4. eapply ext_present; [apply ext_frame; exact F|eauto].
    Qed.
  End Adding.
End Restore.
