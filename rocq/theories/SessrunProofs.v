(** * Lemmas about running a session *)
From Coq Require Import String List Bool Arith ZArith Lia.
From Verif Require Import Base BaseFacts JobModel SolverModel SolverSpec SolverProofs SessionModel SessionSpec SelectProofs
  SessionProofs HistoryProofs SessrunModel SessrunSpec.
Import ListNotations.
Open Scope list_scope.

Section Run.
  Variable deps_of : job -> list (dep_type * name).
  Variable eval_expr : expr -> list (list resource) -> bool.
  Variable records_of : result -> list resource.
  Variable matching : list job -> list job.
  Variable templates : job -> result -> state -> list jtree.
  Hypothesis matching_known : forall l, incl (matching l) l.

  Notation recompute := (recompute eval_expr).
  Notation job_added := (job_added deps_of eval_expr matching).
  Notation add_tree_n := (add_tree_n deps_of eval_expr matching).
  Notation add_generated_n := (add_generated_n deps_of eval_expr matching).
  Notation update_job_result_n := (update_job_result_n deps_of eval_expr records_of matching templates).
  Notation observe_result_n := (observe_result_n deps_of eval_expr records_of matching templates).
  Notation update_desired := (update_desired_job_list deps_of eval_expr).

  (** ** Recomputing readiness twice *)

  Lemma erase_set js l : set_inhibitors l (erase js) = set_inhibitors l js.
  Proof. reflexivity. Qed.
  Lemma recompute_frame_same s s' : frame s s' -> recompute s' = recompute s.
  Proof.
    intros (H1 & H2 & H3 & H4 & H5 & H6 & H7). unfold SessionModel.recompute. rewrite H5. f_equal. unfold with_map. rewrite H1, H2, H3, H4, H5, H6. f_equal.
    assert (E : forall s, map (fun kv : name * jstate => (fst kv, set_inhibitors [Undesired] (snd kv))) (st_map s) =
      map (fun kv => (fst kv, set_inhibitors [Undesired] (snd kv))) (em s)).
    { intros s0. unfold em. rewrite map_map. apply map_ext. intros [k js]. reflexivity. }
    now rewrite (E s'), (E s), H7.
  Qed.
  Lemma recompute_twice s s' : recompute s = (s', None) -> recompute s' = (s', None).
  Proof. intros H. pose proof (recompute_frame eval_expr s) as F. rewrite H in F. cbn [fst] in F. rewrite (recompute_frame_same s s' F). exact H. Qed.

  (** ** Selecting *)

  Lemma select_run_facts J0 fuel : forall J D P D' run P', incl J J0 -> incl D J0 -> select deps_of fuel J D P = SelOk D' run P' ->
    unique_ids run /\ dependency_ordered deps_of run /\ incl run J0.
  Proof.
    assert (R : forall a l, incl (remove_if_present a l) l).
    { intros a l. unfold remove_if_present. destruct (job_remove a l) as [l'|] eqn:E; [|apply incl_refl]. revert l' E. induction l as [|x l IH]; intros l'; cbn [job_remove]; [discriminate|].
      destruct (job_eqb x a); [intros [= <-]; apply incl_tl, incl_refl|]. destruct (job_remove a l) as [l1|]; [|discriminate]. cbn [option_map]. intros [= <-].
      apply incl_cons; [now left|]. apply incl_tl. now apply IH. }
    assert (N : unique_ids [] /\ dependency_ordered deps_of [] /\ incl (@nil job) J0).
    { split; [constructor|]. split; [intros [|b bf] j a E; discriminate|intros x []]. }
    induction fuel as [|fuel IH]; intros J D P D' run P' HJ HD; simpl.
    - destruct D; [intros [= _ <- _]; exact N|discriminate].
    - destruct D as [|d D]; [intros [= _ <- _]; exact N|].
      destruct (resolve deps_of J (Some (d :: D))) as [r|e|] eqn:E.
      + intros [= _ <- _]. apply resolve_ok_inv in E as (_ & U & O & _ & _ & FP). split; [assumption|]. split; [assumption|].
        assert (F : Forall (fun x => In x J0) r); [|exact (proj1 (Forall_forall _ _) F)]. apply FP.
        * intros a b _ [Hb _]. now apply HJ.
        * cbn [wanted]. apply Forall_forall. exact HD.
      + destruct (affected_job e) as [a|]; [|discriminate]. apply IH; eapply incl_tran; [apply R|assumption|apply R|assumption].
      + discriminate.
  Qed.

  Definition good (s : state) : Prop :=
    Inv s /\ dependency_ordered deps_of (st_run s) /\ incl (st_run s) (st_jobs s) /\ incl (st_mandatory s) (st_jobs s).

  Definition kept (s s' : state) : Prop :=
    (exists l, st_jobs s' = st_jobs s ++ l) /\
    forall k js, dget k (st_map s) = Some js -> exists js', dget k (st_map s') = Some js' /\ js_job js' = js_job js /\ js_result js' = js_result js.

  Lemma kept_refl s : kept s s.
  Proof. split; [exists []; now rewrite app_nil_r|eauto]. Qed.
  Lemma kept_trans a b c : kept a b -> kept b c -> kept a c.
  Proof.
    intros [(l & E) H] [(l' & E') H']. split; [exists (l ++ l'); now rewrite E', E, app_assoc|]. intros k js K.
    destruct (H k js K) as (js1 & K1 & J1 & R1). destruct (H' k js1 K1) as (js2 & K2 & J2 & R2). exists js2. split; [assumption|]. split; congruence.
  Qed.
  Lemma kept_frame s s' : frame s s' -> kept s s'.
  Proof.
    intros F. pose proof F as (H1 & _ & _ & _ & _ & _ & H7). split; [exists []; now rewrite app_nil_r|]. intros k js K.
    pose proof (em_dget s s' k H7) as G. rewrite K in G. destruct (dget k (st_map s')) as [js'|]; [|discriminate]. exists js'. split; [reflexivity|].
    cbn [option_map] in G. unfold erase, set_inhibitors in G. injection G as G1 G2 _ _ _. auto.
  Qed.

  Lemma good_frame s s' : frame s s' -> good s -> good s'.
  Proof.
    intros F (I & O & R & M). split; [now apply (Inv_frame s)|]. destruct F as (H1 & _ & _ & H4 & H5 & _). rewrite H1, H4, H5. auto.
  Qed.

  Lemma update_desired_facts s l b s' x : Inv s -> incl (st_mandatory s) (st_jobs s) -> incl l (st_jobs s) -> update_desired l b s = Some (s', x) ->
    good s' /\ kept s s' /\ st_jobs s' = st_jobs s /\ (forall p, x = inr p -> recompute s' = (s', None)).
  Proof.
    intros I M Hl H. pose proof (Inv_desired eval_expr deps_of l b s s' x I H) as I'. unfold update_desired_job_list in H.
    destruct (select deps_of _ _ _ _) as [D run P|D|] eqn:E; [| |discriminate].
    - apply (select_run_facts (st_jobs s)) in E as (U & Or & In_); [|apply incl_refl|apply incl_app; [destruct b; [assumption|intros y []]|assumption]].
      set (s1 := mk_state (st_jobs s) (st_units s) (st_map s) D (st_mandatory s) run (st_resources s)) in *.
      pose proof (recompute_frame eval_expr s1) as F. destruct (recompute s1) as [s2 e] eqn:Rc. cbn [fst] in F.
      assert (Es : s' = s2) by (destruct e; injection H as -> _; reflexivity). subst s2.
      destruct F as (F1 & F2 & F3 & F4 & F5 & F6 & F7). split; [|split; [|split; [assumption|]]].
      + split; [assumption|]. rewrite F1, F4, F5. cbn [s1 st_jobs st_mandatory st_run]. auto.
      + apply (kept_trans s s1); [split; [exists []; now rewrite app_nil_r|cbn [s1 st_map]; eauto]|]. apply kept_frame. repeat split; assumption.
      + intros p ->. destruct e; [discriminate|]. now apply recompute_twice in Rc.
    - injection H as <- <-. split; [|split; [split; [exists []; now rewrite app_nil_r|cbn [st_map]; eauto]|split; [reflexivity|discriminate]]]. split; [assumption|]. cbn [st_run st_jobs st_mandatory].
      split; [intros [|? ?] ? ? Q; discriminate|]. split; [intros y []|assumption].
  Qed.
  Lemma job_added_facts s s' x : good s -> job_added s = (s', x) -> good s' /\ kept s s' /\ st_jobs s' = st_jobs s.
  Proof.
    intros G. unfold SessrunModel.job_added. destruct (update_desired (matching (st_jobs s)) true s) as [[s1 [e|p]]|] eqn:E; intros [= <- <-].
    - apply update_desired_facts in E; [tauto|apply G|apply G|apply matching_known].
    - apply update_desired_facts in E; [tauto|apply G|apply G|apply matching_known].
    - split; [assumption|]. split; [apply kept_refl|reflexivity].
  Qed.
  Lemma good_added s j : dget (j_id j) (st_map s) = None -> good s -> good (added j s) /\ kept s (added j s).
  Proof.
    intros N (I & O & R & M). split; [split; [now apply Inv_added|]|].
    - unfold added. cbn [st_run st_jobs st_mandatory]. split; [assumption|]. split; apply incl_appl; assumption.
    - split; [exists [j]; reflexivity|]. intros k js K. cbn [added st_map]. rewrite dget_dset. destruct (String.eqb_spec k (j_id j)) as [->|D]; [congruence|eauto].
  Qed.

  (** ** Adding jobs *)

  Fixpoint add_children_n (l : list jtree) (s : state) (b : bool) : state * bool * option exn :=
    match l with
    | [] => (s, b, None)
    | c :: l' =>
        match add_tree_n c s b with
        | (s', b', None) => add_children_n l' s' b'
        | (s', b', Some x) => (s', b', Some x)
        end
    end.
  Definition add_body_n (j : job) (cs : list jtree) (s : state) (b : bool) : state * bool * option exn :=
    match dget (j_id j) (st_map s) with
    | None => match job_added (added j s) with (s', None) => add_children_n cs s' true | (s', Some x) => (s', b, Some x) end
    | Some js => if job_eqb j (js_job js) then add_children_n cs s b else (s, b, Some (XDuplicate (js_job js) j))
    end.
  Lemma add_tree_n_eq j cs s b : add_tree_n (JTree j cs) s b =
    match recompute (fst (fst (add_body_n j cs s b))) with
    | (s', Some x) => (s', snd (fst (add_body_n j cs s b)), Some x)
    | (s', None) => (s', snd (fst (add_body_n j cs s b)), snd (add_body_n j cs s b))
    end.
  Proof.
    assert (E : forall l s b, (fix add_children (l : list jtree) (s : state) (b : bool) : state * bool * option exn :=
          match l with
          | [] => (s, b, None)
          | c :: l' =>
              match add_tree_n c s b with
              | (s', b', None) => add_children l' s' b'
              | (s', b', Some x) => (s', b', Some x)
              end
          end) l s b = add_children_n l s b).
    { induction l as [|c l IH]; intros s0 b0; simpl; auto. }
    cbn [SessrunModel.add_tree_n]. unfold add_body_n, added.
    destruct (dget (j_id j) (st_map s)) as [js|]; [rewrite !E; reflexivity|].
    destruct (job_added _) as [s' [x|]]; [reflexivity|]. rewrite !E. reflexivity.
  Qed.

  Section Kept.
    Variable A : name -> Prop.
    Definition ok_ids (t : jtree) : Prop := forall k, In k (tree_ids t) -> A k.
    (** What adding jobs does, from [s0] on *)
    Definition growing (s0 s : state) : Prop := good s /\ kept s0 s /\ (forall x, In x (st_jobs s) -> In x (st_jobs s0) \/ A (j_id x)).

    Lemma growing_frame s0 s s' : frame s s' -> growing s0 s -> growing s0 s'.
    Proof.
      intros F (G & K & AA). split; [now apply (good_frame s)|]. split; [eapply kept_trans; [exact K|now apply kept_frame]|].
      destruct F as (-> & _). exact AA.
    Qed.
    Lemma growing_added s0 s j s' x : dget (j_id j) (st_map s) = None -> A (j_id j) -> growing s0 s -> job_added (added j s) = (s', x) -> growing s0 s'.
    Proof.
      intros N Aj (G & K & AA) H. destruct (good_added s j N G) as [G1 K1]. destruct (job_added_facts _ _ _ G1 H) as (G2 & K2 & E).
      split; [assumption|]. split; [eapply kept_trans; [exact K|eapply kept_trans; [exact K1|exact K2]]|].
      rewrite E. cbn [added st_jobs]. intros y I. apply in_app_iff in I as [I|[<-|[]]]; auto.
    Qed.

    Lemma growing_add_tree s0 t : ok_ids t -> forall s b, growing s0 s -> growing s0 (fst (fst (add_tree_n t s b))).
    Proof.
      induction t as [j cs IH] using jtree_ind'. intros OK s b G.
      assert (Aj : A (j_id j)) by (apply OK; now left).
      assert (Hch : forall s b, growing s0 s -> growing s0 (fst (fst (add_children_n cs s b)))).
      { assert (OKc : forall c, In c cs -> ok_ids c).
        { intros c Ic k Ik. apply OK. right. apply in_flat_map. eauto. }
        clear OK Aj s b G. induction cs as [|c cs IHc]; intros s b G; simpl; [assumption|].
        inversion IH as [|? ? Hc Hcs]; subst. specialize (Hc (OKc c (or_introl eq_refl)) s b G).
        destruct (add_tree_n c s b) as [[s' b'] [x|]]; simpl in *; [assumption|]. apply IHc; [assumption|auto|assumption]. }
      assert (Hb : growing s0 (fst (fst (add_body_n j cs s b)))).
      { unfold add_body_n. destruct (dget (j_id j) (st_map s)) as [js|] eqn:E.
        - destruct (job_eqb j (js_job js)); simpl; auto.
        - destruct (job_added (added j s)) as [s' [x|]] eqn:Ja; [simpl|apply Hch]; eapply growing_added; eassumption. }
      rewrite add_tree_n_eq. pose proof (recompute_frame eval_expr (fst (fst (add_body_n j cs s b)))) as F.
      destruct (recompute (fst (fst (add_body_n j cs s b)))) as [s' [x|]]; cbn [fst] in *; eapply growing_frame; eassumption.
    Qed.
    Lemma growing_via s0 s k js v : dget k (st_map s) = Some js -> growing s0 s -> growing s0 (with_map (dset k (set_via v js) (st_map s)) s).
    Proof.
      intros K ((I & O & R & M) & Kp & AA). split; [split; [now apply Inv_via|auto]|]. split; [|assumption]. eapply kept_trans; [exact Kp|].
      split; [exists []; now rewrite app_nil_r|]. intros k2 js2 K2. cbn [st_map with_map]. rewrite dget_dset. destruct (String.eqb_spec k2 k) as [->|D]; [|eauto].
      assert (js2 = js) as -> by congruence. eexists. split; [reflexivity|]. split; reflexivity.
    Qed.
    Lemma growing_add_generated s0 via l : (forall t, In t l -> ok_ids t) -> forall s b, growing s0 s -> growing s0 (fst (fst (add_generated_n via l s b))).
    Proof.
      induction l as [|[g cs] l IH]; intros OK s b G; [assumption|]. cbn [SessrunModel.add_generated_n].
      pose proof (growing_add_tree s0 (JTree g cs) (OK _ (or_introl eq_refl)) s b G) as G1.
      destruct (add_tree_n (JTree g cs) s b) as [[s' b'] [x|]]; [exact G1|]. cbn [fst] in G1.
      destruct (dget (j_id g) (st_map s')) as [js|] eqn:E; [|exact G1]. apply IH; [intros t It; apply OK; now right|]. now apply growing_via.
    Qed.
  End Kept.

  (** *** The flag *)

  Definition flagged (s : state) (b : bool) (s' : state) (b' : bool) (x : option exn) : Prop :=
    length (st_jobs s) <= length (st_jobs s') /\ (b = true -> b' = true) /\ (b' = true -> b = true \/ length (st_jobs s) < length (st_jobs s')) /\
    (b' = false -> x = None -> st_run s' = st_run s /\ st_jobs s' = st_jobs s).
  Lemma flagged_refl s b x : flagged s b s b x.
  Proof. split; [lia|]. split; [trivial|]. split; [now left|]. auto. Qed.
  Lemma flagged_trans s b s1 b1 s2 b2 x : flagged s b s1 b1 None -> flagged s1 b1 s2 b2 x -> flagged s b s2 b2 x.
  Proof.
    intros (L1 & M1 & B1 & Q1) (L2 & M2 & B2 & Q2). split; [lia|]. split; [auto|]. split.
    - intros T. destruct (B2 T) as [T1|L]; [destruct (B1 T1) as [T0|L]; [now left|right; lia]|right; lia].
    - intros F X. destruct b1; [specialize (M2 eq_refl); congruence|]. destruct (Q1 eq_refl eq_refl) as [E1 E2]. destruct (Q2 F X) as [E3 E4]. split; congruence.
  Qed.
  Lemma flagged_exn s b s' b' x : flagged s b s' b' None -> flagged s b s' b' x.
  Proof. intros (L & M & B & Q). unfold flagged. auto. Qed.
  Lemma flagged_frame s b s1 s' b' x y : frame s1 s' -> flagged s b s1 b' x -> (y = None -> x = None) -> flagged s b s' b' y.
  Proof.
    intros (H1 & _ & _ & _ & H5 & _) (L & M & B & Q) XY. unfold flagged. rewrite H1, H5. split; [exact L|]. split; [exact M|]. split; [exact B|]. intros F Y. exact (Q F (XY Y)).
  Qed.
  Lemma job_added_jobs s s' x : job_added s = (s', x) -> st_jobs s' = st_jobs s.
  Proof.
    unfold SessrunModel.job_added. destruct (update_desired (matching (st_jobs s)) true s) as [[s1 y]|] eqn:E; [|intros [= <- _]; reflexivity].
    assert (J : st_jobs s1 = st_jobs s); [|destruct y; intros [= <- _]; exact J].
    unfold update_desired_job_list in E. destruct (select deps_of _ _ _ _) as [D run P|D|]; [| |discriminate].
    - match type of E with match ?r with _ => _ end = _ => pose proof (recompute_frame eval_expr (mk_state (st_jobs s) (st_units s) (st_map s) D (st_mandatory s) run (st_resources s))) as F;
        destruct r as [s2 [e|]] end; cbn [fst] in F; injection E as <- _; apply F.
    - injection E as <- _. reflexivity.
  Qed.
  Lemma flag_add_tree t : forall s b s' b' x, add_tree_n t s b = (s', b', x) -> flagged s b s' b' x.
  Proof.
    induction t as [j cs IH] using jtree_ind'. intros s b s' b' x H.
    assert (Hch : forall s b s' b' x, add_children_n cs s b = (s', b', x) -> flagged s b s' b' x).
    { clear s b s' b' x H. induction cs as [|c cs IHc]; intros s b s' b' x; simpl; [intros [= <- <- <-]; apply flagged_refl|].
      inversion IH as [|? ? Hc Hcs]; subst. destruct (add_tree_n c s b) as [[s1 b1] [y|]] eqn:E.
      - intros [= <- <- <-]. eapply Hc. eassumption.
      - intros Q. eapply flagged_trans; [eapply Hc; eassumption|]. now apply IHc. }
    assert (Hb : forall s1 b1 y, add_body_n j cs s b = (s1, b1, y) -> flagged s b s1 b1 y).
    { intros s1 b1 y. unfold add_body_n. destruct (dget (j_id j) (st_map s)) as [js|].
      - destruct (job_eqb j (js_job js)); [apply Hch|]. intros [= <- <- <-]. apply flagged_refl.
      - destruct (job_added (added j s)) as [s2 [z|]] eqn:Ja; apply job_added_jobs in Ja; cbn [added st_jobs] in Ja.
        + intros [= <- <- <-]. unfold flagged. rewrite Ja, app_length. cbn [length]. split; [lia|]. split; [trivial|]. split; [auto|]. intros _. discriminate.
        + intros Q. apply Hch in Q as (L & M & B & Q'). rewrite Ja, app_length in L. cbn [length] in L. split; [lia|]. split; [auto|]. split; [right; lia|].
          intros F. specialize (M eq_refl). congruence. }
    rewrite add_tree_n_eq in H. destruct (add_body_n j cs s b) as [[s1 b1] y]. cbn [fst snd] in H. pose proof (recompute_frame eval_expr s1) as F.
    destruct (recompute s1) as [s2 [z|]]; cbn [fst] in F; injection H as <- <- <-; (eapply flagged_frame; [exact F|apply Hb; reflexivity|congruence]).
  Qed.
  Lemma flag_add_generated via l : forall s b s' b' x, add_generated_n via l s b = (s', b', x) -> flagged s b s' b' x.
  Proof.
    induction l as [|[g cs] l IH]; intros s b s' b' x; cbn [SessrunModel.add_generated_n]; [intros [= <- <- <-]; apply flagged_refl|].
    destruct (add_tree_n (JTree g cs) s b) as [[s1 b1] [y|]] eqn:E; apply flag_add_tree in E; [intros [= <- <- <-]; exact E|].
    destruct (dget (j_id g) (st_map s1)) as [js|] eqn:K; [|intros [= <- <- <-]; now apply flagged_exn].
    intros Q. apply IH in Q. eapply flagged_trans; [exact E|]. exact Q.
  Qed.

  (** ** Results *)

  Variable A : name -> Prop.
  Hypothesis templates_ids : forall j r s t, In t (templates j r s) -> ok_ids A t.

  (** What recording a result does. *)
  Definition recorded (j : job) (r : result) (s s' : state) : Prop :=
    good s' /\ (exists l, st_jobs s' = st_jobs s ++ l) /\
    (forall x, In x (st_jobs s') -> In x (st_jobs s) \/ A (j_id x)) /\
    (forall k js, k <> j_id j -> dget k (st_map s) = Some js -> exists js', dget k (st_map s') = Some js' /\ js_job js' = js_job js /\ js_result js' = js_result js) /\
    has_result s' (j_id j) r.

  Lemma update_recorded j r s b s' b' x : good s -> In j (st_jobs s) -> update_job_result_n j r s b = (s', b', x) ->
    recorded j r s s' /\ flagged s b s' b' x /\ (x = None -> recompute s' = (s', None)).
  Proof.
    intros G Ij. pose proof G as (I & O & R & M). unfold SessrunModel.update_job_result_n, SessrunModel.observe_result_n.
    assert (Kj : exists js, dget (j_id j) (st_map s) = Some js /\ js_job js = j).
    { assert (Q : dget (j_id j) (jobmap s) = Some j) by (rewrite (i_map _ I); apply dget_jobs_In; [apply I|assumption]).
      rewrite dget_jobmap in Q. destruct (dget (j_id j) (st_map s)) as [js|]; [|discriminate]. injection Q as Q. eauto. }
    destruct Kj as (js & Kj & Ej). rewrite Kj.
    set (s1 := with_map (dset (j_id j) (set_result r js) (st_map s)) s).
    assert (REC : forall s2, good s2 -> st_jobs s2 = st_jobs s -> st_map s2 = st_map s1 -> forall s3, growing A s2 s3 -> recorded j r s s3).
    { intros s2 G2 E2 E2' s3 (G3 & ((l & K3) & K3') & A3). split; [assumption|]. rewrite E2 in K3, A3. split; [eauto|]. split; [assumption|].
      assert (R1 : dget (j_id j) (st_map s2) = Some (set_result r js)) by (rewrite E2'; cbn [s1 st_map with_map]; apply dget_dset_same).
      split.
      - intros k jk D K. apply K3'. rewrite E2'. cbn [s1 st_map with_map]. rewrite dget_dset_other by congruence. assumption.
      - destruct (K3' _ _ R1) as (js3 & K4 & _ & R3). exists js3. split; [assumption|]. rewrite R3. apply set_result_result. }
    assert (G0 : forall s2, good s2 -> growing A s2 s2).
    { intros s2 G2. split; [assumption|]. split; [apply kept_refl|auto]. }
    assert (GOOD2 : forall s2, Inv s2 -> st_jobs s2 = st_jobs s -> st_run s2 = st_run s -> st_mandatory s2 = st_mandatory s -> good s2).
    { intros s2 I2 E1 E2 E3. split; [assumption|]. rewrite E1, E2, E3. auto. }
    assert (FIN : forall s2 b2 y, growing A s2 s2 -> True -> forall s3, good s2 -> st_jobs s2 = st_jobs s -> st_map s2 = st_map s1 -> growing A s2 s3 -> flagged s b s3 b2 y ->
      match (match y with Some x => (s3, b2, Some x) | None => match recompute s3 with (s'', x) => (s'', b2, x) end end) with
      | (s', b', x) => recorded j r s s' /\ flagged s b s' b' x /\ (x = None -> recompute s' = (s', None)) end).
    { intros s2 b2 y _ _ s3 G2 E1 E2 G3 Fl. destruct y as [y|]; [split; [eapply REC; eassumption|split; [assumption|discriminate]]|].
      pose proof (recompute_frame eval_expr s3) as F. destruct (recompute s3) as [s4 z] eqn:Rc. cbn [fst] in F.
      split; [eapply REC; [exact G2|assumption|assumption|]; eapply growing_frame; eassumption|]. split; [eapply flagged_frame; [exact F|exact Fl|reflexivity]|].
      intros ->. now apply recompute_twice in Rc. }
    intros H. destruct (String.eqb_spec (j_plugin j) "resource") as [Pl|Pl].
    - set (s2 := parse_and_store_resource records_of j r s1) in H.
      assert (E2 : st_jobs s2 = st_jobs s /\ st_run s2 = st_run s /\ st_mandatory s2 = st_mandatory s /\ st_map s2 = st_map s1).
      { unfold s2, parse_and_store_resource. destruct (r_outcome r); auto. }
      destruct E2 as (E1 & E2 & E3 & E4).
      assert (I2 : Inv s2).
      { unfold s2, parse_and_store_resource. destruct (r_outcome r) as [o|] eqn:Eo.
        - set (l := match records_of r with [] => [[]] | l => l end).
          assert (Es : set_resource_list (j_id j) l s1 = with_map (dset (j_id j) (set_result r js) (st_map (set_resource_list (j_id j) l s))) (set_resource_list (j_id j) l s)) by reflexivity.
          rewrite Es. apply (Inv_dset _ _ js); [exact Kj|apply set_result_job| |now apply Inv_resource]. intros _ _. cbn [set_resource_list st_resources]. rewrite dget_dset_same. discriminate.
        - apply (Inv_dset s _ js); [assumption|apply set_result_job| |assumption]. rewrite set_result_result, Eo. congruence. }
      assert (G2 : good s2) by (apply GOOD2; assumption).
      assert (FL0 : flagged s b s2 b None) by (split; [rewrite E1; lia|]; split; [trivial|]; split; [now left|]; auto).
      destruct (r_outcome r) as [o|] eqn:Eo.
      + pose proof (growing_add_generated A s2 j (templates j r s2) (templates_ids j r s2) s2 b (G0 s2 G2)) as G3.
        destruct (add_generated_n j (templates j r s2) s2 b) as [[s3 b3] y] eqn:Ag. cbn [fst] in G3. apply flag_add_generated in Ag.
        specialize (FIN s2 b3 y (G0 s2 G2) Logic.I s3 G2 E1 E4 G3). destruct y as [y|].
        * injection H as <- <- <-. apply FIN. eapply flagged_trans; eassumption.
        * destruct (recompute s3) as [s4 z]. injection H as <- <- <-. apply FIN. eapply flagged_trans; eassumption.
      + specialize (FIN s2 b None (G0 s2 G2) Logic.I s2 G2 E1 E4 (G0 s2 G2) FL0). cbv iota in FIN. destruct (recompute s2) as [s4 z]. injection H as <- <- <-. exact FIN.
    - assert (I1 : Inv s1).
      { apply (Inv_dset s _ js); [assumption|apply set_result_job| |assumption]. rewrite Ej. congruence. }
      assert (G1 : good s1) by (apply GOOD2; [assumption|reflexivity|reflexivity|reflexivity]).
      assert (FL0 : flagged s b s1 b None) by (split; [cbn; lia|]; split; [trivial|]; split; [now left|]; auto).
      specialize (FIN s1 b None (G0 s1 G1) Logic.I s1 G1 eq_refl eq_refl (G0 s1 G1) FL0). cbv iota in FIN. destruct (recompute s1) as [s4 z]. injection H as <- <- <-. exact FIN.
  Qed.

  (** ** The run of all jobs *)

  Variable fail_on_resource : job -> bool.
  Variable blocked_data : job -> jstate -> rdata.
  Notation run_single_job := (run_single_job deps_of eval_expr records_of matching templates fail_on_resource blocked_data).
  Notation run_pass := (run_pass deps_of eval_expr records_of matching templates fail_on_resource blocked_data).
  Notation run_all := (run_all deps_of eval_expr records_of matching templates fail_on_resource blocked_data).
  Notation record_result := (record_result deps_of eval_expr records_of matching templates).

  Definition standing (s : state) : Prop := good s /\ recompute s = (s, None).
  Lemma in_order_standing s : in_order deps_of eval_expr s <-> standing s.
  Proof.
    split.
    - intros [[U M] RU RO RK MK RR RD F]. split; [|assumption]. split; [|auto]. constructor; assumption.
    - intros [([U M RU RR RD] & RO & RK & MK) F]. constructor; try assumption. split; assumption.
  Qed.

  Definition deps_decided (s : state) (j : job) : Prop := forall d, depends_on_id deps_of j d -> decided s d.

  (** What is known of a job at the moment when it is considered *)
  Definition considered (s : state) (j : job) (js : jstate) : Prop :=
    standing s /\ In j (st_jobs s) /\ ~ decided s (j_id j) /\ dget (j_id j) (st_map s) = Some js /\ js_job js = j /\ deps_decided s j.

  (** The events of complete runs of jobs *)
  Inductive chain (i b : bool) : state -> list event -> state -> Prop :=
  | chain_nil s : chain i b s [] s
  | chain_run s j js r s1 ev s2 : considered s j js -> can_start js = true -> r_outcome r <> None -> recorded j r s s1 -> chain i b s1 ev s2 ->
      chain i b s (Considered j s :: Saved s (Some (j_id j)) i b :: Started j s :: Ended j r :: Saved s None i b :: Recorded j r :: ev) s2
  | chain_blocked s j js o s1 ev s2 : considered s j js -> can_start js = false ->
      blocked_outcome (fail_on_resource j) (st_map s) (js_inhibitors js) ONotSupported = inr o ->
      recorded j (mk_result (Some o) (blocked_data j js)) s s1 -> chain i b s1 ev s2 ->
      chain i b s (Considered j s :: Recorded j (mk_result (Some o) (blocked_data j js)) :: ev) s2.
  (** The events of a job that did not come to its end *)
  Inductive tail (i b : bool) (s : state) : list event -> state -> status -> Prop :=
  | tail_nil x : (forall y, x <> Raised y) -> x <> Stopped -> x <> Left -> tail i b s [] s x
  | tail_key j js x : considered s j js -> can_start js = false ->
      blocked_outcome (fail_on_resource j) (st_map s) (js_inhibitors js) ONotSupported = inl x -> tail i b s [Considered j s] s (Raised x)
  | tail_blocked j js o s1 x : considered s j js -> can_start js = false ->
      blocked_outcome (fail_on_resource j) (st_map s) (js_inhibitors js) ONotSupported = inr o ->
      recorded j (mk_result (Some o) (blocked_data j js)) s s1 -> tail i b s [Considered j s] s1 (Raised x)
  | tail_stop j js x : considered s j js -> can_start js = true -> x = Stopped \/ x = Left ->
      tail i b s [Considered j s; Saved s (Some (j_id j)) i b; Started j s] s x
  | tail_record j js r s1 x : considered s j js -> can_start js = true -> r_outcome r <> None -> recorded j r s s1 ->
      tail i b s [Considered j s; Saved s (Some (j_id j)) i b; Started j s; Ended j r; Saved s None i b] s1 (Raised x).

  Lemma chain_app i b s ev s1 ev' s2 : chain i b s ev s1 -> chain i b s1 ev' s2 -> chain i b s (ev ++ ev') s2.
  Proof. induction 1; intros C; simpl; [assumption| |]; econstructor; eauto. Qed.

  Lemma decided_recorded j r s s' k : recorded j r s s' -> r_outcome r <> None -> decided s k -> decided s' k.
  Proof.
    intros (_ & _ & _ & K & (js & Ej & Er)) N (o & D). unfold decided, outcome_of in *. destruct (string_dec k (j_id j)) as [->|Dk].
    - rewrite Ej. cbn [option_map]. rewrite Er. destruct (r_outcome r) as [o'|]; [eauto|congruence].
    - destruct (dget k (st_map s)) as [jk|] eqn:E; [|discriminate]. destruct (K k jk Dk E) as (js' & -> & _ & R). cbn [option_map] in *. rewrite R. eauto.
  Qed.
  Lemma decided_now j r s s' : recorded j r s s' -> r_outcome r <> None -> decided s' (j_id j).
  Proof.
    intros (_ & _ & _ & _ & (js & Ej & Er)) N. unfold decided, outcome_of. rewrite Ej. cbn [option_map]. rewrite Er. destruct (r_outcome r); [eauto|congruence].
  Qed.
  Lemma undecided_recorded j r s s' k : recorded j r s s' -> k <> j_id j -> decided s' k -> dget k (st_map s) <> None -> decided s k.
  Proof.
    intros (_ & _ & _ & K & _) N (o & D) Kn. unfold decided, outcome_of in *. destruct (dget k (st_map s)) as [jk|] eqn:E; [|congruence].
    destruct (K k jk N E) as (js' & Ek & _ & R). rewrite Ek in D. cbn [option_map] in *. rewrite R in D. eauto.
  Qed.
  Lemma recorded_jobs j r s s' x : recorded j r s s' -> In x (st_jobs s) -> In x (st_jobs s').
  Proof. intros (_ & (l & ->) & _) H. apply in_app_iff. now left. Qed.

  Lemma known_entry s j : good s -> In j (st_jobs s) -> exists js, dget (j_id j) (st_map s) = Some js /\ js_job js = j.
  Proof.
    intros (I & _) Ij. assert (Q : dget (j_id j) (jobmap s) = Some j) by (rewrite (i_map _ I); apply dget_jobs_In; [apply I|assumption]).
    rewrite dget_jobmap in Q. destruct (dget (j_id j) (st_map s)) as [js|]; [|discriminate]. injection Q as Q. eauto.
  Qed.

  (** Running one job *)
  Lemma run_single_spec j u script u' script' st :
    standing (u_state u) -> In j (st_jobs (u_state u)) -> ~ decided (u_state u) (j_id j) -> deps_decided (u_state u) j -> proper script ->
    run_single_job j u script = (u', script', st) ->
    u_incomplete u' = u_incomplete u /\ u_submitted u' = u_submitted u /\ proper script' /\
    (st = Completed ->
       exists ev r, u_trace u' = u_trace u ++ ev /\ chain (u_incomplete u) (u_submitted u) (u_state u) ev (u_state u') /\
         standing (u_state u') /\ recorded j r (u_state u) (u_state u') /\ r_outcome r <> None /\
         flagged (u_state u) (u_backtrack u) (u_state u') (u_backtrack u') None) /\
    (st <> Completed ->
       st <> NoFuel /\ exists tl, u_trace u' = u_trace u ++ tl /\ tail (u_incomplete u) (u_submitted u) (u_state u) tl (u_state u') st).
  Proof.
    intros S Ij Nd Dd Pr. pose proof S as [G F]. destruct (known_entry _ _ G Ij) as (js & Kj & Ej). unfold SessrunModel.run_single_job. rewrite Kj.
    assert (C : considered (u_state u) j js) by (repeat (split; [assumption|]); assumption).
    destruct (can_start js) eqn:Cs.
    - destruct script as [|[r|] script].
      + intros [= <- <- <-]. do 2 (split; [reflexivity|]). split; [assumption|]. split; [discriminate|]. intros _. split; [discriminate|].
        cbn [log checkpoint set_running u_trace u_state u_incomplete u_submitted u_running]. rewrite <- !app_assoc. eexists. split; [reflexivity|]. eapply tail_stop; eauto.
      + assert (Nr : r_outcome r <> None) by (apply Pr; now left). assert (Pr' : proper script) by (intros r0 I0; apply Pr; now right).
        unfold SessrunModel.record_result. cbn [log checkpoint set_running u_trace u_state u_incomplete u_submitted u_running u_backtrack].
        destruct (update_job_result_n j r (u_state u) (u_backtrack u)) as [[s1 b1] [x|]] eqn:E; apply update_recorded in E as (Rc & Fl & Fr); try assumption; intros [= <- <- <-];
          cbn [log checkpoint set_running set_backtrack set_state u_trace u_state u_incomplete u_submitted u_running u_backtrack]; rewrite <- ?app_assoc; cbn [app]; (do 2 (split; [reflexivity|]); split; [assumption|]).
        * split; [discriminate|]. intros _. split; [discriminate|]. eexists. split; [reflexivity|]. eapply tail_record; eauto.
        * split; [|congruence]. intros _. exists [Considered j (u_state u); Saved (u_state u) (Some (j_id j)) (u_incomplete u) (u_submitted u); Started j (u_state u); Ended j r; Saved (u_state u) None (u_incomplete u) (u_submitted u); Recorded j r], r.
          split; [reflexivity|]. split; [eapply chain_run; eauto; constructor|]. split; [split; [apply Rc|auto]|]. auto.
      + assert (Pr' : proper script) by (intros r0 I0; apply Pr; now right). intros [= <- <- <-]. do 2 (split; [reflexivity|]). split; [assumption|]. split; [discriminate|]. intros _. split; [discriminate|].
        cbn [log checkpoint set_running u_trace u_state u_incomplete u_submitted u_running]. rewrite <- !app_assoc. eexists. split; [reflexivity|]. eapply tail_stop; eauto.
    - destruct (blocked_outcome _ _ _ _) as [x|o] eqn:B.
      + intros [= <- <- <-]. do 2 (split; [reflexivity|]). split; [assumption|]. split; [discriminate|]. intros _. split; [discriminate|]. eexists. split; [reflexivity|]. eapply tail_key; eauto.
      + unfold SessrunModel.record_result. cbn [log u_trace u_state u_incomplete u_submitted u_running u_backtrack].
        destruct (update_job_result_n _ _ (u_state u) (u_backtrack u)) as [[s1 b1] [x|]] eqn:E; apply update_recorded in E as (Rc & Fl & Fr); try assumption; intros [= <- <- <-];
          cbn [log checkpoint set_running set_backtrack set_state u_trace u_state u_incomplete u_submitted u_running u_backtrack]; rewrite <- ?app_assoc; cbn [app]; (do 2 (split; [reflexivity|]); split; [assumption|]).
        * split; [discriminate|]. intros _. split; [discriminate|]. eexists. split; [reflexivity|]. eapply tail_blocked; eauto.
        * split; [|congruence]. intros _. exists [Considered j (u_state u); Recorded j (mk_result (Some o) (blocked_data j js))], (mk_result (Some o) (blocked_data j js)).
          split; [reflexivity|]. split; [eapply chain_blocked; eauto; constructor|]. split; [split; [apply Rc|auto]|]. split; [assumption|]. split; [discriminate|assumption].
  Qed.

  Definition deps_done (s : state) (todo : list job) : Prop :=
    forall before j after, todo = before ++ j :: after -> forall d, depends_on_id deps_of j d -> decided s d \/ In d (map j_id before).

  Lemma run_pass_spec todo : forall u script u' script' st,
    standing (u_state u) -> incl todo (st_jobs (u_state u)) -> unique_ids todo -> (forall j, In j todo -> ~ decided (u_state u) (j_id j)) ->
    deps_done (u_state u) todo -> proper script -> run_pass todo u script = (u', script', st) ->
    u_incomplete u' = u_incomplete u /\ u_submitted u' = u_submitted u /\ proper script' /\
    exists ev tl s1, u_trace u' = u_trace u ++ ev ++ tl /\ chain (u_incomplete u) (u_submitted u) (u_state u) ev s1 /\
      tail (u_incomplete u) (u_submitted u) s1 tl (u_state u') st /\ st <> NoFuel /\
      (st = Completed -> tl = [] /\ u_state u' = s1 /\ standing s1 /\ (forall j, In j todo -> decided s1 (j_id j)) /\
         (forall k, decided (u_state u) k -> decided s1 k) /\ flagged (u_state u) (u_backtrack u) s1 (u_backtrack u') None).
  Proof.
    induction todo as [|j todo IH]; intros u script u' script' st S Inc U Nd Dd Pr; cbn [SessrunModel.run_pass].
    - intros [= <- <- <-]. do 2 (split; [reflexivity|]). split; [assumption|]. exists [], [], (u_state u). rewrite app_nil_r. split; [reflexivity|]. split; [constructor|]. split; [constructor; discriminate|].
      split; [discriminate|]. intros _. split; [reflexivity|]. split; [reflexivity|]. split; [assumption|]. split; [intros ? []|]. split; [trivial|]. apply flagged_refl.
    - assert (Ij : In j (st_jobs (u_state u))) by (apply Inc; now left).
      assert (Dj : deps_decided (u_state u) j).
      { intros d D. destruct (Dd [] j todo eq_refl d D) as [H|[]]. exact H. }
      destruct (run_single_job j u script) as [[u1 script1] st1] eqn:E. pose proof (run_single_spec _ _ _ _ _ _ S Ij (Nd j (or_introl eq_refl)) Dj Pr E) as (F1 & F2 & Pr1 & Ok & Bad).
      destruct (match st1 with Completed => true | _ => false end) eqn:Es.
      + destruct st1; try discriminate. destruct (Ok eq_refl) as (ev & r & T & Ch & S1 & Rc & Nr & Fl). intros H. inversion U as [|? ? Uj Ut]; subst.
        apply IH in H as (G1 & G2 & Pr2 & ev2 & tl & s1 & T2 & Ch2 & Tl & NF & C2); [| assumption | | assumption | | | assumption ].
        * rewrite F1, F2 in *. do 2 (split; [assumption|]). split; [assumption|]. exists (ev ++ ev2), tl, s1. split; [rewrite T2, T, !app_assoc; reflexivity|].
          split; [eapply chain_app; eassumption|]. split; [assumption|]. split; [assumption|]. intros Cm. destruct (C2 Cm) as (Z1 & Z2 & Z3 & Z4 & Z5 & Z6).
          do 3 (split; [assumption|]). split; [intros x [<-|Ix]; [apply Z5; eapply decided_now; eassumption|auto]|]. split; [intros k Dk; apply Z5; eapply decided_recorded; eassumption|]. eapply flagged_trans; eassumption.
        * intros x Ix. eapply recorded_jobs; [exact Rc|]. apply Inc. now right.
        * intros x Ix D. apply (Nd x (or_intror Ix)). eapply undecided_recorded; [exact Rc| |exact D|].
          -- intros Ex. apply Uj. rewrite <- Ex. now apply in_map.
          -- destruct S as [G _]. destruct (known_entry _ x G (Inc x (or_intror Ix))) as (jx & -> & _). discriminate.
        * intros before y after Et d D. destruct (Dd (j :: before) y after) with (d := d) as [H'|[<-|H']]; [now rewrite Et|assumption| | |].
          -- left. eapply decided_recorded; eassumption.
          -- left. eapply decided_now; eassumption.
          -- now right.
      + assert (Ns : st1 <> Completed) by (intros ->; discriminate). destruct (Bad Ns) as (Nf & tl & T & Tl). intros H.
        assert (Eq : (u1, script1, st1) = (u', script', st)) by (destruct st1; try discriminate; exact H). injection Eq as <- <- <-.
        do 2 (split; [assumption|]). split; [assumption|]. exists [], tl, (u_state u). split; [exact T|]. split; [constructor|]. split; [assumption|]. split; [assumption|]. congruence.
  Qed.

  Lemma unfinished_total s l : good s -> incl l (st_jobs s) -> exists todo, unfinished (st_map s) l = inr todo.
  Proof.
    intros G. induction l as [|j l IH]; intros Inc; simpl; [eauto|]. destruct (known_entry _ j G (Inc j (or_introl eq_refl))) as (js & -> & _).
    destruct IH as (todo & ->); [intros x Ix; apply Inc; now right|]. eauto.
  Qed.
  Lemma unfinished_spec s l : forall todo, unfinished (st_map s) l = inr todo ->
    (forall j, In j todo -> In j l /\ ~ decided s (j_id j)) /\ (forall j, In j l -> In j todo \/ decided s (j_id j)) /\
    (unique_ids l -> unique_ids todo) /\
    (forall before j after, todo = before ++ j :: after -> exists b' a', l = b' ++ j :: a' /\ forall x, In x b' -> decided s (j_id x) \/ In x before).
  Proof.
    induction l as [|j l IH]; intros todo; cbn [unfinished].
    - intros [= <-]. split; [intros ? []|]. split; [intros ? []|]. split; [trivial|]. intros [|? ?] ? ? E; discriminate.
    - destruct (dget (j_id j) (st_map s)) as [js|] eqn:K; [|discriminate]. destruct (unfinished (st_map s) l) as [x|r] eqn:E; [discriminate|]. specialize (IH r eq_refl) as (H1 & H2 & H3 & H4).
      assert (Sub : incl r l) by (intros x Ix; now apply H1).
      destruct (r_outcome (js_result js)) as [o|] eqn:O; intros [= <-].
      + assert (D : decided s (j_id j)) by (unfold decided, outcome_of; rewrite K; cbn [option_map]; rewrite O; eauto).
        split; [intros x Ix; destruct (H1 x Ix); split; [now right|assumption]|]. split; [intros x [<-|Ix]; [now right|auto]|]. split; [intros U; inversion U; auto|].
        intros before x after Ex. destruct (H4 before x after Ex) as (b' & a' & -> & HB). exists (j :: b'), a'. split; [reflexivity|]. intros y [<-|Iy]; [now left|auto].
      + assert (D : ~ decided s (j_id j)) by (unfold decided, outcome_of; rewrite K; cbn [option_map]; rewrite O; intros (? & ?); discriminate).
        split; [intros x [<-|Ix]; [split; [now left|assumption]|destruct (H1 x Ix); split; [now right|assumption]]|]. split; [intros x [<-|Ix]; [left; now left|destruct (H2 x Ix); [left; now right|now right]]|].
        split; [intros U; inversion U as [|? ? U1 U2]; subst; constructor; [|now apply H3]; intros Q; apply U1; apply in_map_iff in Q as (y & Ey & Iy); rewrite <- Ey; apply in_map; auto|].
        intros [|b0 before] x after Ex; injection Ex as -> Ex.
        * exists [], l. split; [reflexivity|intros ? []].
        * destruct (H4 before x after Ex) as (b' & a' & -> & HB). exists (b0 :: b'), a'. split; [reflexivity|]. intros y [<-|Iy]; [right; now left|]. destruct (HB y Iy); [now left|right; now right].
  Qed.

  Lemma run_all_spec fuel : forall u script u' script' st, standing (u_state u) -> proper script -> run_all fuel u script = (u', script', st) ->
    u_incomplete u' = u_incomplete u /\ u_submitted u' = u_submitted u /\
    exists ev tl s1, u_trace u' = u_trace u ++ ev ++ tl /\ chain (u_incomplete u) (u_submitted u) (u_state u) ev s1 /\
      tail (u_incomplete u) (u_submitted u) s1 tl (u_state u') st /\
      (st = NoFuel -> length (st_jobs (u_state u)) + fuel <= length (st_jobs (u_state u'))) /\
      (st = Completed -> tl = [] /\ u_state u' = s1 /\ standing s1 /\ (forall j, In j (st_run s1) -> decided s1 (j_id j)) /\ (forall k, decided (u_state u) k -> decided s1 k)).
  Proof.
    induction fuel as [|fuel IH]; intros u script u' script' st S Pr; cbn [SessrunModel.run_all].
    - intros [= <- <- <-]. do 2 (split; [reflexivity|]). exists [], [], (u_state u). rewrite app_nil_r. split; [reflexivity|]. split; [constructor|]. split; [constructor; discriminate|]. split; [lia|discriminate].
    - pose proof S as [G F]. pose proof G as (I & O & R & M). destruct (unfinished_total _ _ G R) as (todo & Et). rewrite Et. pose proof (unfinished_spec _ _ _ Et) as (H1 & H2 & H3 & H4).
      destruct (run_pass todo (set_backtrack false u) script) as [[u1 script1] st1] eqn:E. apply run_pass_spec in E as (F1 & F2 & Pr1 & ev & tl & s1 & T & Ch & Tl & NF & C); [|assumption| | | | |assumption].
      + cbn [set_backtrack u_state u_trace u_incomplete u_submitted u_backtrack] in *. destruct (match st1 with Completed => true | _ => false end) eqn:Es.
        * destruct st1; try discriminate. destruct (C eq_refl) as (-> & Es1 & S1 & D1 & D0 & Fl). destruct (u_backtrack u1) eqn:B; intros H.
          -- subst s1. apply IH in H as (G1 & G2 & ev2 & tl2 & s2 & T2 & Ch2 & Tl2 & Z1 & Z2); [|assumption|assumption]. rewrite F1, F2 in *. do 2 (split; [assumption|]).
             exists (ev ++ ev2), tl2, s2. split; [rewrite T2, T, app_nil_r, !app_assoc; reflexivity|]. split; [eapply chain_app; eassumption|]. split; [assumption|].
             destruct Fl as (_ & _ & Fl & _). destruct (Fl eq_refl) as [?|L]; [discriminate|]. split; [intros Q; specialize (Z1 Q); lia|].
             intros Cm. destruct (Z2 Cm) as (Y1 & Y2 & Y3 & Y4 & Y5). split; [assumption|]. split; [assumption|]. split; [assumption|]. split; [assumption|]. intros k Dk. apply Y5. now apply D0.
          -- injection H as <- <- <-. do 2 (split; [assumption|]). exists ev, [], s1. split; [assumption|]. split; [assumption|]. split; [assumption|]. split; [discriminate|].
             intros _. split; [reflexivity|]. split; [assumption|]. split; [assumption|]. split; [|assumption]. destruct Fl as (_ & _ & _ & Fl). destruct (Fl eq_refl eq_refl) as [Er _]. rewrite Er.
             intros j Ij. destruct (H2 j Ij) as [It|Dj]; [now apply D1|now apply D0].
        * intros H. assert (Eq : (u1, script1, st1) = (u', script', st)) by (destruct st1; try discriminate; exact H). injection Eq as <- <- <-.
          do 2 (split; [assumption|]). exists ev, tl, s1. do 3 (split; [assumption|]). split; [congruence|]. intros ->. discriminate.
      + intros x Ix. apply R. now apply H1.
      + apply H3. apply I.
      + intros x Ix. now apply H1.
      + intros before x after Ex d D. destruct (H4 before x after Ex) as (b' & a' & El & HB). pose proof (O b' x a' El d D) as Id. apply in_map_iff in Id as (y & <- & Iy).
        destruct (HB y Iy) as [H|H]; [now left|right; now apply in_map].
  Qed.

  (** ** What follows for the events *)

  Ltac hits := repeat match goal with
    | H : _ \/ _ |- _ => destruct H as [H|H]
    | H : False |- _ => destruct H
    | H : @eq event _ _ |- _ => first [discriminate H | injection H; clear H; intros; subst]
    end; eauto.

  Lemma considered_known s j js : considered s j js -> In j (st_jobs s).
  Proof. intros C. apply C. Qed.
  Lemma has_result_recorded j r s s' k r' : recorded j r s s' -> ~ decided s (j_id j) -> has_result s k r' -> r_outcome r' <> None -> has_result s' k r'.
  Proof.
    intros (_ & _ & _ & K & _) Nd (js & E & <-) N. destruct (string_dec k (j_id j)) as [->|D].
    - exfalso. apply Nd. unfold decided, outcome_of. rewrite E. cbn [option_map]. destruct (r_outcome (js_result js)); [eauto|congruence].
    - destruct (K k js D E) as (js' & E' & _ & R). exists js'. auto.
  Qed.

  Lemma chain_kept i b s ev s1 : chain i b s ev s1 ->
    (good s -> good s1) /\ (forall k, decided s k -> decided s1 k) /\ (forall k r, has_result s k r -> r_outcome r <> None -> has_result s1 k r) /\
    (forall x, In x (st_jobs s1) -> In x (st_jobs s) \/ A (j_id x)).
  Proof.
    induction 1 as [s|s j js r s1 ev s2 C Cs N Rc _ (IH0 & IH1 & IH2 & IH3)|s j js o s1 ev s2 C Cs B Rc _ (IH0 & IH1 & IH2 & IH3)].
    - auto.
    - split; [intros _; apply IH0; apply Rc|]. split; [intros k D; apply IH1; eapply decided_recorded; eassumption|]. split; [intros k r' H Nr; apply IH2; [eapply has_result_recorded; try eassumption; apply C|assumption]|].
      intros x Ix. destruct (IH3 x Ix) as [H|H]; [|now right]. now apply Rc.
    - assert (N : r_outcome (mk_result (Some o) (blocked_data j js)) <> None) by discriminate.
      split; [intros _; apply IH0; apply Rc|]. split; [intros k D; apply IH1; eapply decided_recorded; eassumption|]. split; [intros k r' H Nr; apply IH2; [eapply has_result_recorded; try eassumption; apply C|assumption]|].
      intros x Ix. destruct (IH3 x Ix) as [H|H]; [|now right]. now apply Rc.
  Qed.
  Lemma tail_kept i b s tl s1 st : tail i b s tl s1 st ->
    (good s -> good s1) /\ (forall k, decided s k -> decided s1 k) /\ (forall k r, has_result s k r -> r_outcome r <> None -> has_result s1 k r).
  Proof.
    intros [x H1 H2 H3|j js x C Cs B|j js o s' x C Cs B Rc|j js x C Cs Hx|j js r s' x C Cs N Rc]; auto.
    - assert (N : r_outcome (mk_result (Some o) (blocked_data j js)) <> None) by discriminate. split; [intros _; apply Rc|]. split; [intros k D; eapply decided_recorded; eassumption|]. intros k r' H Nr. eapply has_result_recorded; try eassumption. apply C.
    - split; [intros _; apply Rc|]. split; [intros k D; eapply decided_recorded; eassumption|]. intros k r' H Nr. eapply has_result_recorded; try eassumption. apply C.
  Qed.

  Lemma started_app l : forall l', started (l ++ l') = started l ++ started l'.
  Proof. induction l as [|e l IH]; intros l'; [reflexivity|]. destruct e; cbn [app started]; now rewrite IH. Qed.
  Lemma handled_app l : forall l', handled (l ++ l') = handled l ++ handled l'.
  Proof. induction l as [|e l IH]; intros l'; [reflexivity|]. destruct e; cbn [app handled]; now rewrite IH. Qed.

  (** Each job is taken up at most once; those that are started are among them. *)
  Lemma chain_handled i b s ev s1 : chain i b s ev s1 ->
    NoDup (handled ev) /\ NoDup (started ev) /\ (forall k, In k (handled ev) -> ~ decided s k /\ decided s1 k) /\ incl (started ev) (handled ev).
  Proof.
    induction 1 as [s|s j js r s1 ev s2 C Cs N Rc Ch (IH1 & IH1' & IH2 & IH3)|s j js o s1 ev s2 C Cs B Rc Ch (IH1 & IH1' & IH2 & IH3)]; cbn [handled started].
    - split; [constructor|]. split; [constructor|]. split; [intros k []|apply incl_refl].
    - pose proof (decided_now _ _ _ _ Rc N) as Dn. destruct (chain_kept _ _ _ _ _ Ch) as (_ & Mono & _).
      split; [constructor; [|assumption]; intros Q; now apply (IH2 _ Q)|]. split; [constructor; [|assumption]; intros Q; now apply (IH2 _ (IH3 _ Q))|].
      split; [|intros k [<-|Q]; [now left|right; auto]]. intros k [<-|Q]; [split; [apply C|auto]|]. destruct (IH2 k Q) as [U D]. split; [|assumption]. intros Dk. apply U. eapply decided_recorded; eassumption.
    - assert (N : r_outcome (mk_result (Some o) (blocked_data j js)) <> None) by discriminate. pose proof (decided_now _ _ _ _ Rc N) as Dn. destruct (chain_kept _ _ _ _ _ Ch) as (_ & Mono & _).
      split; [constructor; [|assumption]; intros Q; now apply (IH2 _ Q)|]. split; [assumption|].
      split; [|intros k Q; right; auto]. intros k [<-|Q]; [split; [apply C|auto]|]. destruct (IH2 k Q) as [U D]. split; [|assumption]. intros Dk. apply U. eapply decided_recorded; eassumption.
  Qed.
  Lemma tail_handled i b s tl s1 st : tail i b s tl s1 st ->
    tl = [] \/ exists j js, considered s j js /\ handled tl = [j_id j] /\ (started tl = [] \/ started tl = [j_id j]).
  Proof. intros [x H1 H2 H3|j js x C Cs B|j js o s' x C Cs B Rc|j js x C Cs Hx|j js r s' x C Cs N Rc]; [now left|right; exists j, js; cbn; auto ..]. Qed.
  Lemma whole_handled i b s ev s1 tl s2 st : chain i b s ev s1 -> tail i b s1 tl s2 st ->
    NoDup (handled (ev ++ tl)) /\ NoDup (started (ev ++ tl)) /\ (forall k, In k (handled (ev ++ tl)) -> ~ decided s k) /\ incl (started (ev ++ tl)) (handled (ev ++ tl)).
  Proof.
    intros Ch Tl. destruct (chain_handled _ _ _ _ _ Ch) as (H1 & H2 & H3 & H4). destruct (chain_kept _ _ _ _ _ Ch) as (_ & Mono & _).
    destruct (tail_handled _ _ _ _ _ _ Tl) as [->|(j & js & C & Eh & Es)]; [rewrite !app_nil_r; repeat (split; [assumption|]); split; [intros k Q; now apply H3|assumption]|].
    rewrite handled_app, started_app, Eh. assert (Nd : ~ decided s1 (j_id j)) by apply C. split; [apply NoDup_app_snoc; [assumption|]; intros Q; now apply Nd, H3|].
    split; [destruct Es as [-> | ->]; [now rewrite app_nil_r|apply NoDup_app_snoc; [assumption|]; intros Q; apply Nd, H3, H4, Q]|]. split.
    - intros k Q. apply in_app_iff in Q as [Q|[<-|[]]]; [now apply H3|]. intros D. apply Nd. now apply Mono.
    - intros k Q. apply in_app_iff in Q as [Q|Q]; apply in_app_iff; [left; auto|right]. destruct Es as [E|E]; rewrite E in Q; [destruct Q|exact Q].
  Qed.

  (** What is known when a job is taken up *)
  Lemma chain_considered i b s ev s1 j s0 : chain i b s ev s1 -> In (Considered j s0) ev -> exists js, considered s0 j js.
  Proof. induction 1; simpl; intros Q; hits. Qed.
  Lemma chain_started i b s ev s1 j s0 : chain i b s ev s1 -> In (Started j s0) ev -> exists js, considered s0 j js /\ can_start js = true.
  Proof. induction 1; simpl; intros Q; hits. Qed.
  Lemma tail_considered i b s tl s1 st j s0 : tail i b s tl s1 st -> In (Considered j s0) tl -> exists js, considered s0 j js.
  Proof. destruct 1; simpl; intros Q; hits. Qed.
  Lemma tail_started i b s tl s1 st j s0 : tail i b s tl s1 st -> In (Started j s0) tl -> exists js, considered s0 j js /\ can_start js = true.
  Proof. destruct 1; simpl; intros Q; hits. Qed.

  Lemma startable_facts s j js : considered s j js -> can_start js = true ->
    In j (st_run s) /\ (0 < js_attempts js)%Z /\ direct_ok s j /\ after_ok s j /\ (requirements_wf j -> requirements_ok eval_expr s j \/ overlooked s j).
  Proof.
    intros ((G & F) & Ij & _ & K & Ej & _) Cs. unfold can_start in Cs. apply andb_true_iff in Cs as [Ei At]. apply Z.ltb_lt in At. destruct (js_inhibitors js) eqn:Ej'; [|discriminate].
    pose proof G as (I & O & R & M). destruct (recompute_ok eval_expr s s (i_run _ I) F _ _ K) as [[_ Hi]|(j' & Hj & Hid & Hg)]; [congruence|].
    assert (j' = j) as -> by (apply (unique_ids_inj (st_jobs s)); [apply I|apply R; assumption|assumption|assumption]). rewrite Ej' in Hg. split; [assumption|]. split; [assumption|].
    (* without requirements_wf the first two still hold *)
    pose proof Hg as Hg2. unfold get_inhibitor_list in Hg2. destruct (requirement_inhibitors eval_expr s j) as [|l1] eqn:E1; [discriminate|].
    set (j0 := mk_job (j_id j) (j_sum j) (j_obj j) (j_plugin j) (j_direct j) (j_after j) NoProg).
    assert (W0 : requirements_wf j0) by (intros es e Q; discriminate).
    assert (H0 : get_inhibitor_list eval_expr s j0 = inr []).
    { unfold get_inhibitor_list. cbn [requirement_inhibitors j0 j_prog]. change (direct_inhibitors s j0) with (direct_inhibitors s j). change (after_inhibitors s j0) with (after_inhibitors s j).
      destruct (direct_inhibitors s j) as [|l2]; [discriminate|]. destruct (after_inhibitors s j) as [|l3]; [discriminate|]. injection Hg2 as Hg2. apply app_eq_nil in Hg2 as [_ Hg2]. cbn [app]. now rewrite Hg2. }
    destruct (proj1 (gil_nil eval_expr s j0 [] W0 H0) eq_refl) as (D1 & D2 & _). split; [exact D1|]. split; [exact D2|]. intros Wf. now apply (proj1 (gil_nil eval_expr s j [] Wf Hg) eq_refl).
  Qed.

  (** The reasons for which a job does not start *)
  Lemma inhibitors_facts s j js x : considered s j js -> In x (js_inhibitors js) ->
    (~ In j (st_run s) /\ x = Undesired) \/ (In j (st_run s) /\ real_obstacle eval_expr s j x).
  Proof.
    intros ((G & F) & Ij & _ & K & Ej & _) Ix. pose proof G as (I & O & R & M). destruct (recompute_ok eval_expr s s (i_run _ I) F _ _ K) as [[N Hi]|(j' & Hj & Hid & Hg)].
    - left. rewrite Hi in Ix. destruct Ix as [<-|[]]. split; [|reflexivity]. intros Q. apply N. now apply in_map.
    - right. assert (j' = j) as -> by (apply (unique_ids_inj (st_jobs s)); [apply I|apply R; assumption|assumption|assumption]). split; [assumption|]. eapply gil_real; eassumption.
  Qed.

  (** ** Crash points *)

  Lemma on_disk_app a b : on_disk (a ++ b) = match on_disk b with Some c => Some c | None => on_disk a end.
  Proof. induction a as [|e a IH]; cbn [app on_disk]; [now destruct (on_disk b)|]. rewrite IH. now destruct (on_disk b). Qed.
  Lemma on_disk_snoc a e : on_disk (a ++ [e]) = match e with Saved s r i b => Some (s, r, i, b) | _ => on_disk a end.
  Proof. rewrite on_disk_app. cbn [on_disk]. now destruct e. Qed.
  Lemma running_snoc a e : running_now (a ++ [e]) = match e with Started j _ => Some j | Ended _ _ => None | _ => running_now a end.
  Proof. unfold running_now. rewrite fold_left_app. reflexivity. Qed.

  (** A claim about every point, from the events [acc] on *)
  Definition always (p : list event -> Prop) (acc ev : list event) : Prop := forall a b, ev = a ++ b -> p (acc ++ a).
  Lemma always_nil (p : list event -> Prop) acc : p acc -> always p acc [].
  Proof. intros H a b E. symmetry in E. apply app_eq_nil in E as [-> _]. now rewrite app_nil_r. Qed.
  Lemma always_cons (p : list event -> Prop) acc e ev : p acc -> always p (acc ++ [e]) ev -> always p acc (e :: ev).
  Proof.
    intros H H' [|e' a] b E; [now rewrite app_nil_r|]. injection E as <- E. change (e :: a) with ([e] ++ a). rewrite app_assoc. now apply (H' a b).
  Qed.
  Lemma always_app (p : list event -> Prop) ev : forall acc ev', always p acc ev -> always p (acc ++ ev) ev' -> always p acc (ev ++ ev').
  Proof.
    induction ev as [|e ev IH]; intros acc ev' H H'; [now rewrite app_nil_r in H'|]. cbn [app]. apply always_cons.
    - specialize (H [] (e :: ev) eq_refl). now rewrite app_nil_r in H.
    - apply IH; [|rewrite <- app_assoc; exact H']. intros a b E. specialize (H (e :: a) b). cbn [app] in H. rewrite <- app_assoc. apply H. now rewrite E.
  Qed.

  (** The running job is on the disk. *)
  Definition run_saved (acc : list event) : Prop := forall j, running_now acc = Some j -> exists s i b, on_disk acc = Some (s, Some (j_id j), i, b) /\ In j (st_jobs s) /\ ~ decided s (j_id j).
  Lemma idle_saved acc : running_now acc = None -> run_saved acc.
  Proof. intros E j. congruence. Qed.
  Lemma chain_run_saved i b s ev s1 : chain i b s ev s1 -> forall acc, running_now acc = None -> always run_saved acc ev /\ running_now (acc ++ ev) = None.
  Proof.
    induction 1 as [s|s j js r s1 ev s2 C Cs N Rc Ch IH|s j js o s1 ev s2 C Cs B Rc Ch IH]; intros acc Ea.
    - split; [apply always_nil; now apply idle_saved|now rewrite app_nil_r].
    - destruct (IH ((((((acc ++ [Considered j s]) ++ [Saved s (Some (j_id j)) i b]) ++ [Started j s]) ++ [Ended j r]) ++ [Saved s None i b]) ++ [Recorded j r])) as [H1 H2]; [now rewrite !running_snoc|].
      split; [|rewrite <- !app_assoc in H2; exact H2].
      apply always_cons; [now apply idle_saved|]. apply always_cons; [apply idle_saved; now rewrite !running_snoc|]. apply always_cons; [apply idle_saved; now rewrite !running_snoc|].
      apply always_cons; [|apply always_cons; [apply idle_saved; now rewrite !running_snoc|apply always_cons; [apply idle_saved; now rewrite !running_snoc|exact H1]]].
      intros j0. rewrite !running_snoc, !on_disk_snoc. intros [= <-]. exists s, i, b. split; [reflexivity|]. split; apply C.
    - destruct (IH ((acc ++ [Considered j s]) ++ [Recorded j (mk_result (Some o) (blocked_data j js))])) as [H1 H2]; [now rewrite !running_snoc|].
      split; [|rewrite <- !app_assoc in H2; exact H2]. apply always_cons; [now apply idle_saved|]. apply always_cons; [apply idle_saved; now rewrite !running_snoc|]. exact H1.
  Qed.
  Lemma tail_run_saved i b s tl s1 st : tail i b s tl s1 st -> forall acc, running_now acc = None -> always run_saved acc tl.
  Proof.
    assert (St : forall acc j js, considered s j js -> run_saved (((acc ++ [Considered j s]) ++ [Saved s (Some (j_id j)) i b]) ++ [Started j s])).
    { intros acc j js C j0. rewrite !running_snoc, !on_disk_snoc. intros [= <-]. exists s, i, b. split; [reflexivity|]. split; apply C. }
    intros [x H1 H2 H3|j js x C Cs B|j js o s' x C Cs B Rc|j js x C Cs Hx|j js r s' x C Cs N Rc] acc Ea;
      repeat (first [apply always_nil|apply always_cons]); try (apply idle_saved; rewrite ?running_snoc; reflexivity || assumption); eapply St; eassumption.
  Qed.

  (** Results of earlier jobs are on the disk while a job is running. *)
  Definition ended_in (s : state) (acc : list event) : Prop := forall j r, In (Ended j r) acc -> has_result s (j_id j) r /\ r_outcome r <> None.
  Definition kept_when_started (acc : list event) : Prop := forall c j' s', acc = c ++ [Started j' s'] ->
    exists s r i b, on_disk acc = Some (s, r, i, b) /\ ended_in s acc.
  Lemma kept_trivial acc e : (forall j s, e <> Started j s) -> kept_when_started (acc ++ [e]).
  Proof. intros N c j' s' E. apply app_inj_tail in E as [_ E]. now elim (N j' s'). Qed.
  Lemma ended_snoc s acc e : (forall j r, e <> Ended j r) -> ended_in s acc -> ended_in s (acc ++ [e]).
  Proof. intros N H j r Q. apply in_app_iff in Q as [Q|[Q|[]]]; [auto|]. now elim (N j r). Qed.
  Lemma kept_started acc j s i b : ended_in s acc -> kept_when_started (((acc ++ [Considered j s]) ++ [Saved s (Some (j_id j)) i b]) ++ [Started j s]).
  Proof. intros H c j' s' _. rewrite !on_disk_snoc. exists s, (Some (j_id j)), i, b. split; [reflexivity|]. repeat (apply ended_snoc; [discriminate|]). exact H. Qed.
  Lemma ended_recorded j r s s' acc : recorded j r s s' -> ~ decided s (j_id j) -> ended_in s acc -> ended_in s' acc.
  Proof. intros Rc Nd H j0 r0 Q. destruct (H j0 r0 Q). split; [eapply has_result_recorded; eassumption|assumption]. Qed.
  Lemma chain_ended i b s ev s1 : chain i b s ev s1 -> forall acc, kept_when_started acc -> ended_in s acc -> always kept_when_started acc ev /\ kept_when_started (acc ++ ev) /\ ended_in s1 (acc ++ ev).
  Proof.
    induction 1 as [s|s j js r s1 ev s2 C Cs N Rc Ch IH|s j js o s1 ev s2 C Cs B Rc Ch IH]; intros acc Ka Ea.
    - rewrite app_nil_r. split; [now apply always_nil|auto].
    - destruct (IH ((((((acc ++ [Considered j s]) ++ [Saved s (Some (j_id j)) i b]) ++ [Started j s]) ++ [Ended j r]) ++ [Saved s None i b]) ++ [Recorded j r])) as (H1 & H1' & H2); [now apply kept_trivial| |].
      + apply ended_snoc; [discriminate|]. apply ended_snoc; [discriminate|]. intros j0 r0 Q. apply in_app_iff in Q as [Q|[[= <- <-]|[]]].
        * revert j0 r0 Q. apply (ended_recorded j r s); [assumption|apply C|]. repeat (apply ended_snoc; [discriminate|]). exact Ea.
        * split; [apply Rc|assumption].
      + split; [|rewrite <- !app_assoc in H1', H2; split; [exact H1'|exact H2]].
        apply always_cons; [exact Ka|]. apply always_cons; [now apply kept_trivial|]. apply always_cons; [now apply kept_trivial|]. apply always_cons; [now apply kept_started|].
        apply always_cons; [now apply kept_trivial|]. apply always_cons; [now apply kept_trivial|]. exact H1.
    - destruct (IH ((acc ++ [Considered j s]) ++ [Recorded j (mk_result (Some o) (blocked_data j js))])) as (H1 & H1' & H2); [now apply kept_trivial| |].
      + repeat (apply ended_snoc; [discriminate|]). eapply ended_recorded; try eassumption. apply C.
      + split; [|rewrite <- !app_assoc in H1', H2; split; [exact H1'|exact H2]]. apply always_cons; [exact Ka|]. apply always_cons; [now apply kept_trivial|]. exact H1.
  Qed.
  Lemma tail_ended i b s tl s1 st : tail i b s tl s1 st -> forall acc, kept_when_started acc -> ended_in s acc -> always kept_when_started acc tl.
  Proof.
    intros [x H1 H2 H3|j js x C Cs B|j js o s' x C Cs B Rc|j js x C Cs Hx|j js r s' x C Cs N Rc] acc Ka Ea;
      repeat (first [apply always_nil|apply always_cons]); try exact Ka; try (apply kept_trivial; discriminate); now apply kept_started.
  Qed.

  (** Flags *)
  Lemma chain_flags i b s ev s1 s0 r0 i0 b0 : chain i b s ev s1 -> In (Saved s0 r0 i0 b0) ev -> i0 = i /\ b0 = b.
  Proof. induction 1; simpl; intros Q; hits. Qed.
  Lemma tail_flags i b s tl s1 st s0 r0 i0 b0 : tail i b s tl s1 st -> In (Saved s0 r0 i0 b0) tl -> i0 = i /\ b0 = b.
  Proof. destruct 1; simpl; intros Q; hits. Qed.
  Lemma on_disk_In a s r i b : on_disk a = Some (s, r, i, b) -> In (Saved s r i b) a.
  Proof.
    induction a as [|e a IH]; cbn [on_disk]; [discriminate|]. destruct (on_disk a) as [c|]; [intros [= ->]; right; now apply IH|]. destruct e; try discriminate. intros [= -> -> -> ->]. now left.
  Qed.

  (** The checkpoint after a job ends does not have its result. *)
  Lemma chain_checkpoint i b s ev s1 : chain i b s ev s1 -> forall a j r c, ev = a ++ Ended j r :: c ->
    exists s0 c', c = Saved s0 None i b :: c' /\ ~ decided s0 (j_id j).
  Proof.
    induction 1 as [s|s j js r s1 ev s2 C Cs N Rc Ch IH|s j js o s1 ev s2 C Cs B Rc Ch IH]; intros a j0 r0 c E.
    - now destruct a.
    - do 3 (destruct a as [|? a]; [discriminate|]; injection E as _ E). destruct a as [|? a]; [injection E as <- <- <-; exists s; eexists; split; [reflexivity|apply C]|]. injection E as _ E.
      do 2 (destruct a as [|? a]; [discriminate|]; injection E as _ E). eapply IH. exact E.
    - do 2 (destruct a as [|? a]; [discriminate|]; injection E as _ E). eapply IH. exact E.
  Qed.

  (** Outcomes *)
  Lemma chain_recorded i b s ev s1 j r : chain i b s ev s1 -> In (Recorded j r) ev ->
    In (Ended j r) ev \/
    (exists s0 js o, In (Considered j s0) ev /\ considered s0 j js /\ can_start js = false /\ ~ In (j_id j) (started ev) /\ r_outcome r = Some o /\
       blocked_outcome (fail_on_resource j) (st_map s0) (js_inhibitors js) ONotSupported = inr o).
  Proof.
    intros Ch. induction Ch as [s|s j' js r' s1 ev s2 C Cs N Rc Ch IH|s j' js o s1 ev s2 C Cs B Rc Ch IH]; simpl; [intros []| |]; intros Q.
    - assert (Q' : Recorded j' r' = Recorded j r \/ In (Recorded j r) ev) by (repeat destruct Q as [Q|Q]; try discriminate; auto). clear Q. destruct Q' as [[= -> ->]|Q]; [left; auto|].
      destruct (IH Q) as [H|(s0 & js0 & o & H1 & H2 & H3 & H4 & H5)]; [left; auto 8|]. right. exists s0, js0, o. split; [auto 8|]. split; [assumption|]. split; [assumption|]. split; [|assumption].
      intros [E|E]; [|contradiction]. destruct (chain_handled _ _ _ _ _ Ch) as (_ & _ & Hh & _). assert (Ih : In (j_id j) (handled ev)).
      { clear -H1. induction ev as [|e ev IH]; [destruct H1|]. destruct H1 as [->|H1]; [now left|]. destruct e; cbn [handled]; auto. right; auto. }
      destruct (Hh _ Ih) as [U _]. apply U. rewrite <- E. eapply decided_now; eassumption.
    - destruct Q as [Q|[Q|Q]]; [discriminate| |].
      + injection Q as -> <-. right. exists s, js, o. split; [auto|]. split; [assumption|]. split; [assumption|]. split; [|split; [reflexivity|assumption]].
        intros Q. destruct (chain_handled _ _ _ _ _ Ch) as (_ & _ & Hh & Hi). destruct (Hh _ (Hi _ Q)) as [U _]. apply U. eapply decided_now; [eassumption|discriminate].
      + destruct (IH Q) as [H|(s0 & js0 & o0 & H1 & H2 & H3 & H4 & H5)]; [left; auto|]. right. exists s0, js0, o0. auto 8.
  Qed.
  Lemma tail_not_recorded i b s tl s1 st j r : tail i b s tl s1 st -> ~ In (Recorded j r) tl.
  Proof. destruct 1; simpl; intuition discriminate. Qed.

  (** ** Errors *)

  Lemma recompute_never_raises s s' : enumerates deps_of -> standing s -> good s' -> st_run s' = st_run s -> incl (st_jobs s) (st_jobs s') -> exists s'', recompute s' = (s'', None).
  Proof.
    intros En [G F] G' Er Inc. destruct (recompute s') as [s'' [x|]] eqn:E; [exfalso|eauto]. unfold SessionModel.recompute in E. pose proof G as (I & O & R & M). pose proof G' as (I' & O' & R' & M').
    apply recompute_run_spec in E; [|apply I'|apply reset_fresh]. destruct E as (j & Ij & H). pose proof (reset_frame s') as F0.
    destruct H as [[-> H]|H].
    - destruct (known_entry s' j G' (R' j Ij)) as (js & K & _). pose proof (em_dget _ _ (j_id j) ltac:(apply F0)) as Q. rewrite H, K in Q. discriminate.
    - rewrite (gil_em eval_expr s' _ j) in H; [|apply F0|apply F0]. apply gil_error in H as [[_ Bp]|(k & _ & Nk & Dk)].
      + rewrite Er in Ij. destruct (recompute_ok_all eval_expr s s (i_run _ I) F j Ij) as (il & Hil). unfold get_inhibitor_list, requirement_inhibitors in Hil. rewrite Bp in Hil. discriminate.
      + apply in_map_iff in Dk as ([ty d] & Ed & Dk). cbn [snd] in Ed. subst d. assert (Dj : depends_on_id deps_of j k) by (exists ty; now apply (proj2 (En j))).
        apply in_split in Ij as (b' & a' & El). pose proof (O' b' j a' El k Dj) as Ik. apply in_map_iff in Ik as (y & <- & Iy).
        destruct (known_entry s' y G') as (js & K & _); [apply R'; rewrite El; apply in_app_iff; now left|]. congruence.
  Qed.
End Run.
