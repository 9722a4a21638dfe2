(** Invariants of session histories. *)
From Coq Require Import String List Relations Bool NArith ZArith Arith Lia.
From Verif Require Import Base BaseFacts JobModel SolverModel SolverSpec
  SolverProofs SessionModel SessionSpec SelectProofs SessionProofs.
Import ListNotations.
Open Scope list_scope.

Fixpoint jtree_ind' (P : jtree -> Prop)
    (H : forall j cs, Forall P cs -> P (JTree j cs)) (t : jtree) : P t :=
  match t with
  | JTree j cs =>
      H j cs ((fix all (l : list jtree) : Forall P l :=
        match l with
        | [] => Forall_nil P
        | c :: l' => Forall_cons c (jtree_ind' P H c) (all l')
        end) cs)
  end.

Section History.
  Variable eval_expr : expr -> list (list resource) -> bool.

  Notation recompute := (recompute eval_expr).
  Notation add_tree := (add_tree eval_expr).

  Fixpoint add_children (b : bool) (l : list jtree) (s : state) : state * option exn :=
    match l with
    | [] => (s, None)
    | c :: l' =>
        match add_tree b c s with
        | (s', None) => add_children b l' s'
        | (s', Some x) => (s', Some x)
        end
    end.

  Definition added (j : job) (s : state) : state :=
    mk_state (st_jobs s ++ [j]) (st_units s ++ [j])
      (dset (j_id j) (new_jstate j) (st_map s))
      (st_desired s) (st_mandatory s) (st_run s) (st_resources s).

  Definition add_body (b : bool) (j : job) (cs : list jtree) (s : state) :=
    match dget (j_id j) (st_map s) with
    | None => add_children b cs (added j s)
    | Some js =>
        if job_eqb j (js_job js) then add_children b cs s
        else (s, Some (XDuplicate (js_job js) j))
    end.

  Lemma add_tree_eq b j cs s : add_tree b (JTree j cs) s =
    if b then
      match recompute (fst (add_body b j cs s)) with
      | (s', Some x) => (s', Some x)
      | (s', None) => (s', snd (add_body b j cs s))
      end
    else add_body b j cs s.
  Proof.
    assert (E : forall l s, (fix add_children (l : list jtree) (s : state) : state * option exn :=
          match l with
          | [] => (s, None)
          | c :: l' =>
              match add_tree b c s with
              | (s', None) => add_children l' s'
              | (s', Some x) => (s', Some x)
              end
          end) l s = add_children b l s).
    { induction l as [|c l IH]; intros s0; simpl; auto.
      destruct (add_tree b c s0) as [s' [x|]]; auto. }
    simpl. rewrite !E. reflexivity.
  Qed.

  (** ** A predicate kept by refreshing and by adding new jobs is kept by
      adding trees. *)
  Section Kept.
    Variable Q : state -> Prop.
    Hypothesis Q_frame : forall s s', frame s s' -> Q s -> Q s'.
    Hypothesis Q_added : forall s j, dget (j_id j) (st_map s) = None -> Q s -> Q (added j s).

    Lemma Q_recompute s : Q s -> Q (fst (recompute s)).
    Proof. apply Q_frame. apply recompute_frame. Qed.

    Lemma Q_add_tree t : forall b s, Q s -> Q (fst (add_tree b t s)).
    Proof.
      induction t as [j cs IH] using jtree_ind'. intros b s HQ.
      assert (Hch : forall s, Q s -> Q (fst (add_children b cs s))).
      { clear s HQ. induction cs as [|c cs IHc]; simpl; intros s HQ; auto.
        inversion IH as [|? ? Hc Hcs]; subst. specialize (Hc b s HQ).
        destruct (add_tree b c s) as [s' [x|]]; simpl in *; auto. }
      assert (Hb : Q (fst (add_body b j cs s))).
      { unfold add_body. destruct (dget (j_id j) (st_map s)) as [js|] eqn:E.
        - destruct (job_eqb j (js_job js)); simpl; auto.
        - apply Hch. auto. }
      rewrite add_tree_eq. destruct b; auto.
      apply Q_recompute in Hb. destruct (recompute (fst (add_body true j cs s))) as [s' [x|]];
        simpl in *; auto.
    Qed.

    Hypothesis Q_via : forall s k js v, dget k (st_map s) = Some js -> Q s ->
      Q (with_map (dset k (set_via v js) (st_map s)) s).

    Lemma Q_add_generated via l : forall s, Q s ->
      Q (fst (add_generated eval_expr via l s)).
    Proof.
      induction l as [|[g cs] l IH]; simpl; intros s HQ; auto.
      pose proof (Q_add_tree (JTree g cs) true s HQ) as G. simpl in G.
      destruct (add_tree true (JTree g cs) s) as [s' [x|]] eqn:E; auto.
      - simpl in E. rewrite E. simpl. rewrite E in G. exact G.
      - simpl in E. rewrite E. rewrite E in G. simpl in G.
        destruct (dget (j_id g) (st_map s')) as [js|] eqn:Eg; simpl; auto.
    Qed.
  End Kept.

  (** ** The invariant *)

  Record Inv (s : state) : Prop := {
    i_unique : unique_ids (st_jobs s);
    i_map : jobmap s = map (fun j => (j_id j, j)) (st_jobs s);
    i_run : unique_ids (st_run s);
    i_res : forall k js, dget k (st_map s) = Some js ->
      j_plugin (js_job js) = "resource"%string -> r_outcome (js_result js) <> None ->
      dget k (st_resources s) <> None;
    i_resd : NoDup (dkeys (st_resources s))
  }.

  Lemma jobmap_keys s : map fst (jobmap s) = dkeys (st_map s).
  Proof. unfold jobmap, dkeys. rewrite map_map. reflexivity. Qed.

  Lemma inv_keys s : jobmap s = map (fun j => (j_id j, j)) (st_jobs s) ->
    dkeys (st_map s) = map j_id (st_jobs s).
  Proof.
    intros H. apply (f_equal (map fst)) in H. rewrite jobmap_keys, map_map in H. exact H.
  Qed.

  Lemma dget_jobmap s k : dget k (jobmap s) = option_map js_job (dget k (st_map s)).
  Proof. apply dget_map. Qed.

  Lemma dget_jobs k l j : dget k (map (fun j => (j_id j, j)) l) = Some j -> In j l /\ j_id j = k.
  Proof.
    intros H. apply dget_In in H. apply in_map_iff in H.
    destruct H as (x & [= <- <-] & Hx). auto.
  Qed.

  Lemma dget_jobs_In l j : unique_ids l -> In j l ->
    dget (j_id j) (map (fun j => (j_id j, j)) l) = Some j.
  Proof.
    intros Hu Hj. apply In_dget.
    - unfold dkeys. rewrite map_map. exact Hu.
    - apply in_map_iff. eauto.
  Qed.

  Lemma Inv_entry s k js : Inv s -> dget k (st_map s) = Some js ->
    In (js_job js) (st_jobs s) /\ j_id (js_job js) = k.
  Proof.
    intros I H. apply dget_jobs. rewrite <- (i_map _ I), dget_jobmap, H. reflexivity.
  Qed.

  Lemma Inv_frame s s' : frame s s' -> Inv s -> Inv s'.
  Proof.
    intros F I. pose proof F as (H1 & H2 & H3 & H4 & H5 & H6 & H7). split.
    - rewrite H1. apply I.
    - rewrite H1, (em_jobmap _ _ H7). apply I.
    - rewrite H5. apply I.
    - intros k js Hk Hp Ho. destruct (frame_dget s s' k js F Hk) as (js0 & Hg & He).
      unfold erase, set_inhibitors in He. injection He as E1 E2 _ _ _.
      rewrite H6. apply (i_res _ I k js0); congruence.
    - rewrite H6. apply I.
  Qed.

  Lemma Inv_added s j : dget (j_id j) (st_map s) = None -> Inv s -> Inv (added j s).
  Proof.
    intros Hn I. pose proof Hn as Hnk. apply dget_None in Hnk.
    pose proof (inv_keys _ (i_map _ I)) as Hk. split; simpl.
    - unfold unique_ids. rewrite map_app. simpl. apply NoDup_app_snoc; [apply I|].
      now rewrite <- Hk.
    - unfold jobmap. simpl. rewrite dset_new by auto. rewrite !map_app. simpl.
      f_equal. apply I.
    - apply I.
    - intros k js. rewrite dget_dset. destruct (String.eqb_spec k (j_id j)).
      + intros [= <-]. simpl. congruence.
      + apply I.
    - apply I.
  Qed.

  Lemma Inv_dset s k js js' : dget k (st_map s) = Some js -> js_job js' = js_job js ->
    (j_plugin (js_job js) = "resource"%string -> r_outcome (js_result js') <> None ->
       dget k (st_resources s) <> None) ->
    Inv s -> Inv (with_map (dset k js' (st_map s)) s).
  Proof.
    intros Hg Hj Hr I. split; simpl; try apply I.
    - unfold jobmap. simpl. rewrite dset_map, Hj. rewrite dset_id; [apply I|].
      rewrite dget_map, Hg. reflexivity.
    - intros k2 js2. rewrite dget_dset. destruct (String.eqb_spec k2 k).
      + intros [= <-]. subst k2. rewrite Hj. exact Hr.
      + apply I.
  Qed.

  Lemma Inv_via s k js v : dget k (st_map s) = Some js -> Inv s ->
    Inv (with_map (dset k (set_via v js) (st_map s)) s).
  Proof.
    intros Hg I. apply (Inv_dset s k js); auto. simpl. apply (i_res _ I). exact Hg.
  Qed.

  Lemma Inv_resource s k l : Inv s -> Inv (set_resource_list k l s).
  Proof.
    intros I. split; simpl; try apply I.
    - intros k2 js Hg Hp Ho. rewrite dget_dset. destruct (String.eqb_spec k2 k); [discriminate|].
      now apply (i_res _ I k2 js).
    - apply NoDup_dset. apply I.
  Qed.

  (** ** Removal *)

  Lemma map_filter_ddel (q : job -> bool) J m :
    unique_ids J ->
    map (fun kv => (fst kv, js_job (snd kv))) m = map (fun j => (j_id j, j)) J ->
    map (fun kv => (fst kv, js_job (snd kv)))
      (fold_left (fun m j => ddel (j_id j) m) (filter q J) m) =
    map (fun j => (j_id j, j)) (filter (fun j => negb (q j)) J).
  Proof.
    assert (G : forall D (m : dict jstate),
      map (fun kv => (fst kv, js_job (snd kv))) (fold_left (fun m j => ddel (j_id j) m) D m) =
      fold_left (fun m j => ddel (j_id j) m) D (map (fun kv => (fst kv, js_job (snd kv))) m)).
    { induction D as [|d D IH]; simpl; intros m0; auto. rewrite IH. f_equal.
      clear. induction m0 as [|[k v] m0 IH]; simpl; auto.
      destruct (String.eqb (j_id d) k); simpl; auto. now rewrite IH. }
    intros Hu H. rewrite G, H. clear G H m.
    (* deleting from an association list keyed by id *)
    assert (Hskip : forall D j m, ~ In (j_id j) (map j_id D) ->
      fold_left (fun (m : dict job) j => ddel (j_id j) m) D ((j_id j, j) :: m) =
      (j_id j, j) :: fold_left (fun m j => ddel (j_id j) m) D m).
    { induction D as [|d D IH]; simpl; intros j m Hn; auto.
      destruct (String.eqb_spec (j_id d) (j_id j)); [tauto|]. rewrite IH; auto. }
    induction J as [|j J IH]; simpl; auto.
    unfold unique_ids in Hu. simpl in Hu. inversion Hu as [|? ? Hni Hu']; subst.
    destruct (q j) eqn:E; simpl.
    - rewrite String.eqb_refl. now apply IH.
    - rewrite Hskip.
      + f_equal. now apply IH.
      + intros Hi. apply Hni. apply in_map_iff in Hi. destruct Hi as (x & Hx & Hf).
        apply filter_In in Hf. rewrite <- Hx. apply in_map. tauto.
  Qed.

  Lemma dget_fold_ddel {A} (D : list job) : forall (m : dict A) k, NoDup (dkeys m) ->
    NoDup (dkeys (fold_left (fun m j => ddel (j_id j) m) D m)) /\
    dget k (fold_left (fun m j => ddel (j_id j) m) D m) =
      if in_dec string_dec k (map j_id D) then None else dget k m.
  Proof.
    induction D as [|d D IH]; simpl; intros m k Hnd; auto.
    pose proof (NoDup_ddel (j_id d) m Hnd) as Hnd'.
    destruct (IH (ddel (j_id d) m) k Hnd') as [H1 H2]. split; auto. rewrite H2.
    destruct (in_dec string_dec k (map j_id D)) as [Hi|Hi];
    destruct (string_dec (j_id d) k) as [He|He]; auto.
    - subst k. now apply dget_ddel_same.
    - apply dget_ddel_other. congruence.
  Qed.

  Lemma filter_negb_NoDup q J : unique_ids J -> unique_ids (filter q J).
  Proof.
    unfold unique_ids. induction J as [|j J IH]; simpl; auto.
    intros Hu. inversion Hu as [|? ? Hni Hu']; subst. destruct (q j); simpl; auto.
    constructor; auto. intros Hi. apply Hni. apply in_map_iff in Hi.
    destruct Hi as (x & Hx & Hf). apply filter_In in Hf. rewrite <- Hx. apply in_map. tauto.
  Qed.

  Lemma inv_nodup s : Inv s -> NoDup (dkeys (st_map s)).
  Proof. intros I. rewrite (inv_keys _ (i_map _ I)). apply I. Qed.

  Lemma Inv_trim q s : Inv s -> Inv (fst (trim_job_list q s)).
  Proof.
    intros I. unfold trim_job_list.
    destruct (existsb _ (filter q (st_jobs s))); auto. simpl. split; simpl.
    - apply filter_negb_NoDup. apply I.
    - unfold jobmap. simpl. apply map_filter_ddel; apply I.
    - apply I.
    - intros k js.
      rewrite (proj2 (dget_fold_ddel (filter q (st_jobs s)) (st_map s) k (inv_nodup s I))).
      rewrite (proj2 (dget_fold_ddel (filter q (st_jobs s)) (st_resources s) k (i_resd _ I))).
      destruct (in_dec _ _ _); [discriminate|]. apply I.
    - apply dget_fold_ddel; [exact EmptyString|apply I].
  Qed.

  Lemma ddel_app_notin {A} k (l1 l2 : dict A) : ~ In k (dkeys l1) ->
    ddel k (l1 ++ l2) = l1 ++ ddel k l2.
  Proof.
    induction l1 as [|[k' v] l1 IH]; simpl; intros H; auto.
    destruct (String.eqb_spec k k'); [subst; tauto|]. rewrite IH; auto.
  Qed.

  Lemma Inv_remove j b s : Inv s ->
    (forall x, In x (st_jobs s) -> j_sum x = j_sum j -> j_id x = j_id j) ->
    Inv (fst (remove_unit eval_expr j b s)).
  Proof.
    intros I Hs. unfold remove_unit. destruct (job_remove j (st_units s)) as [units|]; auto.
    assert (I1 : Inv (mk_state (st_jobs s) units (st_map s) (st_desired s)
                   (st_mandatory s) (st_run s) (st_resources s))).
    { split; apply I. }
    destruct (job_remove j (st_jobs s)) as [jobs|] eqn:E; auto.
    destruct (job_remove_split _ _ _ E) as (l1 & x & l2 & Hl & -> & Hx & _).
    apply String.eqb_eq in Hx.
    assert (Hid : j_id x = j_id j).
    { apply Hs; auto. rewrite Hl, in_app_iff. simpl. auto. }
    assert (Hm : dmem (j_id j) (st_map s) = true).
    { apply dmem_In. rewrite (inv_keys _ (i_map _ I)), Hl, map_app, in_app_iff. simpl. auto. }
    rewrite Hm.
    assert (I3 : Inv (mk_state (l1 ++ l2) units (ddel (j_id j) (st_map s)) (st_desired s)
                   (st_mandatory s) (st_run s) (ddel (j_id j) (st_resources s)))).
    { assert (Hu : ~ In (j_id x) (map j_id (l1 ++ l2)) /\ NoDup (map j_id (l1 ++ l2))).
      { pose proof (i_unique _ I) as Hu. rewrite Hl in Hu. unfold unique_ids in Hu.
        rewrite map_app in *. simpl in Hu. split.
        - now apply NoDup_remove_2 in Hu.
        - now apply NoDup_remove_1 in Hu. }
      split; simpl.
      - apply Hu.
      - unfold jobmap. simpl.
        assert (G : forall m : dict jstate,
          map (fun kv => (fst kv, js_job (snd kv))) (ddel (j_id j) m) =
          ddel (j_id j) (map (fun kv => (fst kv, js_job (snd kv))) m)).
        { clear. induction m as [|[k v] m IH]; simpl; auto.
          destruct (String.eqb (j_id j) k); simpl; auto. now rewrite IH. }
        rewrite G. pose proof (i_map _ I) as Hmap. unfold jobmap in Hmap. rewrite Hmap, Hl.
        rewrite !map_app. simpl. rewrite ddel_app_notin.
        + simpl. rewrite Hid, String.eqb_refl. reflexivity.
        + unfold dkeys. rewrite map_map. simpl. rewrite <- Hid. destruct Hu as [Hu _].
          rewrite map_app, in_app_iff in Hu. tauto.
      - apply I.
      - intros k js. destruct (string_dec k (j_id j)) as [->|Hk].
        + rewrite dget_ddel_same; [discriminate|]. now apply inv_nodup.
        + rewrite !dget_ddel_other by auto. apply I.
      - apply NoDup_ddel. apply I. }
    destruct b; auto. apply (Q_recompute Inv Inv_frame). exact I3.
  Qed.

  (** ** Results *)

  Lemma result_eqb_eq a b : result_eqb a b = true -> a = b.
  Proof.
    unfold result_eqb. intros H. apply andb_prop in H. destruct H as [H1 H2].
    destruct (rdata_eq_dec (r_data a) (r_data b)) as [E|]; [|discriminate]. clear H2.
    destruct a as [oa da], b as [ob db]; simpl in *. subst.
    f_equal. destruct oa as [x|], ob as [y|]; try discriminate; auto.
    now apply internal_outcome_dec_bl in H1; subst.
  Qed.

  Lemma set_result_result r js : js_result (set_result r js) = r.
  Proof.
    unfold set_result. destruct (result_eqb r (js_result js)) eqn:E; auto.
    symmetry. now apply result_eqb_eq.
  Qed.

  Lemma set_result_job r js : js_job (set_result r js) = js_job js.
  Proof. unfold set_result. now destruct (result_eqb r (js_result js)). Qed.

  Variable records_of : result -> list resource.

  Lemma Inv_result j r g s : Inv s ->
    (forall x, In x (st_jobs s) -> j_id x = j_id j -> x = j) ->
    Inv (fst (update_job_result eval_expr records_of j r g s)).
  Proof.
    intros I Hs. unfold update_job_result.
    assert (G : Inv (fst (observe_result eval_expr records_of j r g s))).
    { unfold observe_result. destruct (dget (j_id j) (st_map s)) as [js|] eqn:E; auto.
      destruct (Inv_entry s _ _ I E) as [Hin Hid].
      assert (Hj : js_job js = j) by auto.
      destruct (String.eqb_spec (j_plugin j) "resource").
      - set (s1 := with_map (dset (j_id j) (set_result r js) (st_map s)) s).
        assert (I2 : Inv (parse_and_store_resource records_of j r s1)).
        { unfold parse_and_store_resource. destruct (r_outcome r) as [o|] eqn:Eo.
          - set (l := match records_of r with [] => [[]] | l => l end).
            assert (Es : set_resource_list (j_id j) l s1 =
              with_map (dset (j_id j) (set_result r js) (st_map (set_resource_list (j_id j) l s)))
                (set_resource_list (j_id j) l s)) by reflexivity.
            rewrite Es. apply (Inv_dset _ _ js).
            + exact E.
            + apply set_result_job.
            + intros _ _. simpl. rewrite dget_dset_same. discriminate.
            + now apply Inv_resource.
          - apply (Inv_dset s _ js); auto.
            + apply set_result_job.
            + rewrite set_result_result, Eo. congruence. }
        destruct (r_outcome r); auto.
        apply (Q_add_generated Inv Inv_frame Inv_added Inv_via). exact I2.
      - simpl. apply (Inv_dset s _ js); auto.
        + apply set_result_job.
        + rewrite Hj. congruence. }
    destruct (observe_result eval_expr records_of j r g s) as [s' [x|]]; auto.
    apply (Q_recompute Inv Inv_frame). exact G.
  Qed.

  (** ** Selection *)

  Variable deps_of : job -> list (dep_type * name).

  Lemma select_run_unique fuel : forall J D P D' run P',
    select deps_of fuel J D P = SelOk D' run P' -> unique_ids run.
  Proof.
    induction fuel as [|fuel IH]; intros J D P D' run P'; simpl.
    - destruct D; [intros [= _ <- _]; constructor|discriminate].
    - destruct D as [|d D]; [intros [= _ <- _]; constructor|].
      destruct (resolve deps_of J (Some (d :: D))) as [r|e|] eqn:E.
      + intros [= _ <- _]. now apply resolve_ok_inv in E.
      + destruct (affected_job e); [|discriminate]. apply IH.
      + discriminate.
  Qed.

  Lemma Inv_desired l b s s' x : Inv s ->
    update_desired_job_list deps_of eval_expr l b s = Some (s', x) -> Inv s'.
  Proof.
    intros I. unfold update_desired_job_list.
    destruct (select _ _ _ _ _) as [D run P|D|] eqn:E; try discriminate.
    - apply select_run_unique in E.
      assert (I1 : Inv (mk_state (st_jobs s) (st_units s) (st_map s) D (st_mandatory s) run
                    (st_resources s))).
      { split; simpl; try apply I. exact E. }
      apply (Q_recompute Inv Inv_frame) in I1.
      destruct (recompute _) as [s2 [e|]]; intros [= <- <-]; exact I1.
    - intros [= <- <-]. split; simpl; try apply I. constructor.
  Qed.

  Lemma Inv_init units s : init_session units = SOk s -> Inv s.
  Proof.
    unfold init_session.
    pose proof (dedup_spec (S (length units)) units _ ltac:(lia) eq_refl) as G.
    destruct (dedup_jobs (S (length units)) units) as [jobs|e|]; try discriminate.
    intros [= <-]. split; simpl.
    - apply G.
    - unfold jobmap. simpl. rewrite map_map. reflexivity.
    - constructor.
    - intros k js Hk. apply dget_In in Hk. apply in_map_iff in Hk.
      destruct Hk as (x & [= <- <-] & _). simpl. congruence.
    - constructor.
  Qed.

  Lemma Inv_op o s : Inv s -> sensible s o -> Inv (fst (exec_op deps_of eval_expr records_of o s)).
  Proof.
    intros I Hs. destruct o; simpl.
    - apply (Q_add_tree Inv Inv_frame Inv_added). exact I.
    - now apply Inv_remove.
    - pose proof (Inv_trim designates s I) as G. destruct (trim_job_list designates s). exact G.
    - split; apply I.
    - destruct (update_desired_job_list deps_of eval_expr l include_mandatory s)
        as [[s' x]|] eqn:E; auto.
      pose proof (Inv_desired _ _ _ _ _ I E). destruct x; auto.
    - now apply Inv_result.
  Qed.

  Lemma Inv_reachable s : reachable deps_of eval_expr records_of s -> Inv s.
  Proof.
    induction 1 as [units s H|s o _ IH Hs].
    - now apply (Inv_init units).
    - now apply Inv_op.
  Qed.

  (** ** Every refreshing operation ends with a recomputation. *)

  Lemma refreshed o s s' : Inv s -> sensible s o -> refreshes o ->
    exec_op deps_of eval_expr records_of o s = (s', None) ->
    exists s0, Inv s0 /\ recompute s0 = (s', None).
  Proof.
    intros I Hs Hr H. destruct o; simpl in *; try contradiction.
    - destruct t as [j cs]. subst do_recompute. rewrite add_tree_eq in H.
      exists (fst (add_body true j cs s)). split.
      + unfold add_body. destruct (dget (j_id j) (st_map s)) as [js|] eqn:E.
        * destruct (job_eqb j (js_job js)); simpl; auto.
          clear H E Hs. revert s I. induction cs as [|c cs IH]; simpl; intros s I; auto.
          pose proof (Q_add_tree Inv Inv_frame Inv_added c true s I) as G.
          destruct (add_tree true c s) as [s1 [x|]]; simpl in *; auto.
        * pose proof (Inv_added s j E I) as I1. revert I1. generalize (added j s).
          clear. induction cs as [|c cs IH]; simpl; intros s I; auto.
          pose proof (Q_add_tree Inv Inv_frame Inv_added c true s I) as G.
          destruct (add_tree true c s) as [s1 [x|]]; simpl in *; auto.
      + destruct (recompute (fst (add_body true j cs s))) as [s1 [x|]]; congruence.
    - subst do_recompute. pose proof (Inv_remove j false s I Hs) as G.
      unfold remove_unit in *. destruct (job_remove j (st_units s)); [|discriminate].
      destruct (job_remove j (st_jobs s)); [|discriminate].
      destruct (dmem (j_id j) (st_map s)); [|discriminate].
      eexists. split; [exact G|exact H].
    - destruct (update_desired_job_list deps_of eval_expr l include_mandatory s)
        as [[s1 [x|p]]|] eqn:E; try discriminate.
      injection H as ->. unfold update_desired_job_list in E.
      destruct (select _ _ _ _ _) as [D run P|D|] eqn:Es; try discriminate.
      apply select_run_unique in Es.
      eexists. split; [|destruct (recompute _) as [s2 [e|]] eqn:Er;
        [discriminate|injection E as -> _; exact Er]].
      split; simpl; try apply I. exact Es.
    - unfold update_job_result in H.
      exists (fst (observe_result eval_expr records_of j r generated s)).
      pose proof (Inv_result j r generated s I Hs) as G. unfold update_job_result in G.
      destruct (observe_result eval_expr records_of j r generated s) as [s1 [x|]]; [discriminate|].
      simpl. split; auto.
      apply (Inv_frame (fst (recompute s1))); auto.
      pose proof (recompute_frame eval_expr s1) as F. unfold frame in *. intuition congruence.
  Qed.
End History.
