(** Proofs about suspending and resuming. *)
From Coq Require Import Ascii String List Relations Bool NArith ZArith Arith Lia.
From Verif Require Import ScanModel JsonModel IologModel PathModel Base BaseFacts JobModel
  SolverModel SolverSpec SolverProofs SessionModel SessionSpec SelectProofs SessionProofs
  HistoryProofs ResumeModel ResumeSpec ResumeCodec ResumeSolve.
Import ListNotations.
Local Open Scope nat_scope.
Local Open Scope list_scope.

Lemma result_eqb_refl r : result_eqb r r = true.
Proof.
  unfold result_eqb. destruct (rdata_eq_dec (r_data r) (r_data r)); [|congruence].
  destruct (r_outcome r) as [o|]; auto. now rewrite internal_outcome_dec_lb.
Qed.

Lemma result_eqb_neq a b : a <> b -> result_eqb a b = false.
Proof.
  intros H. destruct (result_eqb a b) eqn:E; auto. apply result_eqb_eq in E. contradiction.
Qed.

Lemma hollow_spec r : is_hollow r = true <-> r = empty_result.
Proof.
  unfold is_hollow. split; [apply result_eqb_eq|]. intros ->. apply result_eqb_refl.
Qed.

(** ** The resources of a reachable session are those of the results *)

Section Stored.
  Variable records_of : result -> list resource.

  (** The records of the last result with an outcome. *)
  Definition record_list (r : result) : list resource :=
    match records_of r with [] => [[]] | l => l end.

  Fixpoint stored (h : list result) : option (list resource) :=
    match h with
    | [] => None
    | r :: h' =>
        match stored h' with
        | Some l => Some l
        | None => match r_outcome r with Some _ => Some (record_list r) | None => None end
        end
    end.

  Lemma stored_snoc h r : stored (h ++ [r]) =
    match r_outcome r with Some _ => Some (record_list r) | None => stored h end.
  Proof.
    induction h as [|x h IH]; cbn; [now destruct (r_outcome r)|].
    rewrite IH. destruct (r_outcome r); auto.
  Qed.

  Definition resource_of (js : jstate) : option (list resource) :=
    if String.eqb (j_plugin (js_job js)) "resource" then stored (js_history js) else None.

  (** What the history says agrees with the current result and the resources. *)
  Record Res (s : state) : Prop := {
    rr_res : forall k, dget k (st_resources s) =
      match dget k (st_map s) with Some js => resource_of js | None => None end;
    rr_last : forall k js, dget k (st_map s) = Some js -> js_result js <> empty_result ->
      exists h, js_history js = h ++ [js_result js]
  }.

  Lemma erase_eq a b : erase a = erase b ->
    js_job a = js_job b /\ js_result a = js_result b /\ js_history a = js_history b.
  Proof. unfold erase, set_inhibitors. intros [= H1 H2 H3 _ _]. auto. Qed.

  Lemma Res_frame s s' : frame s s' -> Res s -> Res s'.
  Proof.
    intros F I. pose proof F as (_ & _ & _ & _ & _ & H6 & H7). split.
    - intros k. rewrite H6, (rr_res _ I k). pose proof (em_dget s s' k H7) as G.
      destruct (dget k (st_map s)) as [a|], (dget k (st_map s')) as [b|]; try discriminate G; auto.
      injection G as G. assert (E : erase b = erase a) by (unfold erase, set_inhibitors; congruence).
      apply erase_eq in E. unfold resource_of. destruct E as (-> & _ & ->). reflexivity.
    - intros k js Hk Hne. destruct (frame_dget s s' k js F Hk) as (js0 & Hg & He).
      apply erase_eq in He. destruct He as (_ & E2 & E3). rewrite E2, E3 in *.
      apply (rr_last _ I k); auto.
  Qed.

  Lemma Res_added s j : dget (j_id j) (st_map s) = None -> Res s -> Res (added j s).
  Proof.
    intros Hn I. split; cbn.
    - intros k. rewrite (rr_res _ I k), dget_dset. destruct (String.eqb_spec k (j_id j)); auto.
      subst k. rewrite Hn. unfold resource_of. cbn. now destruct (String.eqb (j_plugin j) "resource").
    - intros k js. rewrite dget_dset. destruct (String.eqb_spec k (j_id j)).
      + intros [= <-] H. now elim H.
      + apply I.
  Qed.

  Lemma Res_via s k js v : dget k (st_map s) = Some js -> Res s ->
    Res (with_map (dset k (set_via v js) (st_map s)) s).
  Proof.
    intros Hg I. split; cbn.
    - intros k'. rewrite (rr_res _ I k'), dget_dset. destruct (String.eqb_spec k' k); auto.
      subst k'. rewrite Hg. reflexivity.
    - intros k' js'. rewrite dget_dset. destruct (String.eqb_spec k' k).
      + intros [= <-]. cbn. apply (rr_last _ I k js Hg).
      + apply I.
  Qed.

  Lemma set_result_history r js : js_history (set_result r js) =
    if result_eqb r (js_result js) then js_history js
    else if is_hollow r then js_history js else js_history js ++ [r].
  Proof. unfold set_result. now destruct (result_eqb r (js_result js)). Qed.

  Lemma set_result_stored s k js r : Res s -> dget k (st_map s) = Some js ->
    stored (js_history (set_result r js)) =
    match r_outcome r with Some _ => Some (record_list r) | None => stored (js_history js) end.
  Proof.
    intros I Hg. rewrite set_result_history. destruct (result_eqb r (js_result js)) eqn:E.
    - apply result_eqb_eq in E. subst r. destruct (r_outcome (js_result js)) eqn:Eo; auto.
      destruct (rr_last _ I k js Hg) as [h Hh].
      + intros E. rewrite E in Eo. discriminate.
      + rewrite Hh, stored_snoc, Eo. reflexivity.
    - destruct (is_hollow r) eqn:Eh.
      + apply hollow_spec in Eh. subst r. reflexivity.
      + now rewrite stored_snoc.
  Qed.

  Lemma set_result_last s k js r : Res s -> dget k (st_map s) = Some js -> r <> empty_result ->
    exists h, js_history (set_result r js) = h ++ [r].
  Proof.
    intros I Hg Hr. rewrite set_result_history. destruct (result_eqb r (js_result js)) eqn:E.
    - apply result_eqb_eq in E. subst r. apply (rr_last _ I k js Hg Hr).
    - destruct (is_hollow r) eqn:Eh.
      + apply hollow_spec in Eh. contradiction.
      + eauto.
  Qed.
End Stored.

Section Reach.
  Variable deps_of : job -> list (dep_type * name).
  Variable eval_expr : expr -> list (list resource) -> bool.
  Variable records_of : result -> list resource.
  Notation Res := (Res records_of).

  (** The state after the result is stored, before templates are instantiated. *)
  Definition noted (j : job) (r : result) (js : jstate) (s : state) : state :=
    let s1 := with_map (dset (j_id j) (set_result r js) (st_map s)) s in
    if String.eqb (j_plugin j) "resource" then parse_and_store_resource records_of j r s1 else s1.

  Lemma observe_eq j r g s js : dget (j_id j) (st_map s) = Some js ->
    observe_result eval_expr records_of j r g s =
    if String.eqb (j_plugin j) "resource" then
      match r_outcome r with
      | None => (noted j r js s, None)
      | Some _ => add_generated eval_expr j g (noted j r js s)
      end
    else (noted j r js s, None).
  Proof.
    intros H. unfold observe_result, noted. rewrite H.
    destruct (String.eqb (j_plugin j) "resource"); auto.
  Qed.

  Lemma noted_map j r js s : st_map (noted j r js s) = dset (j_id j) (set_result r js) (st_map s).
  Proof.
    unfold noted, parse_and_store_resource. destruct (String.eqb (j_plugin j) "resource"); auto.
    now destruct (r_outcome r).
  Qed.

  Lemma noted_resources j r js s : dget (j_id j) (st_map s) = Some js -> js_job js = j -> Res s ->
    forall k, dget k (st_resources (noted j r js s)) =
      if String.eqb k (j_id j) then resource_of records_of (set_result r js)
      else dget k (st_resources s).
  Proof.
    intros Hg Hj I k. unfold noted, resource_of. rewrite set_result_job, Hj.
    rewrite (set_result_stored records_of s (j_id j) js r I Hg).
    destruct (String.eqb (j_plugin j) "resource") eqn:Ep.
    - unfold parse_and_store_resource. destruct (r_outcome r); cbn.
      + rewrite dget_dset. unfold record_list. destruct (String.eqb k (j_id j)); auto.
      + destruct (String.eqb_spec k (j_id j)); auto. subst k. rewrite (rr_res _ _ I), Hg.
        unfold resource_of. rewrite Hj, Ep. reflexivity.
    - cbn. destruct (String.eqb_spec k (j_id j)); auto. subst k. rewrite (rr_res _ _ I), Hg.
      unfold resource_of. rewrite Hj, Ep. reflexivity.
  Qed.

  Lemma Res_noted j r js s : dget (j_id j) (st_map s) = Some js -> js_job js = j -> Res s ->
    Res (noted j r js s).
  Proof.
    intros Hg Hj I. split.
    - intros k. rewrite noted_resources by auto. rewrite noted_map, dget_dset.
      destruct (String.eqb k (j_id j)); auto. apply (rr_res _ _ I).
    - intros k js'. rewrite noted_map, dget_dset. destruct (String.eqb_spec k (j_id j)).
      + intros [= <-]. rewrite set_result_result. apply (set_result_last records_of s _ js r I Hg).
      + apply I.
  Qed.

  Lemma Res_result j r g s : HistoryProofs.Inv s -> Res s ->
    (forall x, In x (st_jobs s) -> j_id x = j_id j -> x = j) ->
    Res (fst (update_job_result eval_expr records_of j r g s)).
  Proof.
    intros I0 I Hs. unfold update_job_result.
    assert (G : Res (fst (observe_result eval_expr records_of j r g s))).
    { destruct (dget (j_id j) (st_map s)) as [js|] eqn:E.
      - rewrite (observe_eq j r g s js E). destruct (Inv_entry s _ _ I0 E) as [Hin Hid].
        assert (Hj : js_job js = j) by auto.
        pose proof (Res_noted j r js s E Hj I) as I2.
        destruct (String.eqb (j_plugin j) "resource"); auto. destruct (r_outcome r); auto.
        apply (Q_add_generated eval_expr Res (Res_frame records_of) (Res_added records_of)
                 (Res_via records_of)). exact I2.
      - unfold observe_result. now rewrite E. }
    destruct (observe_result eval_expr records_of j r g s) as [s' [x|]]; auto.
    apply (Q_recompute eval_expr Res (Res_frame records_of)). exact G.
  Qed.

  Lemma Res_trim q s : HistoryProofs.Inv s -> Res s -> Res (fst (trim_job_list q s)).
  Proof.
    intros I0 I. unfold trim_job_list. destruct (existsb _ (filter q (st_jobs s))); auto.
    split; cbn.
    - intros k.
      rewrite (proj2 (dget_fold_ddel (filter q (st_jobs s)) (st_map s) k (inv_nodup s I0))).
      rewrite (proj2 (dget_fold_ddel (filter q (st_jobs s)) (st_resources s) k (i_resd _ I0))).
      destruct (in_dec _ _ _); auto. apply I.
    - intros k js.
      rewrite (proj2 (dget_fold_ddel (filter q (st_jobs s)) (st_map s) k (inv_nodup s I0))).
      destruct (in_dec _ _ _); [discriminate|]. apply I.
  Qed.

  Lemma Res_remove j b s : HistoryProofs.Inv s -> Res s ->
    Res (fst (remove_unit eval_expr j b s)).
  Proof.
    intros I0 I. unfold remove_unit. destruct (job_remove j (st_units s)) as [units|]; auto.
    destruct (job_remove j (st_jobs s)) as [jobs|]; [|split; apply I].
    destruct (dmem (j_id j) (st_map s)); [|split; apply I].
    match goal with |- Res (fst (if b then recompute _ ?x else _)) => assert (G : Res x) end.
    { split; cbn.
      - intros k. destruct (string_dec k (j_id j)) as [->|Hk].
        + rewrite !dget_ddel_same; auto; [now apply inv_nodup|apply I0].
        + rewrite !dget_ddel_other by auto. apply I.
      - intros k js. destruct (string_dec k (j_id j)) as [->|Hk].
        + rewrite dget_ddel_same; [discriminate|now apply inv_nodup].
        + rewrite !dget_ddel_other by auto. apply I. }
    destruct b; auto. apply (Q_recompute eval_expr Res (Res_frame records_of)). exact G.
  Qed.

  Lemma Res_desired l b s s' x : Res s ->
    update_desired_job_list deps_of eval_expr l b s = Some (s', x) -> Res s'.
  Proof.
    intros I. unfold update_desired_job_list.
    destruct (select _ _ _ _ _) as [D run P|D|] eqn:E; try discriminate.
    - assert (I1 : Res (mk_state (st_jobs s) (st_units s) (st_map s) D (st_mandatory s) run
                    (st_resources s))) by (split; apply I).
      apply (Q_recompute eval_expr Res (Res_frame records_of)) in I1.
      destruct (recompute _ _) as [s2 [e|]]; intros [= <- <-]; exact I1.
    - intros [= <- <-]. split; apply I.
  Qed.

  Lemma Res_init units s : init_session units = SOk s -> Res s.
  Proof.
    unfold init_session. destruct (dedup_jobs (S (length units)) units) as [jobs|e|]; try discriminate.
    intros [= <-]. split; cbn.
    - intros k. destruct (dget k (map (fun j => (j_id j, new_jstate j)) jobs)) as [js|] eqn:E; auto.
      apply dget_In in E. apply in_map_iff in E. destruct E as (x & [= <- <-] & _).
      unfold resource_of. cbn. now destruct (String.eqb (j_plugin x) "resource").
    - intros k js E H. apply dget_In in E. apply in_map_iff in E. destruct E as (x & [= <- <-] & _).
      now elim H.
  Qed.

  Lemma Res_reachable s : reachable deps_of eval_expr records_of s -> Res s.
  Proof.
    induction 1 as [units s H|s o Hr IH Hs].
    - now apply (Res_init units).
    - pose proof (Inv_reachable eval_expr records_of deps_of s Hr) as I0. destruct o; cbn.
      + apply (Q_add_tree eval_expr Res (Res_frame records_of) (Res_added records_of)). exact IH.
      + now apply Res_remove.
      + pose proof (Res_trim designates s I0 IH) as G. destruct (trim_job_list designates s). exact G.
      + split; apply IH.
      + destruct (update_desired_job_list deps_of eval_expr l include_mandatory s)
          as [[s' x]|] eqn:E; auto.
        pose proof (Res_desired _ _ _ _ _ IH E). destruct x; auto.
      + now apply Res_result.
  Qed.
End Reach.

(** ** Readiness depends on the dependencies only *)

Definition agree (s s' : state) (d : name) : Prop :=
  match dget d (st_map s), dget d (st_map s') with
  | Some a, Some b => js_job a = js_job b /\ js_result a = js_result b
  | None, None => True
  | _, _ => False
  end /\ dget d (st_resources s) = dget d (st_resources s').

Lemma collect_ext_in {A B} (f g : A -> exn + list B) l :
  (forall x, In x l -> f x = g x) -> collect f l = collect g l.
Proof.
  induction l as [|x l IH]; cbn; intros H; auto. rewrite H by auto.
  rewrite IH by auto. reflexivity.
Qed.

Lemma find_ext_in {A} (f g : A -> bool) l : (forall x, In x l -> f x = g x) -> find f l = find g l.
Proof.
  induction l as [|x l IH]; cbn; intros H; auto. rewrite H by auto. destruct (g x); auto.
Qed.

Lemma gil_agree eval_expr s s' j :
  (forall d, In d (map snd (get_dependency_set j)) -> agree s s' d) ->
  get_inhibitor_list eval_expr s j = get_inhibitor_list eval_expr s' j.
Proof.
  intros H.
  assert (Hd : forall d, In d (j_direct j) -> agree s s' d).
  { intros d Hd. apply H. unfold get_dependency_set. rewrite !map_app, !map_map, !in_app_iff. left.
    apply in_map_iff. exists d. auto. }
  assert (Ha : forall d, In d (j_after j) -> agree s s' d).
  { intros d Hd'. apply H. unfold get_dependency_set. rewrite !map_app, !map_map, !in_app_iff. right. right.
    apply in_map_iff. exists d. auto. }
  assert (Hr : forall es e d, j_prog j = Prog es -> In e es -> In d (e_ids e) -> agree s s' d).
  { intros es e d E He Hd'. apply H. unfold get_dependency_set. rewrite !map_app, !map_map, !in_app_iff.
    right. left. unfold get_resource_dependencies. rewrite E. apply in_map_iff. exists d. split; auto.
    apply in_flat_map. eauto. }
  assert (E1 : requirement_inhibitors eval_expr s j = requirement_inhibitors eval_expr s' j).
  { unfold requirement_inhibitors. destruct (j_prog j) as [| |es] eqn:Ep; auto.
    assert (Ee : evaluate_or_raise eval_expr (st_resources s) es =
                 evaluate_or_raise eval_expr (st_resources s') es).
    { assert (Eu : forall e, In e es -> unavailable (st_resources s) e = unavailable (st_resources s') e).
      { intros e He. unfold unavailable.
        assert (G : forall l, (forall d, In d l -> agree s s' d) ->
          existsb (fun r => negb (dmem r (st_resources s))) l =
          existsb (fun r => negb (dmem r (st_resources s'))) l).
        { induction l as [|d l IH]; cbn; intros Hl; auto. rewrite IH by auto.
          unfold dmem. destruct (Hl d (or_introl eq_refl)) as [_ ->]. reflexivity. }
        apply G. intros d Hd'. apply (Hr es e d); auto. }
      assert (El : forall e, In e es -> resource_lists (st_resources s) e = resource_lists (st_resources s') e).
      { intros e He. unfold resource_lists. apply map_ext_in. intros d Hd'.
        destruct (Hr es e d eq_refl He Hd') as [_ ->]. reflexivity. }
      unfold evaluate_or_raise. rewrite (find_ext_in _ _ _ Eu).
      destruct (find (unavailable (st_resources s')) es); auto.
      rewrite (find_ext_in _ (fun e => negb (eval_expr e (resource_lists (st_resources s') e))) es).
      - reflexivity.
      - intros e He. now rewrite El. }
    rewrite Ee. pose proof (eval_in eval_expr (st_resources s') es) as Hin.
    destruct (evaluate_or_raise eval_expr (st_resources s') es) as [|e|e]; auto.
    - apply collect_ext_in. intros d Hd'. destruct (Hr es e d eq_refl Hin Hd') as [Hm _].
      unfold state_of. destruct (dget d (st_map s)), (dget d (st_map s')); try contradiction; auto.
      destruct Hm as [M1 M2]. rewrite ?M1, ?M2. reflexivity.
    - apply collect_ext_in. intros d Hd'. destruct (Hr es e d eq_refl Hin Hd') as [Hm _].
      unfold state_of. destruct (dget d (st_map s)), (dget d (st_map s')); try contradiction; auto.
      destruct Hm as [M1 M2]. rewrite ?M1, ?M2. reflexivity. }
  assert (E2 : direct_inhibitors s j = direct_inhibitors s' j).
  { apply collect_ext_in. intros d Hd'. apply (proj1 (sorted_set_In d _)) in Hd'. destruct (Hd d Hd') as [Hm _].
    unfold state_of. destruct (dget d (st_map s)), (dget d (st_map s')); try contradiction; auto.
    destruct Hm as [M1 M2]. rewrite ?M1, ?M2. reflexivity. }
  assert (E3 : after_inhibitors s j = after_inhibitors s' j).
  { apply collect_ext_in. intros d Hd'. apply (proj1 (sorted_set_In d _)) in Hd'. destruct (Ha d Hd') as [Hm _].
    unfold state_of. destruct (dget d (st_map s)), (dget d (st_map s')); try contradiction; auto.
    destruct Hm as [M1 M2]. rewrite ?M1, ?M2. reflexivity. }
  unfold get_inhibitor_list. now rewrite E1, E2, E3.
Qed.
