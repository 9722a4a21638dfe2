(** * Theorems about running one job if it can be run (C104) *)
From Coq Require Import String List Relations Bool ZArith Lia.
From Verif Require Import Base BaseFacts JobModel SolverModel SolverSpec SessionModel SessionSpec SessionProofs
  HistoryProofs SessionProps RunoneModel.
Import ListNotations.
Open Scope string_scope.
Open Scope list_scope.

(** A session some operation has just brought up to date *)
Definition up_to_date deps_of eval_expr records_of (s : state) : Prop :=
  exists s0 o, reachable deps_of eval_expr records_of s0 /\ sensible s0 o /\ refreshes o /\
    exec_op deps_of eval_expr records_of o s0 = (s, None).

Lemma refusal_ok s : forall l o, (forall d, In (FailedDep d) l -> dget (j_id d) (st_map s) <> None) ->
  refusal s l o = inr (if existsb (fun i => match i with
                                            | FailedDep d => match outcome_of s (j_id d) with Some (Some OSkip) => true | _ => false end
                                            | _ => false end) l then OSkip else o).
Proof.
  induction l as [|i l IH]; intros o H; [reflexivity|].
  assert (H' : forall d, In (FailedDep d) l -> dget (j_id d) (st_map s) <> None) by (intros d I; apply H; now right).
  destruct i as [|d|d|d e|d e]; cbn [refusal existsb orb]; try (now apply IH).
  unfold state_of, outcome_of. destruct (dget (j_id d) (st_map s)) as [js|] eqn:E; [|destruct (H d); [now left|exact E]].
  rewrite IH by exact H'. cbn [option_map]. unfold outcome_of.
  destruct (r_outcome (js_result js)) as [[]|]; cbn [orb]; try reflexivity. now destruct (existsb _ l).
Qed.

(** ** C104 *)

(** The runner is asked exactly when the job can start, in every state; the result is then the runner's *)
Theorem C104_runs_what_can_start repr run s j js : dget (j_id j) (st_map s) = Some js ->
  (can_start js = true -> one_result repr run s j = inr (js, true, run j js)) /\
  (can_start js = false -> forall js' ran r, one_result repr run s j = inr (js', ran, r) ->
     js' = js /\ ran = false /\ r_data r = mk_rdata None (Some (readiness_description repr js)) None (MemLog [])).
Proof.
  intros D. unfold one_result, state_of. rewrite D. split; intros C; rewrite C; [reflexivity|].
  intros js' ran r. destruct (refusal _ _ _); [discriminate|]. intros E. injection E as <- <- <-. auto.
Qed.

Lemma gil_failed eval_expr s j il d : get_inhibitor_list eval_expr s j = inr il -> In (FailedDep d) il ->
  exists k js o, In k (j_direct j) /\ dget k (st_map s) = Some js /\ js_job js = d /\
    r_outcome (js_result js) = Some o /\ o <> OPass.
Proof. intros G I. exact (gil_real eval_expr s j il G (FailedDep d) I). Qed.
Lemma gil_has eval_expr s j il k js o : get_inhibitor_list eval_expr s j = inr il -> In k (j_direct j) ->
  dget k (st_map s) = Some js -> r_outcome (js_result js) = Some o -> o <> OPass -> In (FailedDep (js_job js)) il.
Proof.
  unfold get_inhibitor_list. intros G K D R O.
  destruct (requirement_inhibitors eval_expr s j) as [x|l1]; [discriminate|].
  destruct (direct_inhibitors s j) as [x|l2] eqn:E; [discriminate|].
  destruct (after_inhibitors s j) as [x|l3]; [discriminate|]. injection G as <-.
  apply in_app_iff. right. apply in_app_iff. left.
  unfold direct_inhibitors in E. apply collect_ok in E. destruct E as [E _].
  destruct (E k) as [zs [F I]]; [now apply sorted_set_In|].
  unfold state_of in F. rewrite D, R in F. apply I. destruct o; try (now destruct O); injection F as <-; now left.
Qed.

(** In a session that is up to date, a job that cannot start gets skip when a job it directly depends on was skipped
    and not-supported otherwise; no other outcome, and no exception *)
Theorem C104_skip_iff_dependency_skipped deps_of eval_expr records_of repr run s j js :
  up_to_date deps_of eval_expr records_of s -> In j (st_run s) -> dget (j_id j) (st_map s) = Some js ->
  can_start js = false ->
  exists r, one_result repr run s j = inr (js, false, r) /\
    ((exists d, In d (j_direct j) /\ outcome_of s d = Some (Some OSkip)) -> r_outcome r = Some OSkip) /\
    (~ (exists d, In d (j_direct j) /\ outcome_of s d = Some (Some OSkip)) -> r_outcome r = Some ONotSupported).
Proof.
  intros [s0 [o [R0 [S0 [F0 X0]]]]] J D C.
  pose proof (Inv_reachable _ _ _ _ R0) as I0.
  destruct (refreshed eval_expr records_of deps_of o s0 s I0 S0 F0 X0) as (s1 & I1 & Hrec).
  assert (IS : Inv s).
  { pose proof (Inv_op eval_expr records_of deps_of o s0 I0 S0) as Q. now rewrite X0 in Q. }
  destruct (recompute_ok eval_expr s1 s (i_run _ I1) Hrec (j_id j) js D) as [[N _]|(j' & J' & E' & G)].
  { destruct N. now apply in_map. }
  assert (j' = j).
  { pose proof (i_run _ IS) as U. unfold unique_ids in U. clear -U J J' E'.
    induction (st_run s) as [|x l IH]; [destruct J|]. cbn in U. inversion U as [|? ? NI U']; subst.
    destruct J as [->|J], J' as [->|J']; auto.
    - destruct NI. rewrite <- E'. now apply in_map.
    - destruct NI. rewrite E'. now apply in_map. }
  subst j'.
  unfold one_result, state_of. rewrite D, C.
  rewrite refusal_ok.
  2:{ intros d I. destruct (gil_failed eval_expr s j _ d G I) as (k & jd & o' & _ & Dk & <- & _ & _).
      destruct (Inv_entry s k jd IS Dk) as [_ ->]. congruence. }
  eexists. split; [reflexivity|]. cbn [r_outcome].
  set (f := fun i => match i with
                     | FailedDep d => match outcome_of s (j_id d) with Some (Some OSkip) => true | _ => false end
                     | _ => false end).
  assert (Z : existsb f (js_inhibitors js) = true <-> exists d, In d (j_direct j) /\ outcome_of s d = Some (Some OSkip)).
  { rewrite existsb_exists. split.
    - intros [i [I F]]. destruct i as [|d|d|d e|d e]; try discriminate. cbn in F.
      destruct (gil_failed eval_expr s j _ d G I) as (k & jd & o' & K & Dk & Ed & Ro & _).
      exists k. split; [exact K|]. destruct (Inv_entry s k jd IS Dk) as [_ Q]. rewrite <- Ed, Q in F.
      destruct (outcome_of s k) as [[[]|]|]; try discriminate. reflexivity.
    - intros [k [K O]]. unfold outcome_of in O. destruct (dget k (st_map s)) as [jd|] eqn:Dk; [|discriminate].
      cbn in O. injection O as O. exists (FailedDep (js_job jd)). split.
      + apply (gil_has eval_expr s j _ k jd OSkip G K Dk O). discriminate.
      + cbn. destruct (Inv_entry s k jd IS Dk) as [_ ->]. unfold outcome_of. rewrite Dk. cbn. now rewrite O. }
  split.
  - intros W. apply Z in W. now rewrite W.
  - intros W. destruct (existsb f (js_inhibitors js)) eqn:E; [|reflexivity]. destruct W. now apply Z.
Qed.

(** Hence skipping spreads: when jobs that each directly depend on the one before are gone through in order, starting
    from one that depends on a skipped job, all of them are recorded as skipped and none is run *)
Fixpoint chained (d : name) (l : list job) : Prop :=
  match l with [] => True | j :: l' => In d (j_direct j) /\ chained (j_id j) l' end.
Lemma startable_needs_pass deps_of eval_expr records_of s j js d :
  up_to_date deps_of eval_expr records_of s -> In j (st_run s) -> dget (j_id j) (st_map s) = Some js ->
  In d (j_direct j) -> outcome_of s d = Some (Some OSkip) -> can_start js = false.
Proof.
  intros [s0 [o [R0 [S0 [F0 X0]]]]] J D K O.
  pose proof (Inv_reachable _ _ _ _ R0) as I0.
  destruct (refreshed eval_expr records_of deps_of o s0 s I0 S0 F0 X0) as (s1 & I1 & Hrec).
  assert (IS : Inv s).
  { pose proof (Inv_op eval_expr records_of deps_of o s0 I0 S0) as Q. now rewrite X0 in Q. }
  destruct (recompute_ok eval_expr s1 s (i_run _ I1) Hrec (j_id j) js D) as [[N _]|(j' & J' & E' & G)].
  { destruct N. now apply in_map. }
  assert (j' = j).
  { pose proof (i_run _ IS) as U. unfold unique_ids in U. clear -U J J' E'.
    induction (st_run s) as [|x l IH]; [destruct J|]. cbn in U. inversion U as [|? ? NI U']; subst.
    destruct J as [->|J], J' as [->|J']; auto.
    - destruct NI. rewrite <- E'. now apply in_map.
    - destruct NI. rewrite E'. now apply in_map. }
  subst j'. unfold outcome_of in O. destruct (dget d (st_map s)) as [jd|] eqn:Dk; [|discriminate].
  cbn in O. injection O as O.
  pose proof (gil_has eval_expr s j _ d jd OSkip G K Dk O ltac:(discriminate)) as I.
  unfold can_start. now destruct (js_inhibitors js).
Qed.
Theorem C104_skip_spreads deps_of eval_expr records_of repr run : forall l d s s' rs,
  up_to_date deps_of eval_expr records_of s -> outcome_of s d = Some (Some OSkip) -> chained d l ->
  (forall j, In j l -> In j (st_run s) /\ In j (st_jobs s) /\ j_plugin j <> "resource") ->
  run_each eval_expr records_of repr run l s = (s', inr rs) ->
  (forall j, In j l -> outcome_of s' (j_id j) = Some (Some OSkip)) /\
  forall ran r, In (ran, r) rs -> ran = false /\ r_outcome r = Some OSkip.
Proof.
  assert (KEEP : forall l s s' rs k, (forall j, In j l -> In j (st_run s) /\ In j (st_jobs s) /\ j_plugin j <> "resource") ->
    up_to_date deps_of eval_expr records_of s -> outcome_of s k = Some (Some OSkip) ->
    forall d, outcome_of s d = Some (Some OSkip) -> chained d l ->
    run_each eval_expr records_of repr run l s = (s', inr rs) ->
    outcome_of s' k = Some (Some OSkip) /\
    (forall j, In j l -> outcome_of s' (j_id j) = Some (Some OSkip)) /\
    forall ran r, In (ran, r) rs -> ran = false /\ r_outcome r = Some OSkip).
  { induction l as [|j l IH]; intros s s' rs k W U OK d OD CH R.
    { cbn in R. injection R as <- <-. split; [exact OK|]. split; [intros j []|intros ran r []]. }
    destruct CH as [DJ CH]. destruct (W j (or_introl eq_refl)) as [JR [JJ JP]]. pose proof U as U'.
    destruct U as [s0 [o [R0 [S0 [F0 X0]]]]].
    assert (RS : reachable deps_of eval_expr records_of s).
    { pose proof (reach_op _ _ _ s0 o R0 S0) as Q. now rewrite X0 in Q. }
    pose proof (Inv_reachable _ _ _ _ RS) as IS.
    destruct (dget (j_id j) (st_map s)) as [js|] eqn:D.
    2:{ exfalso. pose proof (inv_keys s (i_map _ IS)) as KS.
        assert (IN : In (j_id j) (dkeys (st_map s))) by (rewrite KS; now apply in_map).
        apply dget_None in D. contradiction. }
    pose proof (startable_needs_pass deps_of eval_expr records_of s j js d U' JR D DJ OD) as CS.
    destruct (C104_skip_iff_dependency_skipped deps_of eval_expr records_of repr run s j js U' JR D CS) as [r [E [SK _]]].
    specialize (SK (ex_intro _ d (conj DJ OD))).
    cbn [run_each] in R. unfold run_job_if_possible in R. rewrite E in R.
    destruct (update_job_result eval_expr records_of j r [] s) as [s1 [x|]] eqn:UP; [discriminate|].
    destruct (run_each eval_expr records_of repr run l s1) as [s2 [x|ys]] eqn:R2; [discriminate|].
    injection R as <- <-.
    assert (SE : sensible s (OpResult j r [])).
    { intros x X XE.
      pose proof (i_unique _ IS) as UU. unfold unique_ids in UU. clear -UU X JJ XE.
      induction (st_jobs s) as [|y l IH]; [destruct X|]. cbn in UU. inversion UU as [|? ? NI U']; subst.
      destruct X as [->|X], JJ as [->|JJ]; auto.
      - destruct NI. rewrite XE. now apply in_map.
      - destruct NI. rewrite <- XE. now apply in_map. }
    assert (U1 : up_to_date deps_of eval_expr records_of s1).
    { exists s, (OpResult j r []). repeat split; auto. }
    pose proof (C06_result_touches_one_job eval_expr records_of s j r [] s1 None js JP D UP) as [O1 [TJ [_ [TR [_ TM]]]]].
    assert (OTHER : forall k0, outcome_of s k0 = Some (Some OSkip) -> outcome_of s1 k0 = Some (Some OSkip)).
    { intros k0 O0. destruct (string_dec k0 (j_id j)) as [->|NE]; [now rewrite O1, SK|].
      unfold outcome_of in *. destruct (dget k0 (st_map s1)) as [j1|] eqn:D1.
      - destruct (TM k0 j1 D1) as [j0 [D0 [_ [Q _]]]]. destruct (Q NE) as [Q1 _]. rewrite D0 in O0. cbn in *. now rewrite Q1.
      - exfalso. assert (IK : In k0 (dkeys (st_map s))).
        { destruct (dget k0 (st_map s)) eqn:D0; [|discriminate]. destruct (in_dec string_dec k0 (dkeys (st_map s))) as [I|N]; [exact I|].
          apply dget_None in N. congruence. }
        rewrite (inv_keys s (i_map _ IS)), <- TJ in IK.
        assert (I1 : Inv s1).
        { pose proof (reach_op _ _ _ s (OpResult j r []) RS SE) as Q. cbn [exec_op] in Q. rewrite UP in Q.
          exact (Inv_reachable _ _ _ _ Q). }
        rewrite <- (inv_keys s1 (i_map _ I1)) in IK. apply dget_None in D1. contradiction. }
    assert (W1 : forall j0, In j0 l -> In j0 (st_run s1) /\ In j0 (st_jobs s1) /\ j_plugin j0 <> "resource").
    { intros j0 I. rewrite TR, TJ. apply W. now right. }
    destruct (IH s1 s2 ys k W1 U1 (OTHER k OK) (j_id j)) as [A [B C]]; [now rewrite O1, SK|exact CH|exact R2|].
    destruct (IH s1 s2 ys (j_id j) W1 U1 ltac:(now rewrite O1, SK) (j_id j)) as [A' _]; [now rewrite O1, SK|exact CH|exact R2|].
    split; [exact A|]. split.
    - intros j0 [<-|I]; [exact A'|now apply B].
    - intros ran r0 [Q|I]; [injection Q as <- <-; now split|now apply C]. }
  intros l d s s' rs U O CH W R. destruct (KEEP l s s' rs d W U O d O CH R) as [_ Q]. exact Q.
Qed.

(** What is said of a job: it can be started exactly when nothing inhibits it. So a job that is out of attempts is not
    run, is recorded as not supported and is described as one that can be started. *)
Theorem C104_described repr js :
  (readiness_description repr js = "job can be started" <-> js_inhibitors js = []).
Proof.
  unfold readiness_description. destruct (js_inhibitors js) as [|i l]; split; try easy.
Qed.
Theorem C104_out_of_attempts_misdescribed repr run s j js : dget (j_id j) (st_map s) = Some js ->
  js_inhibitors js = [] -> (js_attempts js <= 0)%Z ->
  one_result repr run s j = inr (js, false, mk_result (Some ONotSupported)
    (mk_rdata None (Some "job can be started") None (MemLog []))).
Proof.
  intros D I A. unfold one_result, state_of. rewrite D. unfold can_start. rewrite I.
  replace (0 <? js_attempts js)%Z with false by (symmetry; apply Z.ltb_ge; exact A). cbn.
  unfold readiness_description. now rewrite I.
Qed.
Print Assumptions C104_runs_what_can_start.
Print Assumptions C104_skip_iff_dependency_skipped.
Print Assumptions C104_skip_spreads.
Print Assumptions C104_described.
Print Assumptions C104_out_of_attempts_misdescribed.

(** A session of three jobs, each depending on the one before; the first was skipped *)
Definition job_a := mk_job "a" "c1" 1 "shell" [] [] NoProg.
Definition job_b := mk_job "b" "c2" 2 "shell" ["a"] [] NoProg.
Definition job_c := mk_job "c" "c3" 3 "shell" ["b"] [] NoProg.
Definition quoted (t : string) : string := ("'" ++ t ++ "'")%string.
Definition start3 : state := match init_session [job_a; job_b; job_c] with SOk s => s | _ => mk_state [] [] [] [] [] [] [] end.
Definition chosen3 : state := fst (ex_op (OpDesired [job_c] true) start3).
Definition skipped3 : state := fst (ex_op (OpResult job_a (plain OSkip) []) chosen3).
Example C104_case_up_to_date : up_to_date get_dependency_set ex_eval ex_records skipped3 /\
  outcome_of skipped3 "a" = Some (Some OSkip) /\ chained "a" [job_b; job_c] /\
  (forall j, In j [job_b; job_c] -> In j (st_run skipped3) /\ In j (st_jobs skipped3) /\ j_plugin j <> "resource").
Proof.
  assert (R : reachable get_dependency_set ex_eval ex_records chosen3).
  { apply reach_op; [|exact I]. now apply (reach_init _ _ _ [job_a; job_b; job_c]). }
  split; [|split; [|split]].
  - exists chosen3, (OpResult job_a (plain OSkip) []). split; [exact R|]. split; [|split; [exact I|]].
    + intros x X. vm_compute in X. intros E. destruct X as [<-|[<-|[<-|[]]]]; try reflexivity; discriminate.
    + vm_compute. reflexivity.
  - vm_compute. reflexivity.
  - cbn. auto.
  - intros j [<-|[<-|[]]]; vm_compute; repeat split; try tauto; discriminate.
Qed.
Example C104_case_spreads :
  let run (_ : job) (_ : jstate) := plain OPass in
  let (s', answer) := run_each ex_eval ex_records quoted run [job_b; job_c] skipped3 in
  map (fun k => outcome_of s' k) ["a"; "b"; "c"] = [Some (Some OSkip); Some (Some OSkip); Some (Some OSkip)] /\
  match answer with
  | inr rs => map (fun x => (fst x, d_comments (r_data (snd x)))) rs =
      [(false, Some "job cannot be started: required dependency 'a' has failed");
       (false, Some "job cannot be started: required dependency 'b' has failed")]
  | inl _ => False
  end.
Proof. vm_compute. split; reflexivity. Qed.
Example C104_case_runs :
  match dget "a" (st_map chosen3) with
  | Some js => can_start js = true /\
      one_result quoted (fun _ _ => plain OPass) chosen3 job_a = inr (js, true, plain OPass)
  | None => False
  end.
Proof. vm_compute. split; reflexivity. Qed.
