(** * C57: running a session *)
From Coq Require Import String List Bool Arith ZArith NArith QArith Lqa Lia.
From Verif Require Import Base BaseFacts JobModel SolverModel SolverSpec SolverProofs SolverProps SessionModel SessionSpec SelectProofs
  SessionProofs HistoryProofs SessionProps SessrunModel SessrunSpec SessrunProofs.
Import ListNotations.
Open Scope string_scope.
Local Open Scope nat_scope.
Open Scope list_scope.

Section Run.
  Variable deps_of : job -> list (dep_type * name).
  Variable holds : expr -> list (list resource) -> bool.
  Variable records_of : result -> list resource.
  Variable matching : list job -> list job.
  Variable templates : job -> result -> state -> list jtree.
  Variable fail_on_resource : job -> bool.
  Variable blocked_data : job -> jstate -> rdata.
  (** The jobs that the command line selects are jobs of the session. *)
  Hypothesis matching_known : forall l, incl (matching l) l.

  Notation run_all := (run_all deps_of holds records_of matching templates fail_on_resource blocked_data).
  Notation run_and_finish := (run_and_finish deps_of holds records_of matching templates fail_on_resource blocked_data).
  Notation fresh_session := (fresh_session deps_of holds records_of matching templates fail_on_resource blocked_data).
  Notation resumed_session := (resumed_session deps_of holds records_of matching templates fail_on_resource blocked_data).
  Notation Anything := (fun _ : name => True).
  Notation chain := (chain deps_of holds Anything fail_on_resource blocked_data).
  Notation tail := (tail deps_of holds Anything fail_on_resource blocked_data).

  Lemma any_ids : forall j r s t, In t (templates j r s) -> ok_ids Anything t.
  Proof. intros j r s t _ k _. exact I. Qed.

  Lemma run_events fuel u script u' script' st : in_order deps_of holds (u_state u) -> proper script -> run_all fuel u script = (u', script', st) ->
    exists ev tl s1, u_trace u' = u_trace u ++ ev ++ tl /\ chain (u_incomplete u) (u_submitted u) (u_state u) ev s1 /\ tail (u_incomplete u) (u_submitted u) s1 tl (u_state u') st.
  Proof.
    intros O P H. apply in_order_standing in O. apply (run_all_spec _ _ _ _ _ matching_known Anything any_ids) in H as (_ & _ & ev & tl & s1 & T & C & Tl & _); [|assumption|assumption]. eauto 6.
  Qed.

  (** ** Where a run begins *)

  (** Selecting jobs of a session leaves it in good order. *)
  Theorem C57_selecting_gives_order : forall s l s' p, reachable deps_of holds records_of s -> incl (st_mandatory s) (st_jobs s) -> incl l (st_jobs s) ->
    update_desired_job_list deps_of holds l true s = Some (s', inr p) -> in_order deps_of holds s'.
  Proof.
    intros s l s' p R M L H. apply Inv_reachable in R. apply (update_desired_facts deps_of holds) in H as (G & _ & _ & F); [|assumption|assumption|assumption]. apply in_order_standing. split; [assumption|eauto].
  Qed.

  (** ** Every job is run once *)

  (** When the run completes every job of the run list has an outcome, also the jobs that were
      added on the way, and the session is in good order again. *)
  Theorem C57_every_job_gets_an_outcome : forall fuel u script u' script', in_order deps_of holds (u_state u) -> proper script ->
    run_all fuel u script = (u', script', Completed) ->
    (forall j, In j (st_run (u_state u')) -> decided (u_state u') (j_id j)) /\ in_order deps_of holds (u_state u').
  Proof.
    intros fuel u script u' script' O P H. apply in_order_standing in O.
    apply (run_all_spec _ _ _ _ _ matching_known Anything any_ids) in H as (_ & _ & ev & tl & s1 & _ & _ & _ & _ & C); [|assumption|assumption].
    destruct (C eq_refl) as (_ & E & S & D & _). rewrite E. split; [assumption|]. now apply in_order_standing.
  Qed.

  (** No job is taken up twice, or started twice, and none that had an outcome before. *)
  Theorem C57_no_job_runs_twice : forall fuel u script u' script' st, in_order deps_of holds (u_state u) -> proper script ->
    run_all fuel u script = (u', script', st) ->
    exists new, u_trace u' = u_trace u ++ new /\ NoDup (handled new) /\ NoDup (started new) /\
      forall k, In k (handled new) \/ In k (started new) -> ~ decided (u_state u) k.
  Proof.
    intros fuel u script u' script' st O P H. destruct (run_events _ _ _ _ _ _ O P H) as (ev & tl & s1 & T & C & Tl). exists (ev ++ tl). split; [assumption|].
    destruct (whole_handled deps_of holds Anything _ _ _ _ _ _ _ _ _ _ C Tl) as (H1 & H2 & H3 & H4). split; [assumption|]. split; [assumption|]. intros k [Q|Q]; [now apply H3|apply H3; now apply H4].
  Qed.

  (** Results are never lost: however the run ends, a result with an outcome that was there
      before is still there. *)
  Theorem C57_results_are_kept : forall fuel u script u' script' st k r, in_order deps_of holds (u_state u) -> proper script ->
    run_all fuel u script = (u', script', st) -> has_result (u_state u) k r -> r_outcome r <> None -> has_result (u_state u') k r.
  Proof.
    intros fuel u script u' script' st k r O P H Hr N. destruct (run_events _ _ _ _ _ _ O P H) as (ev & tl & s1 & T & C & Tl).
    apply (tail_kept _ _ _ _ _ _ _ _ _ _ _ Tl); [|assumption]. now apply (chain_kept _ _ _ _ _ _ _ _ _ _ C).
  Qed.

  (** ** When jobs are started *)

  (** A job is taken up only after everything that it depends on has an outcome. *)
  Theorem C57_dependencies_come_first : forall fuel u script u' script' st, in_order deps_of holds (u_state u) -> proper script ->
    run_all fuel u script = (u', script', st) ->
    exists new, u_trace u' = u_trace u ++ new /\
      forall j s, In (Considered j s) new -> forall d, depends_on_id deps_of j d -> decided s d.
  Proof.
    intros fuel u script u' script' st O P H. destruct (run_events _ _ _ _ _ _ O P H) as (ev & tl & s1 & T & C & Tl). exists (ev ++ tl). split; [assumption|].
    intros j s Q. apply in_app_iff in Q as [Q|Q].
    - destruct (chain_considered _ _ _ _ _ _ _ _ _ _ _ _ C Q) as (js & Cs). apply Cs.
    - destruct (tail_considered _ _ _ _ _ _ _ _ _ _ _ _ _ Tl Q) as (js & Cs). apply Cs.
  Qed.

  (** A job is started only if it is on the run list, its direct dependencies have passed,
      its other dependencies have an outcome and its requirements hold (or are overlooked,
      see C06). *)
  Theorem C57_starts_only_when_ready : forall fuel u script u' script' st, in_order deps_of holds (u_state u) -> proper script ->
    run_all fuel u script = (u', script', st) ->
    exists new, u_trace u' = u_trace u ++ new /\
      forall j s, In (Started j s) new -> In j (st_run s) /\ direct_ok s j /\ after_ok s j /\ (requirements_wf j -> requirements_ok holds s j \/ overlooked s j).
  Proof.
    intros fuel u script u' script' st O P H. destruct (run_events _ _ _ _ _ _ O P H) as (ev & tl & s1 & T & C & Tl). exists (ev ++ tl). split; [assumption|].
    assert (X : forall j s, In (Started j s) (ev ++ tl) -> exists js, considered deps_of holds s j js /\ can_start js = true).
    { intros j s Q. apply in_app_iff in Q as [Q|Q]; [eapply chain_started; eassumption|eapply tail_started; eassumption]. }
    intros j s Q. destruct (X j s Q) as (js & Cs & St). destruct (startable_facts _ _ _ _ _ Cs St) as (H1 & _ & H2 & H3 & H4). auto.
  Qed.

  (** A job that has not been started is one with no attempts left or with a reason: it is not
      selected any more, a direct dependency has not passed, or a requirement is not met.
      Pending dependencies are never the reason. *)
  Theorem C57_blocked_for_a_reason : enumerates deps_of -> forall fuel u script u' script' st, in_order deps_of holds (u_state u) -> proper script ->
    run_all fuel u script = (u', script', st) ->
    exists new, u_trace u' = u_trace u ++ new /\
      forall j s, In (Considered j s) new -> exists js, dget (j_id j) (st_map s) = Some js /\
        forall x, In x (js_inhibitors js) ->
          match x with
          | Undesired => ~ In j (st_run s)
          | PendingDep _ => False
          | FailedDep d => In (j_id d) (j_direct j) /\ exists o, outcome_of s (j_id d) = Some (Some o) /\ o <> OPass
          | PendingResource _ _ | FailedResource _ _ => ~ requirements_ok holds s j
          end.
  Proof.
    intros En fuel u script u' script' st O P H. destruct (run_events _ _ _ _ _ _ O P H) as (ev & tl & s1 & T & C & Tl). exists (ev ++ tl). split; [assumption|].
    assert (X : forall j s, In (Considered j s) (ev ++ tl) -> exists js, considered deps_of holds s j js).
    { intros j s Q. apply in_app_iff in Q as [Q|Q]; [eapply chain_considered; eassumption|eapply tail_considered; eassumption]. }
    intros j s Q. destruct (X j s Q) as (js & Cs). pose proof Cs as ((G & F) & Ij & Nd & K & Ej & Dd). exists js. split; [assumption|]. intros x Ix.
    destruct (inhibitors_facts _ _ _ _ _ _ Cs Ix) as [[N ->]|[Ir Ob]]; [exact N|]. destruct x as [|d|d|d e|d e]; cbn [real_obstacle] in Ob.
    - destruct Ob.
    - destruct Ob as (k & js' & Ik & Kk & <- & Nk). assert (D : decided s k).
      { apply Dd. destruct Ik as [Ik|Ik]; [exists DepDirect|exists DepOrdering]; apply (proj2 (En j)); unfold get_dependency_set; rewrite !in_app_iff; [left|right; right]; now apply in_map. }
      destruct D as (o & D). unfold outcome_of in D. rewrite Kk in D. cbn [option_map] in D. congruence.
    - destruct Ob as (k & js' & o & Ik & Kk & <- & Ok & Np). destruct (Inv_entry s k js' ltac:(apply G) Kk) as [_ ->]. split; [assumption|]. exists o. unfold outcome_of. rewrite Kk. cbn [option_map]. rewrite Ok. auto.
    - destruct Ob as (es & k & js' & Ep & Ie & Ik & Kk & _ & _ & (r & Ir2 & Nr)). intros [Np|(es' & Ep' & Hh)]; [congruence|]. assert (es' = es) as -> by congruence.
      destruct (Hh e Ie) as (ls & El & _). apply (in_map (fun r => dget r (st_resources s))) in Ir2. rewrite Nr, <- El in Ir2. apply in_map_iff in Ir2 as (? & ? & _). discriminate.
    - destruct Ob as (es & k & js' & ls & Ep & Ie & Ik & Kk & _ & El & Hf). intros [Np|(es' & Ep' & Hh)]; [congruence|]. assert (es' = es) as -> by congruence.
      destruct (Hh e Ie) as (ls' & El' & Ht). assert (ls' = ls); [|congruence].
      assert (Inj : forall a b : list (list resource), map Some a = map Some b -> a = b) by (induction a as [|? a IH]; destruct b; cbn [map]; intros E; try discriminate; [reflexivity|injection E as -> E; f_equal; auto]).
      apply Inj. congruence.
  Qed.

  (** ** Outcomes *)

  Lemma blocked_outcome_spec flag s l : forall o0 o, blocked_outcome flag (st_map s) l o0 = inr o ->
    (fails_on_resource flag l /\ o = OFail) \/ (~ fails_on_resource flag l /\ skipped_dependency s l /\ o = OSkip) \/ (~ fails_on_resource flag l /\ ~ skipped_dependency s l /\ o = o0).
  Proof.
    induction l as [|x l IH]; intros o0 o; cbn [blocked_outcome].
    - intros [= <-]. right. right. split; [intros (_ & ? & ? & [])|]. split; [intros (? & [] & _)|reflexivity].
    - assert (Other : (forall d e, x <> FailedResource d e) -> (forall d, x = FailedDep d -> outcome_of s (j_id d) <> Some (Some OSkip)) ->
        (fails_on_resource flag (x :: l) <-> fails_on_resource flag l) /\ (skipped_dependency s (x :: l) <-> skipped_dependency s l)).
      { intros N1 N2. unfold fails_on_resource, skipped_dependency. split; split.
        - intros (F & d & e & [E|Q]); [now elim (N1 d e)|eauto].
        - intros (F & d & e & Q). split; [assumption|]. exists d, e. now right.
        - intros (d & [E|Q] & Hd); [now elim (N2 d E)|eauto].
        - intros (d & Q & Hd). exists d. split; [now right|assumption]. }
      assert (Easy : (forall d e, x <> FailedResource d e) -> (forall d, x <> FailedDep d) -> blocked_outcome flag (st_map s) l o0 = inr o ->
        (fails_on_resource flag (x :: l) /\ o = OFail) \/ (~ fails_on_resource flag (x :: l) /\ skipped_dependency s (x :: l) /\ o = OSkip) \/ (~ fails_on_resource flag (x :: l) /\ ~ skipped_dependency s (x :: l) /\ o = o0)).
      { intros N1 N2 H. destruct Other as [E1 E2]; [assumption|intros d Ed; now elim (N2 d)|]. rewrite E1, E2. now apply IH. }
      destruct x as [|d|d|d e|d e]; try (apply Easy; discriminate).
      + destruct (dget (j_id d) (st_map s)) as [js|] eqn:K; [|discriminate]. intros H.
        assert (Od : outcome_of s (j_id d) = Some (r_outcome (js_result js))) by (unfold outcome_of; now rewrite K).
        destruct (match r_outcome (js_result js) with Some OSkip => true | _ => false end) eqn:Sk.
        * destruct (r_outcome (js_result js)) as [[]|]; try discriminate. apply IH in H.
          assert (E1 : fails_on_resource flag (FailedDep d :: l) <-> fails_on_resource flag l).
          { unfold fails_on_resource. split; [intros (F & d' & e & [E|Q]); [discriminate|eauto]|intros (F & d' & e & Q); split; [assumption|]; exists d', e; now right]. }
          assert (E2 : skipped_dependency s (FailedDep d :: l)) by (exists d; split; [now left|assumption]). rewrite E1. destruct H as [H|[(H1 & _ & ->)|(H1 & _ & ->)]]; auto.
        * assert (H' : blocked_outcome flag (st_map s) l o0 = inr o) by (destruct (r_outcome (js_result js)) as [[]|]; try discriminate; exact H).
          destruct Other as [E1 E2]; [discriminate|intros d' [= <-]; rewrite Od; intros [= Q]; rewrite Q in Sk; discriminate|]. rewrite E1, E2. now apply IH.
      + destruct flag.
        * intros [= <-]. left. split; [|reflexivity]. split; [reflexivity|]. exists d, e. now left.
        * intros H. apply IH in H. assert (E1 : forall l, ~ fails_on_resource false l) by (intros l0 [F _]; discriminate).
          assert (E2 : skipped_dependency s (FailedResource d e :: l) <-> skipped_dependency s l).
          { unfold skipped_dependency. split; [intros (d' & [E|Q] & Hd); [discriminate|eauto]|intros (d' & Q & Hd); exists d'; split; [now right|assumption]]. }
          rewrite E2. destruct H as [[H _]|[(_ & H)|(_ & H)]]; [now elim (E1 l)| |]; auto.
  Qed.

  (** A result comes from the run of the job, or the job could not start; then its outcome is:
      fail if a requirement is not met and the job asks for that, otherwise skip if a
      dependency was skipped, otherwise not-supported. *)
  Theorem C57_outcome_of_blocked_jobs : forall fuel u script u' script' st, in_order deps_of holds (u_state u) -> proper script ->
    run_all fuel u script = (u', script', st) ->
    exists new, u_trace u' = u_trace u ++ new /\
      forall j r, In (Recorded j r) new ->
        In (Ended j r) new \/
        exists s js o, In (Considered j s) new /\ dget (j_id j) (st_map s) = Some js /\ (js_inhibitors js <> [] \/ (js_attempts js <= 0)%Z) /\
          ~ In (j_id j) (started new) /\ r_outcome r = Some o /\ outcome_when_blocked (fail_on_resource j) s (js_inhibitors js) o.
  Proof.
    intros fuel u script u' script' st O P H. destruct (run_events _ _ _ _ _ _ O P H) as (ev & tl & s1 & T & C & Tl). exists (ev ++ tl). split; [assumption|].
    intros j r Q. apply in_app_iff in Q as [Q|Q]; [|exfalso; eapply tail_not_recorded; eassumption].
    destruct (chain_recorded _ _ _ _ _ _ _ _ _ _ _ _ C Q) as [E|(s & js & o & H1 & H2 & H3 & H4 & H5 & H6)]; [left; apply in_app_iff; now left|].
    right. exists s, js, o. split; [apply in_app_iff; now left|]. split; [apply H2|]. split.
    - unfold can_start in H3. apply andb_false_iff in H3 as [H3|H3]; [left; intros E; rewrite E in H3; discriminate|right; now apply Z.ltb_ge].
    - split; [|split; [assumption|now apply blocked_outcome_spec]]. destruct (whole_handled deps_of holds Anything _ _ _ _ _ _ _ _ _ _ C Tl) as (Hn & _ & _ & Hi).
      intros Is. rewrite started_app in Is. apply in_app_iff in Is as [Is|Is]; [contradiction|]. rewrite handled_app in Hn.
      assert (Ih : In (j_id j) (handled ev)). { clear -H1. induction ev as [|e ev IH]; [destruct H1|]. destruct H1 as [->|H1]; [now left|]. destruct e; cbn [handled]; auto. right; auto. }
      destruct (tail_handled _ _ _ _ _ _ _ _ _ _ _ Tl) as [->|(j' & js' & Cj & Eh & Es)]; [destruct Is|]. rewrite Eh in Hn.
      assert (j_id j = j_id j') as Ej by (destruct Es as [Es|Es]; rewrite Es in Is; [destruct Is|destruct Is as [Is|[]]; congruence]).
      apply NoDup_remove_2 in Hn. rewrite app_nil_r in Hn. apply Hn. now rewrite <- Ej.
  Qed.

  (** ** Crash points *)

  (** At every moment, if a job is running then the checkpoint on the disk names it. *)
  Theorem C57_running_job_is_on_disk : forall fuel u script u' script' st, in_order deps_of holds (u_state u) -> proper script ->
    run_all fuel u script = (u', script', st) ->
    exists new, u_trace u' = u_trace u ++ new /\
      forall before after j, new = before ++ after -> running_now before = Some j ->
        exists s i b, on_disk before = Some (s, Some (j_id j), i, b) /\ In j (st_jobs s) /\ ~ decided s (j_id j).
  Proof.
    intros fuel u script u' script' st O P H. destruct (run_events _ _ _ _ _ _ O P H) as (ev & tl & s1 & T & C & Tl). exists (ev ++ tl). split; [assumption|].
    destruct (chain_run_saved _ _ _ _ _ _ _ _ _ _ C [] eq_refl) as [H1 H2]. pose proof (tail_run_saved _ _ _ _ _ _ _ _ _ _ _ Tl _ H2) as H3.
    pose proof (always_app _ _ _ _ H1 H3) as Al. intros before after j E. exact (Al before after E j).
  Qed.

  (** When a job starts, the results of all jobs that ended before are on the disk. *)
  Theorem C57_earlier_results_are_on_disk : forall fuel u script u' script' st, in_order deps_of holds (u_state u) -> proper script ->
    run_all fuel u script = (u', script', st) ->
    exists new, u_trace u' = u_trace u ++ new /\
      forall before j s after, new = before ++ Started j s :: after ->
        exists s' r i b, on_disk (before ++ [Started j s]) = Some (s', r, i, b) /\ forall j' r', In (Ended j' r') before -> has_result s' (j_id j') r'.
  Proof.
    intros fuel u script u' script' st O P H. destruct (run_events _ _ _ _ _ _ O P H) as (ev & tl & s1 & T & C & Tl). exists (ev ++ tl). split; [assumption|].
    destruct (chain_ended _ _ _ _ _ _ _ _ _ _ C []) as (H1 & H1' & H2); [intros [|? ?] ? ? E; discriminate|intros ? ? []|]. pose proof (tail_ended _ _ _ _ _ _ _ _ _ _ _ Tl _ H1' H2) as H3.
    pose proof (always_app _ _ _ _ H1 H3) as Al. intros before j s after E.
    destruct (Al (before ++ [Started j s]) after) with (c := before) (j' := j) (s' := s) as (s' & r & i & b & Hd & He); [rewrite E, <- app_assoc; reflexivity|reflexivity|].
    exists s', r, i, b. split; [exact Hd|]. intros j' r' Q. apply He. cbn [app]. apply in_app_iff. now left.
  Qed.

  (** But the checkpoint that is written when a job ends says that no job is running and does
      not have the result: after a crash at this point the job is run again, and the user is
      not asked about it. *)
  Theorem C57_result_is_saved_at_once_refuted : forall fuel u script u' script', in_order deps_of holds (u_state u) -> proper script ->
    run_all fuel u script = (u', script', Completed) ->
    exists new, u_trace u' = u_trace u ++ new /\
      forall before j r after, new = before ++ Ended j r :: after ->
        exists s i b after', after = Saved s None i b :: after' /\ ~ decided s (j_id j).
  Proof.
    intros fuel u script u' script' O P H. apply in_order_standing in O.
    apply (run_all_spec _ _ _ _ _ matching_known Anything any_ids) in H as (_ & _ & ev & tl & s1 & T & Ch & _ & _ & C); [|assumption|assumption]. destruct (C eq_refl) as (-> & _).
    rewrite app_nil_r in T. exists ev. split; [assumption|]. intros before j r after E. destruct (chain_checkpoint _ _ _ _ _ _ _ _ _ _ Ch before j r after E) as (s0 & c' & -> & N). eauto 6.
  Qed.

  (** ** The end of the run *)

  (** If the names of all jobs that can ever be made are in a finite list then the run ends. *)
  Theorem C57_the_run_ends : forall universe fuel u script u' script' st, in_order deps_of holds (u_state u) -> proper script ->
    incl (map j_id (st_jobs (u_state u))) universe ->
    (forall j r s t, In t (templates j r s) -> incl (tree_ids t) universe) ->
    length universe < fuel -> run_all fuel u script = (u', script', st) -> st <> NoFuel.
  Proof.
    intros universe fuel u script u' script' st O P Inc Tm Lt H ->. apply in_order_standing in O.
    assert (Ids : forall j r s t, In t (templates j r s) -> ok_ids (fun k => In k universe) t) by (intros j r s t It k Ik; now apply (Tm j r s t It)).
    apply (run_all_spec _ _ _ _ _ matching_known (fun k => In k universe) Ids) in H as (_ & _ & ev & tl & s1 & T & Ch & Tl & NF & _); [|assumption|assumption]. specialize (NF eq_refl).
    destruct (chain_kept _ _ _ _ _ _ _ _ _ _ Ch) as (Gk & _ & _ & Ik). specialize (Gk (proj1 O)).
    assert (Es : u_state u' = s1) by (inversion Tl; subst; try reflexivity; exfalso; intuition congruence).
    rewrite Es in NF. assert (L : length (map j_id (st_jobs s1)) <= length universe).
    { apply NoDup_incl_length; [apply Gk|]. intros k Q. apply in_map_iff in Q as (x & <- & Ix). destruct (Ik x Ix) as [I0|I0]; [apply Inc; now apply in_map|assumption]. }
    rewrite map_length in L. lia.
  Qed.

  (** Without templates nothing can go wrong. *)
  Theorem C57_no_errors_without_templates : enumerates deps_of -> (forall j r s, templates j r s = []) ->
    forall fuel u script u' script' st x, in_order deps_of holds (u_state u) -> proper script ->
    run_all fuel u script = (u', script', st) -> st <> Raised x.
  Proof.
    intros En No.
    assert (Upd : forall j r s b, standing deps_of holds s -> In j (st_jobs s) -> exists s' b', update_job_result_n deps_of holds records_of matching templates j r s b = (s', b', None)).
    { intros j r s b S Ij. pose proof S as [G F]. destruct (known_entry deps_of s j G Ij) as (js & K & Ej). unfold update_job_result_n, observe_result_n. rewrite K.
      set (s1 := with_map (dset (j_id j) (set_result r js) (st_map s)) s).
      assert (Rec : forall s2, Inv s2 -> st_jobs s2 = st_jobs s -> st_run s2 = st_run s -> st_mandatory s2 = st_mandatory s -> exists s'', recompute holds s2 = (s'', None)).
      { intros s2 I2 E1 E2 E3. apply (recompute_never_raises deps_of holds s s2 En S); [|assumption|rewrite E1; apply incl_refl]. split; [assumption|]. rewrite E1, E2, E3. apply G. }
      pose proof G as (I0 & _). destruct (String.eqb_spec (j_plugin j) "resource") as [Pl|Pl].
      - assert (I2 : Inv (parse_and_store_resource records_of j r s1)).
        { unfold parse_and_store_resource. destruct (r_outcome r) as [o|] eqn:Eo.
          - set (l := match records_of r with [] => [[]] | l => l end).
            assert (Es : set_resource_list (j_id j) l s1 = with_map (dset (j_id j) (set_result r js) (st_map (set_resource_list (j_id j) l s))) (set_resource_list (j_id j) l s)) by reflexivity.
            rewrite Es. apply (Inv_dset _ _ js); [exact K|apply set_result_job| |now apply Inv_resource]. intros _ _. cbn [set_resource_list st_resources]. rewrite dget_dset_same. discriminate.
          - apply (Inv_dset s _ js); [assumption|apply set_result_job| |assumption]. rewrite set_result_result, Eo. congruence. }
        destruct (Rec _ I2) as (s'' & Rc); [unfold parse_and_store_resource; now destruct (r_outcome r) ..|].
        destruct (r_outcome r) as [o|]; [rewrite No; cbn [add_generated_n]|]; rewrite Rc; eauto.
      - destruct (Rec s1) as (s'' & Rc); [|reflexivity|reflexivity|reflexivity|rewrite Rc; eauto].
        apply (Inv_dset s _ js); [assumption|apply set_result_job| |assumption]. rewrite Ej. congruence. }
    intros fuel u script u' script' st x O P H. revert u u' script script' st O P H.
    assert (One : forall j u script u' script' st, standing deps_of holds (u_state u) -> In j (st_jobs (u_state u)) ->
      run_single_job deps_of holds records_of matching templates fail_on_resource blocked_data j u script = (u', script', st) -> st <> Raised x).
    { intros j u script u' script' st S Ij. pose proof S as [G F]. destruct (known_entry deps_of _ j G Ij) as (js & K & Ej). unfold run_single_job. rewrite K. destruct (can_start js).
      - destruct script as [|[r|] script]; [intros [= _ _ <-]; discriminate| |intros [= _ _ <-]; discriminate]. unfold record_result. cbn [log checkpoint set_running u_state u_backtrack].
        destruct (Upd j r (u_state u) (u_backtrack u) S Ij) as (s' & b' & ->). intros [= _ _ <-]. discriminate.
      - destruct (blocked_outcome _ _ _ _) as [y|o] eqn:B.
        + exfalso. assert (Kn : forall d, In (FailedDep d) (js_inhibitors js) -> dget (j_id d) (st_map (u_state u)) <> None).
          { intros d Id. pose proof G as (I0 & O0 & R0 & M0). destruct (recompute_ok holds _ _ (i_run _ I0) F _ _ K) as [[N Hi]|(j' & Hj & Hid & Hg)]; [rewrite Hi in Id; destruct Id as [?|[]]; discriminate|].
            destruct (gil_real _ _ _ _ Hg _ Id) as (k & js' & o' & _ & Kk & <- & _). destruct (Inv_entry _ k js' I0 Kk) as [_ ->]. congruence. }
          revert B Kn. generalize (js_inhibitors js), ONotSupported. induction l as [|i l IH]; intros o0; cbn [blocked_outcome]; [discriminate|]. intros B Kn.
          destruct i as [|d|d|d e|d e]; try (eapply IH; [exact B|intros d' Q; apply Kn; now right]).
          * destruct (dget (j_id d) (st_map (u_state u))) as [jd|] eqn:Kd; [|elim (Kn d); [now left|assumption]]. eapply IH; [exact B|intros d' Q; apply Kn; now right].
          * destruct (fail_on_resource j); [discriminate|]. eapply IH; [exact B|intros d' Q; apply Kn; now right].
        + unfold record_result. cbn [log u_state u_backtrack]. destruct (Upd j (mk_result (Some o) (blocked_data j js)) (u_state u) (u_backtrack u) S Ij) as (s' & b' & ->). intros [= _ _ <-]. discriminate. }
    assert (Pass : forall todo u script u' script' st, standing deps_of holds (u_state u) -> incl todo (st_jobs (u_state u)) -> unique_ids todo -> (forall j, In j todo -> ~ decided (u_state u) (j_id j)) ->
      deps_done deps_of (u_state u) todo -> proper script -> run_pass deps_of holds records_of matching templates fail_on_resource blocked_data todo u script = (u', script', st) -> st <> Raised x).
    { induction todo as [|j todo IH]; intros u script u' script' st S Inc U Nd Dd P; cbn [run_pass]; [intros [= _ _ <-]; discriminate|].
      destruct (run_single_job _ _ _ _ _ _ _ j u script) as [[u1 script1] st1] eqn:E. assert (Ij : In j (st_jobs (u_state u))) by (apply Inc; now left).
      pose proof (One _ _ _ _ _ _ S Ij E) as N1.
      assert (Dj : deps_decided deps_of (u_state u) j) by (intros d D; destruct (Dd [] j todo eq_refl d D) as [H|[]]; exact H).
      pose proof (run_single_spec _ _ _ _ _ matching_known Anything any_ids _ _ _ _ _ _ _ _ S Ij (Nd j (or_introl eq_refl)) Dj P E) as (_ & _ & P1 & Ok & _).
      destruct (match st1 with Completed => true | _ => false end) eqn:Es.
      - destruct st1; try discriminate. destruct (Ok eq_refl) as (ev & r & _ & _ & S1 & Rc & Nr & _). inversion U as [|? ? Uj Ut]; subst. apply IH; try assumption.
        + intros y Iy. eapply recorded_jobs; [exact Rc|]. apply Inc. now right.
        + intros y Iy D. apply (Nd y (or_intror Iy)). eapply undecided_recorded; [exact Rc| |exact D|].
          * intros Ex. apply Uj. rewrite <- Ex. now apply in_map.
          * destruct S as [G _]. destruct (known_entry deps_of _ y G (Inc y (or_intror Iy))) as (jx & -> & _). discriminate.
        + intros before y after Et d D. destruct (Dd (j :: before) y after) with (d := d) as [H'|[<-|H']]; [now rewrite Et|assumption| | |].
          * left. eapply decided_recorded; eassumption.
          * left. eapply decided_now; eassumption.
          * now right.
      - intros H. assert (Eq : (u1, script1, st1) = (u', script', st)) by (destruct st1; try discriminate; exact H). injection Eq as _ _ <-. assumption. }
    induction fuel as [|fuel IH]; intros u u' script script' st O P; cbn [SessrunModel.run_all]; [intros [= _ _ <-]; discriminate|].
    apply in_order_standing in O. pose proof O as [G F]. pose proof G as (I0 & O0 & R0 & M0). destruct (unfinished_total deps_of _ _ G R0) as (todo & Et). rewrite Et. pose proof (unfinished_spec _ _ _ Et) as (H1 & H2 & H3 & H4).
    assert (A1 : incl todo (st_jobs (u_state (set_backtrack false u)))) by (intros y Iy; apply R0; now apply H1).
    assert (A2 : unique_ids todo) by (apply H3; apply I0).
    assert (A3 : forall j, In j todo -> ~ decided (u_state (set_backtrack false u)) (j_id j)) by (intros y Iy; now apply H1).
    assert (A4 : deps_done deps_of (u_state (set_backtrack false u)) todo).
    { intros before y after Ex d D. destruct (H4 before y after Ex) as (b' & a' & El & HB). pose proof (O0 b' y a' El d D) as Id. apply in_map_iff in Id as (z & <- & Iz).
      destruct (HB z Iz) as [H|H]; [now left|right; now apply in_map]. }
    destruct (run_pass _ _ _ _ _ _ _ todo (set_backtrack false u) script) as [[u1 script1] st1] eqn:E. assert (N1 : st1 <> Raised x) by (eapply (Pass todo (set_backtrack false u)); [exact O|exact A1|exact A2|exact A3|exact A4|exact P|exact E]).
    apply (run_pass_spec _ _ _ _ _ matching_known Anything any_ids) in E as (_ & _ & P1 & ev & tl & s1 & _ & _ & _ & _ & C); try assumption.
    destruct (match st1 with Completed => true | _ => false end) eqn:Es.
    - destruct st1; try discriminate. destruct (C eq_refl) as (_ & Es1 & S1 & _). destruct (u_backtrack u1); [|intros [= _ _ <-]; discriminate]. apply IH; [|assumption]. apply in_order_standing. now rewrite Es1.
    - intros H. assert (Eq : (u1, script1, st1) = (u', script', st)) by (destruct st1; try discriminate; exact H). injection Eq as _ _ <-. assumption.
  Qed.

  (** ** The whole program *)

  Lemma finish_events fuel u script u' st : in_order deps_of holds (u_state u) -> proper script -> run_and_finish fuel u script = (u', st) ->
    exists ev tl s1, chain (u_incomplete u) (u_submitted u) (u_state u) ev s1 /\
      ((st <> Completed /\ tail (u_incomplete u) (u_submitted u) s1 tl (u_state u') st /\ u_trace u' = u_trace u ++ ev ++ tl) \/
       (st = Completed /\ u_state u' = s1 /\ (forall j, In j (st_run s1) -> decided s1 (j_id j)) /\
        exists r, u_trace u' = u_trace u ++ ev ++ [Saved s1 r false (u_submitted u); Saved s1 r false true])).
  Proof.
    intros O P. apply in_order_standing in O. unfold SessrunModel.run_and_finish. destruct (run_all fuel u script) as [[u1 script1] st1] eqn:E.
    apply (run_all_spec _ _ _ _ _ matching_known Anything any_ids) in E as (_ & Fs & ev & tl & s1 & T & Ch & Tl & _ & C); [|assumption|assumption].
    destruct (match st1 with Completed => true | _ => false end) eqn:Es.
    - destruct st1; try discriminate. destruct (C eq_refl) as (-> & E1 & S & D & _). intros [= <- <-]. exists ev, [], s1. split; [assumption|]. right. split; [reflexivity|].
      cbn [checkpoint log set_flags u_state u_trace u_running u_submitted u_incomplete]. split; [assumption|]. split; [assumption|]. exists (u_running u1). rewrite T, E1, Fs, app_nil_r, <- !app_assoc. reflexivity.
    - intros H. assert (Eq : (u1, st1) = (u', st)) by (destruct st1; try discriminate; exact H). injection Eq as <- <-. exists ev, tl, s1. split; [assumption|]. left. split; [intros ->; discriminate|]. auto.
  Qed.

  (** Whatever is on the disk is either marked as incomplete, so that it is offered for
      resuming, or every selected job has an outcome in it. *)
  Theorem C57_incomplete_or_done : forall fuel s script u' st, reachable deps_of holds records_of s -> incl (st_mandatory s) (st_jobs s) -> proper script ->
    fresh_session fuel s script = (u', st) ->
    forall before after, u_trace u' = before ++ after -> before <> [] ->
      exists s0 r i b, on_disk before = Some (s0, r, i, b) /\ (i = true \/ forall j, In j (st_run s0) -> decided s0 (j_id j)).
  Proof.
    intros fuel s script u' st R M P H before after E Ne.
    assert (First : forall t, on_disk (Saved s None true false :: t) <> None) by (intros t; cbn [on_disk]; destruct (on_disk t); discriminate).
    assert (All : exists t, u_trace u' = Saved s None true false :: t /\ forall s0 r i b, In (Saved s0 r i b) t -> i = true \/ forall j, In j (st_run s0) -> decided s0 (j_id j)).
    { unfold SessrunModel.fresh_session in H. destruct (update_desired_job_list deps_of holds (matching (st_jobs s)) true s) as [[s1 [x|p]]|] eqn:U.
      - injection H as <- _. exists []. split; [reflexivity|intros ? ? ? ? []].
      - apply C57_selecting_gives_order in U; [|assumption|assumption|apply matching_known].
        apply finish_events in H as (ev & tl & s2 & Ch & H); [|exact U|assumption]. cbn [set_state checkpoint log u_trace u_incomplete u_submitted app] in *.
        destruct H as [(_ & Tl & T)|(_ & _ & D & r & T)]; rewrite T; eexists; (split; [reflexivity|]); intros s0 r0 i0 b0 Q; apply in_app_iff in Q as [Q|Q].
        + left. now apply (chain_flags _ _ _ _ _ _ _ _ _ _ _ _ _ _ Ch Q).
        + left. now apply (tail_flags _ _ _ _ _ _ _ _ _ _ _ _ _ _ _ Tl Q).
        + left. now apply (chain_flags _ _ _ _ _ _ _ _ _ _ _ _ _ _ Ch Q).
        + right. destruct Q as [Q|[Q|[]]]; injection Q as <- _ _ _; exact D.
      - injection H as <- _. exists []. split; [reflexivity|intros ? ? ? ? []]. }
    destruct All as (t & Et & All). rewrite Et in E. destruct before as [|e before]; [congruence|]. injection E as <- E.
    destruct (on_disk (Saved s None true false :: before)) as [[[[s0 r] i] b]|] eqn:D; [|now elim (First before)]. exists s0, r, i, b. split; [reflexivity|].
    apply on_disk_In in D. destruct D as [D|D]; [injection D as <- <- <- <-; now left|]. apply (All s0 r i b). rewrite E. apply in_app_iff. now left.
  Qed.

  (** A session that completes ends with two checkpoints, before and after its results are
      exported.  A crash between them leaves a session that is not incomplete and not
      submitted either: nothing offers to resume it. *)
  Theorem C57_export_is_retried_refuted : forall fuel s script u', reachable deps_of holds records_of s -> incl (st_mandatory s) (st_jobs s) -> proper script ->
    fresh_session fuel s script = (u', Completed) ->
    exists before r, u_trace u' = before ++ [Saved (u_state u') r false true] /\
      on_disk before = Some (u_state u', r, false, false) /\ forall j, In j (st_run (u_state u')) -> decided (u_state u') (j_id j).
  Proof.
    intros fuel s script u' R M P H. unfold SessrunModel.fresh_session in H. destruct (update_desired_job_list deps_of holds (matching (st_jobs s)) true s) as [[s1 [x|p]]|] eqn:U; [discriminate| |discriminate].
    apply C57_selecting_gives_order in U; [|assumption|assumption|apply matching_known].
    apply finish_events in H as (ev & tl & s2 & Ch & H); [|exact U|assumption]. destruct H as [(N & _)|(_ & Es & D & r & T)]; [congruence|].
    cbn [set_state checkpoint log u_trace u_incomplete u_submitted app u_state u_running] in T. rewrite Es. exists ((Saved s None true false :: ev) ++ [Saved s2 r false false]), r.
    split; [rewrite T, <- app_assoc; reflexivity|]. split; [apply on_disk_snoc|assumption].
  Qed.

  (** ** Resuming *)

  Lemma chain_saved i b s ev s1 k r s0 r0 i0 b0 : chain i b s ev s1 -> has_result s k r -> r_outcome r <> None -> In (Saved s0 r0 i0 b0) ev -> has_result s0 k r.
  Proof.
    induction 1 as [s|s j js r' s1 ev s2 C Cs N Rc Ch IH|s j js o s1 ev s2 C Cs B Rc Ch IH]; intros Hr Nr Q.
    - destruct Q.
    - assert (Hr1 : has_result s1 k r) by (eapply has_result_recorded; try eassumption; apply C). cbn [In] in Q.
      repeat (destruct Q as [Q|Q]; [try discriminate; injection Q as <- _ _ _; exact Hr|]). auto.
    - assert (Hr1 : has_result s1 k r) by (eapply has_result_recorded; try eassumption; apply C). cbn [In] in Q. do 2 (destruct Q as [Q|Q]; [discriminate|]). auto.
  Qed.
  Lemma tail_saved i b s tl s1 st s0 r0 i0 b0 : tail i b s tl s1 st -> In (Saved s0 r0 i0 b0) tl -> s0 = s.
  Proof.
    intros [x H1 H2 H3|j js x C Cs B|j js o s' x C Cs B Rc|j js x C Cs Hx|j js r s' x C Cs N Rc]; cbn [In]; intros Q; repeat (destruct Q as [Q|Q]; [try discriminate; injection Q as <- _ _ _; reflexivity|]); destruct Q.
  Qed.

  Variable decision_data : decision -> rdata.
  Definition settled (d : decision) : option outcome := match d with Skip_it => Some OSkip | Pass_it => Some OPass | Fail_it => Some OFail | Run_it => None end.

  (** If the user settles the job that was running when the session was interrupted, then the
      job has the outcome that they chose, everything that is saved from then on has it, and
      the job is not started again. *)
  Theorem C57_settling_the_last_job : forall fuel s k js d o script u' st, in_order deps_of holds s -> proper script -> dget k (st_map s) = Some js -> settled d = Some o ->
    resumed_session decision_data fuel s (Some k) d script = (u', st) ->
    outcome_of (u_state u') k = Some (Some o) /\ ~ In k (started (u_trace u')) /\
    forall s0 r i b, In (Saved s0 r i b) (u_trace u') -> outcome_of s0 k = Some (Some o).
  Proof.
    intros fuel s k js d o script u' st O P K D H. pose proof O as S. apply in_order_standing in S. pose proof S as [G F]. destruct (Inv_entry s k js ltac:(apply G) K) as [Ij Ek].
    assert (Out : forall s r, has_result s k r -> outcome_of s k = Some (r_outcome r)) by (intros s0 r (j0 & K0 & <-); unfold outcome_of; now rewrite K0).
    set (u0 := mk_run s (Some k) true false false []) in *. set (r := mk_result (Some o) (decision_data d)).
    assert (L : last_job deps_of holds records_of matching templates decision_data d u0 =
      match record_result deps_of holds records_of matching templates (js_job js) r u0 with (u1, None) => (checkpoint (set_running None u1), None) | r => r end).
    { unfold last_job. cbn [u0 u_running u_state]. rewrite K. unfold r. destruct d; cbn [settled] in D; try discriminate; injection D as <-; reflexivity. }
    unfold SessrunModel.resumed_session in H. fold u0 in H. rewrite L in H. unfold record_result in H. cbn [u0 u_state u_backtrack] in H.
    destruct (update_job_result_n deps_of holds records_of matching templates (js_job js) r s false) as [[s1 b1] x] eqn:U.
    apply (update_recorded _ _ _ _ _ matching_known Anything any_ids) in U as (Rc & _ & Fr); [|assumption|assumption].
    assert (Hr : has_result s1 k r) by (rewrite <- Ek; apply Rc). assert (Nr : r_outcome r <> None) by discriminate. destruct x as [x|].
    - injection H as <- <-. cbn [set_backtrack set_state u_state u_trace u0 started]. split; [now apply (Out s1 r)|]. split; [intros []|intros ? ? ? ? []].
    - assert (O1 : in_order deps_of holds s1) by (apply in_order_standing; split; [apply Rc|auto]).
      apply finish_events in H as (ev & tl & s2 & Ch & H); [|exact O1|assumption]. cbn [checkpoint set_running log set_backtrack set_state u_state u_trace u_running u_incomplete u_submitted u0 app] in *.
      pose proof (chain_kept _ _ _ _ _ _ _ _ _ _ Ch) as (_ & _ & Kr & _). pose proof (Kr k r Hr Nr) as Hr2.
      assert (Dk : decided s1 k) by (exists o; now apply (Out s1 r)).
      destruct H as [(_ & Tl & T)|(_ & Es & _ & ru & T)]; rewrite T.
      + pose proof (tail_kept _ _ _ _ _ _ _ _ _ _ _ Tl) as (_ & _ & Kr'). split; [apply (Out _ r); now apply Kr'|]. split.
        * cbn [started]. intros Q. destruct (whole_handled _ _ _ _ _ _ _ _ _ _ _ _ _ Ch Tl) as (_ & _ & Hd & Hi). now apply (Hd k (Hi _ Q)).
        * intros s0 r0 i0 b0 Q. destruct Q as [Q|[Q|Q]]; [discriminate|injection Q as <- _ _ _; now apply (Out s1 r)|]. apply in_app_iff in Q as [Q|Q]; [apply (Out _ r); eapply chain_saved; eassumption|].
          apply (tail_saved _ _ _ _ _ _ _ _ _ _ Tl) in Q. subst s0. now apply (Out _ r).
      + rewrite Es. split; [now apply (Out _ r)|]. split.
        * cbn [started]. rewrite started_app. cbn [started]. rewrite app_nil_r. intros Q. destruct (chain_handled _ _ _ _ _ _ _ _ _ _ Ch) as (_ & _ & Hd & Hi). now apply (Hd k (Hi _ Q)).
        * intros s0 r0 i0 b0 Q. destruct Q as [Q|[Q|Q]]; [discriminate|injection Q as <- _ _ _; now apply (Out s1 r)|]. apply in_app_iff in Q as [Q|[Q|[Q|[]]]]; [apply (Out _ r); eapply chain_saved; eassumption| |]; injection Q as <- _ _ _; now apply (Out _ r).
  Qed.

  (** ** How much is done *)
  Variable duration : job -> option Q.
  Notation completion_ratio := (completion_ratio duration).

  Lemma tally_range m l : (forall j q, duration j = Some q -> 0 <= q)%Q -> forall t d dt rel t' d' dt' rel', tally duration m l (t, d, dt, rel) = inr (t', d', dt', rel') ->
    (0 <= dt <= t)%Q -> (0 <= dt' <= t')%Q /\ d' <= d + length l.
  Proof.
    intros Pos. induction l as [|j l IH]; intros t d dt rel t' d' dt' rel'; cbn [tally].
    - intros [= <- <- <- <-] H. split; [assumption|lia].
    - destruct (duration j) as [q|] eqn:E.
      + specialize (Pos j q E). destruct (dget (j_id j) m) as [js|]; [|discriminate]. destruct (r_outcome (js_result js)); intros H R; apply IH in H as [H1 H2]; try (split; [assumption|cbn [length]; lia]); split; lra.
      + intros H R. apply IH in H as [H1 H2]; [|assumption]. split; [assumption|cbn [length]; lia].
  Qed.
  Lemma tally_full s l : (forall j, In j l -> decided s (j_id j) /\ exists q, duration j = Some q /\ (0 < q)%Q) -> forall t d dt rel,
    exists t' d' dt', tally duration (st_map s) l (t, d, dt, rel) = inr (t', d', dt', rel) /\ (dt' - dt == t' - t)%Q /\ (t <= t')%Q /\ (l <> [] -> (t < t')%Q).
  Proof.
    induction l as [|j l IH]; intros H t d dt rel; cbn [tally].
    - exists t, d, dt. split; [reflexivity|]. split; [ring|]. split; [lra|congruence].
    - destruct (H j (or_introl eq_refl)) as ((o & D) & q & -> & Pq). unfold outcome_of in D. destruct (dget (j_id j) (st_map s)) as [js|]; [|discriminate]. cbn [option_map] in D. injection D as ->.
      destruct (IH (fun x Ix => H x (or_intror Ix)) (t + q)%Q (S d) (dt + q)%Q rel) as (t' & d' & dt' & E & H1 & H2 & H3). exists t', d', dt'. split; [exact E|]. split; [lra|]. split; [lra|]. intros _. lra.
  Qed.

  (** The ratio is between 0 and 1. *)
  Theorem C57_completion_ratio_range : (forall j q, duration j = Some q -> 0 <= q)%Q -> forall s q, completion_ratio s = inr q -> (0 <= q <= 1)%Q.
  Proof.
    intros Pos s q. unfold SessrunModel.completion_ratio. destruct (tally _ _ _ _) as [x|[[[t d] dt] rel]] eqn:E; [discriminate|].
    apply tally_range in E as [R L]; [|assumption|lra]. destruct rel; intros [= <-].
    - destruct (Qeq_bool t 0) eqn:Z; [lra|]. apply Qeq_bool_neq in Z. assert (Pt : (0 < t)%Q) by lra. split.
      + apply Qle_shift_div_l; [assumption|lra].
      + apply Qle_shift_div_r; [assumption|lra].
    - destruct (st_run s) as [|j l]; [lra|]. set (n := length (j :: l)) in *. assert (Hn : (0 < inject_Z (Z.of_nat n))%Q) by (unfold n; cbn [length]; change 0%Q with (inject_Z 0); rewrite <- Zlt_Qlt; lia).
      cbn [Nat.add] in L. split.
      + apply Qle_shift_div_l; [assumption|]. rewrite Qmult_0_l. change 0%Q with (inject_Z 0). rewrite <- Zle_Qle. lia.
      + apply Qle_shift_div_r; [assumption|]. rewrite Qmult_1_l, <- Zle_Qle. lia.
  Qed.

  (** It is 1 when all jobs have an outcome and all of them have an estimated duration. *)
  Theorem C57_completion_ratio_full : forall s, st_run s <> [] -> (forall j, In j (st_run s) -> decided s (j_id j) /\ exists q, duration j = Some q /\ (0 < q)%Q) ->
    exists q, completion_ratio s = inr q /\ (q == 1)%Q.
  Proof.
    intros s Ne H. unfold SessrunModel.completion_ratio. destruct (tally_full s (st_run s) H 0%Q O 0%Q true) as (t & d & dt & -> & E & _ & Pt). specialize (Pt Ne).
    destruct (Qeq_bool t 0) eqn:Z; [apply Qeq_bool_iff in Z; lra|]. eexists. split; [reflexivity|]. assert (dt == t)%Q as -> by lra. field. lra.
  Qed.
End Run.
Print Assumptions C57_selecting_gives_order.
Print Assumptions C57_every_job_gets_an_outcome.
Print Assumptions C57_no_job_runs_twice.
Print Assumptions C57_results_are_kept.
Print Assumptions C57_dependencies_come_first.
Print Assumptions C57_starts_only_when_ready.
Print Assumptions C57_blocked_for_a_reason.
Print Assumptions C57_outcome_of_blocked_jobs.
Print Assumptions C57_running_job_is_on_disk.
Print Assumptions C57_earlier_results_are_on_disk.
Print Assumptions C57_result_is_saved_at_once_refuted.
Print Assumptions C57_the_run_ends.
Print Assumptions C57_no_errors_without_templates.
Print Assumptions C57_incomplete_or_done.
Print Assumptions C57_export_is_retried_refuted.
Print Assumptions C57_settling_the_last_job.
Print Assumptions C57_completion_ratio_range.
Print Assumptions C57_completion_ratio_full.

(** The sessions that are offered for resuming are those of this application with this title
    that are marked as incomplete. *)
Theorem C57_offered_sessions : forall title l n,
  In n (candidates title l) <-> In (n, Meta (Some "plainbox") (Some title) true) l.
Proof.
  intros title l n. unfold candidates. rewrite in_flat_map. split.
  - intros ([n' m] & I' & H). cbn [fst snd] in H. destruct m as [| |[a|] [t|] [|]]; try destruct H.
    destruct (String.eqb_spec a "plainbox") as [->|]; [|destruct H]. destruct (String.eqb_spec t title) as [->|]; [|destruct H]. destruct H as [<-|[]]. exact I'.
  - intros H. eexists. split; [exact H|]. cbn [fst snd]. rewrite !String.eqb_refl. now left.
Qed.
Print Assumptions C57_offered_sessions.

(** * A case *)

Definition ex_dep_dec (a b : dep_type * name) : {a = b} + {a <> b}.
Proof. decide equality; [apply string_dec | decide equality]. Defined.
Definition ex_deps (j : job) := nodup ex_dep_dec (get_dependency_set j).
Example ex_deps_enumerates : enumerates ex_deps.
Proof. intros j. split; [apply NoDup_nodup | intros d; apply nodup_In]. Qed.
(** The command line selects these jobs; the last one does not exist yet. *)
Definition ex_matching (l : list job) : list job := filter (fun j => existsb (String.eqb (j_id j)) ["app"; "x"; "more"]) l.
(** The resource job makes another job. *)
Definition ex_more := mk_job "more" "s8" 8 "shell" ["log"] [] NoProg.
Definition ex_templates (j : job) (r : result) (s : state) : list jtree := if String.eqb (j_id j) "pkg" then [JTree ex_more []] else [].
Definition ex_blocked (j : job) (js : jstate) : rdata := no_data.
Definition ex_script := [Finished (plain OPass); Finished (noted OPass "q"); Finished (plain OFail); Finished (plain OPass)].
Definition ex_fresh := fresh_session ex_deps ex_eval ex_records ex_matching ex_templates (fun _ => false) ex_blocked 10 ex_session ex_script.

Example ex_matching_known : forall l, incl (ex_matching l) l.
Proof. intros l j H. now apply filter_In in H. Qed.
Example ex_fresh_reachable : reachable ex_deps ex_eval ex_records ex_session /\ incl (st_mandatory ex_session) (st_jobs ex_session) /\ proper ex_script.
Proof.
  split; [apply (reach_init _ _ _ ex_jobs); reflexivity|]. split; [intros j []|]. intros r H. repeat (destruct H as [H|H]; [injection H as <-; discriminate|]). destruct H.
Qed.
(** Four jobs are started.  The job that was made on the way could not start, because a job
    that it needs has failed. *)
Example ex_fresh_events : snd ex_fresh = Completed /\ started (u_trace (fst ex_fresh)) = ["lib"; "pkg"; "log"; "app"] /\
  handled (u_trace (fst ex_fresh)) = ["lib"; "pkg"; "log"; "app"; "more"] /\
  map (fun j => (j_id j, outcome_of (u_state (fst ex_fresh)) (j_id j))) (st_run (u_state (fst ex_fresh))) =
    [("lib", Some (Some OPass)); ("pkg", Some (Some OPass)); ("log", Some (Some OFail)); ("app", Some (Some OPass)); ("more", Some (Some ONotSupported))].
Proof. vm_compute. auto. Qed.
(** The session in good order in which the run of all jobs begins. *)
Example ex_order : exists s p, update_desired_job_list ex_deps ex_eval (ex_matching (st_jobs ex_session)) true ex_session = Some (s, inr p) /\
  in_order ex_deps ex_eval s /\ map j_id (st_run s) = ["lib"; "pkg"; "log"; "app"].
Proof.
  destruct (update_desired_job_list ex_deps ex_eval (ex_matching (st_jobs ex_session)) true ex_session) as [[s [x|p]]|] eqn:E; [exfalso; vm_compute in E; discriminate| |exfalso; vm_compute in E; discriminate].
  exists s, p. split; [reflexivity|]. split.
  - eapply C57_selecting_gives_order; [apply ex_fresh_reachable|intros j []|apply ex_matching_known|exact E].
  - assert (Q : option_map (fun r => map j_id (st_run (fst r))) (Some (s, @inr exn _ p)) = Some ["lib"; "pkg"; "log"; "app"]) by (rewrite <- E; vm_compute; reflexivity). now injection Q.
Qed.

(** The machine goes down while the third job is running.  What is on the disk names the job;
    the user says that it passed, and the rest is run. *)
Definition ex_crashed := fst (fresh_session ex_deps ex_eval ex_records ex_matching ex_templates (fun _ => false) ex_blocked 10 ex_session [Finished (plain OPass); Finished (noted OPass "q")]).
Definition ex_saved : state := match on_disk (u_trace ex_crashed) with Some (s, _, _, _) => s | None => ex_session end.
Definition ex_resumed := resumed_session ex_deps ex_eval ex_records ex_matching ex_templates (fun _ => false) ex_blocked (fun _ => no_data) 10 ex_saved (Some "log") Pass_it
  [Finished (plain OPass); Finished (plain OFail)].
Example ex_crash : on_disk (u_trace ex_crashed) = Some (ex_saved, Some "log", true, false) /\ option_map j_id (running_now (u_trace ex_crashed)) = Some "log" /\
  snd ex_resumed = Completed /\ started (u_trace (fst ex_resumed)) = ["app"; "more"] /\
  map (fun k => outcome_of (u_state (fst ex_resumed)) k) ["lib"; "log"; "app"; "more"] = [Some (Some OPass); Some (Some OPass); Some (Some OPass); Some (Some OFail)].
Proof. vm_compute. auto. Qed.

(** All jobs have an outcome but the ratio is 0, if no job has an estimated duration. *)
Theorem C57_finished_session_is_complete_refuted : exists duration s, st_run s <> [] /\ (forall j, In j (st_run s) -> decided s (j_id j)) /\ exists q, completion_ratio duration s = inr q /\ (q == 0)%Q.
Proof.
  exists (fun _ => None), (u_state (fst ex_fresh)). split; [vm_compute; discriminate|]. split; [|eexists; split; [vm_compute; reflexivity|reflexivity]].
  intros j H. vm_compute in H. repeat (destruct H as [<-|H]; [eexists; vm_compute; reflexivity|]). destruct H.
Qed.
Print Assumptions C57_finished_session_is_complete_refuted.
Example C57_ratio_case : completion_ratio (fun j => if String.eqb (j_id j) "log" then Some 3%Q else Some 1%Q) ex_saved = inr (2 # 7)%Q /\
  exists q, completion_ratio (fun j => Some 1%Q) (u_state (fst ex_fresh)) = inr q /\ (q == 1)%Q.
Proof. split; [vm_compute; reflexivity|]. eexists. split; [vm_compute; reflexivity|reflexivity]. Qed.
