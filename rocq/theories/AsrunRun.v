(** C69: running jobs and resuming with the session assistant *)
From Coq Require Import String List Bool ZArith Arith Lia.
From Verif Require Import Base BaseFacts JobModel SolverModel SolverSpec SolverProofs SessionModel SessionSpec SessionProofs HistoryProofs SessionProps ResumeRestore
  SessrunModel SessrunSpec SessrunProofs SessrunProps QualModel AsrunModel AsrunSpec AsrunProps.
Import ListNotations.
Open Scope string_scope.
Open Scope list_scope.

Lemma core_parts a b : core a = core b -> js_job a = js_job b /\ js_result a = js_result b /\ js_history a = js_history b.
Proof. unfold core. intros H. repeat split; congruence. Qed.
Lemma step_nodup s : in_step s -> NoDup (dkeys (st_map s)).
Proof.
  intros [U M]. apply (f_equal (map fst)) in M. rewrite !map_map in M. cbn [fst] in M. change (NoDup (map (fun x : name * jstate => fst x) (st_map s))). rewrite M. exact U.
Qed.
Lemma step_entry s k js : in_step s -> dget k (st_map s) = Some js -> In (js_job js) (st_jobs s) /\ j_id (js_job js) = k.
Proof.
  intros [U M] H. apply dget_In in H. apply (in_map (fun kv => (fst kv, js_job (snd kv)))) in H. rewrite M in H. cbn in H. apply in_map_iff in H as (j & E & I). injection E as <- <-. auto.
Qed.
Lemma step_known s j : in_step s -> In j (st_jobs s) -> exists js, dget (j_id j) (st_map s) = Some js /\ js_job js = j.
Proof.
  intros S I. pose proof S as [U M]. apply (in_map (fun j => (j_id j, j))) in I. rewrite <- M in I. apply in_map_iff in I as ([k js] & E & I). injection E as <- <-.
  exists js. split; [|reflexivity]. apply In_dget; [now apply step_nodup|exact I].
Qed.

Section Run.
  Variable deps_of : job -> list (dep_type * name).
  Variable eval_expr : expr -> list (list resource) -> bool.
  Variable records_of : result -> list resource.
  Variable templates : job -> result -> state -> list jtree.
  Variable fail_on_resource autorestart noreturn : job -> bool.
  Variable auto_retry : bool.
  Variable blocked_data : job -> jstate -> rdata.
  Variable restarted_data : job -> rdata.
  Notation run_job := (run_job fail_on_resource blocked_data).
  Notation use_job_result := (use_job_result eval_expr records_of templates auto_retry).
  Notation resume_session := (resume_session eval_expr records_of templates autorestart noreturn restarted_data).
  Notation boot := (boot eval_expr records_of templates fail_on_resource auto_retry blocked_data).
  Notation bootstrap := (bootstrap deps_of eval_expr records_of templates fail_on_resource auto_retry blocked_data).
  Notation listed := (listed deps_of).

  (** ** Recording a result *)
  Lemma step_frame S S' : frame S S' -> in_step S -> in_step S'.
  Proof. intros (H1 & _ & _ & _ & _ & _ & H7) [U M]. split; rewrite H1; [exact U|]. pose proof (em_jobmap _ _ H7) as E. unfold jobmap in E. now rewrite E. Qed.
  Lemma step_added S j : dget (j_id j) (st_map S) = None -> in_step S -> in_step (added j S).
  Proof.
    intros Hn [U M]. pose proof Hn as Hnk. apply dget_None in Hnk. pose proof (inv_keys _ M) as Hk. split; simpl.
    - unfold unique_ids. rewrite map_app. simpl. apply NoDup_app_snoc; [exact U|]. now rewrite <- Hk.
    - rewrite dset_new by auto. rewrite !map_app. simpl. f_equal. exact M.
  Qed.
  Lemma step_dset S k js js' : dget k (st_map S) = Some js -> js_job js' = js_job js -> in_step S -> in_step (with_map (dset k js' (st_map S)) S).
  Proof. intros Hg Hj [U M]. split; simpl; [exact U|]. rewrite dset_map, Hj. rewrite dset_id; [exact M|]. rewrite dget_map, Hg. reflexivity. Qed.
  Definition grown (A S : state) : Prop :=
    (in_step A -> in_step S) /\ (exists l, st_jobs S = st_jobs A ++ l) /\ st_run S = st_run A /\ st_desired S = st_desired A /\ st_mandatory S = st_mandatory A /\
    (forall k js, dget k (st_map A) = Some js -> exists js', dget k (st_map S) = Some js' /\ core js' = core js) /\
    (forall k js, dget k (st_map S) = Some js -> dget k (st_map A) = None -> fresh js).
  Lemma grown_refl A : grown A A.
  Proof. split; [trivial|]. split; [exists []; now rewrite app_nil_r|]. repeat split; eauto; congruence. Qed.
  Lemma grown_frame A S S' : frame S S' -> grown A S -> grown A S'.
  Proof.
    intros F (IS & (l & J) & R & D & M & O & N). split; [intros ISA; eapply step_frame; eauto|]. pose proof (ext_frame _ _ F) as [X1 X2 _]. destruct F as (F1 & _ & F3 & F4 & F5 & _ & E). split; [exists l; congruence|]. split; [congruence|]. split; [congruence|]. split; [congruence|]. split.
    - intros k js K. destruct (O k js K) as (j1 & K1 & C1). destruct (X1 k j1 K1) as (j2 & K2 & C2). exists j2. split; [exact K2|congruence].
    - intros k js K Z. destruct (dget k (st_map S)) as [j1|] eqn:K1; [|now apply (X2 k)]. destruct (X1 k j1 K1) as (j2 & K2 & C2). assert (j2 = js) as -> by congruence. destruct (N k j1 K1 Z) as [N1 N2].
      apply core_parts in C2 as (_ & E1 & E2). split; congruence.
  Qed.
  Lemma grown_added A S j : dget (j_id j) (st_map S) = None -> grown A S -> grown A (added j S).
  Proof.
    intros Hn (IS & (l & J) & R & D & M & O & N). split; [intros ISA; apply step_added; auto|]. split; [exists (l ++ [j]); cbn; rewrite J; now rewrite app_assoc|]. do 3 (split; [assumption|]). cbn. split.
    - intros k js K. destruct (O k js K) as (j1 & K1 & C1). exists j1. rewrite dget_dset. destruct (String.eqb_spec k (j_id j)); [congruence|auto].
    - intros k js. rewrite dget_dset. destruct (String.eqb_spec k (j_id j)); [intros [= <-] _; split; reflexivity|eauto].
  Qed.
  Lemma grown_via A S k js v : dget k (st_map S) = Some js -> grown A S -> grown A (with_map (dset k (set_via v js) (st_map S)) S).
  Proof.
    intros K (IS & J & R & D & M & O & N). split; [intros ISA; apply (step_dset S k js); auto|]. do 4 (split; [assumption|]). cbn. split.
    - intros k1 j1 K1. destruct (O k1 j1 K1) as (j2 & K2 & C2). rewrite dget_dset. destruct (String.eqb_spec k1 k); [|eauto]. subst k1. eexists. split; [reflexivity|]. assert (j2 = js) as <- by congruence. exact C2.
    - intros k1 j1. rewrite dget_dset. destruct (String.eqb_spec k1 k); [|eauto]. subst k1. intros [= <-] Z. exact (N k js K Z).
  Qed.
  Lemma update_only j r g s s' x k js : in_step s -> dget k (st_map s) = Some js -> j = js_job js -> update_job_result eval_expr records_of j r g s = (s', x) -> in_step s' /\ only_result k r s s'.
  Proof.
    intros IS K -> U. destruct (step_entry s k js IS K) as [_ EK]. set (j := js_job js) in *.
    assert (G : grown (with_map (dset k (set_result r js) (st_map s)) s) s').
    { unfold update_job_result, observe_result in U. rewrite EK, K in U. set (s1 := with_map (dset k (set_result r js) (st_map s)) s) in *.
      assert (O : grown s1 (fst (if String.eqb (j_plugin j) "resource" then match r_outcome r with None => (parse_and_store_resource records_of j r s1, None) | Some _ => add_generated eval_expr j g (parse_and_store_resource records_of j r s1) end else (s1, None)))).
      { destruct (String.eqb (j_plugin j) "resource"); [|apply grown_refl]. assert (P : grown s1 (parse_and_store_resource records_of j r s1)) by (unfold parse_and_store_resource; destruct (r_outcome r); [exact (grown_refl s1)|apply grown_refl]).
        destruct (r_outcome r); [|exact P]. apply (Q_add_generated eval_expr (grown s1)); [intros; eapply grown_frame; eassumption|intros; now apply grown_added|intros; now apply grown_via|exact P]. }
      destruct (if String.eqb (j_plugin j) "resource" then _ else _) as [s2 [e|]] in U, O; cbn [fst] in O; [now injection U as <- _|].
      pose proof (recompute_frame eval_expr s2) as F. rewrite U in F. eapply grown_frame; eassumption. }
    destruct G as (G & J & R & D & M & O & N). split; [apply G; apply (step_dset s k js); [exact K|apply set_result_job|exact IS]|]. cbn [with_map st_jobs st_run st_desired st_mandatory st_map] in *. split; [|split; [|split; [|repeat split; assumption]]].
    - destruct (O k (set_result r js)) as (j1 & K1 & C1); [apply dget_dset_same|]. exists j1. split; [exact K1|]. apply core_parts in C1 as (_ & -> & _). apply set_result_result.
    - intros k' js' K'. destruct (String.eqb_spec k' k) as [->|NE].
      + destruct (O k (set_result r js)) as (j1 & K1 & C1); [apply dget_dset_same|]. exists j1. split; [exact K1|]. apply core_parts in C1 as (E1 & _). split; [|congruence]. rewrite E1, set_result_job. congruence.
      + destruct (O k' js') as (j1 & K1 & C1); [now rewrite dget_dset_other|]. apply core_parts in C1 as (E1 & E2 & E3). eauto 6.
    - intros k' js' K' Z. apply (N k' js' K'). rewrite dget_dset. destruct (String.eqb_spec k' k); congruence.
  Qed.

  (** Recording a result gives one job that result, and it is saved; the list of jobs
      stays as it is, even when the result makes new jobs *)
  Theorem C69_recording_a_result k r a a' x : in_step (a_state a) -> dget k (st_map (a_state a)) <> None -> use_job_result k r a = (a', x) ->
    in_step (a_state a') /\ only_result k r (a_state a) (a_state a') /\ get_static_todo_list a' = get_static_todo_list a /\ a_plans a' = a_plans a /\ a_running a' = a_running a /\
    (x = None -> exists d, a_disk a' = Some d /\ d_state d = a_state a' /\ d_incomplete d = a_incomplete a) /\ (x <> None -> a_disk a' = a_disk a).
  Proof.
    intros IS NK. unfold AsrunModel.use_job_result, record, andthen. destruct (dget k (st_map (a_state a))) as [js|] eqn:K; [|congruence].
    destruct (update_job_result eval_expr records_of (js_job js) r (templates (js_job js) r (a_state a)) (a_state a)) as [s [e|]] eqn:U; pose proof (update_only _ _ _ _ _ _ k js IS K eq_refl U) as [IS' O].
    - intros [= <- <-]. cbn. split; [exact IS'|]. split; [exact O|]. destruct O as (O1 & O2 & O3 & O4 & O5 & O6 & O7). unfold get_static_todo_list. cbn. rewrite O5. repeat split; congruence.
    - cbn [put_state a_state]. pose proof O as ((jk & K1 & R1) & O2 & O3 & O4 & O5 & O6 & O7). destruct auto_retry.
      + rewrite K1. intros [= <- <-]. unfold get_static_todo_list. cbn. rewrite O5. split; [apply (step_dset s k jk); [exact K1|reflexivity|exact IS']|]. split; [|repeat split; eauto; congruence]. split; [|split; [|split; [|auto]]].
        * eexists. cbn. rewrite dget_dset_same. split; [reflexivity|exact R1].
        * intros k' j' K'. cbn. destruct (O2 k' j' K') as (j2 & K2 & J2 & H2). rewrite dget_dset. destruct (String.eqb_spec k' k); [|eauto]. subst k'. assert (j2 = jk) as -> by congruence. eexists. split; [reflexivity|]. cbn. split; [exact J2|congruence].
        * intros k' j' K' Z. cbn in K'. rewrite dget_dset in K'. destruct (String.eqb_spec k' k); [congruence|eauto].
      + intros [= <- <-]. unfold get_static_todo_list. cbn. rewrite O5. split; [exact IS'|]. split; [exact O|]. repeat split; eauto; congruence.
  Qed.

  (** ** Attempts *)
  Definition tries_kept (A S : state) : Prop := forall k js, dget k (st_map A) = Some js -> exists js', dget k (st_map S) = Some js' /\ js_attempts js' = js_attempts js.
  Lemma tries_refl A : tries_kept A A.
  Proof. intros k js K. eauto. Qed.
  Lemma tries_frame A S S' : frame S S' -> tries_kept A S -> tries_kept A S'.
  Proof.
    intros (_ & _ & _ & _ & _ & _ & E) H k js K. destruct (H k js K) as (j1 & K1 & C1). pose proof (em_dget S S' k E) as G. rewrite K1 in G.
    destruct (dget k (st_map S')) as [j2|]; [|discriminate]. cbn in G. exists j2. split; [reflexivity|]. injection G as G1 G2 G3 G4 G5. congruence.
  Qed.
  Lemma tries_added A S j : dget (j_id j) (st_map S) = None -> tries_kept A S -> tries_kept A (added j S).
  Proof. intros Hn H k js K. destruct (H k js K) as (j1 & K1 & C1). exists j1. cbn. rewrite dget_dset. destruct (String.eqb_spec k (j_id j)); [congruence|auto]. Qed.
  Lemma tries_via A S k js v : dget k (st_map S) = Some js -> tries_kept A S -> tries_kept A (with_map (dset k (set_via v js) (st_map S)) S).
  Proof.
    intros K H k1 j1 K1. destruct (H k1 j1 K1) as (j2 & K2 & C2). cbn. rewrite dget_dset. destruct (String.eqb_spec k1 k); [|eauto]. subst k1. eexists. split; [reflexivity|]. assert (j2 = js) as <- by congruence. exact C2.
  Qed.
  Lemma update_tries j r g s s' x : update_job_result eval_expr records_of j r g s = (s', x) -> tries_kept s s'.
  Proof.
    unfold update_job_result, observe_result. destruct (dget (j_id j) (st_map s)) as [js|] eqn:K; [|intros [= <- <-]; apply tries_refl]. set (s1 := with_map (dset (j_id j) (set_result r js) (st_map s)) s). intros U.
    assert (S1 : tries_kept s s1).
    { intros k1 j1 K1. unfold s1. cbn. rewrite dget_dset. destruct (String.eqb_spec k1 (j_id j)); [|eauto]. subst k1. eexists. split; [reflexivity|]. assert (j1 = js) as -> by congruence. unfold set_result. now destruct (result_eqb r (js_result js)). }
    assert (O : tries_kept s (fst (if String.eqb (j_plugin j) "resource" then match r_outcome r with None => (parse_and_store_resource records_of j r s1, None) | Some _ => add_generated eval_expr j g (parse_and_store_resource records_of j r s1) end else (s1, None)))).
    { destruct (String.eqb (j_plugin j) "resource"); [|exact S1]. assert (P : tries_kept s (parse_and_store_resource records_of j r s1)) by (unfold parse_and_store_resource; destruct (r_outcome r); exact S1).
      destruct (r_outcome r); [|exact P]. apply (Q_add_generated eval_expr (tries_kept s)); [intros; eapply tries_frame; eassumption|intros; now apply tries_added|intros; now apply tries_via|exact P]. }
    destruct (if String.eqb (j_plugin j) "resource" then _ else _) as [s2 [e|]] in U, O; cbn [fst] in O; [now injection U as <- _|].
    pose proof (recompute_frame eval_expr s2) as F. rewrite U in F. eapply tries_frame; eassumption.
  Qed.
  (** With automatic retries, recording a result of a job uses up one of its attempts and
      none of other jobs; without them attempts stay as they are *)
  Theorem C69_attempts_are_used k r a a' k' js : use_job_result k r a = (a', None) -> dget k' (st_map (a_state a)) = Some js ->
    exists js', dget k' (st_map (a_state a')) = Some js' /\ js_attempts js' = (js_attempts js - (if (auto_retry && String.eqb k' k)%bool then 1 else 0))%Z.
  Proof.
    unfold AsrunModel.use_job_result, record, andthen. intros U K'. destruct (dget k (st_map (a_state a))) as [jk|] eqn:K; [|discriminate].
    destruct (update_job_result eval_expr records_of (js_job jk) r (templates (js_job jk) r (a_state a)) (a_state a)) as [s [e|]] eqn:UJ; [discriminate|].
    pose proof (update_tries _ _ _ _ _ _ UJ) as TK. destruct (TK k' js K') as (j2 & K2 & A2). cbn [put_state a_state] in U. destruct auto_retry.
    - destruct (dget k (st_map s)) as [j3|] eqn:K3; [|discriminate]. injection U as <-. cbn. rewrite dget_dset. destruct (String.eqb_spec k' k) as [->|NE].
      + eexists. split; [reflexivity|]. assert (j3 = j2) as -> by congruence. cbn. now rewrite A2.
      + exists j2. split; [exact K2|]. lia.
    - injection U as <-. cbn. exists j2. split; [exact K2|]. lia.
  Qed.
  (** An application that runs jobs and records results, and how often it ran one of them *)
  Inductive tried (k : name) : Z -> asst -> asst -> Prop :=
  | Tried_nil a : tried k 0 a a
  | Tried_ran ends a a1 x r a2 n a3 : run_job k ends a = (a1, Ran x) -> use_job_result k r a1 = (a2, None) -> tried k n a2 a3 -> tried k (1 + n) a a3
  | Tried_blocked ends a a1 x r a2 n a3 : run_job k ends a = (a1, Blocked x) -> use_job_result k r a1 = (a2, None) -> tried k n a2 a3 -> tried k n a a3
  | Tried_other k' ends a a1 y r a2 n a3 : k' <> k -> run_job k' ends a = (a1, y) -> use_job_result k' r a1 = (a2, None) -> tried k n a2 a3 -> tried k n a a3.
  (** With automatic retries no job runs more often than it has attempts *)
  Theorem C69_attempts_bound_runs k n a a' js : auto_retry = true -> tried k n a a' -> dget k (st_map (a_state a)) = Some js ->
    (n <= Z.max 0 (js_attempts js))%Z.
  Proof.
    assert (FR : forall k ends a a' y, run_job k ends a = (a', y) -> a_state a' = a_state a).
    { intros k0 ends a0 a1 y. unfold AsrunModel.run_job. destruct (dget k0 (st_map (a_state a0))) as [j|]; [|intros [= <- <-]; auto]. destruct (can_start j); [destruct ends; intros [= <- <-]; auto|].
      destruct (blocked_outcome _ _ _ _); intros [= <- <-]; auto. }
    intros AR TR. revert js. induction TR as [a|ends a a1 x r a2 n a3 RJ UJ TR IH|ends a a1 x r a2 n a3 RJ UJ TR IH|k' ends a a1 y r a2 n a3 NE RJ UJ TR IH]; intros js K.
    - lia.
    - pose proof K as K1. rewrite <- (FR _ _ _ _ _ RJ) in K1. destruct (C69_attempts_are_used _ _ _ _ k js UJ K1) as (j2 & K2 & A2). rewrite AR, String.eqb_refl in A2. cbn [andb] in A2. specialize (IH _ K2).
      unfold AsrunModel.run_job in RJ. rewrite K in RJ. destruct (can_start js) eqn:CS; [|destruct (blocked_outcome _ _ _ _) in RJ; discriminate].
      unfold can_start in CS. apply andb_true_iff in CS as [_ CS]. apply Z.ltb_lt in CS. lia.
    - pose proof K as K1. rewrite <- (FR _ _ _ _ _ RJ) in K1. destruct (C69_attempts_are_used _ _ _ _ k js UJ K1) as (j2 & K2 & A2). specialize (IH _ K2). destruct (auto_retry && String.eqb k k)%bool in A2; lia.
    - pose proof K as K1. rewrite <- (FR _ _ _ _ _ RJ) in K1. destruct (C69_attempts_are_used _ _ _ _ k js UJ K1) as (j2 & K2 & A2). specialize (IH _ K2).
      destruct (String.eqb_spec k k'); [congruence|]. rewrite andb_false_r in A2. lia.
  Qed.

  (** ** The list of what is left to do *)
  Lemma decided_entry s k js : dget k (st_map s) = Some js -> (decided s k <-> r_outcome (js_result js) <> None).
  Proof. intros K. unfold decided, outcome_of. rewrite K. cbn. destruct (r_outcome (js_result js)); split; intros; try congruence; eauto. destruct H; discriminate. Qed.
  Definition undecided (s : state) (k : name) : bool := match dget k (st_map s) with Some js => match r_outcome (js_result js) with None => true | Some _ => false end | None => true end.
  Lemma unfinished_filter s l : (forall j, In j l -> exists js, dget (j_id j) (st_map s) = Some js) -> unfinished (st_map s) l = inr (filter (fun j => undecided s (j_id j)) l).
  Proof.
    induction l as [|j l IH]; intros H; cbn [unfinished filter]; [reflexivity|]. unfold undecided at 1. destruct (H j (or_introl eq_refl)) as (js & K). rewrite K.
    rewrite IH by (intros y Iy; apply H; now right). destruct (r_outcome (js_result js)); reflexivity.
  Qed.
  Lemma map_filter_id (f : name -> bool) (l : list job) : map j_id (filter (fun j => f (j_id j)) l) = filter f (map j_id l).
  Proof. induction l as [|j l IH]; cbn; [reflexivity|]. destruct (f (j_id j)); cbn; now rewrite IH. Qed.
  Lemma dynamic_filter a : in_step (a_state a) -> incl (st_run (a_state a)) (st_jobs (a_state a)) -> get_dynamic_todo_list a = inr (filter (undecided (a_state a)) (get_static_todo_list a)).
  Proof.
    intros IS I. unfold get_dynamic_todo_list, get_static_todo_list. rewrite unfinished_filter; [now rewrite map_filter_id|]. intros j Ij. apply I in Ij. destruct (step_known _ _ IS Ij) as (js & K & _). eauto.
  Qed.
  (** The jobs of the list that have no outcome, in the order of the list *)
  Theorem C69_what_is_left a : in_step (a_state a) -> incl (st_run (a_state a)) (st_jobs (a_state a)) ->
    exists keep, get_dynamic_todo_list a = inr (filter keep (get_static_todo_list a)) /\ forall k, In k (get_static_todo_list a) -> (keep k = true <-> ~ decided (a_state a) k).
  Proof.
    intros IS I. exists (undecided (a_state a)). split; [now apply dynamic_filter|]. intros k Ik. apply in_map_iff in Ik as (j & <- & Ij). apply I in Ij. destruct (step_known _ _ IS Ij) as (js & K & _).
    rewrite (decided_entry _ _ _ K). unfold undecided. rewrite K. destruct (r_outcome (js_result js)); split; intros H; try discriminate; try reflexivity; [exfalso; apply H; discriminate|now intros N; elim N].
  Qed.
  Lemma filter_filter' {A} (f g : A -> bool) l : filter f (filter g l) = filter (fun x => g x && f x) l.
  Proof. induction l as [|x l IH]; cbn; [reflexivity|]. destruct (g x); cbn; [destruct (f x); now rewrite IH|exact IH]. Qed.
  (** A result with an outcome takes exactly that job off the list; one without puts it back *)
  Theorem C69_one_less k r a a' x l : in_step (a_state a) -> incl (st_run (a_state a)) (st_jobs (a_state a)) -> dget k (st_map (a_state a)) <> None ->
    use_job_result k r a = (a', x) -> r_outcome r <> None -> get_dynamic_todo_list a = inr l -> get_dynamic_todo_list a' = inr (filter (fun n => negb (String.eqb n k)) l).
  Proof.
    intros IS I NK U RO D. destruct (C69_recording_a_result k r a a' x IS NK U) as (_ & O & ST & _). destruct O as ((jk & K1 & R1) & O2 & O3 & O4 & O5 & O6 & O7).
    rewrite (dynamic_filter a IS I) in D. injection D as <-. rewrite filter_filter'. unfold get_dynamic_todo_list. rewrite unfinished_filter.
    - f_equal. rewrite map_filter_id. fold (get_static_todo_list a'). rewrite ST. apply filter_ext_in. intros n In_. apply in_map_iff in In_ as (j & <- & Ij). apply I in Ij. destruct (step_known _ _ IS Ij) as (js & K & _).
      unfold undecided. rewrite K. destruct (O2 _ _ K) as (j' & K' & _ & H'). rewrite K'. destruct (String.eqb_spec (j_id j) k) as [E|NE].
      + rewrite E in K'. assert (j' = jk) as -> by congruence. rewrite R1. destruct (r_outcome r); [|congruence]. now rewrite andb_false_r.
      + destruct (H' NE) as [-> _]. destruct (r_outcome (js_result js)); reflexivity.
    - intros j Ij. rewrite O5 in Ij. apply I in Ij. destruct (step_known _ _ IS Ij) as (js & K & _). destruct (O2 _ _ K) as (j' & K' & _). eauto.
  Qed.

  (** ** Running *)
  Lemma run_job_frame k ends a a' y : run_job k ends a = (a', y) -> a_state a' = a_state a /\ a_plans a' = a_plans a /\ a_incomplete a' = a_incomplete a.
  Proof.
    unfold AsrunModel.run_job. destruct (dget k (st_map (a_state a))) as [js|]; [|intros [= <- <-]; auto]. destruct (can_start js); [destruct ends; intros [= <- <-]; auto|].
    destruct (blocked_outcome _ _ _ _); intros [= <- <-]; auto.
  Qed.
  (** A job runs only if nothing prevents it, and while it runs the disk says which one *)
  Theorem C69_running k ends a a' y : in_step (a_state a) -> run_job k ends a = (a', y) -> (exists r, y = Ran r) \/ y = Lost ->
    (exists js, dget k (st_map (a_state a)) = Some js /\ js_inhibitors js = [] /\ (0 < js_attempts js)%Z) /\ y = match ends with Some r => Ran r | None => Lost end /\
    a_state a' = a_state a /\ exists d, a_disk a' = Some d /\ d_running d = Some k /\ d_state d = a_state a /\ d_incomplete d = a_incomplete a.
  Proof.
    intros IS. unfold AsrunModel.run_job. destruct (dget k (st_map (a_state a))) as [js|] eqn:K; [|intros [= <- <-] [[r H]|H]; discriminate]. destruct (step_entry _ _ _ IS K) as [_ EK].
    destruct (can_start js) eqn:CS.
    - intros H _. assert (NI : js_inhibitors js = [] /\ (0 < js_attempts js)%Z) by (unfold can_start in CS; destruct (js_inhibitors js); [|discriminate]; split; [reflexivity|]; now apply Z.ltb_lt in CS).
      destruct ends; injection H as <- <-; (split; [eauto|]); (split; [reflexivity|]); cbn; rewrite EK; (split; [reflexivity|]); eexists; repeat split.
    - destruct (blocked_outcome _ _ _ _); intros [= <- <-] [[r H]|H]; discriminate.
  Qed.
  (** A job that something prevents gets its outcome at once, nothing changes *)
  Theorem C69_not_running k ends a a' r : run_job k ends a = (a', Blocked r) ->
    a' = a /\ exists js o, dget k (st_map (a_state a)) = Some js /\ (js_inhibitors js <> [] \/ (js_attempts js <= 0)%Z) /\ r_outcome r = Some o /\ outcome_when_blocked (fail_on_resource (js_job js)) (a_state a) (js_inhibitors js) o.
  Proof.
    unfold AsrunModel.run_job. destruct (dget k (st_map (a_state a))) as [js|] eqn:K; [|discriminate]. destruct (can_start js) eqn:CS; [destruct ends; discriminate|].
    destruct (blocked_outcome _ _ _ _) as [e|o] eqn:B; [discriminate|]. intros [= <- <-]. split; [reflexivity|]. exists js, o. split; [reflexivity|]. split; [unfold can_start in CS; destruct (js_inhibitors js); [right|left; discriminate]; cbn in CS; apply Z.ltb_ge in CS; exact CS|].
    split; [reflexivity|]. apply blocked_outcome_spec in B. exact B.
  Qed.

  (** A job that was tried often enough is reported as not supported when it is run again,
      though nothing prevents it *)
  Theorem C69_tried_too_often_refuted k ends a js : dget k (st_map (a_state a)) = Some js -> js_inhibitors js = [] -> (js_attempts js <= 0)%Z ->
    exists r, run_job k ends a = (a, Blocked r) /\ r_outcome r = Some ONotSupported.
  Proof.
    intros K I A. unfold AsrunModel.run_job. rewrite K. unfold can_start. rewrite I. assert (B : Z.ltb 0 (js_attempts js) = false) by now apply Z.ltb_ge. rewrite B. cbn. eexists. split; reflexivity.
  Qed.

  (** An application that works through the list: for each job it calls run_job and then
      records some result *)
  Inductive pass : list name -> asst -> asst -> Prop :=
  | Pass_nil a : pass [] a a
  | Pass_cons k l a ends a1 y r a2 a3 : run_job k ends a = (a1, y) -> y <> Lost -> r_outcome r <> None -> use_job_result k r a1 = (a2, None) -> pass l a2 a3 -> pass (k :: l) a a3.
  Lemma use_known k r a a' : use_job_result k r a = (a', None) -> dget k (st_map (a_state a)) <> None.
  Proof. unfold AsrunModel.use_job_result. destruct (dget k (st_map (a_state a))); congruence. Qed.
  Lemma only_decided k r s s' k' : only_result k r s s' -> r_outcome r <> None -> decided s k' -> decided s' k'.
  Proof.
    intros ((jk & K1 & R1) & O2 & _) RO D. destruct (String.eqb_spec k' k) as [->|NE]; [apply (decided_entry _ _ _ K1); congruence|].
    destruct (dget k' (st_map s)) as [js|] eqn:K; [|unfold decided, outcome_of in D; rewrite K in D; destruct D; discriminate].
    destruct (O2 _ _ K) as (j' & K' & _ & H). destruct (H NE) as [E _]. apply (decided_entry _ _ _ K'). rewrite E. now apply (decided_entry _ _ _ K).
  Qed.
  Lemma pass_facts l a a' : pass l a a' -> in_step (a_state a) -> incl (st_run (a_state a)) (st_jobs (a_state a)) ->
    in_step (a_state a') /\ incl (st_run (a_state a')) (st_jobs (a_state a')) /\ get_static_todo_list a' = get_static_todo_list a /\
    (forall k, decided (a_state a) k \/ In k l -> decided (a_state a') k) /\ (l <> [] -> exists d, a_disk a' = Some d /\ d_state d = a_state a').
  Proof.
    intros P. induction P as [a|k l a ends a1 y r a2 a3 RJ NL RO UJ P IH]; intros IS I.
    - repeat split; auto; try apply IS; [intros k [H|[]]; exact H|congruence].
    - destruct (run_job_frame _ _ _ _ _ RJ) as (E1 & _). rewrite <- E1 in IS, I. destruct (C69_recording_a_result k r a1 a2 None IS (use_known _ _ _ _ UJ) UJ) as (IS2 & O & ST & _ & _ & DK & _).
      assert (I2 : incl (st_run (a_state a2)) (st_jobs (a_state a2))).
      { pose proof O as (_ & _ & _ & (new & J) & R & _). rewrite J, R. intros j Ij. apply in_app_iff. left. auto. }
      destruct (IH IS2 I2) as (A1 & A2 & A3 & A4 & A5). split; [exact A1|]. split; [exact A2|]. split; [rewrite A3, ST; unfold get_static_todo_list; now rewrite E1|]. split.
      + intros k' [H|[<-|H]]; apply A4; [left|left|now right].
        * rewrite <- E1 in H. eapply only_decided; eassumption.
        * destruct O as ((jk & K1 & R1) & _). apply (decided_entry _ _ _ K1). congruence.
      + intros _. destruct l as [|k2 l]; [|apply A5; discriminate]. inversion P; subst. destruct (DK eq_refl) as (d & D1 & D2 & _). eauto.
  Qed.
  (** Working through what is left once leaves nothing to do, and it is all saved *)
  Theorem C69_one_pass_is_enough a a' l : in_step (a_state a) -> incl (st_run (a_state a)) (st_jobs (a_state a)) -> get_dynamic_todo_list a = inr l -> pass l a a' ->
    get_dynamic_todo_list a' = inr [] /\ get_static_todo_list a' = get_static_todo_list a /\
    (l <> [] -> exists d, a_disk a' = Some d /\ forall k, In k (get_static_todo_list a) -> decided (d_state d) k).
  Proof.
    intros IS I D P. destruct (pass_facts _ _ _ P IS I) as (A1 & A2 & A3 & A4 & A5).
    assert (ALL : forall k, In k (get_static_todo_list a) -> decided (a_state a') k).
    { intros k Ik. apply A4. destruct (C69_what_is_left a IS I) as (keep & E & KK). rewrite D in E. injection E as ->. specialize (KK k Ik). destruct (keep k) eqn:B; [right; apply filter_In; auto|left].
      apply in_map_iff in Ik as (j & <- & Ij). apply I in Ij. destruct (step_known _ _ IS Ij) as (js & K & _). apply (decided_entry _ _ _ K). intros N. enough (false = true) by discriminate. apply KK. rewrite (decided_entry _ _ _ K). congruence. }
    split; [|split; [exact A3|]].
    - destruct (C69_what_is_left a' A1 A2) as (keep & -> & KK). f_equal. rewrite A3 in *. assert (F : forall k, In k (get_static_todo_list a) -> keep k = false).
      { intros k Ik. destruct (keep k) eqn:B; [|reflexivity]. exfalso. apply (KK k Ik); auto. }
      clear - F. induction (get_static_todo_list a) as [|k l IH]; cbn; [reflexivity|]. rewrite (F k (or_introl eq_refl)). apply IH. intros x Ix. apply F. now right.
    - intros NE. destruct (A5 NE) as (d & D1 & D2). exists d. split; [exact D1|]. rewrite D2. exact ALL.
  Qed.

  (** ** Summary *)
  Theorem C69_summary a o : in_step (a_state a) -> so_many (get_summary a o) (fun k => outcome_of (a_state a) k = Some (Some o)).
  Proof.
    intros IS. pose proof (step_nodup _ IS) as ND. set (f := fun kv : name * jstate => match r_outcome (js_result (snd kv)) with Some x => outcome_beq x o | None => false end).
    exists (map fst (filter f (st_map (a_state a)))). split; [|split; [now rewrite map_length|]].
    - unfold dkeys in ND. clear - ND. induction (st_map (a_state a)) as [|x m IH]; cbn; [constructor|]. inversion ND as [|? ? N ND']; subst. destruct (f x); [|auto]. cbn. constructor; [|auto].
      intros H. apply N. apply in_map_iff in H as (y & E & Iy). apply filter_In in Iy as [Iy _]. rewrite <- E. now apply in_map.
    - intros k. split.
      + intros H. apply in_map_iff in H as ([k' js] & E & Iy). cbn in E. subst k'. apply filter_In in Iy as [Iy F]. unfold outcome_of. rewrite (In_dget _ _ _ ND Iy). unfold f in F. cbn in *. destruct (r_outcome (js_result js)); [|discriminate]. apply internal_outcome_dec_bl in F. now subst.
      + unfold outcome_of. intros H. destruct (dget k (st_map (a_state a))) as [js|] eqn:K; [|discriminate]. cbn in H. injection H as H. apply dget_In in K. apply in_map_iff. exists (k, js). split; [reflexivity|]. apply filter_In. split; [exact K|]. unfold f. cbn. rewrite H. now apply internal_outcome_dec_lb.
  Qed.

  (** ** Bootstrapping *)
  (** A job that has a result is not run again, and keeps it *)
  Theorem C69_bootstrapping_keeps_results l : forall script a a' script' x, in_step (a_state a) -> boot l script a = (a', script', x) ->
    in_step (a_state a') /\ a_incomplete a' = a_incomplete a /\
    (forall k js, dget k (st_map (a_state a)) = Some js -> js_history js <> [] -> exists js', dget k (st_map (a_state a')) = Some js' /\ js_result js' = js_result js /\ js_history js' = js_history js) /\
    ((forall j js, In j l -> dget (j_id j) (st_map (a_state a)) = Some js -> js_history js <> []) -> (forall j, In j l -> dget (j_id j) (st_map (a_state a)) <> None) -> a' = a /\ script' = script /\ x = Some None) /\
    (offered a = false -> a_incomplete a = false -> offered a' = false).
  Proof.
    assert (STAY : forall a : asst, forall k js, dget k (st_map (a_state a)) = Some js -> js_history js <> [] -> exists js', dget k (st_map (a_state a)) = Some js' /\ js_result js' = js_result js /\ js_history js' = js_history js) by eauto.
    induction l as [|j l IH]; intros script a a' script' x IS; cbn [AsrunModel.boot].
    - intros [= <- <- <-]. repeat split; auto; try apply IS.
    - destruct (dget (j_id j) (st_map (a_state a))) as [js|] eqn:K.
      2: { intros [= <- <- <-]. repeat split; auto; try apply IS; intros; exfalso; specialize (H0 j (or_introl eq_refl)); congruence. }
      destruct (js_history js) as [|h hs] eqn:H.
      2: { intros B. destruct (IH _ _ _ _ _ IS B) as (B1 & B2 & B3 & B4 & B5). repeat split; auto; try apply B1; apply B4; intros; eauto using in_cons. }
      assert (FRESH : ~ (forall j0 js0, In j0 (j :: l) -> dget (j_id j0) (st_map (a_state a)) = Some js0 -> js_history js0 <> [])).
      { intros N. apply (N j js (or_introl eq_refl) K). exact H. }
      destruct (run_job (j_id j) (hd_error script) a) as [a1 y] eqn:RJ. destruct (run_job_frame _ _ _ _ _ RJ) as (E1 & _ & E3).
      assert (OFF : offered a = false -> a_incomplete a = false -> offered a1 = false).
      { revert RJ. unfold AsrunModel.run_job. rewrite K. destruct (can_start js); [destruct (hd_error script); intros [= <- _]; auto|]. destruct (blocked_outcome _ _ _ _); intros [= <- _]; auto. }
      assert (USE : forall r a2 z, use_job_result (j_id j) r a1 = (a2, z) -> in_step (a_state a2) /\ a_incomplete a2 = a_incomplete a /\
        (forall k jk, dget k (st_map (a_state a)) = Some jk -> js_history jk <> [] -> exists js', dget k (st_map (a_state a2)) = Some js' /\ js_result js' = js_result jk /\ js_history js' = js_history jk) /\
        (offered a = false -> a_incomplete a = false -> offered a2 = false)).
      { intros r a2 z UJ. assert (IS1 : in_step (a_state a1)) by now rewrite E1. destruct (C69_recording_a_result (j_id j) r a1 a2 z IS1) as (IS2 & O & _ & _ & _ & D1 & D2); [rewrite E1; congruence|exact UJ|].
        assert (INC : a_incomplete a2 = a_incomplete a1).
        { revert UJ. unfold AsrunModel.use_job_result, record, andthen. destruct (dget (j_id j) (st_map (a_state a1))); [|intros [= <- _]; reflexivity]. destruct (update_job_result _ _ _ _ _ _) as [s [e|]]; [intros [= <- _]; reflexivity|].
          destruct auto_retry; [|intros [= <- _]; reflexivity]. cbn [put_state a_state]. destruct (dget (j_id j) (st_map s)); intros [= <- _]; reflexivity. }
        split; [exact IS2|]. split; [congruence|]. split.
        - intros k jk Kk Hk. rewrite <- E1 in Kk. destruct O as (_ & O2 & _). destruct (O2 k jk Kk) as (j' & K' & _ & X). destruct (String.eqb_spec k (j_id j)) as [->|NE]; [rewrite E1 in Kk; congruence|]. destruct (X NE). eauto.
        - intros F1 F2. unfold offered. destruct z as [e|]; [rewrite D2 by discriminate; now apply OFF|]. destruct (D1 eq_refl) as (d & -> & _ & ->). congruence. }
      assert (DONE : forall a2, in_step (a_state a2) /\ a_incomplete a2 = a_incomplete a /\
        (forall k jk, dget k (st_map (a_state a)) = Some jk -> js_history jk <> [] -> exists js', dget k (st_map (a_state a2)) = Some js' /\ js_result js' = js_result jk /\ js_history js' = js_history jk) /\
        (offered a = false -> a_incomplete a = false -> offered a2 = false) -> forall s2 z s0, boot l s2 a2 = (a', s0, z) -> s0 = script' -> z = x ->
        in_step (a_state a') /\ a_incomplete a' = a_incomplete a /\
        (forall k js0, dget k (st_map (a_state a)) = Some js0 -> js_history js0 <> [] -> exists js', dget k (st_map (a_state a')) = Some js' /\ js_result js' = js_result js0 /\ js_history js' = js_history js0) /\
        (offered a = false -> a_incomplete a = false -> offered a' = false)).
      { intros a2 (U1 & U2 & U3 & U4) s2 z s0 B -> ->. destruct (IH _ _ _ _ _ U1 B) as (B1 & B2 & B3 & _ & B5). split; [exact B1|]. split; [congruence|]. split; [|intros; apply B5; [auto|congruence]].
        intros k jk Kk Hk. destruct (U3 k jk Kk Hk) as (j1 & K1 & R1 & H1). destruct (B3 k j1 K1) as (j2 & K2 & R2 & H2); [congruence|]. exists j2. repeat split; congruence. }
      assert (FIN : in_step (a_state a') /\ a_incomplete a' = a_incomplete a /\
        (forall k js0, dget k (st_map (a_state a)) = Some js0 -> js_history js0 <> [] -> exists js', dget k (st_map (a_state a')) = Some js' /\ js_result js' = js_result js0 /\ js_history js' = js_history js0) /\
        (offered a = false -> a_incomplete a = false -> offered a' = false) ->
        in_step (a_state a') /\ a_incomplete a' = a_incomplete a /\
        (forall k js0, dget k (st_map (a_state a)) = Some js0 -> js_history js0 <> [] -> exists js', dget k (st_map (a_state a')) = Some js' /\ js_result js' = js_result js0 /\ js_history js' = js_history js0) /\
        ((forall j0 js0, In j0 (j :: l) -> dget (j_id j0) (st_map (a_state a)) = Some js0 -> js_history js0 <> []) -> (forall j0, In j0 (j :: l) -> dget (j_id j0) (st_map (a_state a)) <> None) -> a' = a /\ script' = script /\ x = Some None) /\
        (offered a = false -> a_incomplete a = false -> offered a' = false)) by (intros (F1 & F2 & F3 & F4); split; [exact F1|split; [exact F2|split; [exact F3|split; [intros N; now elim FRESH|exact F4]]]]).
      intros B. apply FIN. clear FIN. destruct y as [r|r| |e].
      + destruct (use_job_result (j_id j) r a1) as [a2 [e|]] eqn:UJ; [injection B as <- <- <-; eapply USE; exact UJ|]. eapply DONE; [eapply USE; exact UJ|exact B|reflexivity|reflexivity].
      + destruct (use_job_result (j_id j) r a1) as [a2 [e|]] eqn:UJ; [injection B as <- <- <-; eapply USE; exact UJ|]. eapply DONE; [eapply USE; exact UJ|exact B|reflexivity|reflexivity].
      + injection B as <- <- <-. rewrite E1, E3. repeat split; auto; apply IS.
      + injection B as <- <- <-. rewrite E1, E3. repeat split; auto; apply IS.
  Qed.
  (** Then every bootstrap job has an outcome, or had a result before *)
  Lemma boot_decides l : forall script a a' script', in_step (a_state a) -> Forall (fun r => r_outcome r <> None) script -> boot l script a = (a', script', Some None) ->
    (forall k, decided (a_state a) k -> decided (a_state a') k) /\
    (forall j, In j l -> (exists js, dget (j_id j) (st_map (a_state a)) = Some js /\ js_history js <> []) \/ decided (a_state a') (j_id j)) /\
    (exists new, st_jobs (a_state a') = st_jobs (a_state a) ++ new) /\ st_run (a_state a') = st_run (a_state a) /\ st_mandatory (a_state a') = st_mandatory (a_state a) /\ a_plans a' = a_plans a.
  Proof.
    induction l as [|j l IH]; intros script a a' script' IS SC; cbn [AsrunModel.boot].
    - intros [= <- <-]. split; [auto|]. split; [intros j []|]. split; [exists []; now rewrite app_nil_r|auto].
    - destruct (dget (j_id j) (st_map (a_state a))) as [js|] eqn:K; [|discriminate]. destruct (js_history js) as [|h hs] eqn:H.
      2: { intros B. destruct (IH _ _ _ _ IS SC B) as (B1 & B2 & B3). split; [exact B1|]. split; [|exact B3]. intros j' [<-|Ij]; [|auto]. left. exists js. split; [exact K|congruence]. }
      destruct (run_job (j_id j) (hd_error script) a) as [a1 y] eqn:RJ. destruct (run_job_frame _ _ _ _ _ RJ) as (E1 & EP & _).
      assert (GO : forall r script2 a2, r_outcome r <> None -> Forall (fun r => r_outcome r <> None) script2 -> use_job_result (j_id j) r a1 = (a2, None) -> boot l script2 a2 = (a', script', Some None) ->
        (forall k, decided (a_state a) k -> decided (a_state a') k) /\
        (forall j0, In j0 (j :: l) -> (exists js, dget (j_id j0) (st_map (a_state a)) = Some js /\ js_history js <> []) \/ decided (a_state a') (j_id j0)) /\
        (exists new, st_jobs (a_state a') = st_jobs (a_state a) ++ new) /\ st_run (a_state a') = st_run (a_state a) /\ st_mandatory (a_state a') = st_mandatory (a_state a) /\ a_plans a' = a_plans a).
      { intros r script2 a2 RO SC2 UJ B. assert (IS1 : in_step (a_state a1)) by now rewrite E1. destruct (C69_recording_a_result (j_id j) r a1 a2 None IS1) as (IS2 & O & _ & P2 & _); [rewrite E1; congruence|exact UJ|].
        rewrite E1 in O. pose proof O as (O1 & O2 & O3 & (new & J2) & R2 & _ & M2). destruct (IH _ _ _ _ IS2 SC2 B) as (B1 & B2 & (new' & J3) & R3 & M3 & P3).
        split; [intros k D; apply B1; eapply only_decided; eassumption|]. split; [|split; [exists (new ++ new'); rewrite J3, J2; now rewrite app_assoc|repeat split; congruence]].
        assert (NOW : decided (a_state a') (j_id j)) by (apply B1; destruct O1 as (jk & K1 & R1); apply (decided_entry _ _ _ K1); congruence).
        intros j' [<-|Ij]; [now right|]. destruct (string_dec (j_id j') (j_id j)) as [->|NE]; [now right|]. destruct (B2 j' Ij) as [(js' & K' & H')|D]; [left|now right].
        destruct (dget (j_id j') (st_map (a_state a))) as [j0|] eqn:K0; [|destruct (O3 _ _ K' K0) as [_ Z]; congruence]. destruct (O2 _ _ K0) as (j1 & K1 & _ & X). destruct (X NE) as [_ X2]. exists j0. split; [reflexivity|congruence]. }
      destruct y as [r|r| |e]; [| |discriminate|discriminate]; destruct (use_job_result (j_id j) r a1) as [a2 [e|]] eqn:UJ; try discriminate; intros B; (eapply GO; [| |exact UJ|exact B]).
      + destruct script as [|r0 script]; cbn in RJ; [exfalso|]; revert RJ; unfold AsrunModel.run_job; rewrite K; destruct (can_start js); try discriminate; try (destruct (blocked_outcome _ _ _ _); discriminate). intros [= _ <-]. now inversion SC.
      + destruct script; [constructor|now inversion SC].
      + apply C69_not_running in RJ as (_ & ? & o & _ & _ & E & _). congruence.
      + exact SC.
  Qed.
  (** Bootstrapping runs the bootstrap jobs of the test plan and what they need, and then the
      list is that of the test plan, of all jobs that there are then *)
  Theorem C69_bootstrapping script a a' : enumerates deps_of -> listed (a_state a) -> Forall (fun r => r_outcome r <> None) script -> bootstrap script a = (a', Some None) -> faithful_equality (st_jobs (a_state a')) ->
    (forall j, In j (st_jobs (a_state a)) -> QualSpec.wanted job j_id (map p_bootstrap (a_plans a)) j -> healthy deps_of (st_jobs (a_state a)) j ->
       forall j', needed deps_of (st_jobs (a_state a)) [j] j' -> decided (a_state a') (j_id j') \/ exists js, dget (j_id j') (st_map (a_state a)) = Some js /\ js_history js <> []) /\
    (exists new, st_jobs (a_state a') = st_jobs (a_state a) ++ new) /\ listed (a_state a') /\ mandatory_listed deps_of (a_state a') /\
    (exists wanted, (forall j, In j wanted <-> (In j (st_mandatory (a_state a)) \/ In j (st_jobs (a_state a')) /\ QualSpec.wanted job j_id (map p_include (a_plans a)) j) /\ healthy deps_of (st_jobs (a_state a')) j) /\
      forall j, In j (st_run (a_state a')) <-> needed deps_of (st_jobs (a_state a')) wanted j) /\
    offered a' = true.
  Proof.
    intros ENUM L SC. unfold AsrunModel.bootstrap, bootstrap_list. destruct (choose deps_of eval_expr (select_jobs (st_jobs (a_state a)) (map p_bootstrap (a_plans a))) false a) as [a1 [e|]] eqn:C; [discriminate|].
    apply choose_spec in C as (s & keep & -> & LS & J1 & M1 & D1 & K1 & R1 & E1 & _); [|exact ENUM|exact L|apply select_known].
    destruct (boot _ script (put_state s a)) as [[a2 s2] y] eqn:B. destruct y as [[e|]|]; [discriminate| |discriminate]. destruct (AsrunModel.finish_bootstrap deps_of eval_expr a2) as [a3 x] eqn:F. intros [= <- ->] FE.
    destruct (C69_bootstrapping_keeps_results _ _ (put_state s a) _ _ _ (l_in_step _ _ LS) B) as (IS2 & _).
    destruct (boot_decides _ _ (put_state s a) _ _ (l_in_step _ _ LS) SC B) as (_ & DB & (new & J2) & R2 & M2 & P2). cbn [put_state a_state a_plans] in *.
    assert (J3 : st_jobs (a_state a3) = st_jobs (a_state a2) /\ forall k, decided (a_state a2) k -> decided (a_state a3) k).
    { unfold AsrunModel.finish_bootstrap, andthen in F. destruct (choose _ _ _ true a2) as [b [e|]] eqn:C; [discriminate|]. injection F as <-. cbn [save put_flags a_state]. split; [now apply choose_frame in C|].
      intros k D. unfold choose in C. destruct (update_desired_job_list _ _ _ _ _) as [[s3 [e|p]]|] eqn:U; try discriminate. injection C as <-. cbn [put_state a_state]. revert U. unfold update_desired_job_list.
      destruct (select _ _ _ _ _) as [Ds run P|Ds|]; try discriminate.
      pose proof (recompute_frame eval_expr (mk_state (st_jobs (a_state a2)) (st_units (a_state a2)) (st_map (a_state a2)) Ds (st_mandatory (a_state a2)) run (st_resources (a_state a2)))) as FR.
      destruct (recompute eval_expr _) as [s4 [e4|]]; cbn [fst] in FR; try discriminate. intros [= <- _]. apply ext_frame in FR as [X _ _]. cbn [st_map] in X.
      destruct (dget k (st_map (a_state a2))) as [jk|] eqn:Kk; [|unfold decided, outcome_of in D; rewrite Kk in D; destruct D; discriminate]. destruct (X k jk Kk) as (j' & K' & C'). apply core_parts in C' as (_ & Er & _).
      apply (decided_entry _ _ _ K'). rewrite Er. now apply (decided_entry _ _ _ Kk). }
    destruct J3 as [J3 D3]. assert (L2 : listed (a_state a2)).
    { assert (IN : incl (st_jobs s) (st_jobs (a_state a2))) by (rewrite J2; intros j Ij; apply in_app_iff; now left). constructor; [exact IS2| | | | |now rewrite <- J3]; rewrite ?R2, ?M2; try apply LS; eapply incl_tran; try exact IN; apply LS. }
    destruct (C69_the_list_of_a_test_plan deps_of eval_expr ENUM a2 a3 L2 F) as (_ & _ & L3 & W & ML & _ & OF). rewrite J3 in *. rewrite M2, M1, P2 in W. split; [|split; [exists new; congruence|]; auto].
    intros j Ij Wj Hj j' N. assert (NR : In j' (st_run s)).
    { apply R1. assert (Ds : In j (st_desired s)). { rewrite D1. apply filter_In. assert (Q : In j ([] ++ select_jobs (st_jobs (a_state a)) (map p_bootstrap (a_plans a)))) by (cbn; unfold select_jobs; apply QualProps.C17_selects_exactly; [apply L|auto]). split; [exact Q|]. now apply (K1 j Q). }
      induction N as [x [<-|[]]|x z _ IH Dz]; [now constructor|eapply needed_dep; eassumption]. }
    destruct (DB j' NR) as [(js & Kj & Hh)|D]; [right|left; auto]. destruct (E1 _ _ Kj) as (js0 & K0 & _ & _ & Eh). exists js0. split; [exact K0|congruence].
  Qed.
  (** Selecting a test plan: its mandatory jobs, all of those that there are *)
  Theorem C69_selecting_a_plan p a a' : enumerates deps_of -> listed (a_state a) -> incl (st_desired (a_state a)) (st_jobs (a_state a)) -> select_test_plan deps_of eval_expr p a = (a', None) ->
    listed (a_state a') /\ a_plans a' = [p] /\ st_jobs (a_state a') = st_jobs (a_state a) /\ (forall j, In j (st_mandatory (a_state a')) <-> In j (st_jobs (a_state a)) /\ QualSpec.wanted job j_id [p_mandatory p] j) /\
    (forall k r, has_result (a_state a) k r -> has_result (a_state a') k r) /\ offered a' = a_incomplete a.
  Proof.
    intros ENUM L ID. unfold select_test_plan, andthen. set (m := select_jobs (st_jobs (a_state (put_plans [p] a))) [p_mandatory p]). set (s := update_mandatory_job_list m _).
    assert (L1 : listed (a_state (put_state s (put_plans [p] a)))).
    { constructor; try apply L. cbn. apply select_known. }
    destruct (choose deps_of eval_expr (st_desired s) true (put_state s (put_plans [p] a))) as [b [e|]] eqn:C; [discriminate|]. intros [= <-].
    apply choose_spec in C as (s2 & keep & -> & LS & J & M & _ & _ & _ & _ & KK & _); [|exact ENUM|exact L1|exact ID]. cbn [save put_state put_plans a_state a_plans a_incomplete offered a_disk d_incomplete] in *. cbn [s update_mandatory_job_list st_jobs st_mandatory st_map put_plans a_state] in *.
    split; [exact LS|]. split; [reflexivity|]. split; [exact J|]. split; [|split; [|reflexivity]].
    - intros j. rewrite M. unfold m, select_jobs. cbn [put_plans a_state]. apply QualProps.C17_selects_exactly. apply L.
    - intros k r (js & K & <-). destruct (KK k js K) as (js' & K' & _ & R & _). exists js'. auto.
  Qed.
  (** A session whose bootstrapping was interrupted is not offered for resuming *)
  Theorem C69_interrupted_bootstrapping_refuted script a a' : enumerates deps_of -> listed (a_state a) ->
    offered a = false -> a_incomplete a = false -> bootstrap script a = (a', None) -> offered a' = false.
  Proof.
    intros ENUM L O F. unfold AsrunModel.bootstrap, bootstrap_list. destruct (choose deps_of eval_expr (select_jobs (st_jobs (a_state a)) (map p_bootstrap (a_plans a))) false a) as [a1 [e|]] eqn:C; [discriminate|].
    apply choose_spec in C as (s & _ & -> & LS & _); [|exact ENUM|exact L|apply select_known].
    destruct (boot _ script (put_state s a)) as [[a2 s2] y] eqn:B. destruct (C69_bootstrapping_keeps_results _ _ (put_state s a) _ _ _ (l_in_step _ _ LS) B) as (_ & _ & _ & _ & OF).
    destruct y as [[e|]|]; [discriminate|destruct (AsrunModel.finish_bootstrap _ _ a2); discriminate|]. intros [= <-]. now apply OF.
  Qed.

  (** ** Resuming *)
  (** Nothing but the job that was running changes *)
  Theorem C69_resuming d a x : in_step (d_state d) -> resume_session d = (a, x) ->
    get_static_todo_list a = map j_id (st_run (d_state d)) /\ (a_plans a = [] /\ a_incomplete a = d_incomplete d /\ a_planless a = d_planless d /\ offered a = d_incomplete d) /\
    (forall k r, has_result (d_state d) k r -> d_running d <> Some k -> has_result (a_state a) k r) /\
    (forall k js, d_running d = Some k -> dget k (st_map (d_state d)) = Some js -> autorestart (js_job js) = false -> a_state a = d_state d /\ a_running a = Some k) /\
    (forall k js, d_running d = Some k -> dget k (st_map (d_state d)) = Some js -> autorestart (js_job js) = true ->
       has_result (a_state a) k (mk_result (Some (if noreturn (js_job js) then OPass else OFail)) (restarted_data (js_job js))) /\
       (x = None -> a_running a = None /\ exists d', a_disk a = Some d' /\ d_state d' = a_state a /\ d_running d' = None)).
  Proof.
    intros IS. unfold AsrunModel.resume_session. destruct (d_running d) as [k|] eqn:R.
    2: { intros [= <- <-]. cbn. repeat split; auto; try congruence; intros; discriminate. }
    destruct (dget k (st_map (d_state d))) as [js|] eqn:K.
    2: { intros [= <- <-]. cbn. repeat split; auto; try congruence; intros ? ? [= <-]; congruence. }
    destruct (autorestart (js_job js)) eqn:AR.
    2: { intros [= <- <-]. cbn. repeat split; auto; try congruence; intros ? ? [= <-]; congruence. }
    unfold record, andthen. cbn [a_state]. destruct (update_job_result _ _ _ _ _ _) as [s [e|]] eqn:U; destruct (update_only _ _ _ _ _ _ k js IS K eq_refl U) as [_ (O1 & O2 & _ & _ & O5 & _)];
      intros [= <- <-]; unfold get_static_todo_list; cbn; rewrite O5; (split; [reflexivity|]); (split; [repeat split|]); (split; [|split]).
    1,4: intros k' r (jk & Kk & <-) NE; destruct (O2 _ _ Kk) as (j' & K' & _ & X); exists j'; split; [exact K'|]; apply X; congruence.
    1,3: intros k' js' [= <-]; congruence.
    - intros k' js' [= <-] K'. assert (js' = js) as -> by congruence. intros _. split; [exact O1|congruence].
    - intros k' js' [= <-] K'. assert (js' = js) as -> by congruence. intros _. split; [exact O1|]. intros _. split; [reflexivity|]. eexists. repeat split.
  Qed.
  (** A job that finished and whose result was saved is still named as the running job, so
      if it restarts the application by itself its result is lost *)
  Theorem C69_finished_job_overwritten_refuted k r a a1 a2 js : in_step (a_state a) -> dget k (st_map (a_state a)) = Some js -> autorestart (js_job js) = true ->
    run_job k (Some r) a = (a1, Ran r) -> use_job_result k r a1 = (a2, None) ->
    exists d, a_disk a2 = Some d /\ has_result (d_state d) k r /\
      has_result (a_state (fst (resume_session d))) k (mk_result (Some (if noreturn (js_job js) then OPass else OFail)) (restarted_data (js_job js))).
  Proof.
    intros IS K AR RJ UJ. destruct (C69_running k (Some r) a a1 (Ran r) IS RJ) as (_ & _ & E1 & d0 & _); [left; eauto|].
    assert (RN : a_running a1 = Some k).
    { revert RJ. unfold AsrunModel.run_job. rewrite K. destruct (step_entry _ _ _ IS K) as [_ EK]. destruct (can_start js); [intros [= <-]; cbn; now rewrite EK|]. destruct (blocked_outcome _ _ _ _); discriminate. }
    rewrite <- E1 in IS, K. assert (NK : dget k (st_map (a_state a1)) <> None) by congruence. destruct (C69_recording_a_result k r a1 a2 None IS NK UJ) as (IS2 & O & _ & _ & R2 & D & _). destruct (D eq_refl) as (d & D1 & D2 & _).
    assert (DR : d_running d = Some k).
    { revert UJ D1. unfold AsrunModel.use_job_result, record, andthen. rewrite K. destruct (update_job_result _ _ _ _ _ _) as [s [e|]]; [discriminate|].
      destruct auto_retry; [|intros [= <-]; cbn; intros [= <-]; exact RN]. cbn [put_state a_state]. destruct (dget k (st_map s)); [|discriminate]. intros [= <-]; cbn; intros [= <-]; exact RN. }
    exists d. split; [exact D1|]. rewrite D2. pose proof O as (O1 & O2 & _). split; [exact O1|]. destruct (O2 _ _ K) as (j2 & K2 & J2 & _). rewrite <- J2. destruct (resume_session d) as [a3 x] eqn:RS.
    destruct (C69_resuming d a3 x) as (_ & _ & _ & _ & H); [now rewrite D2|exact RS|]. cbn [fst]. apply (H k j2); [exact DR|congruence|congruence].
  Qed.
  (** ** What is reported, and when a session is over *)
  Theorem C69_mandatory_jobs a p ps : in_step (a_state a) -> a_plans a = p :: ps ->
    exists l, get_mandatory_jobs a = Some l /\ forall j, In j (st_jobs (a_state a)) -> (In (j_id j) l <-> QualSpec.wanted job j_id [p_mandatory p] j).
  Proof.
    intros [U _] P. unfold get_mandatory_jobs. rewrite P. eexists. split; [reflexivity|]. intros j Ij. rewrite in_map_iff. unfold select_jobs. split.
    - intros (j' & E & I'). apply QualProps.C17_selects_exactly in I' as [I1 I2]; [|exact U]. assert (j' = j) as -> by (apply (unique_ids_inj (st_jobs (a_state a))); auto). exact I2.
    - intros W. exists j. split; [reflexivity|]. apply QualProps.C17_selects_exactly; auto.
  Qed.
  Theorem C69_finished a : (offered a = true -> a_incomplete a = true) -> offered (finalize_session a) = false /\ a_state (finalize_session a) = a_state a.
  Proof. intros H. unfold finalize_session. destruct (a_incomplete a) eqn:I; [auto|]. destruct (offered a); [now discriminate H|auto]. Qed.
  Theorem C69_not_offered_before_bootstrapping s : offered (start_new_session s) = false /\ a_disk (start_new_session s) <> None.
  Proof. split; [reflexivity|discriminate]. Qed.
End Run.
Print Assumptions C69_attempts_are_used.
Print Assumptions C69_attempts_bound_runs.
Print Assumptions C69_mandatory_jobs.
Print Assumptions C69_finished.
Print Assumptions C69_not_offered_before_bootstrapping.
Print Assumptions C69_recording_a_result.
Print Assumptions C69_what_is_left.
Print Assumptions C69_one_less.
Print Assumptions C69_running.
Print Assumptions C69_not_running.
Print Assumptions C69_tried_too_often_refuted.
Print Assumptions C69_one_pass_is_enough.
Print Assumptions C69_summary.
Print Assumptions C69_bootstrapping_keeps_results.
Print Assumptions C69_bootstrapping.
Print Assumptions C69_selecting_a_plan.
Print Assumptions C69_interrupted_bootstrapping_refuted.
Print Assumptions C69_resuming.
Print Assumptions C69_finished_job_overwritten_refuted.
