(** C27, C28 and C42: the session assistant. *)
From Coq Require Import String List Bool Arith Lia.
From Verif Require Import AssistantModel.
Import ListNotations.
Open Scope list_scope.

(** ** Specification *)

(** [h] is a history of an assistant: the calls made on it since it was
    created, in order, each with the way it ended; [s] is its state after. *)
Definition history (matches : string -> string -> bool) (h : list (call * outcome)) (s : sa) : Prop :=
  exists restartable cs, run matches (sa_init restartable) cs = (h, s).

(** Providers were selected. *)
Definition selects_providers (e : call * outcome) : Prop :=
  match e with (SelectProviders _ _, Returned) => True | _ => False end.
(** A session was started or resumed. *)
Definition opens (e : call * outcome) : Prop :=
  match e with
  | (StartNewSession _, Returned) | (ResumeSession _ _, Returned) => True
  | _ => False
  end.
(** Jobs were selected: by the bootstrap process (which itself runs jobs, so it
    counts unless it was refused), by asking for the bootstrap jobs, by naming
    jobs, or because the resumed session already had named jobs. *)
Definition chooses (e : call * outcome) : Prop :=
  match e with
  | (Bootstrap _ _ _ _, o) => o <> Rejected
  | (GetBootstrapTodoList _, Returned) => True
  | (HandPickJobs _, Returned) => True
  | (ResumeSession fl _, Returned) => f_testplanless fl = true
  | _ => False
  end.
(** The session was finalized. *)
Definition closes (e : call * outcome) : Prop :=
  match e with (FinalizeSession _, Returned) => True | _ => False end.

(** In [h], providers were selected, then a session was opened, it was not
    closed since, and jobs were chosen in it. *)
Definition ready_to_run (h : list (call * outcome)) : Prop :=
  exists h1 e h2,
    h = h1 ++ e :: h2 /\ Exists selects_providers h1 /\ opens e /\
    Forall (fun x => ~ opens x /\ ~ closes x) h2 /\ Exists chooses (e :: h2).

(** Configuration calls that are allowed once. *)
Inductive one_shot : call -> Prop :=
| os_repo : one_shot UseAlternateRepository
| os_conf : one_shot UseAlternateConfiguration
| os_ctrl : one_shot UseAlternateExecutionControllers
| os_strategy : one_shot UseAlternateRestartStrategy
| os_restart b : one_shot (ConfigureApplicationRestart b)
| os_select av ps : one_shot (SelectProviders av ps).
(** Two calls of the same method. *)
Definition same_method (a b : call) : Prop :=
  match a, b with
  | ConfigureApplicationRestart _, ConfigureApplicationRestart _ => True
  | SelectProviders _ _, SelectProviders _ _ => True
  | _, _ => a = b
  end.

(** ** Facts about single calls *)
Lemma in_allow m x l : In x (allow m l) <-> x = m \/ In x l.
Proof.
  unfold allow. destruct (in_dec meth_dec m l) as [I|I].
  - split; [auto|]. intros [->|?]; auto.
  - rewrite in_app_iff. cbn. split; intros [?|?]; auto. destruct H as [?|[]]; auto.
Qed.
Lemma in_disallow m x l : In x (disallow m l) <-> x <> m /\ In x l.
Proof.
  unfold disallow. split.
  - intros I. apply in_remove in I. tauto.
  - intros [N I]. apply in_in_remove; auto.
Qed.
Lemma is_allowed_in m l : is_allowed m l = true <-> In m l.
Proof. unfold is_allowed. destruct (in_dec meth_dec m l); split; auto; discriminate. Qed.

Definition same_session (s s' : sa) : Prop :=
  a_meta s' = a_meta s /\ a_iter s' = a_iter s /\ a_selected s' = a_selected s /\ a_plan s' = a_plan s /\
  a_callback s' = a_callback s.

Ltac split_match H :=
  repeat match type of H with
  | context [match ?x with _ => _ end] =>
      lazymatch x with
      | context [match _ with _ => _ end] => fail
      | _ => let E := fresh "E" in destruct x eqn:E; cbn in H
      end
  end.
Ltac open_call H :=
  try (unfold step in H);
  cbv [do_get_job do_run_job do_use_job_result do_get_session_dir do_get_session_id
       do_get_static_todo_list do_use_alternate_selection
       enforce nested session_work mark_submitted ret] in H; cbn in H; split_match H.

Lemma nested_spec r k o s' : nested r k = (o, s') ->
  (exists s1, (r = (Returned, s1) \/ r = (Ignored, s1)) /\ k s1 = (o, s')) \/
  (r = (Rejected, s') /\ o = Tripped) \/
  (r = (o, s') /\ o <> Returned /\ o <> Ignored /\ o <> Rejected).
Proof.
  destruct r as [[] s0]; cbn; intros H; try (left; exists s0; auto; fail);
    injection H as <- <-; right; ((left; split; reflexivity) || (right; repeat split; congruence)).
Qed.

Lemma run_job_effect s w o s' : do_run_job s w = (o, s') ->
  same_session s s' /\ o <> Ignored /\
  (o <> Returned -> a_allowed s' = a_allowed s) /\
  (o = Returned -> a_allowed s' = allow m_use_job_result (disallow m_run_job (a_allowed s))).
Proof.
  intros H. unfold same_session. open_call H;
    inversion H; subst; repeat split; cbn; try discriminate; try congruence.
Qed.
Lemma use_result_effect s b o s' : do_use_job_result s b = (o, s') ->
  same_session s s' /\ o <> Ignored /\
  (o <> Returned -> a_allowed s' = a_allowed s) /\
  (o = Returned -> a_allowed s' = allow m_run_job (disallow m_use_job_result (a_allowed s))).
Proof.
  intros H. unfold same_session. open_call H;
    inversion H; subst; repeat split; cbn; try discriminate; try congruence.
Qed.
Lemma get_job_effect s b o s' : do_get_job s b = (o, s') ->
  same_session s s' /\ o <> Ignored /\
  (a_allowed s' = a_allowed s \/ a_allowed s' = allow m_use_job_result (a_allowed s)).
Proof.
  intros H. unfold same_session. open_call H;
    inversion H; subst; repeat split; cbn; auto; try discriminate; try congruence.
Qed.

Lemma same_session_refl s : same_session s s.
Proof. repeat split. Qed.
Lemma same_session_trans a b c : same_session a b -> same_session b c -> same_session a c.
Proof. unfold same_session. intuition congruence. Qed.

(** What the bootstrap loop does, up to the point where it ends. *)
Definition boot_reach (s s1 : sa) : Prop :=
  same_session s s1 /\
  (forall m, In m (a_allowed s1) -> In m (a_allowed s) \/ m = m_run_job \/ m = m_use_job_result) /\
  (forall m, In m (a_allowed s) -> In m (a_allowed s1) \/ m = m_run_job \/ m = m_use_job_result).
Lemma boot_reach_refl s : boot_reach s s.
Proof. repeat split; auto. Qed.
Lemma boot_reach_trans a b c : boot_reach a b -> boot_reach b c -> boot_reach a c.
Proof.
  intros (S1 & A1 & B1) (S2 & A2 & B2). split; [eapply same_session_trans; eauto|]. split; intros m I.
  - destruct (A2 m I) as [J|J]; [|tauto]. apply A1. exact J.
  - destruct (B1 m I) as [J|J]; [|tauto]. apply B2. exact J.
Qed.
Lemma boot_loop_spec jobs : forall s k o s', boot_loop jobs s k = (o, s') ->
  (exists s1, boot_reach s s1 /\ k s1 = (o, s')) \/
  (boot_reach s s' /\ o <> Returned /\ o <> Ignored /\ o <> Rejected).
Proof.
  induction jobs as [|j r IH]; intros s k o s' H.
  - left. exists s. split; [apply boot_reach_refl|exact H].
  - cbn in H. destruct (b_done j); [apply IH; exact H|].
    set (s0 := set_allowed (allow m_run_job (a_allowed s)) s) in *.
    assert (R0 : boot_reach s s0).
    { subst s0. split; [repeat split|]. cbn. split; intros m I.
      - apply in_allow in I. tauto.
      - left. apply in_allow. auto. }
    assert (R1 : forall o1 s1, do_run_job s0 (b_run j) = (o1, s1) -> boot_reach s0 s1).
    { intros o1 s1 E. apply run_job_effect in E. destruct E as (S & _ & A & B). split; [exact S|].
      assert (Q : a_allowed s1 = a_allowed s0 \/
                  a_allowed s1 = allow m_use_job_result (disallow m_run_job (a_allowed s0)))
        by (destruct o1; try (left; apply A; discriminate); right; auto).
      split; intros m I; destruct Q as [Q|Q]; try (rewrite Q in *; tauto).
      - rewrite Q, in_allow, in_disallow in I. tauto.
      - rewrite Q, in_allow, in_disallow. destruct (meth_dec m m_run_job); tauto. }
    assert (R2 : forall s1 o2 s2, do_use_job_result s1 (b_use j) = (o2, s2) -> boot_reach s1 s2).
    { intros s1 o1 s2 E. apply use_result_effect in E. destruct E as (S & _ & A & B). split; [exact S|].
      assert (Q : a_allowed s2 = a_allowed s1 \/
                  a_allowed s2 = allow m_run_job (disallow m_use_job_result (a_allowed s1)))
        by (destruct o1; try (left; apply A; discriminate); right; auto).
      split; intros m I; destruct Q as [Q|Q]; try (rewrite Q in *; tauto).
      - rewrite Q, in_allow, in_disallow in I. tauto.
      - rewrite Q, in_allow, in_disallow. destruct (meth_dec m m_use_job_result); tauto. }
    apply nested_spec in H. destruct H as [(s1 & E1 & H)|[(E1 & ->)|(E1 & N)]].
    + assert (Q1 : boot_reach s s1) by (eapply boot_reach_trans; [exact R0|]; destruct E1; eauto).
      apply nested_spec in H. destruct H as [(s2 & E2 & H)|[(E2 & ->)|(E2 & N)]].
      * assert (Q2 : boot_reach s s2) by (eapply boot_reach_trans; [exact Q1|]; destruct E2; eauto).
        apply IH in H. destruct H as [(s3 & Q3 & H)|(Q3 & N)].
        -- left. exists s3. split; [eapply boot_reach_trans; eauto|exact H].
        -- right. split; [eapply boot_reach_trans; eauto|exact N].
      * right. split; [eapply boot_reach_trans; eauto|repeat split; discriminate].
      * right. split; [eapply boot_reach_trans; eauto|exact N].
    + right. split; [eapply boot_reach_trans; eauto|repeat split; discriminate].
    + right. split; [eapply boot_reach_trans; eauto|exact N].
Qed.

Lemma get_jobs_spec found : forall s k o s', get_jobs found s k = (o, s') ->
  (exists s1, same_session s s1 /\
     (a_allowed s1 = a_allowed s \/ a_allowed s1 = allow m_use_job_result (a_allowed s)) /\ k s1 = (o, s')) \/
  (same_session s s' /\ o <> Returned /\ o <> Ignored /\ o <> Rejected /\
     (a_allowed s' = a_allowed s \/ a_allowed s' = allow m_use_job_result (a_allowed s))).
Proof.
  induction found as [|b r IH]; intros s k o s' H.
  - left. exists s. repeat split; auto.
  - cbn in H. apply nested_spec in H.
    assert (G : forall o1 s1, do_get_job s b = (o1, s1) -> same_session s s1 /\
      (a_allowed s1 = a_allowed s \/ a_allowed s1 = allow m_use_job_result (a_allowed s)))
      by (intros o1 s1 E; apply get_job_effect in E; tauto).
    destruct H as [(s1 & E1 & H)|[(E1 & ->)|(E1 & N)]].
    + assert (G1 : same_session s s1 /\ (a_allowed s1 = a_allowed s \/ a_allowed s1 = allow m_use_job_result (a_allowed s)))
        by (destruct E1; eauto).
      destruct G1 as [S1 A1].
      assert (IDEM : allow m_use_job_result (allow m_use_job_result (a_allowed s)) = allow m_use_job_result (a_allowed s)).
      { unfold allow at 1. destruct (in_dec meth_dec _ _) as [|N]; [reflexivity|]. exfalso. apply N. apply in_allow. auto. }
      apply IH in H. destruct H as [(s2 & S2 & A2 & H)|(S2 & N1 & N2 & N3 & A2)].
      * left. exists s2. split; [eapply same_session_trans; eauto|]. split; [|exact H].
        destruct A1 as [A1|A1]; rewrite A1 in A2; [exact A2|]. rewrite IDEM in A2. tauto.
      * right. split; [eapply same_session_trans; eauto|]. repeat split; auto.
        destruct A1 as [A1|A1]; rewrite A1 in A2; [exact A2|]. rewrite IDEM in A2. tauto.
    + right. apply G in E1. destruct E1. repeat split; try discriminate; try tauto; apply H.
    + right. apply G in E1. destruct E1 as [S A]. repeat split; try tauto; apply S.
Qed.

(** The two ways a bootstrap call that was not refused can end. *)
Lemma bootstrap_effect matches s f jobs sec ck o s' :
  step matches s (Bootstrap f jobs sec ck) = (o, s') ->
  (o = Rejected /\ s' = s) \/
  (In m_bootstrap (a_allowed s) /\ o <> Rejected /\ o <> Ignored /\
   ((boot_reach s s' /\ o <> Returned) \/
    (a_allowed s' = normal_state /\ a_meta s' = Some flags_incomplete /\ a_iter s' = a_iter s /\
     a_meta s <> None /\ (o = Returned \/ o = Failed)))).
Proof.
  cbn. unfold enforce at 1. destruct (is_allowed m_bootstrap (a_allowed s)) eqn:A.
  2:{ intros H. injection H as <- <-. auto. }
  apply is_allowed_in in A. intros H. right.
  unfold session_work at 1 in H. destruct (a_meta s) as [fl|] eqn:M.
  2:{ injection H as <- <-. repeat split; auto; try discriminate. left. split; [apply boot_reach_refl|discriminate]. }
  destruct f.
  2:{ injection H as <- <-. repeat split; auto; try discriminate. left. split; [apply boot_reach_refl|discriminate]. }
  apply boot_loop_spec in H. destruct H as [(s1 & R & H)|(R & N1 & N2 & N3)].
  2:{ repeat split; auto. }
  assert (M1 : a_meta s1 = Some fl) by (destruct R as [(R & _) _]; congruence).
  assert (I1 : a_iter s1 = a_iter s) by (destruct R as [(_ & R & _) _]; congruence).
  unfold session_work in H. rewrite M1 in H. destruct sec.
  2:{ injection H as <- <-. repeat split; auto; try discriminate. left. split; [exact R|discriminate]. }
  destruct ck; injection H as <- <-; repeat split; auto; try discriminate; right; repeat split; auto; discriminate.
Qed.

Lemma filter_effect matches s found ok o s' :
  step matches s (FilterJobsByCategories found ok) = (o, s') ->
  (o = Rejected /\ s' = s) \/
  (In m_filter_jobs_by_categories (a_allowed s) /\ same_session s s' /\ o <> Ignored /\ o <> Rejected /\
   (a_allowed s' = a_allowed s \/ a_allowed s' = allow m_use_job_result (a_allowed s))).
Proof.
  cbn. unfold enforce at 1. destruct (is_allowed m_filter_jobs_by_categories (a_allowed s)) eqn:A.
  2:{ intros H. injection H as <- <-. auto. }
  apply is_allowed_in in A. intros H. right. split; [exact A|].
  assert (ST : forall s o s', do_get_static_todo_list s = (o, s') -> s' = s /\ o <> Ignored).
  { clear. intros s o s' H. open_call H; inversion H; subst; split; auto; discriminate. }
  assert (AL : forall s o s', do_use_alternate_selection s ok = (o, s') -> s' = s /\ o <> Ignored).
  { clear. intros s o s' H. open_call H; inversion H; subst; split; auto; discriminate. }
  apply nested_spec in H. destruct H as [(s1 & E & H)|[(E & ->)|(E & N)]].
  - assert (E1 : s1 = s) by (destruct E as [E|E]; apply ST in E; tauto). subst s1.
    apply get_jobs_spec in H. destruct H as [(s1 & S & A1 & H)|(S & N1 & N2 & N3 & A1)].
    + apply nested_spec in H. destruct H as [(s2 & E2 & H)|[(E2 & ->)|(E2 & N)]].
      * assert (E1 : s2 = s1) by (destruct E2 as [E2|E2]; apply AL in E2; tauto). subst s2.
        injection H as <- <-. repeat split; try discriminate; auto; apply S.
      * apply AL in E2. destruct E2 as [-> _]. repeat split; try discriminate; auto; apply S.
      * apply AL in E2. destruct E2 as [-> _]. repeat split; try tauto; apply S.
    + repeat split; auto; apply S.
  - apply ST in E. destruct E as [-> _]. repeat split; auto; discriminate.
  - apply ST in E. destruct E as [-> _]. repeat split; auto; tauto.
Qed.

(** ** Histories *)
Lemma run_snoc matches cs : forall s c,
  run matches s (cs ++ [c]) =
  (fst (run matches s cs) ++ [(c, fst (step matches (snd (run matches s cs)) c))],
   snd (step matches (snd (run matches s cs)) c)).
Proof.
  induction cs as [|d r IH]; intros s c; cbn.
  - destruct (step matches s c). reflexivity.
  - destruct (step matches s d) as [o s1]. rewrite IH. destruct (run matches s1 r). reflexivity.
Qed.
Lemma history_ind matches (P : list (call * outcome) -> sa -> Prop) :
  (forall r, P [] (sa_init r)) ->
  (forall h s c o s', history matches h s -> P h s -> step matches s c = (o, s') -> P (h ++ [(c, o)]) s') ->
  forall h s, history matches h s -> P h s.
Proof.
  intros B S h s (r & cs & E). revert h s E. induction cs as [|c cs IH] using rev_ind; intros h s E.
  - injection E as <- <-. apply B.
  - rewrite run_snoc in E. injection E as <- <-.
    apply S with (snd (run matches (sa_init r) cs)).
    + exists r, cs. destruct (run matches (sa_init r) cs); reflexivity.
    + apply IH. destruct (run matches (sa_init r) cs); reflexivity.
    + destruct (step _ _ _); reflexivity.
Qed.
Lemma run_length matches cs : forall s h s', run matches s cs = (h, s') -> map fst h = cs.
Proof.
  induction cs as [|c r IH]; intros s h s' E; cbn in E.
  - injection E as <- <-. reflexivity.
  - destruct (step matches s c) as [o s1]. destruct (run matches s1 r) as [h1 s2] eqn:E2.
    injection E as <- <-. cbn. f_equal. eapply IH; eauto.
Qed.
Lemma run_app matches a : forall b s,
  run matches s (a ++ b) =
  (fst (run matches s a) ++ fst (run matches (snd (run matches s a)) b),
   snd (run matches (snd (run matches s a)) b)).
Proof.
  induction a as [|c r IH]; intros b s; cbn.
  - destruct (run matches s b); reflexivity.
  - destruct (step matches s c) as [o s1]. rewrite IH. destruct (run matches s1 r). reflexivity.
Qed.
(** A history split at an event. *)
Lemma history_split matches h1 c o h2 s : history matches (h1 ++ (c, o) :: h2) s ->
  exists s1 s2, history matches h1 s1 /\ step matches s1 c = (o, s2) /\
                run matches s2 (map fst h2) = (h2, s).
Proof.
  intros (r & cs & E). assert (L := run_length _ _ _ _ _ E). rewrite map_app in L. cbn in L. subst cs.
  rewrite run_app in E. destruct (run matches (sa_init r) (map fst h1)) as [g1 s1] eqn:E1. cbn in E.
  destruct (step matches s1 c) as [o' s2] eqn:E2.
  destruct (run matches s2 (map fst h2)) as [g2 s3] eqn:E3. cbn in E.
  assert (Q : g1 = h1 /\ (c, o') :: g2 = (c, o) :: h2 /\ s3 = s).
  { injection E as E Es. assert (LN : length g1 = length h1).
    { apply run_length in E1. rewrite <- (map_length fst g1), E1, map_length. reflexivity. }
    assert (g1 = h1 /\ (c, o') :: g2 = (c, o) :: h2).
    { clear - E LN. revert h1 E LN. induction g1 as [|x g1 IH]; intros [|y h1] E LN; cbn in *; try discriminate; auto.
      injection E as -> E. injection LN as LN. destruct (IH h1 E LN). split; congruence. }
    tauto. }
  destruct Q as (-> & Q & ->). injection Q as -> ->. exists s1, s2. split; [|auto]. exists r, (map fst h1). exact E1.
Qed.

(** ** The invariant *)
Definition mem (l : list meth) (m : meth) : bool := is_allowed m l.
Definition needs_ready := mem
  [m_get_job_state; m_get_job; m_get_category; m_get_participating_categories; m_get_mandatory_jobs;
   m_filter_jobs_by_categories; m_remove_all_filters; m_get_static_todo_list; m_get_dynamic_todo_list;
   m_run_job; m_use_alternate_selection; m_use_job_result; m_finish_bootstrap].
Definition needs_open m := needs_ready m || mem
  [m_get_test_plans; m_get_test_plan; m_select_test_plan; m_get_session_id; m_get_session_dir;
   m_hand_pick_jobs; m_bootstrap; m_get_bootstrap_todo_list] m.
Definition needs_meta m := needs_open m || mem
  [m_export_to_transport; m_export_to_file; m_export_to_stream; m_finalize_session] m.
Definition needs_prov m := needs_meta m || mem
  [m_start_new_session; m_resume_session; m_get_resumable_sessions; m_clear_cache] m.

Definition open_now (h : list (call * outcome)) : Prop :=
  exists h1 e h2,
    h = h1 ++ e :: h2 /\ Exists selects_providers h1 /\ opens e /\
    Forall (fun x => ~ opens x /\ ~ closes x) h2.

Definition just (h : list (call * outcome)) (s : sa) (m : meth) : Prop :=
  (needs_ready m = true -> ready_to_run h) /\
  (needs_open m = true -> open_now h) /\
  (needs_meta m = true -> a_meta s <> None) /\
  (needs_prov m = true -> Exists selects_providers h).
Definition inv (h : list (call * outcome)) (s : sa) : Prop :=
  (forall m, In m (a_allowed s) -> just h s m) /\
  (a_iter s = true -> Exists selects_providers h).

Lemma open_keep h e : ~ opens e -> ~ closes e -> open_now h -> open_now (h ++ [e]).
Proof.
  intros NO NC (h1 & x & h2 & -> & P & O & F). exists h1, x, (h2 ++ [e]).
  rewrite <- app_assoc. cbn. repeat split; auto. apply Forall_app. auto.
Qed.
Lemma ready_keep h e : ~ opens e -> ~ closes e -> ready_to_run h -> ready_to_run (h ++ [e]).
Proof.
  intros NO NC (h1 & x & h2 & -> & P & O & F & C). exists h1, x, (h2 ++ [e]).
  rewrite <- app_assoc. cbn. repeat split; auto. { apply Forall_app. auto. }
  change (x :: h2 ++ [e]) with ((x :: h2) ++ [e]). apply Exists_app. auto.
Qed.
Lemma ready_choose h e : ~ opens e -> ~ closes e -> chooses e -> open_now h -> ready_to_run (h ++ [e]).
Proof.
  intros NO NC C (h1 & x & h2 & -> & P & O & F). exists h1, x, (h2 ++ [e]).
  rewrite <- app_assoc. cbn. repeat split; auto. { apply Forall_app. auto. }
  change (x :: h2 ++ [e]) with ((x :: h2) ++ [e]). apply Exists_app. auto.
Qed.
Lemma prov_keep h e : Exists selects_providers h -> Exists selects_providers (h ++ [e]).
Proof. intros. apply Exists_app. auto. Qed.
Lemma open_opens h e : opens e -> Exists selects_providers h -> open_now (h ++ [e]).
Proof. intros O P. exists h, e, []. repeat split; auto. Qed.
Lemma ready_opens h e : opens e -> chooses e -> Exists selects_providers h -> ready_to_run (h ++ [e]).
Proof. intros O C P. exists h, e, []. repeat split; auto. Qed.

Lemma just_keep h e s s' m : ~ opens e -> ~ closes e ->
  (a_meta s <> None -> a_meta s' <> None) -> just h s m -> just (h ++ [e]) s' m.
Proof.
  intros NO NC M (A & B & C & D). repeat split; intros Q.
  - apply ready_keep; auto.
  - apply open_keep; auto.
  - auto.
  - apply prov_keep; auto.
Qed.
(** Everything holds of an open session in which jobs were just chosen. *)
Lemma just_ready h s m : ready_to_run h -> a_meta s <> None -> just h s m.
Proof.
  intros R M. assert (R2 := R). destruct R as (h1 & e & h2 & -> & P & O & F & C).
  repeat split; auto.
  - intros _. exists h1, e, h2. auto.
  - intros _. apply Exists_app. auto.
Qed.
Lemma just_open h s m : needs_ready m = false -> open_now h -> a_meta s <> None -> just h s m.
Proof.
  intros N R M. assert (R2 := R). destruct R as (h1 & e & h2 & -> & P & O & F).
  repeat split; auto; try congruence.
  intros _. apply Exists_app. auto.
Qed.
Lemma just_meta h s m : needs_open m = false -> a_meta s <> None -> Exists selects_providers h -> just h s m.
Proof.
  intros N M P. assert (N2 : needs_ready m = false) by (unfold needs_open in N; apply orb_false_iff in N; tauto).
  repeat split; auto; congruence.
Qed.
Lemma just_prov h s m : needs_meta m = false -> Exists selects_providers h -> just h s m.
Proof.
  intros N P. assert (N2 : needs_open m = false) by (unfold needs_meta in N; apply orb_false_iff in N; tauto).
  assert (N3 : needs_ready m = false) by (unfold needs_open in N2; apply orb_false_iff in N2; tauto).
  repeat split; auto; congruence.
Qed.
Lemma just_free h s m : needs_prov m = false -> just h s m.
Proof.
  intros N. assert (N1 : needs_meta m = false) by (unfold needs_prov in N; apply orb_false_iff in N; tauto).
  assert (N2 : needs_open m = false) by (unfold needs_meta in N1; apply orb_false_iff in N1; tauto).
  assert (N3 : needs_ready m = false) by (unfold needs_open in N2; apply orb_false_iff in N2; tauto).
  repeat split; auto; congruence.
Qed.

Lemma inv_init r : inv [] (sa_init r).
Proof.
  split; [|discriminate]. intros m I. apply just_free.
  destruct r; cbn in I; repeat (destruct I as [<-|I]; [reflexivity|]); destruct I.
Qed.
Lemma inv_same h s s' e : inv h s -> ~ opens e -> ~ closes e ->
  (forall m, In m (a_allowed s') -> In m (a_allowed s)) ->
  (a_meta s <> None -> a_meta s' <> None) -> a_iter s' = a_iter s -> inv (h ++ [e]) s'.
Proof.
  intros [A B] NO NC S M I. split.
  - intros m J. eapply just_keep; eauto.
  - rewrite I. intros Q. apply prov_keep; auto.
Qed.

Lemma inv_ready h s s' e : inv h s -> ready_to_run (h ++ [e]) -> a_meta s' <> None ->
  (a_iter s' = a_iter s) -> inv (h ++ [e]) s'.
Proof.
  intros [A B] R M I. split; [intros m _; apply just_ready; auto|].
  rewrite I. intros Q. apply prov_keep; auto.
Qed.

Lemma inv_bootstrap matches h s f jobs sec ck o s' : inv h s ->
  step matches s (Bootstrap f jobs sec ck) = (o, s') -> inv (h ++ [(Bootstrap f jobs sec ck, o)]) s'.
Proof.
  intros V H. assert (A := proj1 V). apply bootstrap_effect in H.
  destruct H as [(-> & ->)|(IA & N1 & N2 & Q)].
  - eapply inv_same; eauto; intros [].
  - assert (RR : ready_to_run (h ++ [(Bootstrap f jobs sec ck, o)])).
    { apply ready_choose; [intros []|intros []|exact N1|apply (A _ IA); reflexivity]. }
    assert (M : a_meta s <> None) by (apply (A _ IA); reflexivity).
    destruct Q as [((R & _) & N3)|(EA & EM & EI & MM & N3)]; eapply inv_ready; eauto.
    + destruct R as [-> _]. exact M.
    + apply R.
    + rewrite EM. discriminate.
Qed.
Lemma inv_filter matches h s found ok o s' : inv h s ->
  step matches s (FilterJobsByCategories found ok) = (o, s') ->
  inv (h ++ [(FilterJobsByCategories found ok, o)]) s'.
Proof.
  intros V H. assert (A := proj1 V). apply filter_effect in H.
  destruct H as [(-> & ->)|(IA & S & N1 & N2 & Q)].
  - eapply inv_same; eauto; intros [].
  - assert (R : ready_to_run h) by (apply (A _ IA); reflexivity).
    assert (M : a_meta s <> None) by (apply (A _ IA); reflexivity).
    destruct S as (S1 & S2 & _).
    eapply inv_ready; eauto; [apply ready_keep; auto; intros []|congruence].
Qed.

Ltac find_allowed A :=
  match goal with
  | E : is_allowed ?m (a_allowed ?s) = true |- _ =>
      apply is_allowed_in in E; let Q := fresh "Q" in assert (Q := A _ E)
  end.

Lemma inv_step matches h s c o s' : inv h s -> step matches s c = (o, s') -> inv (h ++ [(c, o)]) s'.
Proof.
  intros V H. assert (A := proj1 V). assert (B := proj2 V).
  destruct c; try (apply inv_bootstrap with matches s; assumption); try (apply inv_filter with matches s; assumption);
    open_call H; inversion H; subst; clear H;
    try (eapply inv_same; [exact V|intros []|intros []|cbn; auto|cbn; congruence|cbn; auto]; fail).
  1-5: (eapply inv_same; [exact V|intros []|intros []| |cbn; congruence|cbn; auto];
        intros m I; cbn in I; rewrite ?in_disallow in I; tauto).
  all: try (apply is_allowed_in in E).
  - (* SelectProviders *)
    split; [|intros I; apply prov_keep; auto].
    assert (P : Exists selects_providers (h ++ [(SelectProviders available pats, Returned)]))
      by (apply Exists_app; right; constructor; exact I).
    intros m I. cbn in I. rewrite !in_allow in I.
    destruct I as [->|[->|[->|I]]]; try (apply just_prov; [reflexivity|exact P]).
    apply in_remove in I. destruct I as [I _]. eapply just_keep; eauto; intros [].
  - (* StartNewSession *)
    assert (P : Exists selects_providers h) by (apply (A _ E); reflexivity).
    split; [|intros I; apply prov_keep; auto].
    intros m I. apply just_open; [|apply open_opens; [exact Logic.I|exact P]|discriminate].
    cbn in I. repeat (destruct I as [<-|I]; [reflexivity|]). destruct I.
  - (* GetResumableSessions *)
    assert (P : Exists selects_providers h) by (apply (A _ E); reflexivity).
    split; [|intros I; apply prov_keep; auto].
    intros m I. cbn in I. rewrite in_allow in I. destruct I as [->|I].
    + apply just_prov; [reflexivity|apply prov_keep; exact P].
    + eapply just_keep; eauto; intros [].
  - assert (P : Exists selects_providers h) by (apply (A _ E); reflexivity).
    split; [|intros I; apply prov_keep; auto].
    intros m I. eapply just_keep; eauto; intros [].
  - (* NextResumableSession *)
    assert (P : Exists selects_providers h) by (apply B; reflexivity).
    split; [|intros I; apply prov_keep; auto].
    intros m I. cbn in I. rewrite in_allow in I. destruct I as [->|I].
    + apply just_prov; [reflexivity|apply prov_keep; exact P].
    + eapply just_keep; eauto; intros [].
  - (* ResumeSession *)
    assert (P : Exists selects_providers h) by (apply (A _ E); reflexivity).
    eapply inv_ready; eauto; [|discriminate]. apply ready_opens; [exact I|assumption|exact P].
  - assert (P : Exists selects_providers h) by (apply (A _ E); reflexivity).
    split; [|intros I; apply prov_keep; auto].
    intros m I. apply just_open; [|apply open_opens; [exact Logic.I|exact P]|discriminate].
    cbn in I. destruct I as [<-|[]]. reflexivity.
  - (* SelectTestPlan *)
    assert (P : open_now h) by (apply (A _ E); reflexivity).
    assert (M : a_meta s <> None) by (apply (A _ E); reflexivity).
    split; [|intros I; apply prov_keep; auto].
    intros m1 I. apply just_open; [|apply open_keep; [intros []|intros []|exact P]|exact M].
    cbn in I. destruct I as [<-|[<-|[]]]; reflexivity.
  - (* HandPickJobs *)
    eapply inv_ready; eauto; [|discriminate]. apply ready_choose; [intros []|intros []|exact I|apply (A _ E); reflexivity].
  - (* GetBootstrapTodoList *)
    eapply inv_ready; eauto; [|apply (A _ E); reflexivity].
    apply ready_choose; [intros []|intros []|exact I|apply (A _ E); reflexivity].
  - (* FinishBootstrap *)
    eapply inv_ready; eauto; [|discriminate]. apply ready_keep; [intros []|intros []|apply (A _ E); reflexivity].
  - eapply inv_ready; eauto; [|discriminate]. apply ready_keep; [intros []|intros []|apply (A _ E); reflexivity].
  - eapply inv_ready; eauto; [|apply (A _ E); reflexivity]. apply ready_keep; [intros []|intros []|apply (A _ E); reflexivity].
  - eapply inv_ready; eauto; [|apply (A _ E); reflexivity]. apply ready_keep; [intros []|intros []|apply (A _ E); reflexivity].
  - eapply inv_ready; eauto; [|apply (A _ E); reflexivity]. apply ready_keep; [intros []|intros []|apply (A _ E); reflexivity].
  - eapply inv_ready; eauto; [|apply (A _ E); reflexivity]. apply ready_keep; [intros []|intros []|apply (A _ E); reflexivity].
  - eapply inv_ready; eauto; [|apply (A _ E); reflexivity]. apply ready_keep; [intros []|intros []|apply (A _ E); reflexivity].
  - eapply inv_ready; eauto; [|apply (A _ E); reflexivity]. apply ready_keep; [intros []|intros []|apply (A _ E); reflexivity].
  - eapply inv_ready; eauto; [|apply (A _ E); reflexivity]. apply ready_keep; [intros []|intros []|apply (A _ E); reflexivity].
  - (* FinalizeSession *)
    assert (P : Exists selects_providers h) by (apply (A _ E); reflexivity).
    split; [|intros I; apply prov_keep; auto].
    intros m1 I. cbn in I.
    assert (C : needs_prov m1 = false \/ needs_open m1 = false).
    { repeat (destruct I as [<-|I]; [auto|]). destruct I. }
    destruct C as [C|C]; [apply just_free; exact C|].
    apply just_meta; [exact C|discriminate|apply prov_keep; exact P].
Qed.

Lemma history_inv matches h s : history matches h s -> inv h s.
Proof.
  apply history_ind.
  - intros r. apply inv_init.
  - intros. eapply inv_step; eauto.
Qed.

(** ** C27: the protocol *)

(** A call that is not refused was among the allowed ones. *)
Lemma accepted_run matches s w o s' : step matches s (RunJob w) = (o, s') -> o <> Rejected -> In m_run_job (a_allowed s).
Proof.
  intros H N. open_call H; inversion H; subst; try congruence; apply is_allowed_in; assumption.
Qed.

(** A job is run by the application only if providers were selected, a session
    was opened after that and not closed since, and jobs were chosen in it. *)
Theorem C27_run_needs_a_prepared_session matches h w o h' s :
  history matches (h ++ (RunJob w, o) :: h') s -> o <> Rejected -> ready_to_run h.
Proof.
  intros H N. apply history_split in H. destruct H as (s1 & s2 & H & E & _).
  apply history_inv in H. apply (proj1 H m_run_job); [|reflexivity]. eapply accepted_run; eauto.
Qed.
Print Assumptions C27_run_needs_a_prepared_session.

(** The same for recording a result. *)
Theorem C27_result_needs_a_prepared_session matches h b o h' s :
  history matches (h ++ (UseJobResult b, o) :: h') s -> o <> Rejected -> ready_to_run h.
Proof.
  intros H N. apply history_split in H. destruct H as (s1 & s2 & H & E & _).
  apply history_inv in H. apply (proj1 H m_use_job_result); [|reflexivity].
  open_call E; inversion E; subst; try congruence; apply is_allowed_in; assumption.
Qed.
Print Assumptions C27_result_needs_a_prepared_session.

Lemma split_at {A} (h1 : list A) : forall h2 g1 g2 a e,
  h1 ++ a :: h2 = g1 ++ e :: g2 -> a = e \/ In a g2 \/ In e h2.
Proof.
  induction h1 as [|x h1 IH]; intros h2 [|y g1] g2 a e E; cbn in E; injection E as E0 E1; subst.
  - auto.
  - right. right. apply in_or_app. right. left. reflexivity.
  - right. left. apply in_or_app. right. left. reflexivity.
  - eapply IH; eauto.
Qed.

(** After a session was finalized, running a job is refused until another
    session is started or resumed. *)
Theorem C27_finalized_session_runs_nothing matches h1 b h2 w o h3 s :
  history matches (h1 ++ (FinalizeSession b, Returned) :: h2 ++ (RunJob w, o) :: h3) s ->
  Forall (fun e => ~ opens e) h2 -> o = Rejected.
Proof.
  intros H F. assert (D : o = Rejected \/ o <> Rejected) by (destruct o; auto; right; discriminate).
  destruct D as [D|D]; [exact D|exfalso].
  assert (H' : history matches ((h1 ++ (FinalizeSession b, Returned) :: h2) ++ (RunJob w, o) :: h3) s)
    by (rewrite <- app_assoc; exact H).
  apply C27_run_needs_a_prepared_session in H'; [|exact D].
  destruct H' as (g1 & e & g2 & E & _ & O & G & _).
  rewrite Forall_forall in F, G. apply split_at in E. destruct E as [<-|[I|I]].
  - destruct O.
  - apply (proj2 (G _ I)). exact Logic.I.
  - exact (F _ I O).
Qed.
Print Assumptions C27_finalized_session_runs_nothing.

(** A refused call changes nothing. *)
Theorem C27_refused_call_changes_nothing matches s c s' : step matches s c = (Rejected, s') -> s' = s.
Proof.
  intros H. destruct c;
    try (apply bootstrap_effect in H; destruct H as [(_ & ->)|(_ & N & _)]; [reflexivity|congruence]);
    try (apply filter_effect in H; destruct H as [(_ & ->)|(_ & _ & _ & N & _)]; [reflexivity|congruence]);
    open_call H; inversion H; reflexivity.
Qed.
Print Assumptions C27_refused_call_changes_nothing.

(** One-shot calls: what one of them needs is never allowed again. *)
Definition meth_of (c : call) : option meth :=
  match c with
  | UseAlternateRepository => Some m_use_alternate_repository
  | UseAlternateConfiguration => Some m_use_alternate_configuration
  | UseAlternateExecutionControllers => Some m_use_alternate_execution_controllers
  | UseAlternateRestartStrategy => Some m_use_alternate_restart_strategy
  | ConfigureApplicationRestart _ => Some m_configure_application_restart
  | SelectProviders _ _ => Some m_select_providers
  | _ => None
  end.
Definition once : list meth :=
  [m_use_alternate_repository; m_use_alternate_configuration; m_use_alternate_execution_controllers;
   m_use_alternate_restart_strategy; m_configure_application_restart; m_select_providers].
Lemma once_only_shrinks matches s c o s' m : In m once -> step matches s c = (o, s') ->
  In m (a_allowed s') -> In m (a_allowed s).
Proof.
  intros O H I.
  destruct c;
    try (apply bootstrap_effect in H; destruct H as [(_ & ->)|(_ & _ & _ & [((_ & R & _) & _)|(EA & _)])];
         [exact I|destruct (R _ I) as [J|[-> | ->]]; [exact J|cbn in O; intuition discriminate|cbn in O; intuition discriminate]
         |rewrite EA in I; cbn in I, O; repeat (destruct O as [<-|O]; [intuition discriminate|]); destruct O]);
    try (apply filter_effect in H; destruct H as [(_ & ->)|(_ & _ & _ & _ & [Q|Q])];
         [exact I|rewrite Q in I; exact I
         |rewrite Q, in_allow in I; destruct I as [->|I]; [cbn in O; intuition discriminate|exact I]]);
    open_call H; inversion H; subst; clear H; cbn in I; rewrite ?in_allow, ?in_disallow in I; try tauto;
    try (cbn in O; repeat (destruct O as [<-|O]; [intuition discriminate|]); destruct O).
Qed.
Theorem C27_one_shot_calls matches h1 a h2 b oa ob h3 s :
  history matches (h1 ++ (a, oa) :: h2 ++ (b, ob) :: h3) s ->
  one_shot a -> same_method a b -> oa = Returned -> ob = Rejected.
Proof.
  intros H OS SM ->. apply history_split in H. destruct H as (s1 & s2 & _ & E1 & H).
  rewrite map_app in H. cbn in H.
  assert (K : exists m, meth_of a = Some m /\ meth_of b = Some m /\ In m once).
  { destruct OS, b; cbn in SM; try discriminate SM; try contradiction SM;
      eexists; repeat split; cbn; auto 10. }
  destruct K as (m & Ma & Mb & On).
  assert (N2 : ~ In m (a_allowed s2)).
  { destruct OS; cbn in Ma; injection Ma as <-; open_call E1; inversion E1; subst; cbn;
      rewrite ?in_allow, ?in_disallow; try tauto.
    intros [J|[J|[J|J]]]; try discriminate J. tauto. }
  clear E1. rewrite run_app in H.
  assert (L : forall cs s, ~ In m (a_allowed s) -> ~ In m (a_allowed (snd (run matches s cs)))).
  { induction cs as [|c r IH]; intros s0 N0; [exact N0|]. cbn.
    destruct (step matches s0 c) as [o1 s3] eqn:E3. specialize (IH s3).
    destruct (run matches s3 r) as [g s4]. cbn in *. apply IH. intros I. apply N0.
    eapply once_only_shrinks; eauto. }
  specialize (L (map fst h2) s2 N2).
  assert (LE := run_length matches (map fst h2) s2).
  destruct (run matches s2 (map fst h2)) as [g s3]. cbn in H, L. specialize (LE g s3 eq_refl).
  destruct (step matches s3 b) as [o4 s4] eqn:E4.
  destruct (run matches s4 (map fst h3)) as [g4 s5]. cbn in H. injection H as H _.
  assert (Q : (b, o4) = (b, ob)).
  { assert (LN : length g = length h2) by (rewrite <- (map_length fst g), LE, map_length; reflexivity).
    clear - H LN. revert h2 H LN. induction g as [|x g IH]; intros [|y h2] H LN; cbn in *; try discriminate.
    - congruence.
    - injection H as _ H. injection LN as LN. eapply IH; eauto. }
  injection Q as <-.
  assert (A : is_allowed m (a_allowed s3) = false).
  { destruct (is_allowed m (a_allowed s3)) eqn:A; [|reflexivity]. apply is_allowed_in in A. contradiction. }
  destruct b; cbn in Mb; try discriminate Mb; injection Mb as <-; cbn in E4; unfold enforce in E4;
    rewrite A in E4; injection E4 as <- _; reflexivity.
Qed.
Print Assumptions C27_one_shot_calls.

Lemma boot_loop_session jobs : forall s k s', a_meta s <> None ->
  boot_loop jobs s k = (NoSession, s') -> exists s1, a_meta s1 = a_meta s /\ k s1 = (NoSession, s').
Proof.
  induction jobs as [|j r IH]; intros s k s' M H; cbn in H; [exists s; auto|].
  destruct (b_done j); [apply IH; auto|].
  set (s0 := set_allowed (allow m_run_job (a_allowed s)) s) in *.
  assert (M0 : a_meta s0 = a_meta s) by reflexivity. clearbody s0.
  apply nested_spec in H. destruct H as [(s1 & E1 & H)|[(E1 & C)|(E1 & N)]]; [|discriminate C|].
  - assert (M1 : a_meta s1 = a_meta s) by (destruct E1 as [E1|E1]; apply run_job_effect in E1; destruct E1 as [[-> _] _]; auto).
    apply nested_spec in H. destruct H as [(s2 & E2 & H)|[(E2 & C)|(E2 & N)]]; [|discriminate C|].
    + assert (M2 : a_meta s2 = a_meta s) by (destruct E2 as [E2|E2]; apply use_result_effect in E2; destruct E2 as [[-> _] _]; auto).
      apply IH in H; [|congruence]. destruct H as (s3 & M3 & H). exists s3. split; [congruence|exact H].
    + exfalso. open_call E2; inversion E2; subst; congruence.
  - exfalso. open_call E1; inversion E1; subst; congruence.
Qed.
Lemma get_jobs_session found : forall s k s', a_meta s <> None ->
  get_jobs found s k = (NoSession, s') -> exists s1, a_meta s1 = a_meta s /\ k s1 = (NoSession, s').
Proof.
  induction found as [|b r IH]; intros s k s' M H; cbn in H; [exists s; auto|].
  apply nested_spec in H. destruct H as [(s1 & E1 & H)|[(E1 & C)|(E1 & N)]]; [|discriminate C|].
  - assert (M1 : a_meta s1 = a_meta s) by (destruct E1 as [E1|E1]; apply get_job_effect in E1; destruct E1 as [[-> _] _]; auto).
    apply IH in H; [|congruence]. destruct H as (s3 & M3 & H). exists s3. split; [congruence|exact H].
  - exfalso. open_call E1; inversion E1; subst; congruence.
Qed.

(** No accepted call finds the session missing, except for the two methods that
    do not check the protocol. *)
Theorem C27_session_is_there matches h s c :
  history matches h s -> In (c, NoSession) h ->
  match c with UpdateAppBlob _ | GetSummary => True | _ => False end.
Proof.
  intros H I. apply in_split in I. destruct I as (h1 & h2 & ->).
  apply history_split in H. destruct H as (s1 & s2 & H & E & _). apply history_inv in H.
  assert (A : forall m, In m (a_allowed s1) -> needs_meta m = true -> a_meta s1 <> None)
    by (intros m I; apply (proj1 H m I)).
  assert (A' : forall m, is_allowed m (a_allowed s1) = true -> needs_meta m = true -> a_meta s1 <> None)
    by (intros m I; apply A; apply is_allowed_in; exact I).
  destruct c; try exact Logic.I.
  all: try (open_call E; inversion E; subst;
    match goal with Q : is_allowed ?m _ = true |- _ => specialize (A' m Q eq_refl) end; congruence).
  - cbn in E. unfold enforce at 1 in E. destruct (is_allowed m_bootstrap (a_allowed s1)) eqn:Q; [|discriminate E].
    specialize (A' _ Q eq_refl). unfold session_work at 1 in E. destruct (a_meta s1) as [f|] eqn:M; [|congruence].
    destruct first; [|discriminate E]. apply boot_loop_session in E; [|congruence].
    destruct E as (s3 & M3 & E). unfold session_work in E. rewrite M3, M in E.
    destruct second; [|discriminate E]. destruct checkpoint; discriminate E.
  - cbn in E. unfold enforce at 1 in E. destruct (is_allowed m_filter_jobs_by_categories (a_allowed s1)) eqn:Q; [|discriminate E].
    specialize (A' _ Q eq_refl). destruct (a_meta s1) as [f|] eqn:M; [|congruence].
    apply nested_spec in E. destruct E as [(s3 & E1 & E)|[(E1 & C)|(E1 & N)]]; [|discriminate C|].
    + assert (M3 : a_meta s3 = a_meta s1) by (destruct E1 as [E1|E1]; open_call E1; inversion E1; subst; auto).
      apply get_jobs_session in E; [|congruence]. destruct E as (s4 & M4 & E).
      apply nested_spec in E. destruct E as [(s5 & E2 & E)|[(E2 & C)|(E2 & N)]]; [discriminate E|discriminate C|].
      open_call E2; inversion E2; subst; congruence.
    + open_call E1; inversion E1; subst; congruence.
Qed.
Print Assumptions C27_session_is_there.

(** No accepted call is stopped by the protocol check of a method it calls
    itself, as long as no bootstrap was interrupted by an exception. *)
Definition interrupted_bootstrap (e : call * outcome) : Prop :=
  match e with
  | (Bootstrap _ _ _ _, o) => o <> Returned /\ o <> Rejected
  | _ => False
  end.
Definition together (s : sa) : Prop :=
  (In m_run_job (a_allowed s) -> In m_get_session_dir (a_allowed s) /\ In m_get_session_id (a_allowed s)) /\
  (In m_use_job_result (a_allowed s) -> In m_get_session_dir (a_allowed s) /\ In m_get_session_id (a_allowed s)) /\
  (In m_get_job (a_allowed s) -> In m_get_session_dir (a_allowed s) /\ In m_get_session_id (a_allowed s)) /\
  (In m_filter_jobs_by_categories (a_allowed s) ->
     In m_get_job (a_allowed s) /\ In m_get_static_todo_list (a_allowed s) /\ In m_use_alternate_selection (a_allowed s)) /\
  (In m_use_alternate_selection (a_allowed s) -> In m_get_static_todo_list (a_allowed s)).
Lemma together_step matches s c o s' : together s -> step matches s c = (o, s') ->
  ~ interrupted_bootstrap (c, o) -> together s'.
Proof.
  intros T H NB. destruct c;
    try (apply bootstrap_effect in H; destruct H as [(_ & ->)|(_ & N1 & N2 & [(_ & N3)|(EA & _)])];
         [exact T|exfalso; apply NB; split; assumption|unfold together; rewrite EA; cbn; intuition]);
    try (apply filter_effect in H; destruct H as [(_ & ->)|(IA & _ & _ & _ & [Q|Q])];
         [exact T|unfold together in *; rewrite Q; exact T
         |unfold together in *; rewrite Q; rewrite !in_allow; intuition (try discriminate)]);
    open_call H; inversion H; subst; clear H;
    try exact T; unfold together in *; cbn [a_allowed set_allowed set_meta set_plan set_iter set_selected set_strategy set_callback].
  all: try (change (remove meth_dec) with disallow).
  all: try (rewrite !in_allow || rewrite !in_disallow);
       repeat first [rewrite !in_allow | rewrite !in_disallow];
       try apply is_allowed_in in E;
       try (cbn; intuition (try discriminate); fail);
       try (intuition (try discriminate); fail).
Qed.
Theorem C27_protocol_does_not_trip matches h s c :
  history matches h s -> Forall (fun e => ~ interrupted_bootstrap e) h -> ~ In (c, Tripped) h.
Proof.
  intros H F I. apply in_split in I. destruct I as (h1 & h2 & ->).
  apply history_split in H. destruct H as (s1 & s2 & H & E & _).
  assert (F1 : Forall (fun e => ~ interrupted_bootstrap e) h1 /\ ~ interrupted_bootstrap (c, Tripped)).
  { apply Forall_app in F. destruct F as [F1 F2]. inversion F2; auto. }
  clear F. destruct F1 as [F NI].
  assert (T : together s1).
  { clear E. revert F. revert h1 s1 H.
    apply (history_ind matches (fun h s => Forall (fun e => ~ interrupted_bootstrap e) h -> together s)).
    - intros r _. unfold together. destruct r; cbn; intuition discriminate.
    - intros h s0 c0 o0 s0' _ IH E F. apply Forall_app in F. destruct F as [F1 F2]. inversion F2; subst.
      eapply together_step; eauto. }
  destruct T as (T1 & T2 & T3 & T4 & T5).
  assert (B : forall m, In m (a_allowed s1) -> is_allowed m (a_allowed s1) = true) by (intros; apply is_allowed_in; auto).
  assert (D : forall m, is_allowed m (a_allowed s1) = true -> In m (a_allowed s1)) by (intros; apply is_allowed_in; auto).
  destruct c;
    try (apply NI; split; discriminate);
    try (open_call E; inversion E; clear E;
         repeat match goal with Q : is_allowed _ _ = true |- _ => apply D in Q end;
         repeat match goal with Q : In ?m (a_allowed s1), T : In ?m (a_allowed s1) -> _ |- _ => specialize (T Q) end;
         repeat match goal with T : _ /\ _ |- _ => destruct T end;
         repeat match goal with Q : In _ (a_allowed s1) |- _ => apply B in Q end; congruence).
  (* FilterJobsByCategories *)
  cbn in E. unfold enforce at 1 in E. destruct (is_allowed m_filter_jobs_by_categories (a_allowed s1)) eqn:Q; [|discriminate E].
  apply D in Q. destruct (T4 Q) as (J1 & J2 & J3).
  apply nested_spec in E. destruct E as [(s3 & E1 & E)|[(E1 & _)|(E1 & N)]].
  - assert (s3 = s1) by (destruct E1 as [E1|E1]; open_call E1; inversion E1; subst; auto). subst s3.
    assert (G : forall found s k s', In m_get_job (a_allowed s) -> get_jobs found s k = (Tripped, s') ->
       exists s4, (a_allowed s4 = a_allowed s \/ a_allowed s4 = allow m_use_job_result (a_allowed s)) /\ k s4 = (Tripped, s')).
    { clear. induction found as [|b r IH]; intros s k s' A H; cbn in H; [exists s; auto|].
      assert (IA : is_allowed m_get_job (a_allowed s) = true) by (apply is_allowed_in; auto).
      apply nested_spec in H. destruct H as [(s1 & E1 & H)|[(E1 & C)|(E1 & N)]].
      - assert (A1 : a_allowed s1 = allow m_use_job_result (a_allowed s)).
        { unfold do_get_job, enforce in E1. rewrite IA in E1. unfold session_work in E1. cbn in E1.
          destruct (a_meta s), b, E1 as [E1|E1]; inversion E1; reflexivity. }
        apply IH in H; [|rewrite A1; apply in_allow; auto]. destruct H as (s4 & Q & H).
        exists s4. split; [|exact H]. rewrite A1 in Q. right. destruct Q as [Q|Q]; [exact Q|].
        rewrite Q. unfold allow at 1. destruct (in_dec _ _ _) as [|N]; [reflexivity|].
        exfalso. apply N. apply in_allow. auto.
      - unfold do_get_job, enforce in E1. rewrite IA in E1. unfold session_work in E1. cbn in E1.
        destruct (a_meta s), b; discriminate E1.
      - unfold do_get_job, enforce in E1. rewrite IA in E1. unfold session_work in E1. cbn in E1.
        destruct (a_meta s), b; discriminate E1. }
    apply G in E; [|exact J1]. destruct E as (s4 & A4 & E).
    assert (K1 : is_allowed m_use_alternate_selection (a_allowed s4) = true)
      by (apply is_allowed_in; destruct A4 as [->| ->]; [|apply in_allow]; auto).
    assert (K2 : is_allowed m_get_static_todo_list (a_allowed s4) = true)
      by (apply is_allowed_in; destruct A4 as [->| ->]; [|apply in_allow]; auto).
    open_call E; inversion E; subst; congruence.
  - apply B in J2. open_call E1; inversion E1; subst; congruence.
  - open_call E1; inversion E1; subst; congruence.
Qed.
Print Assumptions C27_protocol_does_not_trip.

(** One public method can never be used: it is in no set of allowed calls. *)
Lemma sso_step matches s c o s' : ~ In m_get_ubuntu_sso_oauth_transport (a_allowed s) ->
  step matches s c = (o, s') -> ~ In m_get_ubuntu_sso_oauth_transport (a_allowed s').
Proof.
  intros N H I. apply N. clear N. destruct c;
    try (apply bootstrap_effect in H; destruct H as [(_ & ->)|(_ & _ & _ & [((_ & R & _) & _)|(EA & _)])];
         [exact I|destruct (R _ I) as [J|[J|J]]; [exact J|discriminate J|discriminate J]
         |rewrite EA in I; cbn in I; intuition discriminate]);
    try (apply filter_effect in H; destruct H as [(_ & ->)|(_ & _ & _ & _ & [Q|Q])];
         [exact I|rewrite Q in I; exact I
         |rewrite Q, in_allow in I; destruct I as [I|I]; [discriminate I|exact I]]);
    open_call H; inversion H; subst; clear H; cbn in I; try (change (remove meth_dec) with disallow in I);
    rewrite ?in_allow, ?in_disallow in I; try tauto;
    try (intuition discriminate).
Qed.
Theorem C27_sso_transport_is_unreachable matches h s b o :
  history matches h s -> In (GetUbuntuSsoOauthTransport b, o) h -> o = Rejected.
Proof.
  intros H I. apply in_split in I. destruct I as (h1 & h2 & ->).
  apply history_split in H. destruct H as (s1 & s2 & H & E & _).
  assert (N : ~ In m_get_ubuntu_sso_oauth_transport (a_allowed s1)).
  { clear E. revert h1 s1 H. apply (history_ind matches (fun _ s => ~ In m_get_ubuntu_sso_oauth_transport (a_allowed s))).
    - intros []; cbn; intuition discriminate.
    - intros. eapply sso_step; eauto. }
  cbn in E. unfold enforce in E. destruct (is_allowed m_get_ubuntu_sso_oauth_transport (a_allowed s1)) eqn:Q.
  - apply is_allowed_in in Q. contradiction.
  - congruence.
Qed.
Print Assumptions C27_sso_transport_is_unreachable.

(** Every other method can be. *)
Definition ok_run := mk_run true false true.
Definition to_plan : list call := [SelectProviders [] []; StartNewSession StartOk; SelectTestPlan true].
Theorem C27_other_methods_are_reachable matches m : m <> m_get_ubuntu_sso_oauth_transport ->
  exists h s, history matches h s /\ In m (a_allowed s).
Proof.
  intros N.
  assert (K : forall cs, In m (a_allowed (snd (run matches (sa_init true) cs))) ->
              exists h s, history matches h s /\ In m (a_allowed s)).
  { intros cs I. exists (fst (run matches (sa_init true) cs)), (snd (run matches (sa_init true) cs)).
    split; [|exact I]. exists true, cs. destruct (run _ _ _); reflexivity. }
  destruct m; try congruence;
    first [ apply (K []); apply is_allowed_in; vm_compute; reflexivity
          | apply (K [SelectProviders [] []]); apply is_allowed_in; vm_compute; reflexivity
          | apply (K [SelectProviders [] []; GetResumableSessions true]); apply is_allowed_in; vm_compute; reflexivity
          | apply (K [SelectProviders [] []; StartNewSession StartOk]); apply is_allowed_in; vm_compute; reflexivity
          | apply (K to_plan); apply is_allowed_in; vm_compute; reflexivity
          | apply (K (to_plan ++ [Bootstrap true [] true true])); apply is_allowed_in; vm_compute; reflexivity ].
Qed.
Print Assumptions C27_other_methods_are_reachable.

(** A finalize_session() that is ignored does not stop anything: while the
    application runs the bootstrap jobs itself, the session is not yet marked
    incomplete. *)
Theorem C27_ignored_finalize_refuted : exists matches h s,
  history matches h s /\
  h = [(SelectProviders [] [], Returned); (StartNewSession StartOk, Returned);
       (SelectTestPlan true, Returned); (GetBootstrapTodoList true, Returned);
       (FinalizeSession true, Ignored); (RunJob ok_run, Returned)].
Proof.
  eexists (fun _ _ => true), _, _. split; [|reflexivity].
  exists false, (to_plan ++ [GetBootstrapTodoList true; FinalizeSession true; RunJob ok_run]).
  vm_compute. reflexivity.
Qed.
Print Assumptions C27_ignored_finalize_refuted.

(** And when the checkpoint of finalize_session() fails, repeating the call is
    ignored although jobs can still be run. *)
Theorem C27_failed_finalize_refuted : exists matches h s,
  history matches h s /\
  h = [(SelectProviders [] [], Returned); (StartNewSession StartOk, Returned);
       (SelectTestPlan true, Returned); (Bootstrap true [] true true, Returned);
       (FinalizeSession false, Failed); (FinalizeSession true, Ignored); (RunJob ok_run, Returned)].
Proof.
  eexists (fun _ _ => true), _, _. split; [|reflexivity].
  exists false, (to_plan ++ [Bootstrap true [] true true; FinalizeSession false; FinalizeSession true; RunJob ok_run]).
  vm_compute. reflexivity.
Qed.
Print Assumptions C27_failed_finalize_refuted.

(** A noreturn job among the bootstrap jobs trips the protocol. *)
Theorem C27_noreturn_bootstrap_refuted : exists matches h s,
  history matches h s /\
  h = [(SelectProviders [] [], Returned); (StartNewSession StartOk, Returned);
       (SelectTestPlan true, Returned);
       (Bootstrap true [mk_boot false (mk_run true true true) true] true true, Tripped)].
Proof.
  eexists (fun _ _ => true), _, _. split; [|reflexivity].
  exists false, (to_plan ++ [Bootstrap true [mk_boot false (mk_run true true true) true] true true]).
  vm_compute. reflexivity.
Qed.
Print Assumptions C27_noreturn_bootstrap_refuted.

(** In a session of hand picked jobs, get_mandatory_jobs() is allowed but
    always fails: no test plan was selected. *)
Theorem C27_hand_picked_mandatory_refuted : exists matches h s,
  history matches h s /\ In m_get_mandatory_jobs (a_allowed s) /\
  forall ok, fst (step matches s (GetMandatoryJobs ok)) = Failed.
Proof.
  exists (fun _ _ => true). eexists _, _. split.
  - exists false, [SelectProviders [] []; StartNewSession StartOk; HandPickJobs true]. reflexivity.
  - split; [cbn; auto 10|]. intros ok. reflexivity.
Qed.
Print Assumptions C27_hand_picked_mandatory_refuted.

(** A complete run meets the hypotheses of the theorems above. *)
Definition full_run : list call :=
  [UseAlternateRepository; SelectProviders [] []; StartNewSession StartOk; SelectTestPlan true;
   Bootstrap true [mk_boot false ok_run true; mk_boot false ok_run true] true true;
   FilterJobsByCategories [true; true] true; RunJob ok_run; UseJobResult true;
   RunJob (mk_run true true true); UseJobResult true; ExportToStream true true; FinalizeSession true;
   RunJob ok_run; UseAlternateRepository].
Example C27_full_run : snd (split (fst (run (fun _ _ => true) (sa_init true) full_run))) =
  [Returned; Returned; Returned; Returned; Returned; Returned; Returned; Returned; Returned; Returned;
   Returned; Returned; Rejected; Rejected].
Proof. vm_compute. reflexivity. Qed.

(** ** C28: run_job() and use_job_result() alternate *)

(** Calls that begin a new round of selection. *)
Definition reselects (e : call * outcome) : Prop :=
  match e with
  | (FinishBootstrap _ _, o) => o <> Rejected
  | _ => chooses e \/ opens e
  end.
Definition records (e : call * outcome) : Prop :=
  match e with (UseJobResult _, Returned) => True | _ => False end.

Lemma still_refused matches s c o s' : ~ In m_run_job (a_allowed s) -> step matches s c = (o, s') ->
  ~ reselects (c, o) -> ~ records (c, o) -> ~ In m_run_job (a_allowed s').
Proof.
  intros N H NR NC I. apply N. clear N. destruct c;
    try (apply bootstrap_effect in H; destruct H as [(_ & ->)|(_ & N1 & _)];
         [exact I|exfalso; apply NR; left; exact N1]);
    try (apply filter_effect in H; destruct H as [(_ & ->)|(_ & _ & _ & _ & [Q|Q])];
         [exact I|rewrite Q in I; exact I
         |rewrite Q, in_allow in I; destruct I as [I|I]; [discriminate I|exact I]]);
    open_call H; inversion H; subst; clear H; cbn in I; try (change (remove meth_dec) with disallow in I);
    rewrite ?in_allow, ?in_disallow in I; try tauto;
    try (intuition discriminate);
    try (exfalso; apply NR; cbn; auto; fail);
    try (exfalso; apply NC; cbn; auto; fail);
    try (exfalso; apply NR; discriminate).
Qed.

(** Between two accepted runs of a job the result of one was recorded, or the
    selection was made anew. *)
Theorem C28_alternation matches h1 w h2 w' o h3 s :
  history matches (h1 ++ (RunJob w, Returned) :: h2 ++ (RunJob w', o) :: h3) s -> o <> Rejected ->
  Exists (fun e => records e \/ reselects e) h2.
Proof.
  intros H NR. apply history_split in H. destruct H as (s1 & s2 & _ & E1 & H).
  assert (N2 : ~ In m_run_job (a_allowed s2)).
  { cbn in E1. apply run_job_effect in E1. destruct E1 as (_ & _ & _ & E1). rewrite (E1 eq_refl).
    rewrite in_allow, in_disallow. intros [C|[C _]]; [discriminate C|apply C; reflexivity]. }
  clear E1 h1 w. revert s2 N2 H. induction h2 as [|[c oc] h2 IH]; intros s2 N2 H.
  - cbn in H. destruct (do_run_job s2 w') as [o' s3] eqn:E. destruct (run matches s3 (map fst h3)) as [g s4].
    injection H as -> _ _. exfalso. apply N2. eapply (accepted_run matches); [exact E|exact NR].
  - cbn [map fst app run] in H. destruct (step matches s2 c) as [o' s3] eqn:E.
    destruct (run matches s3 (map fst (h2 ++ (RunJob w', o) :: h3))) as [g s4] eqn:R. injection H as -> -> ->.
    assert (D : (records (c, oc) \/ reselects (c, oc)) \/ (~ records (c, oc) /\ ~ reselects (c, oc))).
    { destruct c, oc; cbn; try tauto; try (left; right; discriminate); try (left; right; left; discriminate).
      all: try (destruct (f_testplanless fl); intuition discriminate). }
    destruct D as [D|[D1 D2]]; [left; exact D|]. right. apply (IH s3); [|exact R].
    eapply still_refused; eauto.
Qed.
Print Assumptions C28_alternation.

(** In particular an application that only runs jobs and looks at things must
    record each result before the next run. *)
Theorem C28_alternation_without_reselection matches h1 w h2 w' h3 s :
  history matches (h1 ++ (RunJob w, Returned) :: h2 ++ (RunJob w', Returned) :: h3) s ->
  Forall (fun e => ~ reselects e) h2 -> Exists records h2.
Proof.
  intros H F. apply C28_alternation in H; [|discriminate].
  apply Exists_exists in H. destruct H as (e & I & [R|R]).
  - apply Exists_exists. eauto.
  - rewrite Forall_forall in F. apply F in I. contradiction.
Qed.
Print Assumptions C28_alternation_without_reselection.

(** Without that restriction the claim is false: hand_pick_jobs() in the
    middle lets the result of the first run be forgotten. *)
Theorem C28_alternation_refuted : exists matches h s,
  history matches h s /\
  h = [(SelectProviders [] [], Returned); (StartNewSession StartOk, Returned); (HandPickJobs true, Returned);
       (RunJob ok_run, Returned); (HandPickJobs true, Returned); (RunJob ok_run, Returned)].
Proof.
  eexists (fun _ _ => true), _, _. split; [|reflexivity].
  exists false, [SelectProviders [] []; StartNewSession StartOk; HandPickJobs true; RunJob ok_run;
                 HandPickJobs true; RunJob ok_run].
  vm_compute. reflexivity.
Qed.
Print Assumptions C28_alternation_refuted.

Definition case_between : list (call * outcome) := [(GetJob true, Returned); (UseJobResult true, Returned)].
Example C28_case : exists h s, history (fun _ _ => true) h s /\
  h = [(SelectProviders [] [], Returned); (StartNewSession StartOk, Returned); (HandPickJobs true, Returned)] ++
      (RunJob ok_run, Returned) :: case_between ++ [(RunJob ok_run, Returned)].
Proof.
  eexists _, _. split; [|reflexivity].
  exists false, [SelectProviders [] []; StartNewSession StartOk; HandPickJobs true; RunJob ok_run;
                 GetJob true; UseJobResult true; RunJob ok_run]. vm_compute. reflexivity.
Qed.
Example C28_case_between : Forall (fun e => ~ reselects e) case_between.
Proof. constructor; [|constructor; [|constructor]]; intros [[]|[]]. Qed.
