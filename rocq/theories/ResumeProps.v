(** Theorems about suspending and resuming (properties C14-C16). *)
From Coq Require Import Ascii String List Relations Bool NArith ZArith Arith Lia.
From Coq Require DecimalString DecimalZ.
From Verif Require Import ScanModel JsonModel IologModel PathModel Base BaseFacts JobModel
  SolverModel SolverSpec SolverProofs SessionModel SessionSpec SelectProofs SessionProofs
  HistoryProofs ResumeModel ResumeSpec ResumeCodec ResumeSolve ResumeProofs
  ResumeRestore ResumeMain ResumeAny ResumeErrors ResumeUse.
Import ListNotations.
Local Open Scope nat_scope.
Local Open Scope list_scope.

(** * C14: saving and resuming *)

Section C14.
  Variable deps_of : job -> list (dep_type * name).
  Variable eval_expr : expr -> list (list resource) -> bool.
  Variable records_of : result -> list resource.
  Variable readable : result -> bool.
  Variable siblings : job -> list jtree.
  Variable instantiate : job -> result -> list jtree.
  Variable isfile : string -> bool.
  Variable rewrite : string -> string -> option string.
  Variable supplied : list job.
  Variable flags : rflags.
  Variables (dir : string) (cwd : text).

  Notation saved := (saved deps_of eval_expr records_of readable siblings instantiate isfile
    supplied flags dir).
  Notation available := (available siblings instantiate supplied).
  Notation changed := (changed siblings instantiate supplied).
  Notation gone := (gone siblings instantiate supplied).
  Notation resume := (resume deps_of eval_expr records_of readable siblings instantiate isfile
    rewrite supplied flags (Some dir)).
  Notation save := (repr_session cwd (Some dir)).

  Lemma available_not_changed s k : saved s -> available s k -> ~ changed s k /\ ~ gone s k.
  Proof.
    intros RS (js & Hg & Ho).
    apply (status_excl deps_of eval_expr records_of readable siblings instantiate isfile
             supplied flags dir s RS k js Hg).
    now apply (obtainable_producible siblings instantiate supplied s).
  Qed.

  Lemma resume_good s m : enumerates deps_of -> saved s ->
    (forall k, recorded s k -> available s k) ->
    exists R, resume (save (mk_session s m)) = inr R /\ restored s m R /\
      (forall k js', dget k (st_map (se_state R)) = Some js' ->
         (In k (map j_id (st_run s)) ->
          get_inhibitor_list eval_expr s (js_job js') = inr (js_inhibitors js')) /\
         (~ In k (map j_id (st_run s)) -> js_inhibitors js' = [Undesired])).
  Proof.
    intros He RS Ha.
    assert (Hs : forall k, recorded s k -> available s k \/ changed s k \/ gone s k) by auto.
    assert (Hi : f_ignore flags = true -> forall k, recorded s k -> ~ changed s k).
    { intros _ k Hk. apply (available_not_changed s k RS (Ha k Hk)). }
    destruct (resume_restores deps_of eval_expr records_of readable siblings instantiate isfile
      rewrite supplied flags dir cwd s RS Hs Hi m He)
      as [(k & Hk & Hc & _)|[((k & Hk & Hg) & _)|(R & H1 & H2 & _ & H3)]].
    - destruct (available_not_changed s k RS (Ha k Hk)). contradiction.
    - destruct (available_not_changed s k RS (Ha k Hk)). contradiction.
    - eauto.
  Qed.

  (** Resuming with jobs among which every recorded job is found again, as it
      was, gives back what was saved. *)
  Theorem C14_resume_restores_what_was_saved :
    forall s m, enumerates deps_of -> saved s ->
      (forall k, recorded s k -> available s k) ->
      exists R, resume (save (mk_session s m)) = inr R /\ restored s m R.
  Proof.
    intros s m He RS Ha. destruct (resume_good s m He RS Ha) as (R & H1 & H2 & _). eauto.
  Qed.

  (** If readiness was up to date when the session was saved, it is the same in
      the resumed session. *)
  Theorem C14_readiness_is_restored :
    forall s0 o s m R k js js', enumerates deps_of ->
      reachable deps_of eval_expr records_of s0 -> sensible s0 o -> refreshes o ->
      exec_op deps_of eval_expr records_of o s0 = (s, None) ->
      saved s -> (forall k, recorded s k -> available s k) ->
      resume (save (mk_session s m)) = inr R ->
      dget k (st_map s) = Some js -> dget k (st_map (se_state R)) = Some js' ->
      js_inhibitors js' = js_inhibitors js.
  Proof.
    intros s0 o s m R k js js' He Hr Hs Href Hex RS Ha HR Hk Hk'.
    apply Inv_reachable in Hr.
    destruct (refreshed eval_expr records_of deps_of o s0 s Hr Hs Href Hex) as (s1 & I1 & Hrec).
    destruct (resume_good s m He RS Ha) as (R' & H1 & H2 & H3).
    assert (R' = R) by congruence. subst R'. destruct (H3 k js' Hk') as [G1 G2].
    pose proof H2 as (Hsame & Hno & _).
    assert (Hrecd : recorded s k).
    { assert (Hdec : recorded s k \/ ~ recorded s k).
      { unfold recorded. destruct (in_dec string_dec k (map j_id (st_run s))) as [Hi|Hi]; [left; eauto|].
        destruct (is_hollow (js_result js)) eqn:Eh.
        - right. intros (x & Hx & [Hy|Hy]); auto. assert (x = js) by congruence. subst x.
          apply Hy. now apply hollow_spec.
        - left. exists js. split; auto. left. intros E. rewrite E in Eh. discriminate Eh. }
      destruct Hdec as [Hd|Hd]; auto. rewrite (Hno k Hd) in Hk'. discriminate. }
    destruct (Hsame k Hrecd) as (a & b & Ha1 & Hb & Ej & _).
    assert (a = js) by congruence. assert (b = js') by congruence. subst a b.
    pose proof (s_inv deps_of eval_expr records_of readable siblings instantiate isfile
             supplied flags dir s RS) as Is.
    destruct (recompute_ok eval_expr s1 s (i_run _ I1) Hrec k js Hk) as [[Hn Hinh]|(j & Hj & Hid & Hg)].
    - rewrite Hinh. now apply G2.
    - assert (Hin : In k (map j_id (st_run s))) by (rewrite <- Hid; now apply in_map).
      specialize (G1 Hin).
      assert (js_job js = j).
      { destruct (Inv_entry s k js Is Hk) as [Hi1 Hi2].
        apply (unique_ids_inj (st_jobs s)); auto; [apply Is| |congruence].
        apply (run_incl deps_of s (rs_selected _ _ _ _ _ _ _ _ _ _ _ RS) (rs_run _ _ _ _ _ _ _ _ _ _ _ RS)).
        exact Hj. }
      rewrite Ej, H in G1. congruence.
  Qed.

  Lemma used_saved s :
      used deps_of eval_expr records_of siblings instantiate supplied dir s ->
      unambiguous siblings instantiate supplied s ->
      (forall k js r f, dget k (st_map s) = Some js -> In r (js_history js) ->
         d_log (r_data r) = DiskLog f -> isfile f = true) ->
      (forall r, readable r = true) ->
      saved s /\ (forall k, recorded s k -> available s k).
  Proof.
    intros Hu Hun Hf Hr. apply used_UInv in Hu. split.
    - split; try apply Hu; auto. intros k js r f H1 H2 H3 _. eauto.
    - intros k (js & Hk & _). exists js. split; auto. apply (u_obtainable _ _ _ _ _ _ _ _ Hu k js Hk).
  Qed.

  (** Ordinary use of a session, with a single meaning for each identifier,
      leads to sessions that are restored. *)
  Theorem C14_ordinary_use_can_be_resumed :
    forall s m, enumerates deps_of ->
      used deps_of eval_expr records_of siblings instantiate supplied dir s ->
      unambiguous siblings instantiate supplied s ->
      (forall k js r f, dget k (st_map s) = Some js -> In r (js_history js) ->
         d_log (r_data r) = DiskLog f -> isfile f = true) ->
      (forall r, readable r = true) ->
      exists R, resume (save (mk_session s m)) = inr R /\ restored s m R.
  Proof.
    intros s m He Hu Hun Hf Hr. destruct (used_saved s Hu Hun Hf Hr).
    now apply C14_resume_restores_what_was_saved.
  Qed.

  Lemma restored_saved s m R : saved s -> (forall k, recorded s k -> available s k) ->
    reachable deps_of eval_expr records_of (se_state R) -> restored s m R ->
    saved (se_state R) /\ (forall k, recorded (se_state R) k -> available (se_state R) k) /\
    forall k, recorded (se_state R) k <-> recorded s k.
  Proof.
    intros RS Ha HR (H1 & H2 & H3 & H4 & H5 & H6 & H7). set (r := se_state R) in *.
    pose proof (s_inv deps_of eval_expr records_of readable siblings instantiate isfile
             supplied flags dir s RS) as Is.
    pose proof (Inv_reachable _ _ _ _ HR) as Ir.
    assert (Hent : forall k js', dget k (st_map r) = Some js' -> exists js, recorded s k /\
      dget k (st_map s) = Some js /\ js_job js' = js_job js /\ js_result js' = js_result js /\
      js_history js' = js_history js).
    { intros k js' Hk.
      destruct (dget k (st_map s)) as [js|] eqn:E.
      - destruct (is_hollow (js_result js)) eqn:Eh.
        + destruct (in_dec string_dec k (map j_id (st_run s))) as [Hi|Hi].
          * assert (Hr : recorded s k) by (exists js; auto).
            destruct (H1 k Hr) as (a & b & Ha1 & Hb & Hc). assert (b = js') by congruence. subst b.
            assert (a = js) by congruence. subst a. exists js. auto.
          * exfalso. rewrite H2 in Hk; [discriminate|]. intros (x & Hx & [Hy|Hy]); auto.
            assert (x = js) by congruence. subst x. apply Hy. now apply hollow_spec.
        + assert (Hr : recorded s k).
          { exists js. split; auto. left. intros Ex. rewrite Ex in Eh. discriminate Eh. }
          destruct (H1 k Hr) as (a & b & Ha1 & Hb & Hc). assert (b = js') by congruence. subst b.
          assert (a = js) by congruence. subst a. exists js. auto.
      - exfalso. rewrite H2 in Hk; [discriminate|]. intros (x & Hx & _). congruence. }
    assert (Hrec : forall k, recorded r k <-> recorded s k).
    { intros k. split.
      - intros (js' & Hk & _). now destruct (Hent k js' Hk) as (js & Hr & _).
      - intros Hr. destruct (H1 k Hr) as (a & b & Ha1 & Hb & Ej & Er & Eh). exists b. split; auto.
        destruct Hr as (x & Hx & Hor). assert (x = a) by congruence. subst x. rewrite Er, H4. exact Hor. }
    assert (Hfr : forall p x, fruitful r p x -> fruitful s p x).
    { intros p x (jp & Hg & Hp & Hin & Ho). destruct (Hent _ _ Hg) as (js & _ & Hs & E1 & _ & E3).
      exists js. rewrite E3 in Hin. split; auto. split; [congruence|auto]. }
    assert (Hfr' : forall p x, fruitful s p x -> fruitful r p x).
    { intros p x (jp & Hg & Hp & Hin & Ho).
      assert (Hr : recorded s (j_id p)).
      { apply (history_recorded deps_of eval_expr records_of readable siblings instantiate isfile
             supplied flags dir s RS _ jp Hg). intros E. rewrite E in Hin. destruct Hin. }
      destruct (H1 _ Hr) as (a & b & Ha1 & Hb & Ej & Er & Eh). assert (a = jp) by congruence. subst a.
      exists b. rewrite <- Eh in Hin. split; auto. split; [congruence|auto]. }
    assert (Hruninc : incl (st_run s) (st_jobs r)).
    { intros j Hj.
      assert (Hi : incl (st_run s) (st_jobs s)).
      { apply (run_incl deps_of); apply RS. }
      destruct (job_entry s j Is (Hi j Hj)) as (js & Hg & Ej).
      assert (Hr : recorded s (j_id j)) by (exists js; split; auto; right; now apply in_map).
      destruct (H1 _ Hr) as (a & b & Ha1 & Hb & Ejb & _). assert (a = js) by congruence. subst a.
      rewrite <- Ej, <- Ejb. apply (Inv_entry r _ _ Ir Hb). }
    assert (Hselrun : incl (st_mandatory s ++ st_desired s) (st_run s)).
    { intros j Hj. pose proof (resolve_ok_inv deps_of _ _ _ (rs_run _ _ _ _ _ _ _ _ _ _ _ RS))
        as (Hu & _ & _ & H & _). cbn in H. specialize (H j Hj). apply in_map_iff in H.
      destruct H as (x & Ex & Hx). replace j with x; auto.
      apply (unique_ids_inj (st_jobs s)); auto.
      - apply (run_incl deps_of s (rs_selected _ _ _ _ _ _ _ _ _ _ _ RS) (rs_run _ _ _ _ _ _ _ _ _ _ _ RS)).
        exact Hx.
      - now apply RS. }
    split; [|split; [|exact Hrec]].
    - split; auto.
      + intros k js' Hk. destruct (Hent k js' Hk) as (js & _ & Hg & E1 & E2 & E3). unfold settled.
        rewrite E2, E3. apply (rs_settled _ _ _ _ _ _ _ _ _ _ _ RS k js Hg).
      + intros k js' x Hk. destruct (Hent k js' Hk) as (js & _ & Hg & E1 & E2 & E3). rewrite E3.
        apply (rs_storable _ _ _ _ _ _ _ _ _ _ _ RS k js x Hg).
      + intros k js' x f Hk. destruct (Hent k js' Hk) as (js & _ & Hg & E1 & E2 & E3). rewrite E3.
        apply (rs_files _ _ _ _ _ _ _ _ _ _ _ RS k js x f Hg).
      + intros p x Hf. apply (rs_readable _ _ _ _ _ _ _ _ _ _ _ RS p x). auto.
      + intros a b Hpa Hpb. apply (rs_unambiguous _ _ _ _ _ _ _ _ _ _ _ RS).
        * destruct Hpa as [Hpa|(p & x & t & Hf & Ht)]; [left; auto|right; exists p, x, t; auto].
        * destruct Hpb as [Hpb|(p & x & t & Hf & Ht)]; [left; auto|right; exists p, x, t; auto].
      + rewrite H5, H6. intros j Hj. apply Hruninc, Hselrun. rewrite !in_app_iff in *. tauto.
      + rewrite H4, H5, H6. apply resolve_twice.
        apply (resolve_transfer deps_of (st_jobs s)); auto.
        * apply RS.
        * apply (run_incl deps_of s (rs_selected _ _ _ _ _ _ _ _ _ _ _ RS) (rs_run _ _ _ _ _ _ _ _ _ _ _ RS)).
        * apply Ir.
      + rewrite H4. apply RS.
    - intros k Hr. apply Hrec in Hr. destruct (H1 k Hr) as (a & b & Ha1 & Hb & Ej & _).
      destruct (Ha k Hr) as (js & Hg & Ho). assert (js = a) by congruence. subst js.
      exists b. split; auto. rewrite Ej. apply (obtainable_mono _ _ _ s); auto.
  Qed.

  (** Saving and resuming [n] times. *)
  Inductive resumed : nat -> session -> session -> Prop :=
  | resumed_0 S : resumed 0 S S
  | resumed_S n S T R : resumed n S T -> resume (save T) = inr R -> resumed (1 + n) S R.

  (** The session survives any number of save and resume cycles; the results and
      the run list never change, and only the desired list grows, by one copy of
      the mandatory list each time. *)
  Theorem C14_any_number_of_cycles :
    forall s m n, enumerates deps_of -> saved s ->
      (forall k, recorded s k -> available s k) ->
      exists R, resumed n (mk_session s m) R /\
        (forall k, recorded s k -> same_job_state s (se_state R) k) /\
        (0 < n -> forall k, ~ recorded s k -> dget k (st_map (se_state R)) = None) /\
        st_run (se_state R) = st_run s /\
        st_mandatory (se_state R) = st_mandatory s /\
        st_desired (se_state R) = concat (repeat (st_mandatory s) n) ++ st_desired s /\
        same_meta m (se_meta R).
  Proof.
    intros s m n He RS Ha.
    assert (G : exists R, resumed n (mk_session s m) R /\ saved (se_state R) /\
      (forall k, recorded (se_state R) k -> available (se_state R) k) /\
      (forall k, recorded (se_state R) k <-> recorded s k) /\
        (forall k, recorded s k -> same_job_state s (se_state R) k) /\
        (0 < n -> forall k, ~ recorded s k -> dget k (st_map (se_state R)) = None) /\
        st_run (se_state R) = st_run s /\
        st_mandatory (se_state R) = st_mandatory s /\
        st_desired (se_state R) = concat (repeat (st_mandatory s) n) ++ st_desired s /\
        same_meta m (se_meta R)).
    { induction n as [|n (T & HT & RT & AT & QT & S1 & S2 & S3 & S4 & S5 & S6)].
      - exists (mk_session s m). split; [constructor|]. cbn [se_state se_meta].
        split; auto. split; auto. split; [tauto|]. split.
        { intros k (js & Hk & _). exists js, js. auto. }
        split; [lia|]. repeat split; auto.
      - destruct (resume_good (se_state T) (se_meta T) He RT AT) as (R & HR & Hres & _).
        assert (HR' : resume (save T) = inr R) by (destruct T; exact HR).
        pose proof (resume_any _ _ _ _ _ _ _ _ _ _ _ _ _ HR') as (Hreach & _).
        destruct (restored_saved _ _ R RT AT Hreach Hres) as (RR & AR & QR).
        destruct Hres as (H1 & H2 & H3 & H4 & H5 & H6 & H7).
        exists R. split; [econstructor; eauto|]. split; auto. split; auto.
        assert (QQ : forall k, recorded (se_state R) k <-> recorded s k).
        { intros k. rewrite QR. apply QT. }
        split; auto. split; [|split; [|split; [|split; [|split]]]]; try congruence.
        + intros k Hk. destruct (S1 k Hk) as (a & b & Hga & Hgb & E1 & E2 & E3).
          apply QT in Hk. destruct (H1 k Hk) as (b' & c & Hgb' & Hgc & F1 & F2 & F3).
          assert (b' = b) by congruence. subst b'. exists a, c. repeat split; congruence.
        + intros _ k Hk. apply H2. now rewrite QT.
        + rewrite H6, S4, S5. cbn [repeat concat]. now rewrite app_assoc.
        + destruct S6 as (M1 & M2 & M3 & M4 & M5). destruct H7 as (N1 & N2 & N3 & N4 & N5).
          repeat split; try congruence; intros Hf.
          * apply M5, N5. exact Hf.
          * apply N5, M5. exact Hf. }
    destruct G as (R & G1 & _ & _ & _ & G2). exists R. tauto.
  Qed.

  (** * C15: the jobs have changed *)

  (** When the recorded jobs are found as they were, with another checksum, or
      not at all: if some checksum changed, IncompatibleJobError is raised for
      such a job (unless told to ignore that); otherwise, if some job is gone,
      CorruptedSessionError is raised. *)
  Theorem C15_changed_or_missing_jobs :
    forall s m, enumerates deps_of -> saved s ->
      (forall k, recorded s k -> available s k \/ changed s k \/ gone s k) ->
      f_ignore flags = false ->
      ((exists k, recorded s k /\ changed s k) ->
         exists k, recorded s k /\ changed s k /\ resume (save (mk_session s m)) = inl (RJob k)) /\
      ((forall k, recorded s k -> ~ changed s k) -> (exists k, recorded s k /\ gone s k) ->
         resume (save (mk_session s m)) = inl RCorrupted).
  Proof.
    intros s m He RS Hst Hi.
    assert (Hx : f_ignore flags = true -> forall k, recorded s k -> ~ changed s k) by congruence.
    destruct (resume_restores deps_of eval_expr records_of readable siblings instantiate isfile
      rewrite supplied flags dir cwd s RS Hst Hx m He)
      as [(k & Hk & Hc & Ek)|[((k & Hk & Hg) & Hn & Ek)|(R & H1 & H2 & H3 & _)]].
    - split; [eauto|]. intros Hn _. exfalso. now apply (Hn k).
    - split; [|auto]. intros (k' & Hk' & Hc). exfalso. now apply (Hn k').
    - split; [intros (k & Hk & Hc)|intros _ (k & Hk & Hc)]; destruct (H3 k Hk); contradiction.
  Qed.
End C14.
Print Assumptions C14_resume_restores_what_was_saved.
Print Assumptions C14_readiness_is_restored.
Print Assumptions C14_ordinary_use_can_be_resumed.
Print Assumptions C14_any_number_of_cycles.
Print Assumptions C15_changed_or_missing_jobs.

Section Documents.
  Variable deps_of : job -> list (dep_type * name).
  Variable eval_expr : expr -> list (list resource) -> bool.
  Variable records_of : result -> list resource.
  Variable readable : result -> bool.
  Variable siblings : job -> list jtree.
  Variable instantiate : job -> result -> list jtree.
  Variable isfile : string -> bool.
  Variable rewrite : string -> string -> option string.
  Variable supplied : list job.
  Variable flags : rflags.
  Variable location : option string.

  Notation resume := (resume deps_of eval_expr records_of readable siblings instantiate isfile
    rewrite supplied flags location).
  Notation made := (made siblings instantiate supplied).

  (** A resumed session has exactly the jobs that the document mentions and those
      the run list needs, all of them from the supplied jobs; unless told
      otherwise, each with the checksum recorded for it. *)
  Theorem C15_resumed_session_has_the_recorded_jobs :
    forall doc R, resume doc = inr R ->
      (forall k, mentioned doc k -> exists j, In j (st_jobs (se_state R)) /\ j_id j = k /\
         (f_ignore flags = false ->
          at_path ["session"; "jobs"; k]%string doc = Some (JStr (to_text (j_sum j))))) /\
      (forall j, In j (st_jobs (se_state R)) -> made j /\
         (mentioned doc (j_id j) \/ In (j_id j) (map j_id (st_run (se_state R))))).
  Proof.
    intros doc R H. apply resume_any in H. destruct H as (H1 & H2 & H3). split.
    - intros k Hk. destruct (H2 k Hk) as (c & js & Hc & Hg & Hs).
      apply Inv_reachable in H1. destruct (Inv_entry _ k js H1 Hg) as [Hi Hid].
      exists (js_job js). split; auto. split; auto. intros Hf. rewrite Hc, (Hs Hf).
      unfold to_text, of_text. now rewrite list_ascii_of_string_of_list_ascii.
    - intros j Hj. destruct (H3 j Hj). auto.
  Qed.

  (** Hence a document with a checksum that no supplied job of that name has, or
      with a name that no supplied job has, is refused. *)
  Theorem C15_other_jobs_are_refused :
    forall doc k, f_ignore flags = false -> mentioned doc k ->
      (forall j, made j -> j_id j = k ->
         at_path ["session"; "jobs"; k]%string doc <> Some (JStr (to_text (j_sum j)))) ->
      exists e, resume doc = inl e.
  Proof.
    intros doc k Hf Hk Hn. destruct (resume doc) as [e|R] eqn:E; [eauto|]. exfalso.
    destruct (C15_resumed_session_has_the_recorded_jobs doc R E) as [H1 H2].
    destruct (H1 k Hk) as (j & Hj & Hid & Hs). apply (Hn j); auto. now apply H2.
  Qed.

  (** * C16: any document *)

  Theorem C16_only_announced_errors :
    forall doc, enumerates deps_of ->
      benign readable siblings instantiate rewrite supplied location ->
      results_not_null doc ->
      match resume doc with
      | inr _ => True
      | inl e => is_resume_error e = true
      end.
  Proof. intros doc He B Hn. apply (resume_errors _ _ _ _ _ _ _ _ _ _ _ He B doc Hn). Qed.

  Theorem C16_peek_only_announced_errors :
    forall doc, match peek doc with inr _ => True | inl e => is_resume_error e = true end.
  Proof. intros doc. apply (ok_peek doc). Qed.

  (** A resumed session is one that could have come about by using a session. *)
  Theorem C16_resumed_session_is_possible :
    forall doc R, resume doc = inr R -> reachable deps_of eval_expr records_of (se_state R).
  Proof. intros doc R H. now apply resume_any in H. Qed.
End Documents.
Print Assumptions C15_resumed_session_has_the_recorded_jobs.
Print Assumptions C15_other_jobs_are_refused.
Print Assumptions C16_only_announced_errors.
Print Assumptions C16_peek_only_announced_errors.
Print Assumptions C16_resumed_session_is_possible.

(** ** Versions *)

Lemma fold_digits d : forall p,
  fold_left (fun n c => if is_digit c then (n * 10 + digit c)%Z else n)
    (to_text (DecimalString.NilEmpty.string_of_uint d)) (Zpos p) = Zpos (Pos.of_uint_acc d p).
Proof.
  induction d; intros p; cbn [DecimalString.NilEmpty.string_of_uint to_text list_ascii_of_string fold_left Pos.of_uint_acc];
    try reflexivity; rewrite <- IHd; f_equal;
    match goal with |- (if ?b then _ else _) = _ => change b with true end; cbn iota;
    match goal with |- context [digit ?c] =>
      let v := eval vm_compute in (digit c) in change (digit c) with v end; lia.
Qed.

Lemma fold_digits0 d :
  fold_left (fun n c => if is_digit c then (n * 10 + digit c)%Z else n)
    (to_text (DecimalString.NilEmpty.string_of_uint d)) 0%Z = Z.of_uint d.
Proof.
  induction d; cbn [DecimalString.NilEmpty.string_of_uint to_text list_ascii_of_string fold_left];
    try reflexivity; [exact IHd|..];
    unfold Z.of_uint; cbn [Pos.of_uint Z.of_N]; rewrite <- fold_digits; reflexivity.
Qed.

Definition numeral (c : ascii) : Prop := is_digit c = true \/ c = "-"%char.

Lemma uint_numeral d : Forall numeral (to_text (DecimalString.NilEmpty.string_of_uint d)).
Proof.
  induction d; cbn [DecimalString.NilEmpty.string_of_uint to_text list_ascii_of_string];
    constructor; auto; left; reflexivity.
Qed.

Lemma cut_none p t : (forall c, numeral c -> p c = false) -> Forall numeral t -> cut p t = (t, []).
Proof.
  intros Hp H. induction H as [|c t Hc Ht IH]; cbn [cut]; auto. now rewrite (Hp c Hc), IH.
Qed.

Lemma numeral_other c x : numeral c -> is_digit x = false -> x <> "-"%char -> Ascii.eqb c x = false.
Proof.
  intros [H|H] Hx Hn; apply Ascii.eqb_neq; congruence.
Qed.

Lemma int_text_cases z : exists d, (int_text z = to_text (DecimalString.NilZero.string_of_uint d) /\ z = Z.of_uint d) \/
  (int_text z = "-"%char :: to_text (DecimalString.NilZero.string_of_uint d) /\ z = (- Z.of_uint d)%Z).
Proof.
  unfold int_text. destruct (Z.to_int z) as [d|d] eqn:E; exists d; [left|right]; split; try reflexivity;
    rewrite <- (DecimalZ.of_to z), E; reflexivity.
Qed.

Lemma zero_text d : exists d', DecimalString.NilZero.string_of_uint d = DecimalString.NilEmpty.string_of_uint d' /\
  Z.of_uint d' = Z.of_uint d /\ to_text (DecimalString.NilZero.string_of_uint d) <> [].
Proof.
  destruct d; cbn [DecimalString.NilZero.string_of_uint];
    [exists (Decimal.D0 Decimal.Nil); split; [reflexivity|split; [reflexivity|discriminate]]|..];
    eexists; (split; [reflexivity|split; [reflexivity|discriminate]]).
Qed.

Lemma number_int z : number_value (int_text z) = (z, 0%Z).
Proof.
  assert (Hn : Forall numeral (int_text z) /\ signed (int_text z) = z).
  { destruct (int_text_cases z) as (d & [[-> Ez]|[-> Ez]]); destruct (zero_text d) as (d' & -> & E & Hne);
      rewrite <- E in Ez; subst z.
    - split; [apply uint_numeral|]. unfold signed, digits.
      destruct (to_text (DecimalString.NilEmpty.string_of_uint d')) as [|c t] eqn:Et; [congruence|].
      assert (Hc : Ascii.eqb c "-" = false).
      { apply Ascii.eqb_neq. intros ->. destruct d'; cbn in Et; discriminate. }
      rewrite Hc, <- Et. apply fold_digits0.
    - split; [constructor; [right; reflexivity|apply uint_numeral]|].
      unfold signed, digits. cbn [fold_left]. change (Ascii.eqb "-" "-") with true.
      change (is_digit "-") with false. cbn iota. now rewrite fold_digits0. }
  destruct Hn as [Hn Hs]. unfold number_value. rewrite cut_none; auto.
  2:{ intros c Hc. rewrite !numeral_other; auto; discriminate. }
  rewrite cut_none; auto; [now rewrite Hs|].
  intros c Hc. rewrite Ascii.eqb_sym. apply numeral_other; auto; discriminate.
Qed.

Lemma number_is_int z n : number_is (int_text z) n = Z.eqb z n.
Proof. unfold number_is. rewrite number_int. cbn. now rewrite Z.mul_1_r. Qed.

(** Only the numbers 1 to 6 (and what Python takes for equal to them) are
    supported versions. *)
Theorem C16_unsupported_version :
  forall deps_of eval_expr records_of readable siblings instantiate isfile rewrite supplied flags
      location doc v,
    at_path ["version"%string] doc = Some v ->
    (exists z, v = JNum (int_text z) /\ ~ (1 <= z <= 6)%Z) \/
    (exists t, v = JStr t) \/ (exists l, v = JList l) \/ (exists o, v = JObj o) ->
    resume deps_of eval_expr records_of readable siblings instantiate isfile rewrite supplied flags
      location doc = inl RIncompatible /\
    peek doc = inl RIncompatible.
Proof.
  intros until v. intros Hv Hbad.
  assert (Hs : vsome v = inr v).
  { destruct Hbad as [(z & -> & _)|[(t & ->)|[(l & ->)|(o & ->)]]]; reflexivity. }
  assert (Hf : find_version v = None).
  { destruct Hbad as [(z & -> & Hz)|[(t & ->)|[(l & ->)|(o & ->)]]]; [|reflexivity..].
    unfold find_version. cbn [find equals_int]. rewrite !number_is_int.
    repeat match goal with |- context [Z.eqb ?a ?b] => destruct (Z.eqb_spec a b) end;
      try reflexivity; exfalso; apply Hz; lia. }
  destruct doc as [| | | | |o]; cbn [at_path] in Hv; try discriminate.
  unfold resume, peek, vkey. cbn [vdict rbind].
  destruct (jget "version" o) as [w|]; [|discriminate]. injection Hv as ->.
  cbn [rbind]. rewrite Hs. cbn [rbind]. rewrite Hf. auto.
Qed.
Print Assumptions C16_unsupported_version.

Definition not_version {A} (x : rexn + A) : Prop := x <> inl RIncompatible.

Lemma nv_bind {A B} (x : rexn + A) (f : A -> rexn + B) :
  not_version x -> (forall a, not_version (f a)) -> not_version (rbind x f).
Proof. unfold not_version. destruct x; cbn [rbind]; auto. congruence. Qed.

Lemma nv_vkey v k : not_version (vkey v k).
Proof. destruct v; cbn [vkey]; try discriminate. destruct (jget _ _); discriminate. Qed.

Lemma nv_rmap {A B} (f : A -> rexn + B) l : (forall a, not_version (f a)) -> not_version (rmap f l).
Proof.
  intros H. induction l; cbn [rmap]; [discriminate|]. apply nv_bind; auto. intros b.
  apply nv_bind; auto. discriminate.
Qed.

Lemma nv_vopt {A} (f : json -> rexn + A) v : not_version (f v) -> not_version (vopt f v).
Proof. intros H. destruct v; cbn [vopt]; try discriminate; (apply nv_bind; auto; discriminate). Qed.

Lemma nv_vstr v : not_version (vstr v).
Proof. destruct v; discriminate. Qed.

(** The six versions are accepted. *)
Theorem C16_supported_versions :
  forall doc z, at_path ["version"%string] doc = Some (JNum (int_text z)) -> (1 <= z <= 6)%Z ->
    peek doc <> inl RIncompatible.
Proof.
  intros doc z Hv Hz. destruct doc as [| | | | |o]; cbn [at_path] in Hv; try discriminate.
  unfold peek. cbn [vdict rbind vkey].
  destruct (jget "version" o) as [w|]; [|discriminate]. injection Hv as ->.
  cbn [rbind vsome].
  assert (Hf : exists n, find_version (JNum (int_text z)) = Some n).
  { unfold find_version. cbn [find equals_int]. rewrite !number_is_int.
    assert (H : (z = 1 \/ z = 2 \/ z = 3 \/ z = 4 \/ z = 5 \/ z = 6)%Z) by lia.
    destruct H as [-> |[-> |[-> |[-> |[-> | ->]]]]]; eexists; reflexivity. }
  destruct Hf as (n & ->).
  apply nv_bind; [apply (nv_vkey (JObj o))|]. intros repr. apply nv_bind; [destruct repr; discriminate|].
  intros _. unfold restore_meta.
  apply nv_bind; [apply nv_vkey|]. intros m. apply nv_bind; [destruct m; discriminate|]. intros _.
  apply nv_bind; [apply nv_vkey|]. intros t. apply nv_bind; [apply nv_vopt, nv_vstr|]. intros title.
  apply nv_bind; [apply nv_vkey|]. intros f. apply nv_bind; [destruct f; discriminate|]. intros fl.
  apply nv_bind; [apply nv_rmap, nv_vstr|]. intros flags.
  apply nv_bind; [apply nv_vkey|]. intros r. apply nv_bind; [apply nv_vopt, nv_vstr|]. intros running.
  apply nv_bind.
  { destruct (Nat.ltb n 2); [discriminate|]. apply nv_bind; [apply nv_vkey|]. intros b.
    apply nv_bind; [apply nv_vopt, nv_vstr|]. intros [b'|]; [|discriminate].
    apply nv_bind; [|discriminate]. unfold vbase64.
    destruct (encode_ascii _) as [x|]; [|discriminate]. destruct (b64decode x); discriminate. }
  intros blob. apply nv_bind; [|discriminate].
  destruct (Nat.ltb n 3); [discriminate|]. apply nv_bind; [apply nv_vkey|]. intros a. apply nv_vopt, nv_vstr.
Qed.
Print Assumptions C16_supported_versions.

(** No version, no session. *)
Theorem C16_no_version :
  forall deps_of eval_expr records_of readable siblings instantiate isfile rewrite supplied flags
      location doc,
    at_path ["version"%string] doc = None \/ at_path ["version"%string] doc = Some JNull ->
    resume deps_of eval_expr records_of readable siblings instantiate isfile rewrite supplied flags
      location doc = inl RCorrupted /\
    peek doc = inl RCorrupted.
Proof.
  intros until doc. intros Hv. destruct doc as [| | | | |o]; try (split; reflexivity).
  unfold resume, peek, vkey. cbn [vdict rbind at_path] in *.
  destruct (jget "version" o) as [w|]; [|split; reflexivity].
  destruct Hv as [Hv|Hv]; [discriminate|]. injection Hv as ->. split; reflexivity.
Qed.
Print Assumptions C16_no_version.

(** * A concrete session *)

Definition rx_dep_dec (a b : dep_type * name) : {a = b} + {a <> b}.
Proof. decide equality; [apply string_dec | decide equality]. Defined.
Definition rx_deps (j : job) := nodup rx_dep_dec (get_dependency_set j).
Definition rx_eval (_ : expr) (ls : list (list resource)) : bool :=
  forallb (fun l => negb (Nat.eqb (length l) 0)) ls.
Definition rx_records (r : result) : list resource :=
  match r_outcome r with Some _ => [[("model"%string, "x1"%string)]] | None => [] end.

Definition rx_lib := mk_job "lib" "sum-lib" 1 "shell" [] [] NoProg.
Definition rx_app := mk_job "app" "sum-app" 2 "shell" ["lib"%string] [] NoProg.
Definition rx_res := mk_job "res" "sum-res" 3 "resource" [] [] NoProg.
Definition rx_gen := mk_job "gen" "sum-gen" 4 "shell" ["app"%string] [] NoProg.
Definition rx_later := mk_job "later" "sum-later" 5 "shell" ["app"%string] [] NoProg.
Definition rx_siblings (j : job) : list jtree :=
  if String.eqb (j_id j) "app" then [JTree rx_later []] else [].
Definition rx_instantiate (j : job) (_ : result) : list jtree :=
  if String.eqb (j_id j) "res" then [JTree rx_gen []] else [].
Definition rx_supplied := [rx_lib; rx_app; rx_res].
Definition rx_dir := "/s/one"%string.

Definition rx_noted (o : outcome) (c : string) : result :=
  mk_result (Some o) (mk_rdata (Some "1.5"%string) (Some c) (Some 0%Z)
    (MemLog [mk_iorec "0.25" "stdout" c])).
Definition rx_logged (o : outcome) : result :=
  mk_result (Some o) (mk_rdata (Some "2.0"%string) None (Some (-1)%Z)
    (DiskLog "/s/one/io/res.log")).

Definition rx_resume := resume rx_deps rx_eval rx_records (fun _ => true) rx_siblings rx_instantiate
  (fun _ => true) (fun _ _ => None).
Definition rx_flags := mk_rflags true true false.
Definition rx_cwd : text := to_text "/root".

Definition rx_start := match init_session rx_supplied with SOk s => s | _ => mk_state [] [] [] [] [] [] [] end.
Definition rx_s1 := fst (add_tree rx_eval true (JTree rx_app (rx_siblings rx_app)) rx_start).
Definition rx_pick l1 l2 s :=
  match update_desired_job_list rx_deps rx_eval l2 true (update_mandatory_job_list l1 s) with
  | Some (s', _) => s' | None => s end.
Definition rx_note j r s := fst (update_job_result rx_eval rx_records j r (rx_instantiate j r) s).
Definition rx_s2 := rx_pick [rx_lib] [rx_res; rx_app] rx_s1.
Definition rx_s3 := rx_note rx_lib (rx_noted OFail "broken") rx_s2.
Definition rx_s4 := rx_note rx_res (rx_logged OPass) rx_s3.
Definition rx_s5 := rx_pick [rx_lib] [rx_gen; rx_res] rx_s4.
Definition rx_s6 := rx_note rx_lib (rx_noted OPass "works now") rx_s5.
Definition rx_s7 := rx_note rx_gen (rx_noted OSkip "") rx_s6.
Definition rx_meta0 := mk_meta (Some "title"%string) ["incomplete"%string] (Some "app"%string)
  (Some "blob"%string) None.

Definition rx_save (s : state) : json := repr_session rx_cwd (Some rx_dir) (mk_session s rx_meta0).

Lemma rx_enumerates : enumerates rx_deps.
Proof. intros j. split; [apply NoDup_nodup | intros d; apply nodup_In]. Qed.

Lemma rx_storable r : (exists o c, r = rx_noted o c /\ no_escapes c) \/ (exists o, r = rx_logged o) ->
  storable rx_dir r.
Proof.
  intros [(o & c & -> & Hc)|(o & ->)]; unfold storable; cbn [r_data rx_noted rx_logged d_duration d_comments d_log].
  - split; [intros t [= <-]; exists "."%char; cbn; auto|]. split; [intros t [= <-]; auto|].
    constructor; [|constructor]. split; [exists "."%char; cbn; auto|].
    split; [cbn; discriminate|now left].
  - split; [intros t [= <-]; exists "."%char; cbn; auto|]. split; [discriminate|].
    exists [to_text "s"; to_text "one"], [to_text "io"; to_text "res.log"].
    assert (Hc : Forall component [to_text "s"; to_text "one"; to_text "io"; to_text "res.log"]).
    { repeat (apply Forall_cons || apply Forall_nil); (split; [discriminate|]); (split; [|split; discriminate]);
        cbn; intuition discriminate. }
    inversion Hc as [|? ? C1 Hc1]; subst. inversion Hc1 as [|? ? C2 Hc2]; subst.
    split; [discriminate|]. split; [discriminate|]. split; [auto|]. split; [auto|].
    split; reflexivity.
Qed.

Notation rx_used := (used rx_deps rx_eval rx_records rx_siblings rx_instantiate rx_supplied rx_dir).

Example C14_case_used : rx_used rx_s7.
Proof.
  assert (H0 : rx_used rx_start).
  { eapply use_start; [apply incl_refl|]. vm_compute. reflexivity. }
  assert (H1 : rx_used rx_s1).
  { eapply (use_add _ _ _ _ _ _ _ _ rx_app); [exact H0|cbn; auto|]. vm_compute. reflexivity. }
  assert (H2 : rx_used rx_s2).
  { eapply (use_select _ _ _ _ _ _ _ _ [rx_lib] [rx_res; rx_app]); [exact H1| |vm_compute; reflexivity].
    intros x Hx. vm_compute in Hx |- *. tauto. }
  assert (H3 : rx_used rx_s3).
  { eapply (use_result _ _ _ _ _ _ _ _ rx_lib (rx_noted OFail "broken")); [exact H2|vm_compute; auto|discriminate| |vm_compute; reflexivity].
    apply rx_storable. left. do 2 eexists. split; [reflexivity|]. intros c Hc. cbn in Hc. intuition (subst; discriminate). }
  assert (H4 : rx_used rx_s4).
  { eapply (use_result _ _ _ _ _ _ _ _ rx_res (rx_logged OPass)); [exact H3|vm_compute; auto|discriminate| |vm_compute; reflexivity].
    apply rx_storable. right. eauto. }
  assert (H5 : rx_used rx_s5).
  { eapply (use_select _ _ _ _ _ _ _ _ [rx_lib] [rx_gen; rx_res]); [exact H4| |vm_compute; reflexivity].
    intros x Hx. vm_compute in Hx |- *. tauto. }
  assert (H6 : rx_used rx_s6).
  { eapply (use_result _ _ _ _ _ _ _ _ rx_lib (rx_noted OPass "works now")); [exact H5|vm_compute; auto|discriminate| |vm_compute; reflexivity].
    apply rx_storable. left. do 2 eexists. split; [reflexivity|]. intros c Hc. cbn in Hc. intuition (subst; discriminate). }
  eapply (use_result _ _ _ _ _ _ _ _ rx_gen (rx_noted OSkip "")); [exact H6|vm_compute; auto 10|discriminate| |vm_compute; reflexivity].
  apply rx_storable. left. do 2 eexists. split; [reflexivity|]. intros c Hc. destruct Hc.
Qed.

Definition rx_all := [rx_lib; rx_app; rx_res; rx_gen; rx_later].

Lemma rx_made j : made rx_siblings rx_instantiate rx_supplied j -> In j rx_all.
Proof.
  intros [i j' Hi Ht|p r t j' _ _ _ Ht Hj].
  - unfold rx_siblings in Ht. destruct Hi as [<-|[<-|[<-|[]]]]; cbn in Ht; cbn;
      inversion Ht; subst; auto 6;
      match goal with H : In _ [] |- _ => destruct H | H : In _ [_] |- _ => destruct H as [<-|[]] end.
    match goal with H : in_tree _ _ |- _ => inversion H; subst end; auto 6.
  - unfold rx_instantiate in Ht. destruct (String.eqb _ _); [|destruct Ht].
    destruct Ht as [<-|[]]. inversion Hj; subst; cbn; auto 6.
Qed.

Lemma rx_producible s j : producible rx_siblings rx_instantiate rx_supplied s j -> In j rx_all.
Proof.
  intros [(i & Hi & Ht)|(p & r & t & Hf & Ht & Hj)].
  - apply rx_made. eapply made_supplied; eauto.
  - unfold rx_instantiate in Ht. destruct (String.eqb _ _); [|destruct Ht].
    destruct Ht as [<-|[]]. inversion Hj; subst; cbn; auto 6.
Qed.

Lemma rx_unambiguous s : unambiguous rx_siblings rx_instantiate rx_supplied s.
Proof.
  intros a b Ha Hb. apply rx_producible in Ha, Hb. unfold rx_all in Ha, Hb.
  destruct Ha as [<-|[<-|[<-|[<-|[<-|[]]]]]]; destruct Hb as [<-|[<-|[<-|[<-|[<-|[]]]]]];
    intros H; try reflexivity; discriminate.
Qed.

(** The hypotheses of [C14_ordinary_use_can_be_resumed] are met; the session that
    is resumed lacks "later", which has no result and is not on the run list. *)
Example C14_case :
  (exists R, rx_resume rx_supplied rx_flags (Some rx_dir) (rx_save rx_s7) = inr R /\
     restored rx_s7 rx_meta0 R) /\
  map j_id (st_jobs rx_s7) = ["lib"; "app"; "res"; "later"; "gen"]%string /\
  map j_id (st_run rx_s7) = ["lib"; "app"; "gen"; "res"]%string /\
  match rx_resume rx_supplied rx_flags (Some rx_dir) (rx_save rx_s7) with
  | inr R =>
      map j_id (st_jobs (se_state R)) = ["lib"; "app"; "res"; "gen"]%string /\
      map j_id (st_run (se_state R)) = ["lib"; "app"; "gen"; "res"]%string /\
      option_map js_history (dget "lib"%string (st_map (se_state R))) =
        Some [rx_noted OFail "broken"; rx_noted OPass "works now"]
  | inl _ => False
  end.
Proof.
  split; [|vm_compute; auto].
  apply (C14_ordinary_use_can_be_resumed rx_deps rx_eval rx_records (fun _ => true) rx_siblings
    rx_instantiate (fun _ => true) (fun _ _ => None) rx_supplied rx_flags rx_dir rx_cwd); auto.
  - apply rx_enumerates.
  - apply C14_case_used.
  - apply rx_unambiguous.
Qed.

Notation rx_saved := (saved rx_deps rx_eval rx_records (fun _ => true) rx_siblings rx_instantiate
  (fun _ => true)).

Lemma rx_saved_s7 : rx_saved rx_supplied rx_flags rx_dir rx_s7 /\
  forall k, recorded rx_s7 k -> available rx_siblings rx_instantiate rx_supplied rx_s7 k.
Proof.
  apply used_saved; auto; [apply C14_case_used|apply rx_unambiguous].
Qed.

(** After three cycles. *)
Example C14_cycles_case :
  exists R, resumed rx_deps rx_eval rx_records (fun _ => true) rx_siblings rx_instantiate
    (fun _ => true) (fun _ _ => None) rx_supplied rx_flags rx_dir rx_cwd 3
    (mk_session rx_s7 rx_meta0) R /\
    map j_id (st_run (se_state R)) = ["lib"; "app"; "gen"; "res"]%string /\
    map j_id (st_desired (se_state R)) = ["lib"; "lib"; "lib"; "lib"; "gen"; "res"]%string.
Proof.
  destruct rx_saved_s7 as [H1 H2].
  destruct (C14_any_number_of_cycles rx_deps rx_eval rx_records (fun _ => true) rx_siblings
    rx_instantiate (fun _ => true) (fun _ _ => None) rx_supplied rx_flags rx_dir rx_cwd rx_s7 rx_meta0 3
    rx_enumerates H1 H2) as (R & HR & _ & _ & Er & Em & Ed & _).
  exists R. split; [exact HR|]. rewrite Er, Ed. vm_compute. auto.
Qed.

(** [C14_readiness_is_restored]: the last operation was the result of gen. *)
Example C14_readiness_case :
  exec_op rx_deps rx_eval rx_records (OpResult rx_gen (rx_noted OSkip "") []) rx_s6 = (rx_s7, None) /\
  map (fun kv => (fst kv, js_inhibitors (snd kv))) (st_map rx_s7) =
    [("lib", []); ("app", []); ("res", []); ("later", [Undesired]);
     ("gen", [PendingDep rx_app])]%string.
Proof. vm_compute. auto. Qed.

(** ** What is not restored *)

(** Jobs that have no result and are not on the run list are lost. *)
Theorem C14_other_jobs_refuted :
  exists s k R, rx_used s /\ In k (map j_id (st_jobs s)) /\
    rx_resume rx_supplied rx_flags (Some rx_dir) (rx_save s) = inr R /\
    ~ In k (map j_id (st_jobs (se_state R))).
Proof.
  destruct C14_case as ((R & HR & Hres) & _ & _ & Hr). rewrite HR in Hr.
  exists rx_s7, "later"%string, R. split; [apply C14_case_used|]. split; [vm_compute; auto|].
  split; auto. destruct Hr as (-> & _). cbn. intuition discriminate.
Qed.
Print Assumptions C14_other_jobs_refuted.

(** The desired list is not what it was: the mandatory jobs are in front of it
    once more. *)
Theorem C14_desired_list_refuted :
  exists s R, rx_used s /\
    rx_resume rx_supplied rx_flags (Some rx_dir) (rx_save s) = inr R /\
    st_desired (se_state R) <> st_desired s.
Proof.
  destruct C14_case as ((R & HR & Hres) & _). exists rx_s7, R.
  split; [apply C14_case_used|]. split; auto.
  destruct Hres as (_ & _ & _ & _ & _ & -> & _). intros E. apply (f_equal (@length job)) in E.
  vm_compute in E. discriminate.
Qed.
Print Assumptions C14_desired_list_refuted.

(** A result that is cleared again: the history has an entry without content,
    which on replay is taken for the previous result being confirmed. *)
Definition rx_a := rx_noted OPass "same".
Definition rx_c := rx_note rx_lib rx_a (rx_note rx_lib empty_result (rx_note rx_lib rx_a rx_s2)).

Theorem C14_cleared_result_refuted :
  exists s R js js', reachable rx_deps rx_eval rx_records s /\
    rx_resume rx_supplied rx_flags (Some rx_dir) (rx_save s) = inr R /\
    dget "lib"%string (st_map s) = Some js /\
    dget "lib"%string (st_map (se_state R)) = Some js' /\
    js_history js <> js_history js'.
Proof.
  assert (Hreach : reachable rx_deps rx_eval rx_records rx_c).
  { assert (H2 : reachable rx_deps rx_eval rx_records rx_s2).
    { assert (H0 : rx_used rx_start).
      { eapply use_start; [apply incl_refl|]. vm_compute. reflexivity. }
      assert (H1 : rx_used rx_s1).
      { eapply (use_add _ _ _ _ _ _ _ _ rx_app); [exact H0|cbn; auto|]. vm_compute. reflexivity. }
      apply (u_reach _ _ _ _ _ _ _ _ (used_UInv _ _ _ _ _ _ _ _
        (use_select _ _ _ _ _ _ _ _ [rx_lib] [rx_res; rx_app] rx_s2 H1
          ltac:(intros x Hx; vm_compute in Hx |- *; tauto) ltac:(vm_compute; reflexivity)))). }
    assert (Hstep : forall r s, st_jobs s = [rx_lib; rx_app; rx_res; rx_later] ->
      reachable rx_deps rx_eval rx_records s -> reachable rx_deps rx_eval rx_records (rx_note rx_lib r s)).
    { intros r s Hj Hr. apply (reach_op _ _ _ s (OpResult rx_lib r []) Hr).
      intros x Hx He. rewrite Hj in Hx. cbn in Hx. destruct Hx as [<-|[<-|[<-|[<-|[]]]]]; try reflexivity; discriminate. }
    unfold rx_c. do 3 (apply Hstep; [vm_compute; reflexivity|]). exact H2. }
  destruct (rx_resume rx_supplied rx_flags (Some rx_dir) (rx_save rx_c)) as [e|R] eqn:E.
  { vm_compute in E. discriminate. }
  exists rx_c, R. do 2 eexists. split; [exact Hreach|]. split; [exact E|].
  split; [vm_compute; reflexivity|].
  vm_compute in E. injection E as <-. split; [vm_compute; reflexivity|]. vm_compute. discriminate.
Qed.
Print Assumptions C14_cleared_result_refuted.

(** ** Changed and missing jobs *)

Definition rx_lib2 := mk_job "lib" "other" 9 "shell" [] [] NoProg.
Definition rx_changed := [rx_lib2; rx_app; rx_res].
Definition rx_missing := [rx_app; rx_res].

(** The job supplied as "lib" is another one, or none is: the premises of
    [C15_changed_or_missing_jobs] hold and the exceptions are those it says. *)
Example C15_case :
  recorded rx_s7 "lib" /\
  changed rx_siblings rx_instantiate rx_changed rx_s7 "lib" /\
  rx_resume rx_changed rx_flags (Some rx_dir) (rx_save rx_s7) = inl (RJob "lib") /\
  gone rx_siblings rx_instantiate rx_missing rx_s7 "lib" /\
  rx_resume rx_missing rx_flags (Some rx_dir) (rx_save rx_s7) = inl RCorrupted.
Proof.
  split; [|split; [|split; [|split]]].
  - eexists. split; [vm_compute; reflexivity|]. left. vm_compute. discriminate.
  - eexists. exists rx_lib2. split; [vm_compute; reflexivity|]. split; [|split; [reflexivity|discriminate]].
    apply (ob_supplied _ _ _ _ rx_lib2); [cbn; auto|constructor].
  - vm_compute. reflexivity.
  - intros j Hj. assert (Hi : In j [rx_app; rx_res; rx_gen; rx_later]).
    { destruct Hj as [(i & Hi & Ht)|(p & r & t & _ & Ht & Hj)].
      - unfold rx_siblings in Ht. destruct Hi as [<-|[<-|[]]]; cbn in Ht; cbn;
          inversion Ht; subst; auto 6;
          match goal with H : In _ [] |- _ => destruct H | H : In _ [_] |- _ => destruct H as [<-|[]] end.
        match goal with H : in_tree _ _ |- _ => inversion H; subst end; auto 6.
      - unfold rx_instantiate in Ht. destruct (String.eqb _ _); [|destruct Ht].
        destruct Ht as [<-|[]]. inversion Hj; subst; cbn; auto 6. }
    destruct Hi as [<-|[<-|[<-|[<-|[]]]]]; discriminate.
  - vm_compute. reflexivity.
Qed.

(** Not every supplied job is in the resumed session. *)
Theorem C15_supplied_jobs_present_refuted :
  exists doc R j, rx_resume rx_supplied rx_flags (Some rx_dir) doc = inr R /\
    In j rx_supplied /\ ~ In j (st_jobs (se_state R)).
Proof.
  exists (rx_save rx_start). destruct (rx_resume rx_supplied rx_flags (Some rx_dir) (rx_save rx_start)) as [e|R] eqn:E.
  { vm_compute in E. discriminate. }
  exists R, rx_lib. split; auto. split; [cbn; auto|]. vm_compute in E. injection E as <-. cbn. tauto.
Qed.
Print Assumptions C15_supplied_jobs_present_refuted.

(** ** Documents *)

Example C16_case : benign (fun _ => true) rx_siblings rx_instantiate
    (fun d f => Some f) rx_supplied (Some rx_dir) /\
  results_not_null (rx_save rx_s7).
Proof.
  split.
  - split; auto.
    + exists rx_dir. split; auto. discriminate.
    + intros a b Ha Hb. apply rx_made in Ha, Hb. unfold rx_all in Ha, Hb.
      destruct Ha as [<-|[<-|[<-|[<-|[<-|[]]]]]]; destruct Hb as [<-|[<-|[<-|[<-|[<-|[]]]]]];
        intros H; try reflexivity; discriminate.
    + intros a b Ha Hb. apply rx_made in Ha, Hb. unfold rx_all in Ha, Hb.
      destruct Ha as [<-|[<-|[<-|[<-|[<-|[]]]]]]; destruct Hb as [<-|[<-|[<-|[<-|[<-|[]]]]]];
        intros [H|H]; try reflexivity; discriminate.
    + intros j Hj. apply rx_made in Hj. unfold rx_all in Hj.
      destruct Hj as [<-|[<-|[<-|[<-|[<-|[]]]]]]; discriminate.
  - intros k. assert (H : exists o, at_path ["session"; "results"]%string (rx_save rx_s7) = Some (JObj o) /\
      forallb (fun kv => match snd kv with JNull => false | _ => true end) o = true).
    { eexists. split; vm_compute; reflexivity. }
    destruct H as (o & Ho & Hf).
    assert (Ek : at_path ["session"; "results"; k]%string (rx_save rx_s7) = jget k o).
    { cbn [at_path] in Ho |- *. destruct (rx_save rx_s7); try discriminate.
      destruct (jget "session" _) as [[]|]; try discriminate. destruct (jget "results" _); [|discriminate].
      injection Ho as ->. now destruct (jget k o). }
    rewrite Ek. clear Ek Ho. induction o as [|[k' v] o IH]; cbn [jget]; [discriminate|].
    cbn [forallb] in Hf. apply andb_prop in Hf. destruct Hf as [Hv Hf]. specialize (IH Hf).
    destruct (jget k o); auto. destruct (text_eqb _ _); [|discriminate].
    intros [= ->]. discriminate Hv.
Qed.

(** Without the conditions other exceptions escape.  A document is made of the
    fields of the session; the rest is as in a session saved at the start. *)
Definition rx_doc (version : json) (jobs results desired : json) : json :=
  JObj [field "version" version;
        field "session" (JObj
          [field "jobs" jobs; field "results" results; field "desired_job_list" desired;
           field "mandatory_job_list" (JList []); field "metadata" (repr_meta new_meta)])].

Definition rx_entry (f : json) : json :=
  JObj [field "outcome" (jstring "pass"); field "comments" JNull; field "return_code" JNull;
        field "execution_duration" JNull; field "io_log_filename" f].

Theorem C16_null_results_refuted :
  rx_resume rx_supplied rx_flags (Some rx_dir)
    (rx_doc (JNum (int_text 6)) (JObj [field "lib" (jstring "sum-lib")])
       (JObj [field "lib" JNull]) (JList [])) = inl RTypeError.
Proof. vm_compute. reflexivity. Qed.
Print Assumptions C16_null_results_refuted.

Theorem C16_no_location_refuted :
  rx_resume rx_supplied rx_flags None
    (rx_doc (JNum (int_text 6)) (JObj [field "lib" (jstring "sum-lib")])
       (JObj [field "lib" (JList [rx_entry (jstring "x.log")])]) (JList [])) = inl RValueError.
Proof. vm_compute. reflexivity. Qed.
Print Assumptions C16_no_location_refuted.

(** The log of a resource job is gone although it need not be checked. *)
Theorem C16_unreadable_log_refuted :
  resume rx_deps rx_eval rx_records (fun _ => false) rx_siblings rx_instantiate
    (fun _ => false) (fun _ _ => None) rx_supplied (mk_rflags false false false) (Some rx_dir)
    (rx_doc (JNum (int_text 6)) (JObj [field "res" (jstring "sum-res")])
       (JObj [field "res" (JList [rx_entry (jstring "x.log")])]) (JList [])) = inl ROSError.
Proof. vm_compute. reflexivity. Qed.
Print Assumptions C16_unreadable_log_refuted.

(** A session directory that is not a valid replacement text. *)
Theorem C16_rewrite_refuted :
  resume rx_deps rx_eval rx_records (fun _ => true) rx_siblings rx_instantiate
    (fun _ => false) (fun _ _ => None) rx_supplied rx_flags (Some rx_dir)
    (rx_doc (JNum (int_text 6)) (JObj [field "lib" (jstring "sum-lib")])
       (JObj [field "lib" (JList [rx_entry (jstring "x.log")])]) (JList [])) = inl RRegex.
Proof. vm_compute. reflexivity. Qed.
Print Assumptions C16_rewrite_refuted.

(** Two different supplied jobs with the same name. *)
Theorem C16_duplicate_jobs_refuted :
  exists e, rx_resume [rx_lib; rx_lib2] rx_flags (Some rx_dir)
    (rx_doc (JNum (int_text 6)) (JObj []) (JObj []) (JList [])) = inl (RDependency e).
Proof. eexists. vm_compute. reflexivity. Qed.
Print Assumptions C16_duplicate_jobs_refuted.

(** A selected job with a malformed requires field. *)
Theorem C16_bad_requirements_refuted :
  exists x, rx_resume [mk_job "bad" "sum-bad" 7 "shell" [] [] BadProg] rx_flags (Some rx_dir)
    (rx_doc (JNum (int_text 6)) (JObj [field "bad" (jstring "sum-bad")]) (JObj [])
       (JList [jstring "bad"])) = inl (RSession x).
Proof. eexists. vm_compute. reflexivity. Qed.
Print Assumptions C16_bad_requirements_refuted.

(** The version may be [true] or [1.0]. *)
Example C16_version_one_case :
  find_version (JBool true) = Some 1 /\ find_version (JNum (to_text "1.0")) = Some 1 /\
  find_version (JNum (to_text "60e-1")) = Some 6 /\ find_version (JNum (to_text "1.5")) = None.
Proof. vm_compute. auto. Qed.
