(** Only the announced exceptions escape from resuming. *)
From Coq Require Import Ascii String List Relations Bool NArith ZArith Arith Lia.
From Verif Require Import ScanModel JsonModel IologModel PathModel Base BaseFacts JobModel
  SolverModel SolverSpec SolverProofs SessionModel SessionSpec SelectProofs SessionProofs
  HistoryProofs SessionProps ResumeModel ResumeSpec ResumeCodec ResumeSolve ResumeProofs
  ResumeRestore ResumeAny.
Import ListNotations.
Local Open Scope nat_scope.
Local Open Scope list_scope.

(** The outcome is a value with some property or an announced exception. *)
Definition ok {A} (Q : A -> Prop) (x : rexn + A) : Prop :=
  match x with inr a => Q a | inl e => is_resume_error e = true end.

Definition any {A} (_ : A) : Prop := True.

Lemma ok_bind {A B} (P : A -> Prop) (Q : B -> Prop) x f :
  ok P x -> (forall a, x = inr a -> P a -> ok Q (f a)) -> ok Q (rbind x f).
Proof. destruct x; cbn; auto. Qed.

Lemma ok_weaken {A} (P Q : A -> Prop) x : (forall a, P a -> Q a) -> ok P x -> ok Q x.
Proof. destruct x; cbn; auto. Qed.

Lemma ok_rmap {A B} (f : A -> rexn + B) l : (forall x, In x l -> ok any (f x)) -> ok any (rmap f l).
Proof.
  induction l as [|x l IH]; cbn [rmap]; intros H; [exact I|].
  apply (ok_bind any); [apply H; cbn; auto|]. intros a _ _.
  apply (ok_bind any); [apply IH; intros; apply H; cbn; auto|]. intros; exact I.
Qed.

Lemma ok_vkey v k : ok any (vkey v k).
Proof. destruct v; cbn; auto. destruct (jget k _); cbn; auto. exact I. Qed.
Lemma ok_vdict v : ok any (vdict v).
Proof. destruct v; cbn; auto; exact I. Qed.
Lemma ok_vlist v : ok any (vlist v).
Proof. destruct v; cbn; auto; exact I. Qed.
Lemma ok_vstr v : ok any (vstr v).
Proof. destruct v; cbn; auto; exact I. Qed.
Lemma ok_vsome v : ok any (vsome v).
Proof. destruct v; cbn; auto; exact I. Qed.
Lemma ok_vnth l n : ok any (vnth l n).
Proof. unfold vnth. destruct (nth_error l n); cbn; auto. exact I. Qed.
Lemma ok_vopt {A} (f : json -> rexn + A) v : (forall w, ok any (f w)) -> ok any (vopt f v).
Proof.
  intros H. unfold vopt. destruct v; try (apply (ok_bind any); [apply H|intros; exact I]). exact I.
Qed.
Lemma ok_vfloat v : ok any (vfloat v).
Proof. unfold vfloat. destruct v; cbn; auto. destruct (float_token _); cbn; auto. exact I. Qed.
Lemma ok_vint v : ok any (vint v).
Proof.
  unfold vint. destruct v as [|[|]|t| | |]; try exact I; try reflexivity.
  destruct (float_token t); [reflexivity|]. destruct (int_value t); [exact I|reflexivity].
Qed.
Lemma ok_text_outcome s : ok any (text_outcome s).
Proof. unfold text_outcome. destruct (find _ _); [exact I|reflexivity]. Qed.
Lemma ok_vbase64 s : ok any (vbase64 s).
Proof.
  unfold vbase64. destruct (encode_ascii _); [|reflexivity]. destruct (b64decode _); [exact I|reflexivity].
Qed.

Ltac okstep := apply (ok_bind any); [|intros ? _ _].

Lemma ok_build_iorec v : ok any (build_iorec v).
Proof.
  unfold build_iorec. okstep; [apply ok_vlist|]. okstep; [apply ok_vnth|]. okstep; [apply ok_vfloat|].
  destruct (number_negative _); [reflexivity|]. okstep; [apply ok_vnth|]. okstep; [apply ok_vstr|].
  destruct (smem _ _); [|reflexivity]. okstep; [apply ok_vnth|]. okstep; [apply ok_vstr|].
  okstep; [apply ok_vbase64|]. exact I.
Qed.

Lemma ok_restore_meta n v : ok any (restore_meta n v).
Proof.
  unfold restore_meta. okstep; [apply ok_vkey|]. okstep; [apply ok_vdict|]. okstep; [apply ok_vkey|].
  okstep; [apply ok_vopt, ok_vstr|]. okstep; [apply ok_vkey|]. okstep; [apply ok_vlist|].
  okstep; [apply ok_rmap; intros; apply ok_vstr|]. okstep; [apply ok_vkey|].
  okstep; [apply ok_vopt, ok_vstr|].
  okstep.
  { destruct (Nat.ltb n 2); [exact I|]. okstep; [apply ok_vkey|]. okstep; [apply ok_vopt, ok_vstr|].
    match goal with |- ok any (match ?x with _ => _ end) => destruct x end; [|exact I]. okstep; [apply ok_vbase64|]. exact I. }
  okstep.
  { destruct (Nat.ltb n 3); [exact I|]. okstep; [apply ok_vkey|]. apply ok_vopt, ok_vstr. }
  exact I.
Qed.

Lemma ok_peek doc : ok any (peek doc).
Proof.
  unfold peek. okstep; [apply ok_vdict|]. okstep; [apply ok_vkey|]. okstep; [apply ok_vsome|].
  destruct (find_version _); [|reflexivity]. okstep; [apply ok_vkey|]. okstep; [apply ok_vdict|].
  apply ok_restore_meta.
Qed.

Section Errors.
  Variable deps_of : job -> list (dep_type * name).
  Variable eval_expr : expr -> list (list resource) -> bool.
  Variable records_of : result -> list resource.
  Variable readable : result -> bool.
  Variable siblings : job -> list jtree.
  Variable instantiate : job -> result -> list jtree.
  Variable isfile : string -> bool.
  Variable rewrite : string -> string -> option string.
  Variable supplied : list job.
  Variable flags : rflags.
  Variable location : option string.

  Notation made := (made siblings instantiate supplied).
  Hypothesis Henum : enumerates deps_of.
  Hypothesis B : benign readable siblings instantiate rewrite supplied location.

  Notation Good := (Good records_of made).

  Lemma made_unique a b : made a -> made b -> j_id a = j_id b -> a = b.
  Proof. apply (bn_ids _ _ _ _ _ _ B). Qed.

  Lemma ok_build_result n v : ok any (build_result isfile rewrite flags location n v).
  Proof.
    destruct (bn_location _ _ _ _ _ _ B) as (dir & Hl & Hr).
    unfold build_result. okstep; [apply ok_vkey|]. okstep; [apply ok_vopt, ok_vstr|].
    okstep.
    { match goal with |- ok any (match ?x with _ => _ end) => destruct x end; [|exact I]. okstep; [apply ok_text_outcome|]. exact I. }
    okstep; [apply ok_vkey|]. okstep; [apply ok_vopt, ok_vstr|]. okstep; [apply ok_vkey|].
    okstep; [apply ok_vopt, ok_vint|]. okstep; [apply ok_vkey|]. okstep; [apply ok_vopt, ok_vfloat|].
    destruct (vkey v "io_log_filename").
    - okstep; [apply ok_vkey|]. okstep; [apply ok_vlist|].
      okstep; [apply ok_rmap; intros; apply ok_build_iorec|]. exact I.
    - okstep.
      { unfold load_filename. okstep; [apply ok_vkey|]. okstep; [apply ok_vstr|].
        destruct (Nat.ltb n 5); [exact I|]. destruct (isabs _); [exact I|]. rewrite Hl. exact I. }
      okstep; [|exact I].
      unfold check_file. destruct (f_checks flags); [|exact I]. okstep.
      { destruct (negb _ && _); [|exact I]. rewrite Hl.
        match goal with |- ok any (match ?x with _ => _ end) => destruct x eqn:E end; [exact I|]. elim (Hr _ E). }
      destruct (isfile _); [exact I|reflexivity].
  Qed.

  Lemma replay_good j rs : forall S, Good S -> present S j ->
    exists S', replay eval_expr records_of readable instantiate j rs S = (S', PDone) /\ Good S' /\ present S' j.
  Proof.
    induction rs as [|r rs IH]; cbn [replay]; intros S G HP; [eauto|].
    rewrite (bn_readable _ _ _ _ _ _ B). rewrite andb_false_r.
    pose proof HP as (js & Hg & Hj).
    destruct (update_ok eval_expr records_of made made_unique j r (instantiate j r) S js G Hg Hj)
      as (S1 & -> & G1 & X1 & _).
    { intros t x Ht Hx Ho Hp. apply (made_generated _ _ _ j r t x); auto. rewrite <- Hj.
      apply (g_jobs _ _ _ G _ _ Hg). }
    apply IH; auto. apply (ext_present _ _ j X1). exists (set_result r js).
    rewrite noted_map, dget_dset, String.eqb_refl. split; auto. now rewrite set_result_job.
  Qed.

  Section Doc.
    Variable version : nat.
    Variables jobs results : list (text * json).
    Hypothesis Hnull : forall k, jget k results <> Some JNull.

    Notation process := (process_job eval_expr records_of readable instantiate isfile rewrite
      flags location version jobs results).
    Notation pass := (pass eval_expr records_of readable instantiate isfile rewrite flags
      location version jobs results).
    Notation leftovers := (fun n => leftovers eval_expr records_of readable instantiate isfile
      rewrite flags location n version jobs results).

    Lemma process_good k S : Good S ->
      Good (fst (process k S)) /\ forall e, snd (process k S) = PErr e -> is_resume_error e = true.
    Proof.
      intros G. unfold process_job.
      assert (Oc : ok any (let* c := vkey (JObj jobs) k in vstr c)).
      { okstep; [apply ok_vkey|apply ok_vstr]. }
      destruct (let* c := vkey (JObj jobs) k in vstr c) as [e|c].
      { cbn. split; auto. now intros e' [= <-]. }
      destruct (dget k (st_map S)) as [js|] eqn:Ek; [|cbn; split; [auto|discriminate]].
      destruct (negb _ && _).
      { cbn. split; auto. now intros e' [= <-]. }
      destruct (jget _ results); [|cbn; split; [auto|discriminate]].
      assert (Or : ok any (let* v := vkey (JObj results) k in
                           build_results isfile rewrite flags location version v)).
      { apply (ok_bind any); [apply ok_vkey|]. intros v Ev _. cbn in Ev.
        destruct (jget k results) as [w|] eqn:Ew; [|discriminate]. injection Ev as ->.
        unfold build_results. destruct v; try reflexivity; [elim (Hnull k Ew)|].
        cbn [vlist rbind]. apply ok_rmap. intros x _. okstep; [apply ok_vdict|]. apply ok_build_result. }
      destruct (let* v := vkey (JObj results) k in _) as [e|rs].
      { cbn. split; auto. now intros e' [= <-]. }
      destruct (Inv_entry S k js (g_inv _ _ _ G) Ek) as [_ Hid].
      destruct (replay_good (js_job js) rs S G) as (S' & -> & G' & _).
      { exists js. split; congruence. }
      cbn. split; [auto|discriminate].
    Qed.

    Lemma pass_good ks : forall S, Good S ->
      ok (fun x => Good (fst x) /\ length (snd x) <= length ks) (pass ks S).
    Proof.
      induction ks as [|k ks IH]; cbn [ResumeModel.pass]; intros S G; [cbn; auto|].
      destruct (process_good k S G) as [G1 He].
      destruct (process k S) as [S1 [| |e]]; cbn [fst snd] in *.
      - specialize (IH S1 G1). eapply ok_weaken; [|exact IH]. cbn. intros a [H1 H2]. split; auto.
      - eapply ok_bind; [apply (IH S1 G1)|]. intros [S2 rest] _ [H1 H2]. cbn in *. split; auto. lia.
      - apply He. reflexivity.
    Qed.

    Lemma leftovers_good n : forall ks S, Good S -> length ks < n -> ok Good (leftovers n ks S).
    Proof.
      induction n as [|n IH]; intros ks S G Hn; [lia|].
      destruct ks as [|k ks0]; [exact G|]. cbn [ResumeModel.leftovers].
      set (ks := k :: ks0) in *. eapply ok_bind; [apply (pass_good ks S G)|].
      intros [S2 rest] _ [H1 H2]. cbn in H1, H2.
      destruct (Nat.eqb_spec (length rest) (length ks)); [reflexivity|].
      apply IH; auto. cbn in *. lia.
    Qed.
  End Doc.

  Lemma add_supplied_good l : forall S, incl l supplied -> Good S ->
    ok Good (add_supplied eval_expr siblings l S).
  Proof.
    induction l as [|j l IH]; cbn [add_supplied]; intros S Hi G; [exact G|].
    destruct (add_tree_ok eval_expr records_of made made_unique (JTree j (siblings j)) S G)
      as (S1 & -> & G1 & _).
    { intros x Hx. apply (made_supplied _ _ _ j); auto. apply Hi. cbn. auto. }
    apply IH; auto. intros x Hx. apply Hi. cbn. auto.
  Qed.

  Lemma init_good : exists S, init_session supplied = SOk S /\ Good S.
  Proof.
    destruct (init_session supplied) as [S|e|] eqn:E.
    - exists S. split; auto. pose proof (HistoryProofs.Inv_init supplied S E) as I1.
      pose proof (Res_init records_of supplied S E) as I2.
      pose proof (init_sourced siblings instantiate supplied S E) as I3.
      assert (E' := E). unfold init_session in E'.
      destruct (dedup_jobs _ _); try discriminate E'. injection E' as <-. split; auto.
    - exfalso. unfold init_session in E.
      pose proof (dedup_spec (Datatypes.S (length supplied)) supplied _ ltac:(lia) eq_refl) as G.
      destruct (dedup_jobs (Datatypes.S (length supplied)) supplied) as [js|e'|]; try discriminate.
      injection E as ->. destruct e; auto. destruct G as (H1 & H2 & H3 & H4). apply H4. f_equal.
      apply made_unique; auto.
      + apply (made_supplied _ _ _ j); [auto|constructor].
      + apply (made_supplied _ _ _ dup); [auto|constructor].
    - exfalso. unfold init_session in E.
      pose proof (dedup_spec (Datatypes.S (length supplied)) supplied _ ltac:(lia) eq_refl) as G.
      destruct (dedup_jobs (Datatypes.S (length supplied)) supplied); try discriminate. contradiction.
  Qed.

  Lemma ok_job_list v S : HistoryProofs.Inv S ->
    ok (fun l => incl l (st_jobs S)) (job_list_of v S).
  Proof.
    intros IS. unfold job_list_of. okstep; [apply ok_vlist|].
    okstep; [apply ok_rmap; intros; apply ok_vstr|].
    assert (O : ok any (rmap (fun k => match dget k (st_map S) with
                   | Some js => inr (js_job js) | None => inl RCorrupted end) a0)).
    { apply ok_rmap. intros k _. destruct (dget k (st_map S)); [exact I|reflexivity]. }
    match goal with |- ok _ ?x => destruct x as [e|l] eqn:E end; [exact O|]. cbn. intros j Hj.
    destruct (rmap_In _ _ _ _ E Hj) as (k & _ & Hk).
    destruct (dget k (st_map S)) as [js|] eqn:Eg; [|discriminate]. injection Hk as <-.
    apply (Inv_entry S k js IS Eg).
  Qed.

  Lemma restore_desired_good v S : HistoryProofs.Inv S -> incl (st_mandatory S) (st_jobs S) ->
    (forall j, In j (st_jobs S) -> made j) ->
    ok any (restore_desired deps_of eval_expr v S).
  Proof.
    intros IS Hm Hjobs. unfold restore_desired. okstep; [apply ok_vkey|].
    eapply ok_bind; [apply (ok_job_list _ S IS)|]. intros l _ Hl.
    assert (Hw : incl (st_mandatory S ++ l) (st_jobs S)) by (now apply incl_app).
    destruct (C05_selection_is_exact deps_of eval_expr S l true (st_mandatory S ++ l))
      as (S' & answer & E & (keep & Hkeep & _) & _ & _ & Hrun & _ & Ha); auto.
    - split; [apply IS|]. exact (i_map _ IS).
    - intros a' b Ha Hb Hor. apply (bn_equality _ _ _ _ _ _ B); auto; apply Hjobs;
        (apply in_app_iff in Ha; apply in_app_iff in Hb; destruct Ha, Hb; auto).
    - rewrite E. destruct answer as [x|p]; [|exact I]. exfalso.
      destruct Ha as (j & Hj & Hbad & _). apply Hrun in Hj.
      apply (bn_requirements _ _ _ _ _ _ B j); auto. apply Hjobs.
      rewrite Hkeep in Hj. clear - Hj Hw. induction Hj as [j Hj|a b _ _ [Hb _]]; auto.
      apply filter_In in Hj. apply Hw. apply Hj.
  Qed.

  Lemma restore_job_list_good v S : ok any (restore_job_list v S).
  Proof.
    unfold restore_job_list. okstep; [apply ok_vkey|]. okstep; [apply ok_vdict|].
    set (retain := map j_id (st_run S) ++ _). unfold trim_job_list.
    destruct (existsb _ _) eqn:E; [|exact I]. exfalso.
    apply existsb_exists in E. destruct E as (j & Hj & Hs). apply filter_In in Hj.
    destruct Hj as [_ Hq]. apply negb_true_iff in Hq. apply smem_In in Hs.
    assert (Hr : smem (j_id j) retain = true).
    { apply smem_In. unfold retain. rewrite in_app_iff. auto. }
    congruence.
  Qed.

  Theorem resume_errors doc : results_not_null doc ->
    ok any (resume deps_of eval_expr records_of readable siblings instantiate isfile rewrite
      supplied flags location doc).
  Proof.
    intros Hnull. unfold resume. okstep; [apply ok_vdict|]. okstep; [apply ok_vkey|].
    okstep; [apply ok_vsome|]. destruct (find_version a1) as [n|]; [|reflexivity].
    apply (ok_bind any); [apply ok_vkey|]. intros repr Erepr _.
    okstep; [apply ok_vdict|]. unfold build_session.
    destruct init_good as (S0 & -> & G0).
    apply (ok_bind Good).
    { unfold restore_jobs. okstep; [apply ok_vkey|].
      apply (ok_bind any); [apply ok_vdict|]. intros jobs _ _.
      apply (ok_bind any); [apply ok_vkey|]. intros vr Evr _.
      apply (ok_bind any); [apply ok_vdict|]. intros results Eres _.
      assert (Hn : forall k, jget k results <> Some JNull).
      { intros k Hk. apply (Hnull k). rewrite (vkey_path _ _ _ Erepr), (vkey_path _ _ _ Evr).
        apply vdict_obj in Eres. subst vr. cbn [at_path]. now rewrite Hk. }
      eapply ok_bind; [apply (add_supplied_good supplied S0 (incl_refl _) G0)|]. intros S1 _ G1.
      eapply ok_bind; [apply (pass_good n jobs results Hn _ S1 G1)|]. intros [S2 rest] _ [G2 _].
      apply (leftovers_good n jobs results Hn); auto. }
    intros S1 _ G1. okstep; [apply ok_restore_meta|].
    apply (ok_bind (fun S => HistoryProofs.Inv S /\ incl (st_mandatory S) (st_jobs S) /\
      forall j, In j (st_jobs S) -> made j)).
    { assert (Hjobs : forall j, In j (st_jobs S1) -> made j).
      { intros j Hj. pose proof (g_inv _ _ _ G1) as I1.
        pose proof (dget_jobs_In _ _ (i_unique _ I1) Hj) as E. rewrite <- (i_map _ I1), dget_jobmap in E.
        destruct (dget (j_id j) (st_map S1)) as [js|] eqn:Eg; [|discriminate]. cbn in E.
        injection E as E. rewrite <- E. apply (g_jobs _ _ _ G1 _ _ Eg). }
      destruct (Nat.ltb n 6).
      - cbn. split; [apply G1|]. split; auto. rewrite (g_mandatory _ _ _ G1). intros x [].
      - unfold restore_mandatory. okstep; [apply ok_vkey|].
        eapply ok_bind; [apply (ok_job_list _ S1 (g_inv _ _ _ G1))|]. intros l _ Hl.
        cbn. split; [|split; auto]. split; apply (g_inv _ _ _ G1). }
    intros S2 _ (I2 & M2 & J2).
    apply (ok_bind any); [apply (restore_desired_good repr S2 I2 M2 J2)|]. intros S3 _ _.
    apply (ok_bind any); [apply restore_job_list_good|]. intros; exact I.
  Qed.
End Errors.
