(** * C72: the spreadsheet report shows every test once, with the right outcome *)
From Coq Require Import String Ascii List Bool Arith NArith Lia Permutation.
From Verif Require Import ScanModel Rfc822Model JsonModel IologModel IniModel ChecksumModel ExportModel PluginModel PluginSpec
  Rfc822Proofs IniProofs Utf8Model Utf8Spec Utf8Proofs Utf8Props PluginProps SheetModel SheetSpec SheetProofs.
Import ListNotations.
Local Open Scope nat_scope.
Local Open Scope list_scope.

Lemma dump_inv o t d w t' : well_formed d -> dump o t d = Ok (w, t') ->
  exists cats its logs, tree_inv (d_categories d) (d_results d) cats /\
    (forall jj, In jj (d_results d) -> find (j_category (snd jj)) (d_categories d) <> None) /\
    collect (cat_items (lk d cats)) (sort_by c_name cats) = Ok its /\ resource_logs (d_results d) = Ok logs /\
    let a := put_items (with_description o) (mk_acc 5 (t_total t) (t_pass t) (t_fail t) (t_skip t)
               results_header (if with_description o then descriptions_header else [])) its in
    t' = mk_totals (a_total a) (a_pass a) (a_fail a) (a_skip a) /\
    w = mk_workbook (a_results a ++ [title]) (if with_description o then Some (a_descriptions a ++ [title]) else None)
          (if with_summary o then Some t' else None) (if with_attachments o then Some (write_attachments d ++ [title]) else None)
          (write_texts 4 logs ++ [title]).
Proof.
  intros W H. unfold dump in H. apply bind_ok in H as (a & Ea & H). apply bind_ok in H as (logs & El & H). injection H as <- <-.
  unfold write_results in Ea. apply bind_ok in Ea as (cats & Ec & Ea). pose proof (tree_known _ _ _ _ Ec) as K.
  destruct (tree_ok (d_categories d) (d_results d) [] [] ) as (cats' & Ec' & TI); [|exact K|].
  { split; [constructor|]. split; [intros c []|]. intros name. split; [intros []|]. intros (jj & [] & _). }
  assert (cats' = cats) as -> by congruence. cbn [app] in TI. rewrite write_categories_items in Ea. apply bind_ok in Ea as (its & Ei & Ea).
  injection Ea as <-. exists cats, its, logs. split; [exact TI|]. split; [exact K|]. split; [exact Ei|]. split; [exact El|]. split; reflexivity.
Qed.
Lemma header_shows H f its r c v : Forall (fun w => fst (fst w) <= 5) H -> functional (H ++ [title]) -> fun_columns f ->
  (shows ((H ++ emit f (5 + 1) its) ++ [title]) r c v <->
   In (r, c, v) (H ++ [title]) \/ exists i it, nth_error its i = Some it /\ r = 6 + i /\ In (c, v) (f it)).
Proof.
  intros HH HF FF.
  assert (MEM : forall r c v, In (r, c, v) ((H ++ emit f (5 + 1) its) ++ [title]) <->
     In (r, c, v) (H ++ [title]) \/ exists i it, nth_error its i = Some it /\ r = 6 + i /\ In (c, v) (f it)).
  { intros r0 c0 v0. rewrite !in_app_iff, emit_in. cbn [In]. change (5 + 1) with 6. tauto. }
  assert (LOW : forall r c v, In (r, c, v) (H ++ [title]) -> r <= 5).
  { intros r0 c0 v0 I. apply in_app_or in I as [I|[I|[]]]; [rewrite Forall_forall in HH; apply (HH _ I)|unfold title in I; injection I as <-; lia]. }
  rewrite shows_in; [apply MEM|]. intros r0 c0 v0 v1 A B. apply MEM in A, B.
  destruct A as [A|(i & it & E & -> & A)], B as [B|(i' & it' & E' & R & B)].
  - eapply HF; eassumption.
  - apply LOW in A. lia.
  - apply LOW in B. lia.
  - assert (i' = i) as -> by lia. assert (it' = it) as -> by congruence. eapply FF; eassumption.
Qed.
Lemma distinct_functional (l : list write) : NoDup (map fst l) -> functional l.
Proof.
  intros N r c v v'. induction l as [|w l IH]; [intros []|]. inversion N as [|? ? N1 N2]; subst. intros [->|A] [B|B].
  - congruence.
  - exfalso. apply N1. apply in_map_iff. now exists (r, c, v').
  - exfalso. apply N1. subst w. apply in_map_iff. now exists (r, c, v).
  - auto.
Qed.
Ltac no_dup := repeat constructor; cbn; intuition discriminate.

(** The sheet with results: below the headings, one line for each category that has
    jobs, in the order of names, with what its jobs come to, and under it one line for
    each of its jobs that is not a local job, in the order of identifiers, with the
    outcome, the summary, the certification status, the beginning of the log and the
    comments; nothing else. *)
Theorem C72_results o t d w t' : well_formed d -> dump o t d = Ok (w, t') ->
  exists lines, layout d lines /\
    (forall r c v, shows (w_results w) r c v <->
       In (r, c, v) results_heading \/ exists i l, nth_error lines i = Some l /\ r = 6 + i /\ line_shows l c v) /\
    (with_description o = false -> w_descriptions w = None) /\
    (with_description o = true -> exists ws, w_descriptions w = Some ws /\ forall r c v, shows ws r c v <->
       In (r, c, v) descriptions_heading \/ exists i l, nth_error lines i = Some l /\ r = 6 + i /\ line_describes l c v).
Proof.
  intros W H. destruct (dump_inv o t d w t' W H) as (cats & its & logs & TI & K & Ei & El & Et & ->). clear H. cbn [w_results w_descriptions].
  destruct (cats_items_spec d W cats TI its Ei) as (ls & _ & _ & _ & _ & G & _).
  exists (map item_line its). split; [now apply (items_layout d W cats TI)|].
  assert (NTH : forall (P : item -> Prop) (Q : line -> Prop) r, (forall it, good_item it -> (P it <-> Q (item_line it))) ->
      ((exists i it, nth_error its i = Some it /\ r = 6 + i /\ P it) <->
       (exists i l, nth_error (map item_line its) i = Some l /\ r = 6 + i /\ Q l))).
  { intros P Q r X. split.
    - intros (i & it & E & -> & A). exists i, (item_line it). split; [now apply map_nth_error|]. split; [reflexivity|]. apply X; [|assumption].
      rewrite Forall_forall in G. apply G. eapply nth_error_In; exact E.
    - intros (i & l & E & -> & A). rewrite nth_error_map in E. destruct (nth_error its i) as [it|] eqn:N; [|discriminate]. cbn in E. injection E as <-.
      exists i, it. repeat split; auto. apply X; [|assumption]. rewrite Forall_forall in G. apply G. eapply nth_error_In; exact N. }
  split; [|split].
  - intros r c v. unfold put_items at 1. cbn [a_results a_line].
    rewrite header_shows; [|repeat constructor; cbn; lia|apply distinct_functional; no_dup|apply columns_fun].
    rewrite (NTH (fun it => In (c, v) (columns (with_description o) it)) (fun l => line_shows l c v)) by (intros it X; now apply columns_line).
    assert (HD : In (r, c, v) (results_header ++ [title]) <-> In (r, c, v) results_heading) by (cbn [In app results_header results_heading]; unfold title; tauto).
    now rewrite HD.
  - intros ->. reflexivity.
  - intros D. rewrite D. eexists. split; [reflexivity|]. intros r c v. unfold put_items at 1. cbn [a_descriptions a_line].
    rewrite header_shows; [|repeat constructor; cbn; lia|apply distinct_functional; no_dup|apply dcolumns_fun].
    rewrite (NTH (fun it => In (c, v) (dcolumns true it)) (fun l => line_describes l c v)) by (intros it X; apply dcolumns_line).
    assert (HD : In (r, c, v) (descriptions_header ++ [title]) <-> In (r, c, v) descriptions_heading) by (cbn [In app descriptions_header descriptions_heading]; unfold title; tauto).
    now rewrite HD.
Qed.
Print Assumptions C72_results.

Lemma nth_error_NoDup_unique {A} (l : list A) i i' x : NoDup l -> nth_error l i = Some x -> nth_error l i' = Some x -> i = i'.
Proof.
  intros N E E'. apply (NoDup_nth_error l); [assumption|apply nth_error_Some; congruence|congruence].
Qed.
Lemma jobs_in_blocks blocks job j : In (LJob job j) (concat (map block_lines blocks)) <-> In (job, j) (concat (map snd blocks)).
Proof.
  rewrite !in_concat. split.
  - intros (l & L & I). apply in_map_iff in L as (b & <- & L). destruct I as [I|I]; [discriminate|].
    apply in_map_iff in I as ([job' j'] & E & I). cbn in E. injection E as -> ->. exists (snd b). split; [now apply in_map|assumption].
  - intros (l & L & I). apply in_map_iff in L as (b & <- & L). exists (block_lines b). split; [now apply in_map|].
    right. apply in_map_iff. now exists (job, j).
Qed.
Lemma lines_NoDup d blocks : well_formed d -> increasing (map (fun b => fst (fst b)) blocks) -> Forall (good_block d) blocks ->
  NoDup (concat (map block_lines blocks)).
Proof.
  intros W. induction blocks as [|b bs IH]; intros I F; cbn [map concat]; [constructor|].
  destruct I as [I1 I2]. inversion F as [|? ? G F']; subst.
  assert (NB : NoDup (concat (map snd (b :: bs)))) by (apply (blocks_NoDup d); [assumption|now split|assumption]).
  apply NoDup_app_intro; [| now apply IH|].
  - unfold block_lines. constructor.
    + intros X. apply in_map_iff in X as (x & X & _). discriminate.
    + destruct G as (_ & G & _). apply FinFun.Injective_map_NoDup; [intros [a1 a2] [b1 b2] X; cbn in X; congruence|].
      apply NoDup_map_fst. now apply increasing_NoDup.
  - intros x A B. destruct A as [<-|A].
    + apply in_concat in B as (l & L & B). apply in_map_iff in L as (b' & <- & L). destruct B as [B|B].
      * injection B as B _. apply (before_irrefl (fst (fst b))). rewrite <- B at 2. apply I1. now apply (in_map (fun b => fst (fst b))).
      * apply in_map_iff in B as (y & X & _). discriminate.
    + apply in_map_iff in A as ([job j] & <- & A). cbn [fst snd] in B. apply jobs_in_blocks in B. cbn [map concat] in NB.
      clear - NB A B. induction (snd b) as [|y l IH]; [destruct A|]. cbn in NB. inversion NB; subst. destruct A as [->|A]; [|auto].
      apply H1. apply in_or_app. now right.
Qed.
(** So every test that is not a local job is on exactly one line of the report, and no
    other test is. *)
Theorem C72_every_test_once o t d w t' : well_formed d -> dump o t d = Ok (w, t') ->
  exists lines, layout d lines /\
    (forall r c v, shows (w_results w) r c v <->
       In (r, c, v) results_heading \/ exists i l, nth_error lines i = Some l /\ r = 6 + i /\ line_shows l c v) /\
    (forall job j, In (LJob job j) lines <-> In (job, j) (d_results d) /\ ~ is_local j) /\
    (forall i i' l, nth_error lines i = Some l -> nth_error lines i' = Some l -> i = i').
Proof.
  intros W H. destruct (C72_results o t d w t' W H) as (lines & L & S & _). exists lines. split; [assumption|]. split; [assumption|].
  destruct (dump_inv o t d w t' W H) as (cats & its & logs & TI & K & _). destruct L as (blocks & -> & A1 & A2 & A3). split.
  - intros job j. rewrite jobs_in_blocks, <- in_counted. assert (P : Permutation (concat (map snd blocks)) (counted d)).
    { apply layout_jobs; auto. intros job' j' I. specialize (K (job', j') I). cbn [snd] in K.
      destruct (find (j_category j') (d_categories d)) as [name|] eqn:F; [|congruence]. exists name. split; [assumption|]. apply find_in; [apply W|assumption]. }
    split; intros I; [eapply Permutation_in; [exact P|exact I]|eapply Permutation_in; [symmetry; exact P|exact I]].
  - intros i i' l. apply nth_error_NoDup_unique. now apply (lines_NoDup d).
Qed.
Print Assumptions C72_every_test_once.

(** The counters of the summary: each grows by the number of tests with that outcome;
    every outcome other than pass and fail counts as skipped, so that they add up. *)
Theorem C72_totals o t d w t' : well_formed d -> dump o t d = Ok (w, t') ->
  t_total t' = t_total t + length (counted d) /\
  t_pass t' = t_pass t + ended (T "pass") (counted d) /\
  t_fail t' = t_fail t + ended (T "fail") (counted d) /\
  t_skip t' + t_pass t' + t_fail t' + t_total t = t_skip t + t_pass t + t_fail t + t_total t' /\
  w_summary w = if with_summary o then Some t' else None.
Proof.
  intros W H. destruct (dump_inv o t d w t' W H) as (cats & its & logs & TI & K & Ei & El & -> & ->). clear H. cbn [w_summary].
  destruct (cats_items_spec d W cats TI its Ei) as (ls & _ & _ & _ & A2 & _ & A4 & A5 & A6).
  assert (P : Permutation (leaves_of its) (counted d)).
  { rewrite A6. apply layout_jobs; auto.
    - intros job' j' I. specialize (K (job', j') I). cbn [snd] in K.
      destruct (find (j_category j') (d_categories d)) as [name|] eqn:F; [|congruence]. exists name. split; [assumption|]. apply find_in; [apply W|assumption].
    - rewrite A2. now apply (cats_NoDup d cats).
    - intros name. rewrite A2, <- (cat_name d W cats TI), !in_map_iff.
      split; intros (c & E & I); exists c; (split; [exact E|]); now apply (sort_In c_name). }
  unfold put_items. cbn [a_total a_pass a_fail a_skip t_total t_pass t_fail t_skip].
  pose proof (count_split its) as CS. rewrite (count_ended is_pass (T "pass") its (counted d) A5 P) in * by reflexivity.
  rewrite (count_ended is_fail (T "fail") its (counted d) A5 P) in * by reflexivity.
  assert (LE : length (leaf_outcomes its) = length (counted d)) by (rewrite A5, map_length; now apply Permutation_length).
  repeat split; lia.
Qed.
Print Assumptions C72_totals.

(** The sheets with attachments and with resources: every content that is text is
    there whole, line by line, under its name, and nothing is written over; contents that
    are not text are left out. *)
Theorem C72_attachments_and_resources o t d w t' : well_formed d -> dump o t d = Ok (w, t') ->
  (with_attachments o = false -> w_attachments w = None) /\
  (with_attachments o = true -> exists ws texts, w_attachments w = Some ws /\ texts_of (d_attachments d) texts /\
     forall r c v, shows ws r c v <-> (r, c, v) = (1, 1, Txt (T "System Testing Report")) \/ c = 1 /\ written_below 4 texts r v) /\
  (exists logs texts, resource_texts (d_results d) logs /\ texts_of logs texts /\
     forall r c v, shows (w_resources w) r c v <-> (r, c, v) = (1, 1, Txt (T "System Testing Report")) \/ c = 1 /\ written_below 4 texts r v).
Proof.
  intros W H. destruct (dump_inv o t d w t' W H) as (cats & its & logs & TI & K & Ei & El & -> & ->). clear H. cbn [w_attachments w_resources].
  split; [now intros ->|]. split.
  - intros ->. eexists. exists (kept (map (fun a => (fst a, fst (decode true true true (snd a)))) (d_attachments d))). split; [reflexivity|].
    split; [apply decoded_texts|]. intros r c v. apply texts_shows.
  - destruct (resource_logs_spec (d_results d) logs El) as (bs & A & B). exists bs, (kept logs). split; [assumption|]. split; [assumption|].
    intros r c v. apply texts_shows.
Qed.
Print Assumptions C72_attachments_and_resources.

(** When a report is made: exactly when every job has a category that is known, no job
    is called like a category that is used, every job has a plugin, resource jobs have a
    log, and the logs of all jobs other than local, resource and attachment jobs are
    text. *)
Theorem C72_when_a_report_is_made o t d : well_formed d -> ((exists r, dump o t d = Ok r) <-> reportable d).
Proof.
  intros W. split.
  - intros ([w t'] & H). destruct (dump_inv o t d w t' W H) as (cats & its & logs & TI & K & Ei & El & _). clear H w t'.
    intros job j I. pose proof (K (job, j) I) as F. cbn [snd] in F. destruct (find (j_category j) (d_categories d)) as [name|] eqn:E; [|congruence].
    clear F. assert (B : belongs d name job j) by (split; [assumption|apply find_in; [apply W|assumption]]). split; [now exists name|].
    assert (X : exists its, leaf (lk d cats) job = Ok its).
    { assert (IC : In name (map c_name cats)) by (apply (cat_name d W cats TI); eauto).
      apply in_map_iff in IC as (c & Ec & IC).
      destruct (proj1 (collect_ok (cat_items (lk d cats)) (sort_by c_name cats)) (ex_intro _ its Ei) c) as (l & El'); [now apply sort_In|].
      unfold cat_items in El'. destruct TI as (TN & TJ & TI3). destruct (TJ c IC) as [J S]. destruct (status_some d W (c_name c)) as (s & Es); [rewrite Ec; eauto|].
      rewrite S, Es in El'. apply bind_ok in El' as (r & Er & _).
      apply (proj1 (collect_ok (leaf (lk d cats)) (sort_by (fun j => j) (c_jobs c))) (ex_intro _ r Er) job). rewrite sort_In, J, Ec.
      apply (in_jobs_of d W). now exists j. }
    destruct X as (l & X). apply leaf_spec in X as (j' & p & L & P & Q). apply (lookup_spec d W cats TI) in L as [L1 L2].
    assert (j' = j) as -> by (eapply (result_fun d W); eassumption). split; [assumption|]. split; [now exists p|]. split.
    + apply (proj1 (resource_logs_ok (d_results d)) (ex_intro _ logs El) job j I).
    + destruct Q as [[-> _]|(_ & log & IO & _)]; [now left|]. right. apply (io_text_ok j p P). now exists log.
  - intros R. unfold dump, write_results.
    destruct (tree_ok (d_categories d) (d_results d) [] []) as (cats & Ec & TI).
    { split; [constructor|]. split; [intros c []|]. intros name. split; [intros []|]. intros (jj & [] & _). }
    { intros [job j] I F. cbn [snd] in F. destruct (R job j I) as ((name & _ & B) & _). apply (find_in (j_category j)) in B; [congruence|apply W]. }
    cbn [app] in TI. rewrite Ec. cbn [bind]. rewrite write_categories_items.
    assert (X : exists its, collect (cat_items (lk d cats)) (sort_by c_name cats) = Ok its).
    { apply collect_ok. intros c IC. rewrite sort_In in IC. unfold cat_items. destruct (c_status c) as [s|]; [|eauto].
      destruct (proj2 (collect_ok (leaf (lk d cats)) (sort_by (fun j => j) (c_jobs c)))) as (r & Er); [|rewrite Er; cbn [bind]; eauto].
      intros job IJ. rewrite sort_In in IJ. destruct TI as (TN & TJ & TI3). destruct (TJ c IC) as [J _]. rewrite J in IJ.
      apply (in_jobs_of d W) in IJ as (j & B). destruct (R job j (proj1 B)) as (_ & R2 & (p & P) & _ & R5).
      assert (L : lk d cats job = Some (Job j)) by (apply (lookup_spec d W cats (conj TN (conj TJ TI3))); split; [apply B|assumption]).
      destruct R5 as [R5|R5].
      - exists []. apply leaf_spec. exists j, p. repeat split; auto. left. split; [|reflexivity]. unfold is_local in R5. congruence.
      - destruct (list_eq_dec ascii_dec p (T "local")) as [E|N].
        + exists []. apply leaf_spec. exists j, p. repeat split; auto.
        + apply (io_text_ok j p P) in R5 as (log & IO). exists [ILeaf (job, j, log)]. apply leaf_spec. exists j, p. repeat split; auto. right. split; [assumption|]. now exists log. }
    destruct X as (its & X). unfold lk in X. rewrite X. cbn [bind].
    destruct (proj2 (resource_logs_ok (d_results d))) as (logs & El).
    { intros job j I. destruct (R job j I) as (_ & _ & (p & P) & R4 & _). split; [congruence|assumption]. }
    rewrite El. cbn [bind]. eauto.
Qed.
Print Assumptions C72_when_a_report_is_made.

(** ** Where the report falls short *)
Definition j_ok (cat outcome : string) (log : option bytes) : jobdata :=
  mk_jobdata (T "Summary") (T cat) (T outcome) (Some (T "shell")) None log None None.
Definition cats1 : list (text * text) := [(T "ns::audio", T "Audio"); (T "ns::disk", T "Disk")].
Definition opts : options := mk_options true true true.
Definition zero : totals := mk_totals 0 0 0 0.

(** One byte that is not UTF-8 in the log of one job, and there is no report at all.
    (Attachments and resources that are not text are only left out.) *)
Theorem C72_undecodable_log_refuted :
  exists d, well_formed d /\ (forall job j, In (job, j) (d_results d) -> exists name, belongs d name job j) /\
    dump opts zero d = Raised UnicodeDecodeError /\
    exists r, dump opts zero (mk_data (removelast (d_results d)) (d_categories d) (d_attachments d)) = Ok r.
Proof.
  exists (mk_data [(T "a", j_ok "ns::audio" "pass" (Some (T "fine"))); (T "b", j_ok "ns::disk" "pass" (Some [ascii_of_nat 255]))] cats1 []).
  split; [split; no_dup|]. split.
  - intros job j [H|[H|[]]]; injection H as <- <-; [exists (T "Audio")|exists (T "Disk")]; split; cbn; tauto.
  - split; [vm_compute; reflexivity|]. eexists. vm_compute. reflexivity.
Qed.
Print Assumptions C72_undecodable_log_refuted.

(** A job in a category that the provider does not define: no report. *)
Theorem C72_unknown_category_refuted :
  exists d, well_formed d /\ (forall job j, In (job, j) (d_results d) -> exists t, Forall scalar t /\ j_io_log j = Some (utf8_text t)) /\
    dump opts zero d = Raised KeyError.
Proof.
  exists (mk_data [(T "a", j_ok "ns::video" "pass" (Some []))] cats1 []).
  split; [split; no_dup|]. split; [|vm_compute; reflexivity].
  intros job j [H|[]]. injection H as <- <-. exists []. now split.
Qed.
Print Assumptions C72_unknown_category_refuted.

(** A job whose identifier is the name of a category: no report. *)
Theorem C72_job_named_like_category_refuted :
  exists d, well_formed d /\
    (forall job j, In (job, j) (d_results d) -> (exists name, belongs d name job j) /\ exists t, Forall scalar t /\ j_io_log j = Some (utf8_text t)) /\
    dump opts zero d = Raised KeyError.
Proof.
  exists (mk_data [(T "Audio", j_ok "ns::audio" "pass" (Some []))] cats1 []).
  split; [split; no_dup|]. split; [|vm_compute; reflexivity].
  intros job j [H|[]]. injection H as <- <-. split; [exists (T "Audio"); split; cbn; tauto|]. exists []. now split.
Qed.
Print Assumptions C72_job_named_like_category_refuted.

(** A test that crashed does not count as failed: it is in the number of tests skipped,
    and a category in which one test passed and another crashed is shown as passed. *)
Theorem C72_crash_is_a_failure_refuted :
  exists d w t', well_formed d /\ In (T "b", j_ok "ns::audio" "crash" (Some [])) (d_results d) /\
    dump opts zero d = Ok (w, t') /\ t_fail t' = 0 /\ t_skip t' = 1 /\
    shows (w_results w) 6 1 (Txt (T "Audio")) /\ shows (w_results w) 6 4 (Label (T "pass")).
Proof.
  exists (mk_data [(T "a", j_ok "ns::audio" "pass" (Some [])); (T "b", j_ok "ns::audio" "crash" (Some []))] cats1 []).
  eexists. eexists. split; [split; no_dup|]. split; [cbn; tauto|]. split; [vm_compute; reflexivity|]. cbn [t_fail t_skip w_results].
  split; [reflexivity|]. split; [reflexivity|]. split.
  - exists (firstn 6 (w_results (match dump opts zero (mk_data [(T "a", j_ok "ns::audio" "pass" (Some [])); (T "b", j_ok "ns::audio" "crash" (Some []))] cats1 []) with Ok (w, _) => w | _ => mk_workbook [] None None None [] end))).
    eexists. split; [vm_compute; reflexivity|]. intros v' I. cbn in I. intuition discriminate.
  - exists (firstn 7 (w_results (match dump opts zero (mk_data [(T "a", j_ok "ns::audio" "pass" (Some [])); (T "b", j_ok "ns::audio" "crash" (Some []))] cats1 []) with Ok (w, _) => w | _ => mk_workbook [] None None None [] end))).
    eexists. split; [vm_compute; reflexivity|]. intros v' I. cbn in I. intuition discriminate.
Qed.
Print Assumptions C72_crash_is_a_failure_refuted.

(** The outcome of a local job, which has no line, decides how its category is shown. *)
Theorem C72_local_jobs_do_not_matter_refuted :
  exists d w t', well_formed d /\ (forall job j, In (job, j) (d_results d) -> ~ is_local j -> j_outcome j = T "pass") /\
    dump opts zero d = Ok (w, t') /\ t_fail t' = 0 /\ verdict d (T "Audio") (T "fail").
Proof.
  pose (l := mk_jobdata (T "Summary") (T "ns::audio") (T "fail") (Some (T "local")) None None None None).
  exists (mk_data [(T "a", j_ok "ns::audio" "pass" (Some [])); (T "b", l)] cats1 []).
  eexists. eexists. split; [split; no_dup|]. split.
  - intros job j [H|[H|[]]] N; injection H as <- <-; [reflexivity|]. exfalso. apply N. reflexivity.
  - split; [vm_compute; reflexivity|]. split; [reflexivity|]. left. split; [|reflexivity]. exists (T "b"), l. split; [split; cbn; tauto|reflexivity].
Qed.
Print Assumptions C72_local_jobs_do_not_matter_refuted.

(** An exporter that is used for a second session adds its tests to those of the first. *)
Theorem C72_counters_are_for_one_session_refuted :
  exists d w t1 w2 t2, dump opts zero d = Ok (w, t1) /\ dump opts t1 d = Ok (w2, t2) /\ length (counted d) = 1 /\ t_total t2 = 2.
Proof.
  exists (mk_data [(T "a", j_ok "ns::audio" "pass" (Some []))] cats1 []). do 4 eexists.
  split; [vm_compute; reflexivity|]. split; [vm_compute; reflexivity|]. split; reflexivity.
Qed.
Print Assumptions C72_counters_are_for_one_session_refuted.

(** ** A session *)
Definition session : data :=
  mk_data
    [(T "disk/b", mk_jobdata (T "Write") (T "ns::disk") (T "fail") (Some (T "shell")) (Some (T "Writes.")) (Some (utf8_text (map N_of_ascii (T "one
two
three
four
")))) (Some (map N_of_ascii (T "slow  "))) (Some (T "blocker")));
     (T "audio/a", j_ok "ns::audio" "pass" (Some (utf8_text [233; 10]%N)));
     (T "disk/a", j_ok "ns::disk" "skip" (Some []));
     (T "uname", mk_jobdata (T "uname") (T "ns::disk") (T "pass") (Some (T "resource")) None (Some (T "name: linux")) None (Some (T "unspecified")))]
    cats1 [(T "dmi", T "x"); (T "core", [ascii_of_nat 128])].
Example C72_session_is_well_formed : well_formed session.
Proof. split; no_dup. Qed.
Example C72_session_is_reportable : exists r, dump opts zero session = Ok r.
Proof. eexists. vm_compute. reflexivity. Qed.
Example C72_session_totals : match dump opts zero session with Ok (_, t) => t | _ => zero end = mk_totals 4 2 1 1.
Proof. vm_compute. reflexivity. Qed.
Example C72_session_results : match dump opts zero session with
  | Ok (w, _) => map (fun x => (fst (fst x), snd x)) (List.filter (fun x => snd (fst x) =? 4) (w_results w)) | _ => [] end =
  [(5, Txt (T "Result")); (6, Label (T "pass")); (7, Label (T "pass")); (8, Label (T "fail")); (9, Label (T "skip"));
   (10, Label (T "fail")); (11, Label (T "pass"))].
Proof. vm_compute. reflexivity. Qed.
Example C72_session_log : match dump opts zero session with
  | Ok (w, _) => map snd (List.filter (fun x => (snd (fst x) =? 6) && (fst (fst x) =? 10)) (w_results w)) | _ => [] end =
  [Utx (map N_of_ascii (T "one
two
three
[...]"))].
Proof. vm_compute. reflexivity. Qed.
Example C72_session_attachments : match dump opts zero session with Ok (w, _) => w_attachments w | _ => None end =
  Some [(4, 1, Txt (T "dmi")); (6, 1, Utx (map N_of_ascii (T "x"))); (1, 1, Txt (T "System Testing Report"))].
Proof. vm_compute. reflexivity. Qed.
