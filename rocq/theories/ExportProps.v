(** * C51: exported data is exactly the selected view of the session *)
From Coq Require Import String Ascii List Bool Arith Lia.
From Verif Require Import ScanModel Rfc822Model Rfc822Proofs JsonModel IologModel IologProps IniModel IniProofs ConfigProofs
  CacheModel CacheProofs RunnerModel RunnerSpec RunnerProps ExportModel ExportSpec.
Import ListNotations.
Local Open Scope nat_scope.
Local Open Scope list_scope.

(** ** Options *)

Lemma split_says o : forall n v, split_equals o = (n, v) <-> says o n v.
Proof.
  induction o as [|c o IH]; intros n v; cbn [split_equals].
  - split.
    + intros E. injection E as <- <-. constructor. intros [].
    + intros H. inversion H; subst; [reflexivity|]. destruct n; discriminate.
  - destruct (Ascii.eqb c "="%char) eqn:E.
    + apply Ascii.eqb_eq in E as ->. split.
      * intros H. injection H as <- <-. apply (says_value [] o). intros [].
      * intros H. inversion H as [n0 N E1 E2|n0 v0 N E1]; subst.
        -- exfalso. apply N. now left.
        -- destruct n as [|x n]; [now injection E1 as ->|]. injection E1 as E1 _. exfalso. apply N. rewrite E1. now left.
    + destruct (split_equals o) as [a b] eqn:S. split.
      * intros H. injection H as <- <-. assert (H : says o a b) by now apply IH.
        apply Ascii.eqb_neq in E. inversion H as [n0 N E1|n0 w N E1]; subst.
        -- apply says_plain. intros [X|X]; [congruence|contradiction].
        -- change (c :: a ++ "="%char :: w) with ((c :: a) ++ "="%char :: w). apply says_value.
           intros [X|X]; [congruence|contradiction].
      * intros H. apply Ascii.eqb_neq in E. inversion H as [n0 N E1 E2|n0 v0 N E1]; subst.
        -- assert (X : (a, b) = (o, None)) by (apply IH; constructor; intros X; apply N; now right).
           injection X as -> ->. reflexivity.
        -- destruct n as [|x n]; [injection E1; congruence|]. injection E1 as E1 E2. subst.
           assert (X : (a, b) = (n, Some v0)) by (apply IH; constructor; intros X; apply N; now right).
           injection X as -> ->. reflexivity.
Qed.
Lemma says_fun o n v n' v' : says o n v -> says o n' v' -> n = n' /\ v = v'.
Proof. intros A B. apply split_says in A. apply split_says in B. rewrite A in B. now injection B. Qed.
Lemma says_some o : exists n v, says o n v.
Proof. destruct (split_equals o) as [n v] eqn:E. exists n, v. now apply split_says. Qed.

Lemma last_said_cons o l n v :
  last_said (o :: l) n v <-> last_said l n v \/ says o n v /\ forall o' v', In o' l -> ~ says o' n v'.
Proof.
  split.
  - intros (l1 & o1 & l2 & E & S & N). destruct l1 as [|x l1].
    + injection E as -> ->. right. auto.
    + injection E as -> ->. left. exists l1, o1, l2. auto.
  - intros [(l1 & o1 & l2 & -> & S & N)|[S N]].
    + exists (o :: l1), o1, l2. auto.
    + exists [], o, l. auto.
Qed.
Lemma last_said_fun l n v v' : last_said l n v -> last_said l n v' -> v = v'.
Proof.
  induction l as [|o l IH]; intros A B.
  - destruct A as (l1 & ? & ? & E & _). destruct l1; discriminate.
  - apply last_said_cons in A, B. destruct A as [A|[A N]], B as [B|[B M]].
    + auto.
    + destruct A as (l1 & o1 & l2 & -> & S & _). exfalso. apply (M o1 v); auto. apply in_app_iff. right. now left.
    + destruct B as (l1 & o1 & l2 & -> & S & _). exfalso. apply (N o1 v'); auto. apply in_app_iff. right. now left.
    + destruct (says_fun _ _ _ _ _ A B). assumption.
Qed.
Lemma last_said_dec l n : (exists v, last_said l n v) \/ forall o v, In o l -> ~ says o n v.
Proof.
  induction l as [|o l IH]; [right; intros ? ? []|].
  destruct IH as [[v H]|N]; [left; exists v; apply last_said_cons; auto|].
  destruct (says_some o) as (n' & v' & S). destruct (list_eq_dec ascii_dec n n') as [<-|D].
  - left. exists v'. apply last_said_cons. right. auto.
  - right. intros o' v [<-|I] X; [destruct (says_fun _ _ _ _ _ S X); auto|]. now apply (N o' v).
Qed.

Definition as_value (v : option text) : optval := match v with Some t => OText t | None => OTrue end.

Lemma add_options_spec sup l : forall d,
  (forall d', add_options sup l d = Some d' ->
     (forall o n v, In o l -> says o n v -> In n sup) /\
     forall n, (forall v, last_said l n v -> tget n d' = Some (as_value v)) /\
               ((forall o v, In o l -> ~ says o n v) -> tget n d' = tget n d)) /\
  (add_options sup l d = None -> exists o n v, In o l /\ says o n v /\ ~ In n sup).
Proof.
  induction l as [|o l IH]; intros d; cbn [add_options].
  - split; [|discriminate]. intros d' E. injection E as <-. split; [intros ? ? ? []|]. intros n. split; [|reflexivity].
    intros v (l1 & ? & ? & E & _). destruct l1; discriminate.
  - unfold add_option. destruct (split_equals o) as [n0 v0] eqn:E0. apply split_says in E0.
    destruct (tmem n0 sup) eqn:M.
    + change (match v0 with Some v => OText v | None => OTrue end) with (as_value v0).
      specialize (IH (tset n0 (as_value v0) d)). destruct IH as [IH1 IH2]. split.
      * intros d' E. destruct (IH1 d' E) as [A B]. split.
        -- intros o' n v [<-|I] S; [destruct (says_fun _ _ _ _ _ E0 S) as [<- _]; now apply tmem_In|eauto].
        -- intros n. destruct (B n) as [B1 B2]. split.
           ++ intros v H. apply last_said_cons in H. destruct H as [H|[H N]]; [auto|].
              destruct (says_fun _ _ _ _ _ E0 H) as [<- <-]. rewrite B2 by exact N. rewrite tget_tset.
              now rewrite text_eqb_refl.
           ++ intros N. rewrite B2 by (intros o' v I; apply N; now right). rewrite tget_tset.
              destruct (text_eqb n n0) eqn:Q; [|reflexivity]. apply text_eqb_eq in Q as ->.
              exfalso. apply (N o v0); [now left|assumption].
      * intros E. destruct (IH2 E) as (o' & n & v & I & S & X). exists o', n, v. split; [now right|auto].
    + split; [discriminate|]. intros _. exists o, n0, v0. split; [now left|]. split; [assumption|].
      intros X. apply tmem_In in X. congruence.
Qed.

Lemma add_options_app sup l l' : forall d,
  add_options sup (l ++ l') d = match add_options sup l d with Some e => add_options sup l' e | None => None end.
Proof.
  induction l as [|o l IH]; intros d; cbn [add_options app]; [reflexivity|].
  destruct (add_option sup o d); auto.
Qed.
Lemma make_options_app sup l u : make_options sup l u = add_options sup (l ++ u) [].
Proof. unfold make_options. now rewrite add_options_app. Qed.

(** Creating an exporter succeeds exactly when every option string names a
    supported option. *)
Theorem C51_options_accepted sup l u :
  (exists d, make_options sup l u = Some d) <-> forall o n v, In o (l ++ u) -> says o n v -> In n sup.
Proof.
  rewrite make_options_app. destruct (add_options_spec sup (l ++ u) []) as [A B]. split.
  - intros [d E]. now destruct (A d E).
  - intros H. destruct (add_options sup (l ++ u) []) as [d|] eqn:E; [eauto|].
    destruct (B eq_refl) as (o & n & v & I & S & X). exfalso. apply X. eauto.
Qed.
Print Assumptions C51_options_accepted.

(** The last setting of an option counts, those of the exporter unit after those of
    the caller. *)
Theorem C51_last_setting_wins sup l u d n : make_options sup l u = Some d ->
  (forall t, get_option_value d n = Some (OText t) <-> last_said (l ++ u) n (Some t)) /\
  (get_option_value d n = Some OTrue <-> last_said (l ++ u) n None) /\
  (get_option_value d n = None <-> forall o v, In o (l ++ u) -> ~ says o n v).
Proof.
  rewrite make_options_app. intros E. destruct (add_options_spec sup (l ++ u) []) as [A _].
  destruct (A d E) as [_ B]. destruct (B n) as [B1 B2]. clear A B. unfold get_option_value.
  destruct (last_said_dec (l ++ u) n) as [[v H]|N].
  - rewrite (B1 v H). split; [|split].
    + intros t. split.
      * destruct v; cbn; intros X; [injection X as <-; assumption|discriminate].
      * intros X. rewrite (last_said_fun _ _ _ _ H X). reflexivity.
    + split; [destruct v; cbn; [discriminate|intros _; assumption]|].
      intros X. rewrite (last_said_fun _ _ _ _ H X). reflexivity.
    + split; [discriminate|]. intros N. destruct H as (l1 & o & l2 & Q & S & _). exfalso. apply (N o v); [|assumption].
      rewrite Q. apply in_app_iff. right. now left.
  - rewrite (B2 N). assert (Z : forall v, ~ last_said (l ++ u) n v).
    { intros v (l1 & o & l2 & Q & S & _). apply (N o v); [|assumption]. rewrite Q. apply in_app_iff. right. now left. }
    split; [|split].
    + intros t. split; [discriminate|]. intros X. now apply Z in X.
    + split; [discriminate|]. intros X. now apply Z in X.
    + split; auto.
Qed.
Print Assumptions C51_last_setting_wins.

Lemma enabled_chosen sup l u d n : make_options sup l u = Some d -> enabled d n = true <-> chosen (l ++ u) n.
Proof.
  intros E. destruct (C51_last_setting_wins sup l u d n E) as (A & B & C). unfold get_option_value in *.
  unfold enabled, chosen. destruct (tget n d) as [[|t]|].
  - split; [|reflexivity]. intros _. exists None. split; [now apply B|discriminate].
  - assert (H : last_said (l ++ u) n (Some t)) by now apply A. destruct t as [|c t]; cbn.
    + split; [discriminate|]. intros (v & X & Y). exfalso. apply Y. exact (last_said_fun _ _ _ _ X H).
    + split; [|reflexivity]. intros _. exists (Some (c :: t)). split; [assumption|discriminate].
  - split; [discriminate|]. intros (v & (l1 & o & l2 & Q & S & _) & _). exfalso. destruct C as [C _].
    apply (C eq_refl o v); [|assumption]. rewrite Q. apply in_app_iff. right. now left.
Qed.

(** ** Entries *)

Definition sound (d : options) (s : jstate) (e : tdict json) : Prop :=
  forall k v, tget k e = Some v -> exported (fun n => enabled d n = true) s k v.
Lemma sound_set d s e k v : sound d s e -> exported (fun n => enabled d n = true) s k v -> sound d s (tset k v e).
Proof.
  intros H X k' v' G. rewrite tget_tset in G. destruct (text_eqb k' k) eqn:E; [|auto].
  apply text_eqb_eq in E as ->. injection G as <-. assumption.
Qed.
Definition has (k : text) (e : tdict json) : Prop := tget k e <> None.
Lemma has_here k v e : has k (tset k v e).
Proof. unfold has. rewrite tget_tset, text_eqb_refl. discriminate. Qed.
Lemma has_there k k' v e : has k e -> has k (tset k' v e).
Proof. unfold has. rewrite tget_tset. destruct (text_eqb k k'); [discriminate|auto]. Qed.
Lemma has_defs k l : forall e, has k e -> has k (add_defs l e).
Proof.
  induction l as [|[p v] l IH]; intros e H; [assumption|]. cbn [add_defs]. destruct v; [auto|].
  apply IH. now apply has_there.
Qed.
Lemma has_defs_in k v l : In (k, v) l -> v <> [] -> forall e, has k (add_defs l e).
Proof.
  induction l as [|[p w] l IH]; intros I N e; [destruct I|]. cbn [add_defs]. destruct I as [I|I].
  - injection I as -> ->. destruct v as [|c v]; [congruence|]. apply has_defs, has_here.
  - destruct w; auto.
Qed.
Lemma sound_defs d s l : (forall p v, In (p, v) l -> v <> [] -> exported (fun n => enabled d n = true) s p (JStr v)) ->
  forall e, sound d s e -> sound d s (add_defs l e).
Proof.
  induction l as [|[p v] l IH]; intros H e S; [assumption|]. cbn [add_defs].
  assert (H' : forall p v, In (p, v) l -> v <> [] -> exported (fun n => enabled d n = true) s p (JStr v))
    by (intros; apply H; [now right|assumption]).
  destruct v as [|c v]; [auto|]. apply IH; [assumption|]. apply sound_set; [assumption|].
  apply H; [now left|discriminate].
Qed.
Lemma sound_if d s (b : bool) e e' : (b = true -> sound d s e) -> (b = false -> sound d s e') -> sound d s (if b then e else e').
Proof. destruct b; auto. Qed.

Lemma squash_exported l :
  exists ts, squash_io_log l = JList (map JStr ts) /\ Forall2 (fun t r => decodes t (io_data r)) ts l.
Proof.
  exists (map (fun r => b64encode (io_data r)) l). unfold squash_io_log. rewrite map_map. split; [reflexivity|].
  induction l; constructor; auto. apply b64_round_trip.
Qed.
Lemma raw_exported l :
  exists vs, raw_io_log l = JList vs /\
  Forall2 (fun v r => exists t, v = JList [io_delay r; io_stream r; JStr t] /\ decodes t (io_data r)) vs l.
Proof.
  eexists. split; [reflexivity|].
  induction l; constructor; auto. eexists. split; [reflexivity|]. apply b64_round_trip.
Qed.

Lemma not_true (b : bool) : b = false -> b <> true.
Proof. now intros ->. Qed.

Lemma sound_entry d s o : s_outcome s = Some o -> sound d s (entry d s o).
Proof.
  intros O. unfold entry. cbv zeta.
  assert (S3 : sound d s (tset (T "outcome") (JStr o) (tset (T "category_id") (JStr (s_category s)) [(T "summary", JStr (s_summary s))]))).
  { apply sound_set; [|now apply x_outcome]. apply sound_set; [|apply x_category].
    intros k v G. cbn [tget] in G. destruct (text_eqb k (T "summary")) eqn:E; [|discriminate].
    apply text_eqb_eq in E as ->. injection G as <-. apply x_summary. }
  assert (Defs : enabled d WITH_JOB_DEFS = true -> forall e, sound d s e -> sound d s (add_defs (job_defs s) e)).
  { intros E. apply sound_defs. intros p v [I|[I|[I|[I|[I|[]]]]]] N; injection I as <- <-.
    - now apply x_plugin.
    - now apply x_requires.
    - now apply x_depends.
    - now apply x_command.
    - now apply x_description. }
  assert (Log : enabled d WITH_IO_LOG = true -> text_eqb (s_plugin s) (T "attachment") = false ->
    exported (fun n => enabled d n = true) s (T "io_log")
      (if enabled d SQUASH_IO_LOG then squash_io_log (s_log s)
                  else if enabled d FLATTEN_IO_LOG then flatten_io_log (s_log s)
                  else raw_io_log (s_log s))).
  { intros E A. apply text_eqb_neq in A.
    destruct (enabled d SQUASH_IO_LOG) eqn:Q; [|destruct (enabled d FLATTEN_IO_LOG) eqn:Fl].
    - destruct (squash_exported (s_log s)) as (ts & -> & F). now apply x_squashed.
    - unfold flatten_io_log. apply x_flat; auto; [now apply not_true|apply b64_round_trip].
    - destruct (raw_exported (s_log s)) as (vs & -> & F). apply x_raw; auto; now apply not_true. }
  destruct (s_duration s) eqn:Dur; destruct (s_comments s) eqn:Com;
    repeat first
      [ exact S3
      | apply sound_if; intros
      | apply Defs; [assumption|]
      | apply sound_set;
        [|solve [ now apply x_duration | now apply x_comment | now apply x_no_comment | now apply x_hash
                | now apply Log | apply x_certification; [assumption|now apply text_eqb_neq] ] ] ].
Qed.

Ltac keep :=
  repeat first
    [ apply has_here
    | apply has_there
    | apply has_defs
    | match goal with |- has _ (if ?b then _ else _) => destruct b eqn:? end
    | match goal with |- has _ (match ?b with _ => _ end) => destruct b eqn:? end ].

Lemma complete_entry d s o k v : s_outcome s = Some o -> exported (fun n => enabled d n = true) s k v -> has k (entry d s o).
Proof.
  intros O X. unfold entry. cbv zeta.
  assert (Base : has (T "summary") [(T "summary", JStr (s_summary s))]) by discriminate.
  assert (Z : forall b, text_eqb (s_plugin s) (T "attachment") = b -> s_plugin s <> T "attachment" -> b = false).
  { intros b <- H. now apply text_eqb_neq. }
  revert Base. generalize [(T "summary", JStr (s_summary s))]. intros e Base.
  destruct X; try (progress change (enabled d WITH_COMMENTS = true) in H);
    try (progress change (enabled d WITH_JOB_HASH = true) in H); try (progress change (enabled d WITH_JOB_DEFS = true) in H);
    try (progress change (enabled d WITH_CERTIFICATION_STATUS = true) in H);
    try (progress change (enabled d WITH_IO_LOG = true) in H);
    try rewrite H; try (rewrite (Z _ eq_refl) by assumption).
  1-3, 6-7: solve [keep; assumption].
  all: try solve [repeat first [apply has_here | apply has_there | match goal with |- has _ (if ?b then _ else _) => destruct b end]].
  all: try solve [keep; try congruence; try (rewrite H in *; discriminate)].
  all: repeat first [eapply has_defs_in; [unfold job_defs; cbn [In]; eauto 10|assumption] | apply has_there | match goal with |- has _ (if ?b then _ else _) => destruct b end].
Qed.

(** ** The result map *)

Lemma results_spec d l : NoDup (map s_id l) -> forall m id e,
  tget id (export_results d l m) = Some e <->
  (exists s o, In s l /\ s_id s = id /\ s_outcome s = Some o /\ e = entry d s o) \/
  tget id m = Some e /\ forall s, In s l -> s_id s = id -> s_outcome s = None.
Proof.
  induction l as [|s l IH]; intros N m id e; cbn [export_results].
  - split; [intros H; right; split; [assumption|intros ? []]|]. intros [(s & o & [] & _)|[H _]]; assumption.
  - inversion N as [|? ? Ni N']; subst. destruct (s_outcome s) as [o|] eqn:O.
    + rewrite IH by assumption. rewrite tget_tset. split.
      * intros [(s' & o' & I & H)|[H K]]; [left; exists s', o'; split; [now right|assumption]|].
        destruct (text_eqb id (s_id s)) eqn:E.
        -- apply text_eqb_eq in E as ->. injection H as <-. left. exists s, o. split; [now left|auto].
        -- right. split; [assumption|]. intros s' [<-|I] X; [|auto]. apply text_eqb_neq in E. congruence.
      * intros [(s' & o' & [<-|I] & Ei & Eo & ->)|[H K]].
        -- right. rewrite <- Ei, text_eqb_refl. rewrite O in Eo. injection Eo as <-. split; [reflexivity|].
           intros s' I X. exfalso. apply Ni. rewrite <- X. now apply in_map.
        -- left. exists s', o'. auto.
        -- right. split; [|intros s' I; apply K; now right].
           destruct (text_eqb id (s_id s)) eqn:E; [|assumption]. apply text_eqb_eq in E.
           specialize (K s (or_introl eq_refl) (eq_sym E)). congruence.
    + rewrite IH by assumption. split.
      * intros [(s' & o' & I & H)|[H K]]; [left; exists s', o'; split; [now right|assumption]|].
        right. split; [assumption|]. intros s' [<-|I] X; auto.
      * intros [(s' & o' & [<-|I] & Ei & Eo & ->)|[H K]].
        -- congruence.
        -- left. exists s', o'. auto.
        -- right. split; [assumption|]. intros s' I. apply K. now right.
Qed.

Lemma exported_on on on' s k v : (forall n, on n <-> on' n) -> exported on s k v -> exported on' s k v.
Proof.
  intros E H. destruct H;
    repeat match goal with
    | X : on _ |- _ => apply E in X
    | X : ~ on _ |- _ => rewrite E in X
    end.
  - apply x_summary.
  - apply x_category.
  - now apply x_outcome.
  - now apply x_duration.
  - now apply x_comment.
  - now apply x_no_comment.
  - now apply x_hash.
  - now apply x_plugin.
  - now apply x_requires.
  - now apply x_depends.
  - now apply x_command.
  - now apply x_description.
  - now apply x_certification.
  - now apply x_squashed.
  - now apply x_flat.
  - now apply x_raw.
Qed.

(** The jobs in the result map are those with an outcome, and the entry of each shows
    exactly the fields that the options select. *)
Theorem C51_result_map sup l u d v id : make_options sup l u = Some d -> NoDup (map s_id (v_states v)) ->
  (forall e, tget id (d_results (get_data d v)) = Some e ->
     exists s, In s (v_states v) /\ s_id s = id /\ s_outcome s <> None /\ shows (chosen (l ++ u)) s e) /\
  (forall s, In s (v_states v) -> s_id s = id -> s_outcome s <> None ->
     exists e, tget id (d_results (get_data d v)) = Some e /\ shows (chosen (l ++ u)) s e).
Proof.
  intros D N.
  assert (Sh : forall s o, s_outcome s = Some o -> shows (chosen (l ++ u)) s (entry d s o)).
  { intros s o O. split.
    - intros k w G. apply (exported_on (fun n => enabled d n = true)); [intros n; now apply (enabled_chosen sup)|].
      now apply (sound_entry d s o O).
    - intros k w X. apply (complete_entry d s o k w O).
      apply (exported_on (chosen (l ++ u))); [intros n; symmetry; now apply (enabled_chosen sup)|assumption]. }
  cbn [get_data d_results]. split.
  - intros e G. apply results_spec in G; [|assumption]. destruct G as [(s & o & I & Ei & O & ->)|[G _]]; [|discriminate].
    exists s. split; [assumption|]. split; [assumption|]. split; [congruence|auto].
  - intros s I Ei O. destruct (s_outcome s) as [o|] eqn:Eo; [|congruence]. exists (entry d s o). split; [|auto].
    apply results_spec; [assumption|]. left. exists s, o. auto.
Qed.
Print Assumptions C51_result_map.

(** A field has one value: [exported] with the texts of base64 aside says what each
    field is. *)
Theorem C51_fields_are_known on s k v : exported on s k v ->
  In k (map T ["summary"; "category_id"; "outcome"; "execution_duration"; "comments"; "hash"; "plugin"; "requires";
               "depends"; "command"; "description"; "certification_status"; "io_log"]%string).
Proof. intros H. destruct H; cbn [map In]; tauto. Qed.
Print Assumptions C51_fields_are_known.

(** ** The other parts *)

Lemma if_chosen {A} sup l u d n (x : A) : make_options sup l u = Some d ->
  ((if enabled d n then Some x else None) = Some x <-> chosen (l ++ u) n) /\
  ((if enabled d n then Some x else None) = None <-> ~ chosen (l ++ u) n).
Proof.
  intros D. rewrite <- (enabled_chosen sup l u d n D). destruct (enabled d n); split; split; try congruence; auto.
Qed.

Theorem C51_lists sup l u d v : make_options sup l u = Some d ->
  (d_job_list (get_data d v) = Some (v_job_list v) <-> chosen (l ++ u) (T "with-job-list")) /\
  (d_job_list (get_data d v) = None <-> ~ chosen (l ++ u) (T "with-job-list")) /\
  (d_run_list (get_data d v) = Some (v_run_list v) <-> chosen (l ++ u) (T "with-run-list")) /\
  (d_run_list (get_data d v) = None <-> ~ chosen (l ++ u) (T "with-run-list")) /\
  (d_desired (get_data d v) = Some (v_desired v) <-> chosen (l ++ u) (T "with-job-list")) /\
  (d_desired (get_data d v) = None <-> ~ chosen (l ++ u) (T "with-job-list")) /\
  (d_resources (get_data d v) = Some (v_resources v) <-> chosen (l ++ u) (T "with-resource-map")) /\
  (d_resources (get_data d v) = None <-> ~ chosen (l ++ u) (T "with-resource-map")).
Proof.
  intros D. cbn [get_data d_job_list d_run_list d_desired d_resources].
  pose proof (fun A => @if_chosen A sup l u d) as H.
  repeat split; apply (H _ _ _ D).
Qed.
Print Assumptions C51_lists.

Lemma attachments_spec l : NoDup (map s_id l) -> forall m id t,
  tget id (export_attachments l m) = Some t <->
  (exists s, In s l /\ s_id s = id /\ s_outcome s <> None /\ s_plugin s = T "attachment" /\ t = attachment s) \/
  tget id m = Some t /\ forall s, In s l -> s_id s = id -> s_outcome s = None \/ s_plugin s <> T "attachment".
Proof.
  induction l as [|s l IH]; intros N m id t; cbn [export_attachments].
  - split; [intros H; right; split; [assumption|intros ? []]|]. intros [(s & [] & _)|[H _]]; assumption.
  - inversion N as [|? ? Ni N']; subst.
    assert (Skip : s_outcome s = None \/ s_plugin s <> T "attachment" ->
      (tget id (export_attachments l m) = Some t <->
      (exists s', In s' (s :: l) /\ s_id s' = id /\ s_outcome s' <> None /\ s_plugin s' = T "attachment" /\ t = attachment s') \/
      tget id m = Some t /\ forall s', In s' (s :: l) -> s_id s' = id -> s_outcome s' = None \/ s_plugin s' <> T "attachment")).
    { intros B. rewrite IH by assumption. split.
      - intros [(s' & I & H)|[H K]]; [left; exists s'; split; [now right|assumption]|].
        right. split; [assumption|]. intros s' [<-|I] X; auto.
      - intros [(s' & [<-|I] & Ei & Eo & Ep & ->)|[H K]].
        + destruct B; congruence.
        + left. exists s'. auto.
        + right. split; [assumption|]. intros s' I. apply K. now right. }
    destruct (s_outcome s) as [o|] eqn:O; [|now apply Skip; left].
    destruct (text_eqb (s_plugin s) (T "attachment")) eqn:P; [|apply Skip; right; now apply text_eqb_neq].
    apply text_eqb_eq in P. rewrite IH by assumption. rewrite tget_tset. split.
    + intros [(s' & I & H)|[H K]]; [left; exists s'; split; [now right|assumption]|].
      destruct (text_eqb id (s_id s)) eqn:E.
      * apply text_eqb_eq in E as ->. injection H as <-. left. exists s. split; [now left|].
        repeat split; auto. congruence.
      * right. split; [assumption|]. intros s' [<-|I] X; [|auto]. apply text_eqb_neq in E. congruence.
    + intros [(s' & [<-|I] & Ei & Eo & Ep & ->)|[H K]].
      * right. rewrite <- Ei, text_eqb_refl. split; [reflexivity|].
        intros s' I X. exfalso. apply Ni. rewrite <- X. now apply in_map.
      * left. exists s'. auto.
      * right. split; [|intros s' I; apply K; now right].
        destruct (text_eqb id (s_id s)) eqn:E; [|assumption]. apply text_eqb_eq in E.
        specialize (K s (or_introl eq_refl) (eq_sym E)). destruct K; congruence.
Qed.

Lemma attachment_stdout s : decodes (attachment s) (stdout_of (s_log s)).
Proof.
  unfold decodes, attachment. rewrite b64_round_trip. f_equal.
  induction (s_log s) as [|r l IH]; [reflexivity|]. cbn [filter stdout_of]. unfold is_stdout at 1.
  destruct (io_stream r) as [| | |st| |]; auto. destruct (list_eq_dec ascii_dec st (T "stdout")) as [->|D].
  - rewrite text_eqb_refl. cbn [map concat]. now rewrite IH.
  - apply text_eqb_neq in D. rewrite D. assumption.
Qed.

(** The attachments are the standard output of the attachment jobs that have an
    outcome, every byte of it. *)
Theorem C51_attachments sup l u d v : make_options sup l u = Some d -> NoDup (map s_id (v_states v)) ->
  (d_attachments (get_data d v) = None <-> ~ chosen (l ++ u) (T "with-attachments")) /\
  forall m, d_attachments (get_data d v) = Some m ->
    (forall id t, tget id m = Some t -> exists s, In s (v_states v) /\ s_id s = id /\ s_outcome s <> None /\
       s_plugin s = T "attachment" /\ decodes t (stdout_of (s_log s))) /\
    (forall s, In s (v_states v) -> s_outcome s <> None -> s_plugin s = T "attachment" ->
       exists t, tget (s_id s) m = Some t /\ decodes t (stdout_of (s_log s))).
Proof.
  intros D N. cbn [get_data d_attachments]. split; [apply (if_chosen sup); assumption|].
  intros m E. destruct (enabled d WITH_ATTACHMENTS); [|discriminate]. injection E as <-. split.
  - intros id t G. apply attachments_spec in G; [|assumption]. destruct G as [(s & I & Ei & O & P & ->)|[G _]]; [|discriminate].
    exists s. repeat split; auto. apply attachment_stdout.
  - intros s I O P. exists (attachment s). split; [|apply attachment_stdout].
    apply attachments_spec; [assumption|]. left. exists s. auto.
Qed.
Print Assumptions C51_attachments.

Lemma categories_spec w l : forall m id n, NoDup (map fst l) ->
  tget id (add_categories w l m) = Some n <->
  In (id, n) l /\ In id w \/ tget id m = Some n /\ ~ (In id w /\ exists n', In (id, n') l).
Proof.
  induction l as [|[i x] l IH]; intros m id n N; cbn [add_categories].
  - split; [intros H; right; split; [assumption|intros (_ & ? & [])]|]. intros [[[] _]|[H _]]. assumption.
  - inversion N as [|? ? Ni N']; subst. cbn [fst] in Ni. rewrite IH by assumption. destruct (tmem i w) eqn:M.
    + apply tmem_In in M. rewrite tget_tset. destruct (text_eqb id i) eqn:E.
      * apply text_eqb_eq in E as ->. split.
        -- intros [[I W]|[H K]].
           ++ exfalso. apply Ni. change i with (fst (i, n)). now apply in_map.
           ++ injection H as <-. left. split; [now left|assumption].
        -- intros [[[I|I] W]|[H K]].
           ++ injection I as <-. right. split; [reflexivity|]. intros (_ & n' & I). apply Ni. change i with (fst (i, n')). now apply in_map.
           ++ exfalso. apply Ni. change i with (fst (i, n)). now apply in_map.
           ++ exfalso. apply K. split; [assumption|]. exists x. now left.
      * apply text_eqb_neq in E. split.
        -- intros [[I W]|[H K]]; [left; split; [now right|assumption]|]. right. split; [assumption|].
           intros (W & n' & [I|I]); [congruence|]. apply K. eauto.
        -- intros [[[I|I] W]|[H K]]; [congruence|left; auto|]. right. split; [assumption|].
           intros (W & n' & I). apply K. split; [assumption|]. exists n'. now right.
    + assert (M' : ~ In i w) by (intros X; apply tmem_In in X; congruence). split.
      * intros [[I W]|[H K]]; [left; split; [now right|assumption]|]. right. split; [assumption|].
        intros (W & n' & [I|I]); [congruence|]. apply K. eauto.
      * intros [[[I|I] W]|[H K]]; [congruence|left; auto|]. right. split; [assumption|].
        intros (W & n' & I). apply K. split; [assumption|]. exists n'. now right.
Qed.

(** The category map names the categories that some job is in, and no other. *)
Theorem C51_categories sup l u d v : make_options sup l u = Some d -> NoDup (map fst (v_categories v)) ->
  ~ In UNCATEGORISED (map fst (v_categories v)) ->
  (d_categories (get_data d v) = None <-> ~ chosen (l ++ u) (T "with-category-map")) /\
  forall m, d_categories (get_data d v) = Some m -> forall id n,
    tget id m = Some n <->
    (exists s, In s (v_states v) /\ s_category s = id) /\
    (In (id, n) (v_categories v) \/ id = T "com.canonical.plainbox::uncategorised" /\ n = T "Uncategorised").
Proof.
  intros D N U. cbn [get_data d_categories]. split; [apply (if_chosen sup); assumption|].
  intros m E id n. destruct (enabled d WITH_CATEGORY_MAP); [|discriminate]. injection E as <-.
  assert (W : In id (map s_category (v_states v)) <-> exists s, In s (v_states v) /\ s_category s = id).
  { rewrite in_map_iff. split; intros (s & A & B); eauto. }
  rewrite <- W. unfold category_map. destruct (tmem UNCATEGORISED (map s_category (v_states v))) eqn:M.
  - apply tmem_In in M. rewrite tget_tset. destruct (text_eqb id UNCATEGORISED) eqn:E.
    + apply text_eqb_eq in E as ->. split.
      * intros H. injection H as <-. split; [assumption|]. right. split; reflexivity.
      * intros [_ [I|[_ ->]]]; [|reflexivity]. exfalso. apply U. change UNCATEGORISED with (fst (UNCATEGORISED, n)). now apply in_map.
    + apply text_eqb_neq in E. rewrite categories_spec by assumption. split.
      * intros [[A B]|[A _]]; [auto|discriminate].
      * intros [A [B|[B _]]]; [auto|contradiction].
  - assert (M' : ~ In UNCATEGORISED (map s_category (v_states v))) by (intros X; apply tmem_In in X; congruence).
    rewrite categories_spec by assumption. split.
    + intros [[A B]|[A _]]; [auto|discriminate].
    + intros [A [B|[-> _]]]; [auto|contradiction].
Qed.
Print Assumptions C51_categories.

(** ** The archive *)

Definition PAT := T "record.gz".

Lemma replace_at_end new x : ~ occurs PAT x -> replace_all PAT new (x ++ PAT) = x ++ new.
Proof.
  unfold replace_all. induction x as [|c x IH]; intros H.
  - cbn [app]. change (replace_from PAT new 0 PAT) with (new ++ []). apply app_nil_r.
  - cbn [app]. cbn [replace_from].
    destruct (tprefix PAT (c :: x ++ PAT)) eqn:E.
    + exfalso. destruct (le_lt_dec 9 (length (c :: x))) as [L|L].
      * apply H. exists [], (skipn 9 (c :: x)). cbn [app]. apply tprefix_split in E.
        change (length PAT) with 9 in E. change (c :: x ++ PAT) with ((c :: x) ++ PAT) in E.
        rewrite skipn_app in E. replace (9 - length (c :: x)) with 0 in E by lia. cbn [skipn] in E.
        rewrite app_assoc in E. now apply app_inv_tail in E.
      * clear H IH. revert E.
        destruct x as [|c1 [|c2 [|c3 [|c4 [|c5 [|c6 [|c7 [|c8 x]]]]]]]]; [..|cbn in L; lia];
          cbn -[Ascii.eqb]; intros E; repeat rewrite andb_true_iff in E;
          repeat match goal with X : _ /\ _ |- _ => destruct X end;
          match goal with X : Ascii.eqb _ _ = true |- _ => vm_compute in X; discriminate X end.
    + rewrite IH; [reflexivity|]. intros (a & b & Eq). apply H. exists (c :: a), b. now rewrite Eq.
Qed.

Lemma last_dot_app b e : ~ In "."%char e -> last_dot (b ++ "."%char :: e) = Some b.
Proof.
  intros N. assert (L : last_dot e = None).
  { induction e as [|c e IH]; [reflexivity|]. cbn [last_dot]. rewrite IH by (intros X; apply N; now right).
    destruct (Ascii.eqb c "."%char) eqn:E; [|reflexivity]. apply Ascii.eqb_eq in E. exfalso. apply N. now left. }
  induction b as [|c b IH]; cbn [app last_dot]; [now rewrite L|]. now rewrite IH.
Qed.

Lemma slug_no_slash id : ~ In SLASH (slugify id).
Proof.
  unfold slugify. rewrite in_map_iff. intros (c & E & _). destruct (valid_char c) eqn:V; [|discriminate].
  subst. discriminate V.
Qed.

(** The conditions on names under which the archive is right. *)
Definition regular (dir : path) (s : jstate) : Prop :=
  ~ occurs (T "record.gz") dir /\ ~ occurs (T "record.gz") (s_id s) /\ exists c, In c (s_id s) /\ c <> "."%char.

Lemma occurs_apart pat x a b : ~ In x pat -> occurs pat (a ++ x :: b) -> occurs pat a \/ occurs pat b.
Proof.
  intros N (u & w & E).
  destruct (le_lt_dec (length u) (length a)) as [L|L].
  - apply (f_equal (skipn (length u))) in E as E2. rewrite !skipn_app, skipn_all, Nat.sub_diag in E2. cbn [app skipn] in E2.
    assert (Ea : a = u ++ skipn (length u) a).
    { rewrite <- (firstn_skipn (length u) a) at 1. f_equal.
      apply (f_equal (firstn (length u))) in E. rewrite !firstn_app, Nat.sub_diag, firstn_all in E.
      replace (length u - length a) with 0 in E by lia. cbn [firstn] in E. now rewrite !app_nil_r in E. }
    replace (length u - length a) with 0 in E2 by lia. cbn [skipn] in E2.
    revert Ea E2. generalize (skipn (length u) a). intros a' -> E2. clear L E.
    destruct (le_lt_dec (length pat) (length a')) as [M|M].
    + left. exists u, (skipn (length pat) a'). f_equal.
      apply (f_equal (firstn (length pat))) in E2. rewrite !firstn_app, Nat.sub_diag, firstn_all in E2.
      replace (length pat - length a') with 0 in E2 by lia. cbn [firstn] in E2. rewrite !app_nil_r in E2.
      rewrite <- E2 at 1. now rewrite firstn_skipn.
    + exfalso. apply N. apply (f_equal (firstn (length pat))) in E2. rewrite !firstn_app, Nat.sub_diag, firstn_all in E2.
      cbn [firstn] in E2. rewrite app_nil_r in E2. rewrite <- E2. apply in_app_iff. right.
      destruct (length pat - length a') eqn:Q; [lia|]. now left.
  - right. apply (f_equal (skipn (S (length a)))) in E. rewrite !skipn_app in E.
    replace (S (length a) - length u) with 0 in E by lia. rewrite skipn_O in E.
    replace (S (length a) - length a) with 1 in E by lia. change (skipn 1 (x :: b)) with b in E.
    rewrite (skipn_all2 (n := S (length a)) a) in E by lia. cbn [app] in E. exists (skipn (S (length a)) u), w. assumption.
Qed.

Lemma occurs_dot y : occurs PAT (y ++ T ".") -> occurs PAT y.
Proof.
  intros (a & b & E). destruct (exists_last (l := b)) as (b' & c & ->).
  - intros ->. rewrite app_nil_r in E. change PAT with (T "record.g" ++ ["z"%char]) in E. rewrite app_assoc in E.
    apply last_char in E. discriminate.
  - exists a, b'. rewrite !app_assoc in E. apply suffix_apart in E; [|reflexivity]. destruct E as [-> _].
    now rewrite !app_assoc.
Qed.

Lemma occurs_slug id : occurs PAT (slugify id) -> occurs PAT id.
Proof.
  intros (a & b & E). unfold slugify in E. apply map_eq_app in E. destruct E as (a' & r & -> & _ & E).
  apply map_eq_app in E. destruct E as (p & b' & -> & E & _). exists a', b'. f_equal. f_equal.
  assert (K : ~ In "_"%char PAT) by (vm_compute; intuition discriminate).
  revert K. rewrite <- E. clear. induction p as [|c p IH]; intros K; [reflexivity|]. cbn [map] in *.
  destruct (valid_char c).
  - f_equal. rewrite <- IH; [reflexivity|]. intros X. apply K. now right.
  - exfalso. apply K. now left.
Qed.

Lemma regular_replace dir s new : regular dir s ->
  replace_all (T "record.gz") new (record_path dir (s_id s)) = join dir (slugify (s_id s) ++ T "." ++ new).
Proof.
  intros (A & B & _). unfold record_path, join.
  change (T ".record.gz") with (T "." ++ PAT). 
  replace (dir ++ SLASH :: slugify (s_id s) ++ T "." ++ PAT) with ((dir ++ SLASH :: slugify (s_id s) ++ T ".") ++ PAT)
    by (rewrite <- !app_assoc; cbn [app]; now rewrite <- app_assoc).
  change (T "record.gz") with PAT. rewrite replace_at_end.
  - rewrite <- !app_assoc. cbn [app]. now rewrite <- app_assoc.
  - intros H. replace (dir ++ SLASH :: slugify (s_id s) ++ T ".") with ((dir ++ SLASH :: slugify (s_id s)) ++ T ".") in H
      by (now rewrite <- app_assoc). apply occurs_dot in H.
    apply occurs_apart in H; [|vm_compute; intuition discriminate]. destruct H as [H|H]; [auto|]. apply occurs_slug in H. auto.
Qed.

Lemma splitext_slug dir s : regular dir s -> splitext_root (slugify (s_id s) ++ T ".stdout") = slugify (s_id s).
Proof.
  intros (_ & _ & c & I & N). unfold splitext_root. change (T ".stdout") with ("."%char :: T "stdout").
  rewrite last_dot_app by (vm_compute; intuition discriminate).
  replace (existsb (fun c => negb (Ascii.eqb c "."%char)) (slugify (s_id s))) with true; [reflexivity|].
  symmetry. apply existsb_exists. exists (if valid_char c then c else "_"%char). split.
  - unfold slugify. apply (in_map (fun c => if valid_char c then c else "_"%char)). assumption.
  - destruct (valid_char c); [|reflexivity]. apply negb_true_iff. now apply Ascii.eqb_neq.
Qed.

(** The archive holds what the jobs wrote, if that is anything, under names made
    from their identifiers. *)
Definition from_runner (dir : path) (s : jstate) : Prop :=
  s_logname s = NoAttribute \/ s_logname s = Named (record_path dir (s_id s)) /\ regular dir s.

Lemma member_stdout f dir s p t : regular dir s ->
  In (p, t) (tar_member f s (record_path dir (s_id s)) (T "stdout")) <->
  archived s (slugify (s_id s)) (T "stdout") p /\ f (stdout_path dir (s_id s)) = Some t /\ t <> [].
Proof.
  intros R. unfold tar_member. rewrite (regular_replace dir s) by assumption.
  change (T "." ++ T "stdout") with (T ".stdout"). fold (stdout_path dir (s_id s)).
  assert (Ar : archived s (slugify (s_id s)) (T "stdout") p <-> p = join (folder s) (slugify (s_id s))).
  { unfold folder. destruct (text_eqb (s_plugin s) (T "attachment")) eqn:P.
    - apply text_eqb_eq in P. split; [intros H; inversion H; subst; try congruence; reflexivity|].
      intros ->. now apply a_att_stdout.
    - apply text_eqb_neq in P. split; [intros H; inversion H; subst; try congruence; reflexivity|].
      intros ->. now apply a_stdout. }
  rewrite Ar.
  replace (basename (stdout_path dir (s_id s))) with (slugify (s_id s) ++ T ".stdout").
  2:{ unfold stdout_path, basename, join. rewrite basename_from_app, basename_from_plain; [reflexivity|].
      rewrite in_app_iff. intros [H|H]; [now apply slug_no_slash in H|]. revert H. vm_compute. intuition discriminate. }
  cbv zeta. rewrite text_eqb_refl. rewrite (splitext_slug dir) by assumption.
  destruct (f (stdout_path dir (s_id s))) as [[|c u]|].
  - split; [intros []|]. intros (_ & E & X). congruence.
  - split.
    + intros [E|[]]. injection E as <- <-. repeat split. discriminate.
    + intros (-> & E & _). injection E as <-. now left.
  - split; [intros []|]. intros (_ & E & X). congruence.
Qed.
Lemma member_stderr f dir s p t : regular dir s ->
  In (p, t) (tar_member f s (record_path dir (s_id s)) (T "stderr")) <->
  archived s (slugify (s_id s)) (T "stderr") p /\ f (stderr_path dir (s_id s)) = Some t /\ t <> [].
Proof.
  intros R. unfold tar_member. rewrite (regular_replace dir s) by assumption.
  change (T "." ++ T "stderr") with (T ".stderr"). fold (stderr_path dir (s_id s)).
  assert (Ar : archived s (slugify (s_id s)) (T "stderr") p <-> p = join (folder s) (slugify (s_id s) ++ T ".stderr")).
  { unfold folder. destruct (text_eqb (s_plugin s) (T "attachment")) eqn:P.
    - apply text_eqb_eq in P. split; [intros H; inversion H; subst; try congruence; reflexivity|].
      intros ->. now apply a_att_stderr.
    - apply text_eqb_neq in P. split; [intros H; inversion H; subst; try congruence; reflexivity|].
      intros ->. now apply a_stderr. }
  rewrite Ar.
  replace (basename (stderr_path dir (s_id s))) with (slugify (s_id s) ++ T ".stderr").
  2:{ unfold stderr_path, basename, join. rewrite basename_from_app, basename_from_plain; [reflexivity|].
      rewrite in_app_iff. intros [H|H]; [now apply slug_no_slash in H|]. revert H. vm_compute. intuition discriminate. }
  cbv zeta. change (text_eqb (T "stderr") (T "stdout")) with false. cbv iota.
  destruct (f (stderr_path dir (s_id s))) as [[|c u]|].
  - split; [intros []|]. intros (_ & E & X). congruence.
  - split.
    + intros [E|[]]. injection E as <- <-. repeat split. discriminate.
    + intros (-> & E & _). injection E as <-. now left.
  - split; [intros []|]. intros (_ & E & X). congruence.
Qed.

Theorem C51_archive f dir l : Forall (from_runner dir) l ->
  exists ms, tar_jobs f l = Some ms /\
  forall p t, In (p, t) ms <->
    t <> [] /\ exists s, In s l /\ s_logname s <> NoAttribute /\
      (archived s (slugify (s_id s)) (T "stdout") p /\ f (stdout_path dir (s_id s)) = Some t \/
       archived s (slugify (s_id s)) (T "stderr") p /\ f (stderr_path dir (s_id s)) = Some t).
Proof.
  induction 1 as [|s l H _ IH]; cbn [tar_jobs].
  - exists []. split; [reflexivity|]. intros p t. split; [intros []|]. intros (_ & s & [] & _).
  - destruct IH as (ms & -> & IH). destruct H as [E|[E R]]; rewrite E.
    + exists ms. split; [reflexivity|]. intros p t. rewrite IH. split.
      * intros (N & s' & I & X). split; [assumption|]. exists s'. split; [now right|assumption].
      * intros (N & s' & [<-|I] & X & Y); [congruence|]. split; [assumption|]. exists s'. auto.
    + eexists. split; [reflexivity|]. intros p t. rewrite !in_app_iff, IH, (member_stdout f dir), (member_stderr f dir) by assumption.
      split.
      * intros [(A & B & N)|[(A & B & N)|(N & s' & I & X)]].
        -- split; [assumption|]. exists s. split; [now left|]. split; [congruence|]. auto.
        -- split; [assumption|]. exists s. split; [now left|]. split; [congruence|]. auto.
        -- split; [assumption|]. exists s'. split; [now right|assumption].
      * intros (N & s' & [<-|I] & X & [[A B]|[A B]]).
        -- left. auto.
        -- right. left. auto.
        -- right. right. split; [assumption|]. exists s'. auto.
        -- right. right. split; [assumption|]. exists s'. auto.
Qed.
Print Assumptions C51_archive.

Lemma same_folder s s' a b : join (folder s) a = join (folder s') b -> ~ In SLASH a -> ~ In SLASH b ->
  folder s = folder s' /\ a = b.
Proof.
  intros E A B. apply (f_equal basename) in E as E2. unfold join, basename in E2.
  rewrite !basename_from_app, !basename_from_plain in E2 by assumption. cbn [rev app] in E2. subst b.
  split; [|reflexivity]. unfold join in E. now apply app_inv_tail in E.
Qed.

(** Two members have one name only if the identifiers differ at most in characters
    that file names do not keep, or one is like the other with .stderr at the end. *)
Theorem C51_archive_names s s' k k' p :
  archived s (slugify (s_id s)) k p -> archived s' (slugify (s_id s')) k' p ->
  (s_plugin s = T "attachment" <-> s_plugin s' = T "attachment") /\
  (k = k' /\ alike (s_id s) (s_id s') \/
   k = T "stdout" /\ k' = T "stderr" /\ alike (s_id s) (s_id s' ++ T ".stderr") \/
   k = T "stderr" /\ k' = T "stdout" /\ alike (s_id s ++ T ".stderr") (s_id s')).
Proof.
  assert (Slug : forall t, slugify t ++ T ".stderr" = slugify (t ++ T ".stderr"))
    by (intros t; unfold slugify; now rewrite map_app).
  assert (Sh : forall s k p, archived s (slugify (s_id s)) k p ->
    k = T "stdout" /\ p = join (folder s) (slugify (s_id s)) \/
    k = T "stderr" /\ p = join (folder s) (slugify (s_id s ++ T ".stderr"))).
  { intros x kk pp H. unfold folder. destruct (text_eqb (s_plugin x) (T "attachment")) eqn:P.
    - apply text_eqb_eq in P. inversion H; subst; try congruence; rewrite <- ?Slug; auto.
    - apply text_eqb_neq in P. inversion H; subst; try congruence; rewrite <- ?Slug; auto. }
  assert (Fo : forall a b, join (folder s) (slugify a) = join (folder s') (slugify b) ->
    (s_plugin s = T "attachment" <-> s_plugin s' = T "attachment") /\ alike a b).
  { intros a b E. apply same_folder in E; [|apply slug_no_slash..]. destruct E as [F E].
    split; [|now apply slugify_alike]. unfold folder in F.
    destruct (text_eqb (s_plugin s) (T "attachment")) eqn:P, (text_eqb (s_plugin s') (T "attachment")) eqn:P';
      rewrite ?P, ?P' in F; [| vm_compute in F; discriminate F | vm_compute in F; discriminate F |].
    - apply text_eqb_eq in P, P'. tauto.
    - apply text_eqb_neq in P, P'. tauto. }
  intros A B. apply Sh in A, B. destruct A as [[-> ->]|[-> ->]], B as [[-> E]|[-> E]]; apply Fo in E; destruct E as [F E].
  - split; [assumption|]. auto.
  - split; [assumption|]. auto.
  - split; [assumption|]. auto.
  - split; [assumption|]. left. split; [reflexivity|].
    apply slugify_alike. apply slugify_alike in E. rewrite <- !Slug in E. now apply app_inv_tail in E.
Qed.
Print Assumptions C51_archive_names.

(** ** Findings *)

(** An option set to nothing is off. *)
Theorem C51_empty_value_turns_off_refuted :
  exists d, make_options [T "with-io-log"] [T "with-io-log="] [] = Some d /\
    get_option_value d (T "with-io-log") = Some (OText []) /\ ~ chosen [T "with-io-log="] (T "with-io-log").
Proof.
  eexists. split; [reflexivity|]. split; [reflexivity|].
  intros H. assert (E : make_options [T "with-io-log"] [T "with-io-log="] [] = Some [(T "with-io-log", OText [])]) by reflexivity.
  rewrite <- (app_nil_r [T "with-io-log="]) in H. apply (enabled_chosen _ _ _ _ _ E) in H. discriminate.
Qed.
Print Assumptions C51_empty_value_turns_off_refuted.

(** Unless told to be strict, a session manager drops an option with a value, although
    the exporter supports it. *)
Theorem C51_lenient_keeps_supported_refuted :
  exists sup o n v, says o n (Some v) /\ In n sup /\
    create_exporter true sup [o] [] = Some [(n, OText v)] /\ create_exporter false sup [o] [] = Some [].
Proof.
  exists [T "client-name"], (T "client-name=me"), (T "client-name"), (T "me").
  split; [apply (says_value (T "client-name") (T "me")); vm_compute; intuition discriminate|].
  split; [now left|]. split; reflexivity.
Qed.
Print Assumptions C51_lenient_keeps_supported_refuted.

(** What is dropped is exactly that: what is kept are plain names of supported
    options, so creating the exporter cannot fail because of the caller. *)
Theorem C51_lenient_never_fails sup l : (forall n, In n sup -> ~ In "="%char n) ->
  exists d, create_exporter false sup l [] = Some d /\
  forall n, enabled d n = true <-> In n l /\ In n sup.
Proof.
  intros P. unfold create_exporter. set (k := filter (fun o => tmem o sup) l).
  assert (K : forall o, In o k <-> In o l /\ In o sup).
  { intros o. unfold k. rewrite filter_In, tmem_In. reflexivity. }
  assert (Ok : exists d, make_options sup k [] = Some d).
  { apply C51_options_accepted. rewrite app_nil_r. intros o n v I S. apply K in I as [_ I].
    destruct (says_fun _ _ _ _ _ S (says_plain o (P o I))) as [-> _]. assumption. }
  destruct Ok as [d D]. exists d. split; [assumption|]. intros n. rewrite (enabled_chosen sup k [] d n D), app_nil_r. rewrite <- K.
  split.
  - intros (v & (l1 & o & l2 & E & S & _) & _).
    assert (I : In o k) by (rewrite E; apply in_app_iff; right; now left).
    pose proof I as I'. apply K in I' as [_ I']. destruct (says_fun _ _ _ _ _ S (says_plain o (P o I'))) as [-> _]. assumption.
  - intros I. destruct (last_said_dec k n) as [[v H]|N].
    + exists v. split; [assumption|]. destruct H as (l1 & o & l2 & E & S & _).
      assert (J : In o k) by (rewrite E; apply in_app_iff; right; now left). apply K in J as [_ J].
      destruct (says_fun _ _ _ _ _ S (says_plain o (P o J))) as [_ ->]. discriminate.
    + exfalso. apply (N n None I). constructor. apply P. now apply K in I.
Qed.
Print Assumptions C51_lenient_never_fails.

Definition plain_state (id plugin : text) (o : option text) (log : list iorecord) (n : logname) : jstate :=
  mk_jstate id plugin (T "a summary") (T "com.canonical.plainbox::uncategorised") (T "unspecified") (T "abc") [] [] (T "true") []
    o (Some (T "0.5")) None log n.

(** Two members with one name: the output of x.stderr and the errors of x. *)
Theorem C51_archive_names_are_unique_refuted :
  exists dir s s' f ms p a b, from_runner dir s /\ from_runner dir s' /\ ~ alike (s_id s) (s_id s') /\
    tar_jobs f [s; s'] = Some ms /\ In (p, a) ms /\ In (p, b) ms /\ a <> b.
Proof.
  set (dir := T "/tmp").
  assert (R : forall id, (forallb (fun n => negb (tprefix PAT (skipn n id))) (seq 0 (S (length id)))) = true ->
    existsb (fun c => negb (Ascii.eqb c "."%char)) id = true ->
    from_runner dir (plain_state id (T "shell") None [] (Named (record_path dir id)))).
  { intros id A B. right. split; [reflexivity|]. split; [|split].
    - intros (a & b & E). apply (f_equal (@length ascii)) in E. rewrite !app_length in E. cbn in E. lia.
    - intros (a & b & E). cbn [s_id plain_state] in E. rewrite forallb_forall in A. specialize (A (length a)).
      rewrite E in A at 2. rewrite skipn_app, skipn_all, Nat.sub_diag in A. cbn [skipn app] in A.
      change (T "record.gz") with PAT in A. rewrite tprefix_app in A. discriminate A. apply in_seq.
      apply (f_equal (@length ascii)) in E. rewrite !app_length in E. lia.
    - apply existsb_exists in B as (c & I & N). exists c. split; [assumption|]. apply Ascii.eqb_neq. now apply negb_true_iff. }
  exists dir, (plain_state (T "x.stderr") (T "shell") None [] (Named (record_path dir (T "x.stderr")))),
    (plain_state (T "x") (T "shell") None [] (Named (record_path dir (T "x")))),
    (fun p => if text_eqb p (stdout_path dir (T "x.stderr")) then Some (T "one")
              else if text_eqb p (stderr_path dir (T "x")) then Some (T "two") else None).
  eexists. exists (T "test_output/x.stderr"), (T "one"), (T "two").
  split; [apply R; reflexivity|]. split; [apply R; reflexivity|].
  split; [intros H; inversion H as [|? ? ? ? ? H1]; inversion H1|].
  split; [reflexivity|]. split; [now left|]. split; [right; now left|]. vm_compute. discriminate.
Qed.
Print Assumptions C51_archive_names_are_unique_refuted.

(** A session directory with record.gz in its name: the output is not in the archive. *)
Theorem C51_archive_from_any_directory_refuted :
  exists dir s f, s_logname s = Named (record_path dir (s_id s)) /\
    f (stdout_path dir (s_id s)) = Some (T "text") /\ tar_jobs f [s] = Some [].
Proof.
  set (dir := T "/old.record.gz").
  exists dir, (plain_state (T "x") (T "shell") None [] (Named (record_path dir (T "x")))),
    (fun p => if text_eqb p (stdout_path dir (T "x")) then Some (T "text") else None).
  split; [reflexivity|]. split; reflexivity.
Qed.
Print Assumptions C51_archive_from_any_directory_refuted.

(** ** Examples *)

Example export_options : make_options [T "with-io-log"; T "squash-io-log"; T "client-name"]
    [T "client-name=a=b"; T "with-io-log"] [T "client-name=c"] =
  Some [(T "client-name", OText (T "c")); (T "with-io-log", OTrue)].
Proof. reflexivity. Qed.
Example export_unsupported : make_options [T "with-io-log"] [T "with-io-log"] [T "other=1"] = None.
Proof. reflexivity. Qed.

Definition some_log : list iorecord :=
  [mk_iorecord (JNum (T "0.1")) (JStr (T "stdout")) (T "ab"); mk_iorecord (JNum (T "0.2")) (JStr (T "stderr")) (T "c");
   mk_iorecord (JNum (T "0.3")) (JStr (T "stdout")) (T "de")].
Definition some_session : session :=
  mk_session [T "a"; T "b"; T "c"] [T "b"] [T "a"] [] [(T "cat", T "Cat")]
    [plain_state (T "a") (T "shell") (Some (T "pass")) some_log (Named (record_path (T "/tmp") (T "a")));
     plain_state (T "b") (T "attachment") (Some (T "pass")) some_log (Named (record_path (T "/tmp") (T "b")));
     plain_state (T "c") (T "manual") None [] NoAttribute].
Example some_session_distinct : NoDup (map s_id (v_states some_session)).
Proof. repeat constructor; vm_compute; intuition discriminate. Qed.
Definition some_options : options :=
  match make_options (map T ["with-io-log"; "flatten-io-log"; "with-attachments"; "with-job-list"; "with-category-map"]%string)
    (map T ["with-io-log"; "flatten-io-log"; "with-attachments"]%string) [T "with-job-list"; T "with-category-map"] with
  | Some d => d | None => [] end.
Example some_export : get_data some_options some_session =
  mk_edata
    [(T "a", [(T "summary", JStr (T "a summary")); (T "category_id", JStr UNCATEGORISED); (T "outcome", JStr (T "pass"));
              (T "execution_duration", JNum (T "0.5")); (T "io_log", JStr (T "YWJjZGU="))]);
     (T "b", [(T "summary", JStr (T "a summary")); (T "category_id", JStr UNCATEGORISED); (T "outcome", JStr (T "pass"));
              (T "execution_duration", JNum (T "0.5"))])]
    (Some [T "a"; T "b"; T "c"]) None (Some [T "a"]) None (Some [(T "b", T "YWJkZQ==")])
    (Some [(UNCATEGORISED, T "Uncategorised")]).
Proof. vm_compute. reflexivity. Qed.
Example some_archive : tar_jobs
    (fun p => if text_eqb p (T "/tmp/a.stdout") then Some (T "abde") else if text_eqb p (T "/tmp/a.stderr") then Some (T "c")
              else if text_eqb p (T "/tmp/b.stdout") then Some (T "xyz") else if text_eqb p (T "/tmp/b.stderr") then Some [] else None)
    (v_states some_session) =
  Some [(T "test_output/a", T "abde"); (T "test_output/a.stderr", T "c"); (T "attachment_files/b", T "xyz")].
Proof. vm_compute. reflexivity. Qed.
