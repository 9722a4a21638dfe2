(** C37: outcomes and logs of jobs. *)
From Coq Require Import String Ascii List Bool Arith ZArith Lia.
From Verif Require Import ScanModel Rfc822Model Rfc822Spec Rfc822Proofs JsonModel JsonProofs IologModel IologProps IniModel IniProofs CacheModel CacheSpec CacheProofs RunnerModel RunnerSpec.
Import ListNotations.
Local Open Scope nat_scope.
Local Open Scope list_scope.

(** ** Return codes and controllers *)

Lemma code_verdict c : verdict c (code_outcome (match c with Some c => c | None => (-1)%Z end)).
Proof.
  destruct c as [c|]; [|apply v_not_started]. unfold code_outcome.
  destruct (Z.eqb_spec c 0); [subst; constructor|]. destruct (Z.ltb_spec c 0); constructor; lia.
Qed.

Lemma best_max l : match best l with Some m => In m l /\ forall s, In s l -> (s <= m)%Z | None => l = [] end.
Proof.
  induction l as [|x l IH]; cbn [best]; [reflexivity|]. destruct (best l) as [m|].
  - destruct IH as [A B]. split.
    + destruct (Z.max_spec x m) as [[_ ->]|[_ ->]]; [now right|now left].
    + intros s [->|H]; [lia|]. specialize (B s H). lia.
  - subst. split; [now left|]. intros s [->|[]]. lia.
Qed.
Lemma choose_usable l : choose l = Chosen <-> usable l.
Proof.
  unfold choose, usable. pose proof (best_max l) as H. destruct (best l) as [m|].
  - destruct H as [A B]. destruct (Z.ltb_spec m 0).
    + split; [discriminate|]. intros (s & I & P). specialize (B s I). lia.
    + split; [|reflexivity]. intros _. exists m. split; [exact A|lia].
  - subst. split; [discriminate|]. intros (s & [] & _).
Qed.

(** Plugins, by computation. *)
Lemma plugin_method p m name : tget (underscored p) methods = Some (m, name) -> p = name ->
  In (p, m) [(T "shell", M_shell); (T "attachment", M_attachment); (T "resource", M_resource); (T "manual", M_manual);
    (T "user-interact", M_user_interact); (T "user-verify", M_user_verify); (T "user-interact-verify", M_user_interact_verify); (T "qml", M_qml)].
Proof.
  intros H ->. apply tget_In in H. unfold methods in H.
  repeat (destruct H as [H|H]; [injection H as _ <- <-; cbn [In]; tauto|]). destruct H.
Qed.

(** ** Outcomes *)

(** Automatic jobs: the return code decides. *)
Theorem C37_return_codes_decide dry dir scores hit j x f c q :
  In (j_plugin j) automatic -> executes dry scores hit j -> x_end x = Code c q ->
  exists r f' u, run_job dry dir scores hit j x f = (Done r, f', u) /\ verdict c (r_outcome r) /\
    r_log r = Some (record_path dir (j_id j)) /\ (forall n, c = Some n -> r_code r = Some n).
Proof.
  intros P [W U C K] E. apply choose_usable in U.
  assert (J : exists r f' u, just_run dir scores j x f (fun r => r) = (Done r, f', u) /\ verdict c (r_outcome r) /\
    r_log r = Some (record_path dir (j_id j)) /\ (forall n, c = Some n -> r_code r = Some n)).
  { unfold just_run. rewrite U, C, E. do 3 eexists. split; [reflexivity|]. cbn [r_outcome r_log r_code].
    split; [apply code_verdict|]. split; [reflexivity|]. now intros n ->. }
  unfold run_job.
  assert (D : In (j_plugin j) always_run \/ dry = false) by tauto.
  destruct P as [P|[P|[P|[P|[]]]]]; rewrite <- P in *.
  - change (tget (underscored (T "shell")) methods) with (Some (M_shell, T "shell")). cbv iota.
    destruct D as [[D|[D|[]]]| ->]; try discriminate. exact J.
  - change (tget (underscored (T "attachment")) methods) with (Some (M_attachment, T "attachment")). cbv iota.
    change (text_eqb (T "attachment") (T "resource") || text_eqb (T "attachment") (T "attachment")) with true.
    cbn [negb]. rewrite andb_false_r. exact J.
  - change (tget (underscored (T "resource")) methods) with (Some (M_resource, T "resource")). cbv iota.
    change (text_eqb (T "resource") (T "resource") || text_eqb (T "resource") (T "attachment")) with true.
    cbn [negb]. rewrite andb_false_r. change (text_eqb (T "resource") (T "resource")) with true. cbv iota.
    destruct (j_cachable j); [rewrite K by reflexivity|]; exact J.
  - change (tget (underscored (T "user-interact")) methods) with (Some (M_user_interact, T "user-interact")). cbv iota.
    destruct D as [[D|[D|[]]]| ->]; try discriminate. exact J.
Qed.

(** Jobs that the user decides: never anything but undecided, with code and log. *)
Theorem C37_the_user_decides dry dir scores hit j x f c q :
  In (j_plugin j) asking -> executes dry scores hit j -> x_end x = Code c q ->
  exists r f' u, run_job dry dir scores hit j x f = (Done r, f', u) /\ r_outcome r = O_undecided /\
    r_log r = Some (record_path dir (j_id j)) /\ (forall n, c = Some n -> r_code r = Some n).
Proof.
  intros P [W U C K] E. apply choose_usable in U.
  assert (J : exists r f' u, just_run dir scores j x f undecided = (Done r, f', u) /\ r_outcome r = O_undecided /\
    r_log r = Some (record_path dir (j_id j)) /\ (forall n, c = Some n -> r_code r = Some n)).
  { unfold just_run. rewrite U, C, E. do 3 eexists. split; [reflexivity|]. cbn [undecided r_outcome r_log r_code].
    split; [reflexivity|]. split; [reflexivity|]. now intros n ->. }
  unfold run_job.
  destruct P as [P|[P|[]]]; rewrite <- P in *.
  - change (tget (underscored (T "user-verify")) methods) with (Some (M_user_verify, T "user-verify")). cbv iota.
    destruct W as [->|[D|[D|[]]]]; try discriminate. exact J.
  - change (tget (underscored (T "user-interact-verify")) methods) with (Some (M_user_interact_verify, T "user-interact-verify")). cbv iota.
    destruct W as [->|[D|[D|[]]]]; try discriminate. exact J.
Qed.

(** The other direction: where results come from. *)
Inductive source (dry : bool) (scores : list Z) (hit : option jresult) (j : job) (x : execution) : jresult -> Prop :=
| so_unknown r : ~ In (j_plugin j) supported -> r_outcome r = O_not_implemented -> source dry scores hit j x r
| so_dry r : dry = true -> ~ In (j_plugin j) always_run -> r_outcome r = O_skip -> source dry scores hit j x r
| so_manual r : j_plugin j = T "manual" -> r_outcome r = O_undecided -> source dry scores hit j x r
| so_cached r : j_plugin j = T "resource" -> j_cachable j = true -> hit = Some r -> source dry scores hit j x r
| so_no_ctrl r : ~ usable scores -> In (j_plugin j) (automatic ++ [T "qml"]) -> r_outcome r = O_not_supported -> source dry scores hit j x r
| so_asking r : In (j_plugin j) asking -> r_outcome r = O_undecided -> source dry scores hit j x r
| so_ran r c q : In (j_plugin j) automatic -> executes dry scores hit j -> x_end x = Code c q -> verdict c (r_outcome r) -> source dry scores hit j x r
| so_qml r c q : j_plugin j = T "qml" -> usable scores -> x_end x = Code (Some c) q ->
    (c = 0%Z /\ (exists o, q = Some (Some o) /\ r_outcome r = O_other o) \/ (c <> 0%Z \/ q = None) /\ r_outcome r = O_fail) ->
    source dry scores hit j x r.

Lemma wanted dry p : dry && negb (text_eqb p (T "resource") || text_eqb p (T "attachment")) = false ->
  dry = false \/ In p always_run.
Proof.
  destruct dry; [|now left]. cbn [andb]. intros H. apply negb_false_iff, orb_true_iff in H. right.
  destruct H as [H|H]; apply text_eqb_eq in H; subst; cbn; auto.
Qed.
Lemma unwanted dry p : dry && negb (text_eqb p (T "resource") || text_eqb p (T "attachment")) = true ->
  dry = true /\ ~ In p always_run.
Proof.
  intros H. apply andb_true_iff in H. destruct H as [-> H]. split; [reflexivity|].
  apply negb_true_iff, orb_false_iff in H. destruct H as [A B]. intros [<-|[<-|[]]]; discriminate.
Qed.

Theorem C37_where_results_come_from dry dir scores hit j x f r f' u :
  run_job dry dir scores hit j x f = (Done r, f', u) -> source dry scores hit j x r.
Proof.
  unfold run_job. destruct (tget (underscored (j_plugin j)) methods) as [[m name]|] eqn:M.
  2:{ intros [= <- _ _]. apply so_unknown; [|reflexivity]. intros H.
      cbn [supported automatic asking app In] in H.
      repeat (destruct H as [H|H]; [rewrite <- H in M; discriminate|]). destruct H. }
  destruct (dry && _) eqn:D.
  { intros [= <- _ _]. apply unwanted in D. destruct D. now apply so_dry. }
  apply wanted in D. destruct (text_eqb (j_plugin j) name) eqn:N; [|discriminate].
  apply text_eqb_eq in N.
  assert (U : forall k, just_run dir scores j x f k = (Done r, f', u) ->
     ~ usable scores /\ r = k (mk_jresult O_not_supported None None) \/
     usable scores /\ j_command j = true /\ exists c q, x_end x = Code c q /\
       r = k (mk_jresult (code_outcome (match c with Some c => c | None => (-1)%Z end)) (Some (match c with Some c => c | None => (-1)%Z end)) (Some (record_path dir (j_id j))))).
  { intros k. unfold just_run. pose proof (choose_usable scores) as CU. destruct (choose scores).
    - right. destruct (j_command j); [|discriminate]. destruct (x_end x) as [c q|]; [|discriminate].
      injection H as <- _ _. split; [now apply CU|]. split; [reflexivity|]. eauto.
    - intros [= <- _ _]. left. split; [|reflexivity]. rewrite <- CU. discriminate.
    - discriminate. }
  assert (Auto : In (j_plugin j) automatic -> (j_plugin j = T "resource" -> j_cachable j = true -> hit = None) ->
    just_run dir scores j x f (fun r => r) = (Done r, f', u) -> source dry scores hit j x r).
  { intros P K H. destruct (U _ H) as [[A ->]|(A & B & c & q & E & ->)].
    - apply so_no_ctrl; auto. apply in_or_app. now left.
    - eapply so_ran; eauto; [constructor; auto|apply code_verdict]. }
  pose proof (plugin_method _ _ _ M N) as P. clear M N.
  repeat (destruct P as [P|P]; [injection P as Q <-|]); try destruct P.
  - apply Auto; rewrite <- Q; [cbn; tauto|discriminate].
  - apply Auto; rewrite <- Q; [cbn; tauto|discriminate].
  - destruct (j_cachable j) eqn:Ca.
    + destruct hit as [h|].
      * intros [= <- _ _]. now apply so_cached.
      * apply Auto; rewrite <- Q; [cbn; tauto|auto].
    + apply Auto; rewrite <- Q; [cbn; tauto|congruence].
  - intros [= <- _ _]. now apply so_manual.
  - apply Auto; rewrite <- Q; [cbn; tauto|discriminate].
  - intros H. apply so_asking; [rewrite <- Q; cbn; tauto|]. destruct (U _ H) as [[A ->]|(A & B & c & q & E & ->)]; reflexivity.
  - intros H. apply so_asking; [rewrite <- Q; cbn; tauto|]. destruct (U _ H) as [[A ->]|(A & B & c & q & E & ->)]; reflexivity.
  - unfold run_qml. pose proof (choose_usable scores) as CU. destruct (choose scores).
    + destruct (x_end x) as [[c|] q|] eqn:E; try discriminate.
      assert (Us : usable scores) by now apply CU.
      destruct (Z.eqb_spec c 0) as [->|Nz].
      * destruct q as [[o|]|]; [|discriminate|]; intros [= <- _ _]; eapply so_qml; eauto.
      * intros [= <- _ _]. eapply so_qml; eauto.
    + intros [= <- _ _]. apply so_no_ctrl; [rewrite <- CU; discriminate| |reflexivity]. rewrite <- Q. cbn. tauto.
    + discriminate.
Qed.

(** So nothing passes unless its command ran and exited with 0 (or the cache says so). *)
Theorem C37_only_zero_passes dry dir scores hit j x f r f' u :
  run_job dry dir scores hit j x f = (Done r, f', u) -> r_outcome r = O_pass ->
  (exists q, In (j_plugin j) automatic /\ executes dry scores hit j /\ x_end x = Code (Some 0%Z) q) \/
  (j_plugin j = T "resource" /\ j_cachable j = true /\ hit = Some r).
Proof.
  intros H P. apply C37_where_results_come_from in H. destruct H as [r A B|r A B C|r A B|r A B C|r A B C|r A B|r c q A B C D|r c q A B C D]; try congruence.
  - auto.
  - left. exists q. rewrite P in D. inversion D; subst. auto.
  - destruct D as [(_ & o & _ & E)|(_ & E)]; congruence.
Qed.

(** ** Files *)

Lemma put_same p t f : put p t f p = Some t.
Proof. unfold put. now rewrite text_eqb_refl. Qed.
Lemma put_other p q t f : q <> p -> put p t f q = f q.
Proof. intros H. unfold put. apply text_eqb_neq in H. now rewrite H. Qed.

Lemma run_files_other dir id ch x f q :
  q <> record_path dir id -> q <> stdout_path dir id -> q <> stderr_path dir id -> run_files dir id ch x f q = f q.
Proof.
  intros A B C. unfold run_files. cbv zeta. destruct (x_started x).
  - rewrite !put_other by assumption. reflexivity.
  - now rewrite put_other.
Qed.

(** A run writes to nothing but the three files of its job. *)
Theorem C37_only_own_files dry dir scores hit j x f e f' u q :
  run_job dry dir scores hit j x f = (e, f', u) ->
  q <> record_path dir (j_id j) -> q <> stdout_path dir (j_id j) -> q <> stderr_path dir (j_id j) -> f' q = f q.
Proof.
  intros H A B C.
  assert (R : forall ch, run_files dir (j_id j) ch x f q = f q) by (intros; now apply run_files_other).
  assert (J : forall k, just_run dir scores j x f k = (e, f', u) -> f' q = f q).
  { intros k. unfold just_run. destruct (choose scores); [|now intros [= _ <- _]|now intros [= _ <- _]].
    destruct (j_command j); [|now intros [= _ <- _]]. destruct (x_end x); intros [= _ <- _]; apply R. }
  assert (Q : run_qml dir scores j x f = (e, f', u) -> f' q = f q).
  { unfold run_qml. destruct (choose scores); [|now intros [= _ <- _]|now intros [= _ <- _]].
    destruct (x_end x) as [[c|] o|]; try (intros [= _ <- _]; apply R).
    destruct (if Z.eqb c 0 then o else None) as [[]|]; intros [= _ <- _]; apply R. }
  unfold run_job in H. destruct (tget _ methods) as [[m name]|]; [|now injection H as _ <- _].
  destruct (dry && _); [now injection H as _ <- _|]. destruct (text_eqb (j_plugin j) name); [|now injection H as _ <- _].
  destruct m; eauto.
  - destruct (j_cachable j); [destruct hit|]; eauto. now injection H as _ <- _.
  - now injection H as _ <- _.
Qed.

(** A dry run leaves everything alone and tells the ui nothing. *)
Theorem C37_dry_runs_do_nothing dir scores hit j x f :
  ~ In (j_plugin j) always_run ->
  exists r, run_job true dir scores hit j x f = (Done r, f, []) /\
    (r_outcome r = O_skip /\ r_log r = None \/ r_outcome r = O_not_implemented /\ ~ In (j_plugin j) supported).
Proof.
  intros N. destruct (run_job true dir scores hit j x f) as [[e f'] u] eqn:E. pose proof E as E0. revert E.
  unfold run_job. destruct (tget (underscored (j_plugin j)) methods) as [[m name]|] eqn:M.
  - destruct (true && _) eqn:D.
    + intros [= <- <- <-]. eexists. split; [reflexivity|]. auto.
    + exfalso. apply wanted in D. destruct D; [discriminate|contradiction].
  - intros [= <- <- <-]. eexists. split; [reflexivity|]. right. split; [reflexivity|].
    apply C37_where_results_come_from in E0. intros H. cbn [supported automatic asking app In] in H.
    repeat (destruct H as [H|H]; [rewrite <- H in M; discriminate|]). destruct H.
Qed.

(** ** Names of log files *)

Lemma suffix_apart (a b : text) s s' : length s = length s' -> a ++ s = b ++ s' -> a = b /\ s = s'.
Proof.
  revert b. induction a as [|x a IH]; intros [|y b] L E.
  - auto.
  - exfalso. cbn in E. apply (f_equal (@length ascii)) in E. cbn in E. rewrite app_length in E. lia.
  - exfalso. cbn in E. apply (f_equal (@length ascii)) in E. cbn in E. rewrite app_length in E. lia.
  - cbn in E. injection E as -> E. destruct (IH b L E) as [-> ->]. auto.
Qed.
Lemma last_char (a b : text) x y : a ++ [x] = b ++ [y] -> x = y.
Proof. intros H. apply suffix_apart in H; [|reflexivity]. destruct H as [_ H]. now injection H. Qed.

Lemma paths_equal dir id id' p p' :
  In p [record_path dir id; stdout_path dir id; stderr_path dir id] ->
  In p' [record_path dir id'; stdout_path dir id'; stderr_path dir id'] ->
  p = p' -> slugify id = slugify id'.
Proof.
  assert (A : forall s t, slugify id ++ T s = slugify id' ++ T t -> length (T s) = length (T t) -> slugify id = slugify id').
  { intros s t E L. now apply suffix_apart in E. }
  assert (Z : forall s t x y, slugify id ++ (s ++ [x]) = slugify id' ++ (t ++ [y]) -> x = y).
  { intros s t x y E. rewrite !app_assoc in E. now apply last_char in E. }
  unfold record_path, stdout_path, stderr_path.
  intros [<-|[<-|[<-|[]]]] [<-|[<-|[<-|[]]]] E; apply join_inj in E.
  - now apply (A _ _ E).
  - exfalso. assert (H : "z"%char = "t"%char) by (apply (Z (T ".record.g") (T ".stdou")); exact E). discriminate.
  - exfalso. assert (H : "z"%char = "r"%char) by (apply (Z (T ".record.g") (T ".stder")); exact E). discriminate.
  - exfalso. assert (H : "t"%char = "z"%char) by (apply (Z (T ".stdou") (T ".record.g")); exact E). discriminate.
  - now apply (A _ _ E).
  - now apply (A _ _ E).
  - exfalso. assert (H : "r"%char = "z"%char) by (apply (Z (T ".stder") (T ".record.g")); exact E). discriminate.
  - now apply (A _ _ E).
  - now apply (A _ _ E).
Qed.

Definition keep_list : list ascii := list_ascii_of_string "-.ABCDEFGHIJKLMNOPQRSTUVWXYZabcdefghijklmnopqrstuvwxyz0123456789".
Definition slug_char (c : ascii) : ascii := if valid_char c then c else "_"%char.
Definition slug_char_check (c : ascii) : bool :=
  if existsb (Ascii.eqb c) keep_list then Ascii.eqb (slug_char c) c && negb (Ascii.eqb c "_") else Ascii.eqb (slug_char c) "_".
Definition all_bytes : list ascii := map ascii_of_nat (seq 0 256).
Lemma all_bytes_in c : In c all_bytes.
Proof.
  unfold all_bytes. rewrite <- (ascii_nat_embedding c). apply in_map. apply in_seq. pose proof (nat_ascii_bounded c). lia.
Qed.
Lemma slug_char_ok c : slug_char_check c = true.
Proof.
  assert (H : forallb slug_char_check all_bytes = true) by (vm_compute; reflexivity).
  rewrite forallb_forall in H. apply H, all_bytes_in.
Qed.
Lemma kept_in c : kept_char c <-> existsb (Ascii.eqb c) keep_list = true.
Proof.
  unfold kept_char. rewrite existsb_exists. split.
  - intros H. exists c. split; [exact H|apply Ascii.eqb_refl].
  - intros (d & H & E). apply Ascii.eqb_eq in E. now subst.
Qed.
Lemma slug_kept c : kept_char c -> slug_char c = c /\ c <> "_"%char.
Proof.
  intros H. apply kept_in in H. pose proof (slug_char_ok c) as K. unfold slug_char_check in K. rewrite H in K.
  apply andb_true_iff in K. destruct K as [A B]. apply Ascii.eqb_eq in A. apply negb_true_iff, Ascii.eqb_neq in B. auto.
Qed.
Lemma slug_dropped c : ~ kept_char c -> slug_char c = "_"%char.
Proof.
  intros H. pose proof (slug_char_ok c) as K. unfold slug_char_check in K.
  destruct (existsb (Ascii.eqb c) keep_list) eqn:E; [exfalso; apply H; now apply kept_in|]. now apply Ascii.eqb_eq.
Qed.
Lemma kept_dec c : kept_char c \/ ~ kept_char c.
Proof. destruct (existsb (Ascii.eqb c) keep_list) eqn:E; [left; now apply kept_in|right; rewrite kept_in; congruence]. Qed.

Lemma slugify_alike a b : slugify a = slugify b <-> alike a b.
Proof.
  unfold slugify, alike. change (fun c => if valid_char c then c else "_"%char) with slug_char.
  revert b. induction a as [|x a IH]; intros [|y b]; cbn [map].
  - split; [constructor|reflexivity].
  - split; [discriminate|]. intros H. inversion H.
  - split; [discriminate|]. intros H. inversion H.
  - split.
    + intros [= E1 E2]. constructor; [|now apply IH].
      destruct (kept_dec x) as [Kx|Kx], (kept_dec y) as [Ky|Ky]; auto.
      * left. destruct (slug_kept x Kx), (slug_kept y Ky). congruence.
      * exfalso. destruct (slug_kept x Kx). rewrite (slug_dropped y Ky) in E1. congruence.
      * exfalso. destruct (slug_kept y Ky). rewrite (slug_dropped x Kx) in E1. congruence.
    + intros H. inversion H as [|? ? ? ? H1 H2]; subst. apply IH in H2. rewrite H2. f_equal.
      destruct H1 as [->|[A B]]; [reflexivity|]. now rewrite !slug_dropped.
Qed.

(** Two jobs share a log file exactly when their identifiers are equal up to
    characters that are not letters, digits, dashes or dots. *)
Theorem C37_who_shares_a_log dir id id' :
  (exists p, In p [record_path dir id; stdout_path dir id; stderr_path dir id] /\
             In p [record_path dir id'; stdout_path dir id'; stderr_path dir id']) <-> alike id id'.
Proof.
  rewrite <- slugify_alike. split.
  - intros (p & A & B). eapply paths_equal; eauto.
  - intros E. exists (record_path dir id). split; [now left|]. unfold record_path. rewrite E. now left.
Qed.

(** For identifiers that are a namespace, two colons and a name, without
    underscores or anything else that is not kept: different jobs have different
    files. *)
Theorem C37_simple_ids_have_their_own_logs dir ns ns' n n' p :
  Forall kept_char ns -> Forall kept_char ns' -> Forall kept_char n -> Forall kept_char n' ->
  ns ++ T "::" ++ n <> ns' ++ T "::" ++ n' ->
  In p [record_path dir (ns ++ T "::" ++ n); stdout_path dir (ns ++ T "::" ++ n); stderr_path dir (ns ++ T "::" ++ n)] ->
  ~ In p [record_path dir (ns' ++ T "::" ++ n'); stdout_path dir (ns' ++ T "::" ++ n'); stderr_path dir (ns' ++ T "::" ++ n')].
Proof.
  intros A B C D N H H'. apply N.
  assert (Al : alike (ns ++ T "::" ++ n) (ns' ++ T "::" ++ n')) by (apply (C37_who_shares_a_log dir); eauto).
  clear N H H' p dir.
  assert (Nc : ~ kept_char ":"%char) by (rewrite kept_in; intros H; vm_compute in H; discriminate).
  assert (Tail : forall a b, Forall kept_char a -> Forall kept_char b -> alike a b -> a = b).
  { induction a as [|x a IH]; intros b Fa Fb H; inversion H as [|? ? ? ? H1 H2]; subst; [reflexivity|].
    inversion Fa; subst. inversion Fb; subst. destruct H1 as [->|[? _]]; [|contradiction]. f_equal. auto. }
  revert ns' B Al. induction A as [|x ns Kx _ IH]; intros ns' B Al.
  - destruct B as [|y ns' Ky B].
    + cbn [app] in Al. inversion Al as [|? ? ? ? _ A1]; subst. inversion A1 as [|? ? ? ? _ A2]; subst.
      cbn [app]. f_equal. f_equal. now apply Tail.
    + exfalso. cbn [app] in Al. inversion Al as [|? ? ? ? [E|[_ E]] _]; subst; contradiction.
  - destruct B as [|y ns' Ky B].
    + exfalso. cbn [app] in Al. inversion Al as [|? ? ? ? [E|[E _]] _]; subst; contradiction.
    + cbn [app] in Al. inversion Al as [|? ? ? ? [E|[E _]] A1]; subst; [|contradiction].
      cbn [app]. f_equal. now apply IH.
Qed.

(** The files are in the directory for logs itself. *)
Theorem C37_logs_stay_in_their_directory dir id p :
  In p [record_path dir id; stdout_path dir id; stderr_path dir id] ->
  exists n, p = join dir n /\ ~ In SLASH n /\ n <> [] /\ n <> T "." /\ n <> T "..".
Proof.
  assert (S0 : ~ In SLASH (slugify id)).
  { unfold slugify. intros H. apply in_map_iff in H. destruct H as (c & E & _).
    destruct (valid_char c) eqn:V; [subst c; vm_compute in V; discriminate|discriminate]. }
  assert (G : forall s, ~ In SLASH s -> 3 <= length s -> ~ In SLASH (slugify id ++ s) /\ slugify id ++ s <> [] /\ slugify id ++ s <> T "." /\ slugify id ++ s <> T "..").
  { intros s Ns L. split; [intros H; apply in_app_or in H; tauto|].
    repeat split; intros E; apply (f_equal (@length ascii)) in E; rewrite app_length in E; cbn in E; lia. }
  intros [<-|[<-|[<-|[]]]]; eexists; (split; [reflexivity|]); apply G; try (cbn; lia);
    intros H; cbn in H; repeat (destruct H as [H|H]; [discriminate|]); destruct H.
Qed.

(** ** Logs *)

Lemma record_stdout dir id : record_path dir id <> stdout_path dir id.
Proof.
  unfold record_path, stdout_path. intros H. apply join_inj in H.
  change (T ".record.gz") with (T ".record.g" ++ ["z"%char]) in H. change (T ".stdout") with (T ".stdou" ++ ["t"%char]) in H.
  rewrite !app_assoc in H. apply last_char in H. discriminate.
Qed.
Lemma record_stderr dir id : record_path dir id <> stderr_path dir id.
Proof.
  unfold record_path, stderr_path. intros H. apply join_inj in H.
  change (T ".record.gz") with (T ".record.g" ++ ["z"%char]) in H. change (T ".stderr") with (T ".stder" ++ ["r"%char]) in H.
  rewrite !app_assoc in H. apply last_char in H. discriminate.
Qed.
Lemma stdout_stderr dir id : stdout_path dir id <> stderr_path dir id.
Proof.
  unfold stdout_path, stderr_path. intros H. apply join_inj in H.
  change (T ".stdout") with (T ".stdou" ++ ["t"%char]) in H. change (T ".stderr") with (T ".stder" ++ ["r"%char]) in H.
  rewrite !app_assoc in H. apply last_char in H. discriminate.
Qed.

Lemma run_files_logs dir id x f : measured x -> logs (run_files dir id false x f) (record_path dir id) x.
Proof.
  intros M. unfold logs. exists (write_log (records false (produced x))), (records false (produced x)).
  split.
  - unfold run_files, produced. cbv zeta. destruct (x_started x).
    + rewrite put_other by apply record_stderr. rewrite put_other by apply record_stdout. apply put_same.
    + apply put_same.
  - split.
    + apply C25_round_trip. unfold records. apply Forall_forall. intros r H. apply in_map_iff in H.
      destruct H as ([[d s] b] & <- & I). split; [exact (M _ I)|constructor].
    + unfold records. induction (produced x) as [|[[d s] b] o IH]; cbn [map]; constructor.
      * repeat split.
      * exact IH.
Qed.

(** The log that a result names (unless the job asks for chunked output, or the
    result is from the cache) reads back as the complete output of the command, in
    order, whether it passed or not. *)
Theorem C37_logs_are_complete dry dir scores hit j x f r f' u p :
  run_job dry dir scores hit j x f = (Done r, f', u) -> r_log r = Some p ->
  (j_cachable j = true -> j_plugin j = T "resource" -> hit = None) -> j_chunked j = false -> measured x ->
  p = record_path dir (j_id j) /\ logs f' p x.
Proof.
  intros H L K Ch M.
  assert (J : forall k, (forall r0, r_log (k r0) = r_log r0) -> just_run dir scores j x f k = (Done r, f', u) ->
    p = record_path dir (j_id j) /\ logs f' p x).
  { intros k Hk. unfold just_run. destruct (choose scores); [| |discriminate].
    - destruct (j_command j); [|discriminate]. destruct (x_end x); [|discriminate]. intros [= <- <- _].
      rewrite Hk in L. injection L as <-. split; [reflexivity|]. rewrite Ch. now apply run_files_logs.
    - intros [= <- _ _]. rewrite Hk in L. discriminate. }
  assert (Q : run_qml dir scores j x f = (Done r, f', u) -> p = record_path dir (j_id j) /\ logs f' p x).
  { unfold run_qml. destruct (choose scores); [| |discriminate].
    - destruct (x_end x) as [[c|] o|]; try discriminate.
      destruct (if Z.eqb c 0 then o else None) as [[]|]; try discriminate; intros [= <- <- _]; cbn in L; injection L as <-; (split; [reflexivity|now apply run_files_logs]).
    - intros [= <- _ _]. discriminate. }
  unfold run_job in H. destruct (tget _ methods) as [[m name]|] eqn:Me; [|injection H as <- _ _; discriminate].
  destruct (dry && _); [injection H as <- _ _; discriminate|].
  destruct (text_eqb (j_plugin j) name) eqn:N; [|discriminate]. apply text_eqb_eq in N.
  destruct m; try (eapply J; [|exact H]; reflexivity).
  - destruct (j_cachable j) eqn:Ca; [|eapply J; [|exact H]; reflexivity].
    assert (P : j_plugin j = T "resource").
    { pose proof (plugin_method _ _ _ Me N) as P. repeat (destruct P as [P|P]; [try discriminate P; injection P as <-; reflexivity|]). destruct P. }
    rewrite (K eq_refl P) in H. eapply J; [|exact H]. reflexivity.
  - injection H as <- _ _. discriminate.
  - auto.
Qed.

(** The separate files have the output of their stream, also when the controller
    raised an exception later. *)
Lemma run_files_streams dir id x f :
  x_started x = true ->
  run_files dir id false x f (stdout_path dir id) = Some (concat (map snd (filter (fun e => text_eqb (snd (fst e)) STDOUT) (x_output x)))) /\
  run_files dir id false x f (stderr_path dir id) = Some (concat (map snd (filter (fun e => text_eqb (snd (fst e)) STDERR) (x_output x)))).
Proof.
  intros S0.
  assert (G : forall s o, stream_data s o = concat (map snd (filter (fun e => text_eqb (snd (fst e)) s) o))).
  { intros s. induction o as [|[[d t] b] o IH]; cbn [stream_data filter fst snd]; [reflexivity|]. rewrite IH. now destruct (text_eqb t s). }
  unfold run_files. cbv zeta. rewrite S0. split.
  - rewrite put_other by apply stdout_stderr. rewrite put_same. unfold output_file. now rewrite G.
  - rewrite put_same. unfold output_file. now rewrite G.
Qed.

Theorem C37_output_files dry dir scores hit j x f e f' u :
  In (j_plugin j) (automatic ++ asking ++ [T "qml"]) -> executes dry scores hit j -> j_chunked j = false -> x_started x = true ->
  run_job dry dir scores hit j x f = (e, f', u) ->
  f' (stdout_path dir (j_id j)) = Some (concat (map snd (filter (fun e => text_eqb (snd (fst e)) STDOUT) (x_output x)))) /\
  f' (stderr_path dir (j_id j)) = Some (concat (map snd (filter (fun e => text_eqb (snd (fst e)) STDERR) (x_output x)))).
Proof.
  intros P [W U C K] Ch S0 H. apply choose_usable in U.
  assert (F : f' = run_files dir (j_id j) false x f); [|rewrite F; now apply run_files_streams].
  assert (J : forall k, just_run dir scores j x f k = (e, f', u) -> f' = run_files dir (j_id j) false x f).
  { intros k. unfold just_run. rewrite U, C, Ch. destruct (x_end x); intros [= _ <- _]; reflexivity. }
  assert (Q : run_qml dir scores j x f = (e, f', u) -> f' = run_files dir (j_id j) false x f).
  { unfold run_qml. rewrite U. destruct (x_end x) as [[c|] o|]; try (intros [= _ <- _]; reflexivity).
    destruct (if Z.eqb c 0 then o else None) as [[]|]; intros [= _ <- _]; reflexivity. }
  unfold run_job in H. destruct (tget _ methods) as [[m name]|] eqn:M.
  2:{ exfalso. cbn [automatic asking app In] in P. repeat (destruct P as [P|P]; [rewrite <- P in M; discriminate|]). destruct P. }
  destruct (dry && _) eqn:D.
  { exfalso. apply unwanted in D. destruct D as [-> D]. destruct W; [discriminate|contradiction]. }
  assert (N : j_plugin j = name /\ m <> M_manual /\ (m = M_resource -> j_plugin j = T "resource")).
  { cbn [automatic asking app In] in P. repeat (destruct P as [P|P]; [rewrite <- P in *; vm_compute in M; injection M as <- <-; split; [reflexivity|split; [discriminate|intros ?; try discriminate; reflexivity]]|]). destruct P. }
  destruct N as (N & Nm & Nr). apply text_eqb_eq in N. rewrite N in H.
  destruct m; eauto; [|congruence].
  destruct (j_cachable j); eauto. rewrite K in H by auto. eauto.
Qed.

(** Any number of jobs whose identifiers are not alike: in the end every result
    still has its own complete log. *)
Definition plain_request (q : request) : Prop :=
  j_chunked (q_job q) = false /\ q_hit q = None /\ measured (q_exec q).

Lemma run_jobs_other dry dir l : forall f es f2 p, run_jobs dry dir l f = (es, f2) ->
  (forall q, In q l -> ~ In p [record_path dir (j_id (q_job q)); stdout_path dir (j_id (q_job q)); stderr_path dir (j_id (q_job q))]) ->
  f2 p = f p.
Proof.
  induction l as [|q l IH]; intros f es f2 p H N; cbn [run_jobs] in H; [now injection H as _ <-|].
  destruct (run_job dry dir (q_scores q) (q_hit q) (q_job q) (q_exec q) f) as [[e f'] u] eqn:E.
  destruct (run_jobs dry dir l f') as [es' f3] eqn:E2. injection H as _ <-.
  rewrite (IH _ _ _ _ E2) by (intros q' I; apply N; now right).
  assert (Z := N q (or_introl eq_refl)). eapply C37_only_own_files; [exact E| | |]; intros ->; apply Z; cbn; auto.
Qed.

Theorem C37_every_result_keeps_its_log dry dir l : forall f es f2,
  run_jobs dry dir l f = (es, f2) ->
  ForallOrdPairs (fun q q' => ~ alike (j_id (q_job q)) (j_id (q_job q'))) l ->
  Forall plain_request l ->
  Forall2 (fun q e => forall r p, e = Done r -> r_log r = Some p -> logs f2 p (q_exec q)) l es.
Proof.
  induction l as [|q l IH]; intros f es f2 H O P; cbn [run_jobs] in H; [injection H as <- _; constructor|].
  destruct (run_job dry dir (q_scores q) (q_hit q) (q_job q) (q_exec q) f) as [[e f'] u] eqn:E.
  destruct (run_jobs dry dir l f') as [es' f3] eqn:E2. injection H as <- <-.
  inversion O as [|? ? O1 O2]; subst. inversion P as [|? ? [P1 [P2 P3]] P4]; subst.
  constructor; [|now apply (IH f')].
  intros r p -> L. rewrite P2 in E.
  destruct (C37_logs_are_complete _ _ _ _ _ _ _ _ _ _ _ E L (fun _ _ => eq_refl) P1 P3) as [-> (t & rs & A & B & C)].
  exists t, rs. split; [|auto]. rewrite <- A. eapply run_jobs_other; [exact E2|].
  intros q' I Hin. rewrite Forall_forall in O1. apply (O1 q' I). apply (C37_who_shares_a_log dir).
  exists (record_path dir (j_id (q_job q))). split; [now left|exact Hin].
Qed.

(** The ui sees the beginning, all of the output and the end, in this order. *)
Theorem C37_ui dry dir scores hit j x f e f' u :
  run_job dry dir scores hit j x f = (e, f', u) ->
  u = [] \/ exists fin, u = UBegin :: map (fun e => UOutput (snd (fst e)) (snd e)) (x_output x) ++ fin /\
    x_started x = true /\ fin = match x_end x with Code (Some c) _ => [UEnd c] | _ => [] end.
Proof.
  assert (R : run_ui x = [] \/ exists fin, run_ui x = UBegin :: map (fun e => UOutput (snd (fst e)) (snd e)) (x_output x) ++ fin /\
    x_started x = true /\ fin = match x_end x with Code (Some c) _ => [UEnd c] | _ => [] end).
  { unfold run_ui. destruct (x_started x); [|now left]. right. eexists. split; [|split; reflexivity].
    f_equal. f_equal. apply map_ext. intros [[d s] b]. reflexivity. }
  assert (J : forall k, just_run dir scores j x f k = (e, f', u) -> u = [] \/ u = run_ui x).
  { intros k. unfold just_run. destruct (choose scores); [|intros [= _ _ <-]; auto|intros [= _ _ <-]; auto].
    destruct (j_command j); [|intros [= _ _ <-]; auto]. destruct (x_end x); intros [= _ _ <-]; auto. }
  assert (Q : run_qml dir scores j x f = (e, f', u) -> u = [] \/ u = run_ui x).
  { unfold run_qml. destruct (choose scores); [|intros [= _ _ <-]; auto|intros [= _ _ <-]; auto].
    destruct (x_end x) as [[c|] o|]; try (intros [= _ _ <-]; auto; fail).
    destruct (if Z.eqb c 0 then o else None) as [[]|]; intros [= _ _ <-]; auto. }
  intros H. assert (G : u = [] \/ u = run_ui x).
  { unfold run_job in H. destruct (tget _ methods) as [[m name]|]; [|injection H as _ _ <-; auto].
    destruct (dry && _); [injection H as _ _ <-; auto|]. destruct (text_eqb (j_plugin j) name); [|injection H as _ _ <-; auto].
    destruct m; eauto.
    - destruct (j_cachable j); [destruct hit|]; eauto. injection H as _ _ <-. auto.
    - injection H as _ _ <-. auto. }
  destruct G as [->| ->]; auto.
Qed.

(** ** Examples and refutations *)

Definition X_out : list (json * text * bytes) :=
  [(JNum (T "0.5"), STDOUT, T "hello"); (JNum (T "0"), STDERR, T "oops"); (JNum (T "1"), STDOUT, T "bye")].
Definition X_exec (c : Z) : execution := mk_execution true X_out (Code (Some c) None).
Definition X_job (id : string) : job := mk_job (T id) (T "shell") true false false.
Definition X_none : files := fun _ => None.

Example X_executes : executes false [-1; 5]%Z None (X_job "ns::a").
Proof. constructor; cbn; auto. exists 5%Z. split; [cbn; auto|lia]. Qed.
Example X_measured c : measured (X_exec c).
Proof. intros e [<-|[<-|[<-|[]]]]; cbn [fst]; apply good_num; (split; [discriminate|reflexivity]). Qed.
Example X_pass : exists f u, run_job false (T "/s") [-1; 5]%Z None (X_job "ns::a") (X_exec 0) X_none =
  (Done (mk_jresult O_pass (Some 0%Z) (Some (T "/s/ns__a.record.gz"))), f, u).
Proof. do 2 eexists. reflexivity. Qed.
Example X_crash : exists f u, run_job false (T "/s") [-1; 5]%Z None (X_job "ns::a") (X_exec (-9)) X_none =
  (Done (mk_jresult O_crash (Some (-9)%Z) (Some (T "/s/ns__a.record.gz"))), f, u).
Proof. do 2 eexists. reflexivity. Qed.
Example X_fail : exists f u, run_job false (T "/s") [-1; 5]%Z None (X_job "ns::a") (X_exec 3) X_none =
  (Done (mk_jresult O_fail (Some 3%Z) (Some (T "/s/ns__a.record.gz"))), f, u).
Proof. do 2 eexists. reflexivity. Qed.
Example X_two_jobs : ForallOrdPairs (fun q q' => ~ alike (j_id (q_job q)) (j_id (q_job q')))
  [mk_request [1%Z] None (X_job "ns::a") (X_exec 0); mk_request [1%Z] None (X_job "ns::b") (X_exec 1)].
Proof.
  constructor; [|constructor; [constructor|constructor]]. constructor; [|constructor].
  cbn. intros H. apply slugify_alike in H. discriminate.
Qed.

(** Different jobs can share all their files. *)
Theorem C37_different_jobs_have_different_logs_refuted :
  exists dir a b, a <> b /\ record_path dir a = record_path dir b.
Proof. exists (T "/s"), (T "ns::usb/a"), (T "ns::usb_a"). split; [discriminate|reflexivity]. Qed.

(** Then the result of one shows the output of the other. *)
Theorem C37_results_keep_their_logs_refuted :
  exists dir l es f2 q r p, run_jobs false dir l X_none = (es, f2) /\ NoDup (map (fun q => j_id (q_job q)) l) /\
    Forall plain_request l /\ In (q, Done r) (combine l es) /\ r_log r = Some p /\ ~ logs f2 p (q_exec q).
Proof.
  set (a := mk_request [1%Z] None (X_job "ns::usb/a") (X_exec 0)).
  set (b := mk_request [1%Z] None (X_job "ns::usb_a") (mk_execution true [] (Code (Some 0%Z) None))).
  exists (T "/s"), [a; b]. do 2 eexists. exists a, (mk_jresult O_pass (Some 0%Z) (Some (T "/s/ns__usb_a.record.gz"))), (T "/s/ns__usb_a.record.gz").
  split; [reflexivity|]. split.
  { constructor; [intros [H|[]]; discriminate|]. constructor; [intros []|constructor]. }
  split.
  { constructor; [|constructor; [|constructor]]; (split; [reflexivity|]); (split; [reflexivity|]).
    - apply (X_measured 0).
    - intros e []. }
  split; [left; reflexivity|]. split; [reflexivity|].
  intros (t & rs & A & B & C). vm_compute in A. injection A as <-. vm_compute in B. injection B as <-. inversion C.
Qed.

(** Running a job again replaces the log of its earlier result. *)
Theorem C37_earlier_results_keep_their_logs_refuted :
  exists dir j x1 x2 f1 f2 r1 p u1 u2 r2, run_job false dir [1%Z] None j x1 X_none = (Done r1, f1, u1) /\ r_log r1 = Some p /\
    logs f1 p x1 /\ run_job false dir [1%Z] None j x2 f1 = (Done r2, f2, u2) /\ ~ logs f2 p x1.
Proof.
  exists (T "/s"), (X_job "ns::a"), (X_exec 1), (mk_execution true [] (Code (Some 0%Z) None)).
  do 2 eexists. exists (mk_jresult O_fail (Some 1%Z) (Some (T "/s/ns__a.record.gz"))), (T "/s/ns__a.record.gz"). do 3 eexists.
  split; [reflexivity|]. split; [reflexivity|]. split; [apply (run_files_logs (T "/s") (T "ns::a") (X_exec 1)), X_measured|].
  split; [reflexivity|].
  intros (t & rs & A & B & C). vm_compute in A. injection A as <-. vm_compute in B. injection B as <-. inversion C.
Qed.

(** Jobs that ask for chunked output have empty logs. *)
Theorem C37_chunked_output_is_logged_refuted :
  exists dir j x r f u p, run_job false dir [1%Z] None j x X_none = (Done r, f, u) /\ r_log r = Some p /\
    measured x /\ produced x <> [] /\ exists t, f p = Some t /\ read_log t = ([], true).
Proof.
  exists (T "/s"), (mk_job (T "ns::a") (T "shell") true true false), (X_exec 0). do 3 eexists. exists (T "/s/ns__a.record.gz").
  split; [reflexivity|]. split; [reflexivity|]. split; [apply X_measured|]. split; [discriminate|].
  eexists. split; vm_compute; reflexivity.
Qed.

(** A plugin spelt with an underscore is taken for a supported one and then refused
    with an exception instead of a not-implemented result. *)
Theorem C37_unknown_plugins_are_not_implemented_refuted :
  exists j, ~ In (j_plugin j) supported /\ run_job false (T "/s") [1%Z] None j (X_exec 0) X_none = (Value_error, X_none, []).
Proof.
  exists (mk_job (T "ns::a") (T "user_verify") true false false). split; [|reflexivity].
  intros H. cbn [supported automatic asking app In] in H. repeat (destruct H as [H|H]; [discriminate|]). destruct H.
Qed.

Print Assumptions C37_return_codes_decide.
Print Assumptions C37_the_user_decides.
Print Assumptions C37_where_results_come_from.
Print Assumptions C37_only_zero_passes.
Print Assumptions C37_only_own_files.
Print Assumptions C37_dry_runs_do_nothing.
Print Assumptions C37_who_shares_a_log.
Print Assumptions C37_simple_ids_have_their_own_logs.
Print Assumptions C37_logs_stay_in_their_directory.
Print Assumptions C37_logs_are_complete.
Print Assumptions C37_output_files.
Print Assumptions C37_every_result_keeps_its_log.
Print Assumptions C37_ui.
Print Assumptions C37_different_jobs_have_different_logs_refuted.
Print Assumptions C37_results_keep_their_logs_refuted.
Print Assumptions C37_earlier_results_keep_their_logs_refuted.
Print Assumptions C37_chunked_output_is_logged_refuted.
Print Assumptions C37_unknown_plugins_are_not_implemented_refuted.
