(** * Execution controllers: choice (C30), environment (C31), command lines (C44) *)

From Coq Require Import String Ascii List Bool ZArith Lia Permutation.
From Verif Require Import Base BaseFacts CtrlModel CtrlSpec CtrlProofs.
Import ListNotations.
Local Open Scope string_scope.
Local Open Scope list_scope.

(** One case for each key of a list. *)
Ltac each_key := match goal with
  H : In _ (_ :: _) |- _ => simpl in H; repeat (destruct H as [H|H]; [try discriminate H; try subst|]); try contradiction end.

(** ** C30 *)

(** For every list of controllers and every scores: the controller that is returned is
    the last one of those with the highest score, and that score is not negative. *)
Theorem C30_best A (score : A -> Z) ctrls c :
  get_ctrl score ctrls = Chosen c <-> best score ctrls c /\ (0 <= score c)%Z.
Proof.
  unfold get_ctrl. assert (T := top_sort score ctrls). unfold top in T.
  destruct (rev (sort_scores _)) as [|[d s] r].
  - subst ctrls. split; [discriminate|]. intros [(b & a & E & _) _]. destruct b; discriminate.
  - destruct T as [-> B]. destruct (Z.ltb_spec (score d) 0) as [L|L].
    + split; [discriminate|]. intros [B' P]. rewrite (best_unique _ _ _ _ B B') in L. lia.
    + split.
      * intros H. injection H as <-. auto.
      * intros [B' _]. rewrite (best_unique _ _ _ _ B B'). reflexivity.
Qed.
Print Assumptions C30_best.

(** LookupError exactly when there are controllers but all of them have a negative
    score. *)
Theorem C30_nobody A (score : A -> Z) ctrls :
  get_ctrl score ctrls = LookupErr <->
  ctrls <> [] /\ forall c, In c ctrls -> (score c < 0)%Z.
Proof.
  unfold get_ctrl. assert (T := top_sort score ctrls). unfold top in T.
  destruct (rev (sort_scores _)) as [|[d s] r].
  - subst ctrls. split; [discriminate|]. intros [H _]. congruence.
  - destruct T as [-> B]. destruct (Z.ltb_spec (score d) 0) as [L|L].
    + split; [|reflexivity]. intros _. split.
      * intros ->. destruct B as (b & a & E & _). destruct b; discriminate.
      * intros c C. assert (K := best_max _ _ _ _ B C). lia.
    + split; [discriminate|]. intros [_ H]. specialize (H d (best_In _ _ _ B)). lia.
Qed.
Print Assumptions C30_nobody.

(** Every outcome is one of these three; without controllers (an unsupported platform)
    it is an IndexError, not the documented LookupError. *)
Theorem C30_no_controllers A (score : A -> Z) ctrls :
  get_ctrl score ctrls = IndexErr <-> ctrls = [].
Proof.
  unfold get_ctrl. assert (T := top_sort score ctrls). unfold top in T.
  destruct (rev (sort_scores _)) as [|[d s] r].
  - split; auto.
  - destruct T as [-> B]. split.
    + destruct (score d <? 0)%Z; discriminate.
    + intros ->. destruct B as (b & a & E & _). destruct b; discriminate.
Qed.
Print Assumptions C30_no_controllers.

(** A job without a user, on any machine but Windows and with any list of controllers
    that has the one for ordinary jobs, runs without a change of user. *)
Theorem C30_ordinary_unprivileged m j ctrls c :
  m_windows m = false -> In UserCtrl ctrls -> cj_user j = None ->
  get_ctrl (score m j) ctrls = Chosen c -> ~ changes_user c.
Proof.
  intros W I U H. apply C30_best in H as [B P]. assert (M := best_max _ _ _ _ B I).
  assert (HU : has_user j = false) by (unfold has_user; rewrite U; reflexivity).
  cbn [score] in M. unfold user_score in M. rewrite W, HU in M.
  intros X. destruct c; try destruct X; cbn [score] in *;
    unfold ptl1_score, pkexec_score, sudo_score, sudo_pass_score in *; rewrite HU in *; cbn [andb] in *;
    destruct (has_flag "win32" j); try lia;
    repeat match goal with H : context [if ?b then _ else _] |- _ => destruct b end; lia.
Qed.
Print Assumptions C30_ordinary_unprivileged.

(** It can always run, unless it is meant for Windows. *)
Theorem C30_ordinary_runs m j supported can :
  cj_user j = None -> has_flag "win32" j = m_windows m -> cj_plugin j <> "qml" ->
  get_ctrl (score m j) (session_ctrls (m_windows m) supported can) = Chosen UserCtrl /\
  get_ctrl (score m j) (runner_ctrls (m_windows m) supported can) = Chosen UserCtrl.
Proof.
  intros U F Q.
  assert (HU : has_user j = false) by (unfold has_user; rewrite U; reflexivity).
  assert (HQ : qml_score j = (-1)%Z)
    by (unfold qml_score; destruct (String.eqb_spec (cj_plugin j) "qml"); congruence).
  assert (SU : score m j UserCtrl = 1%Z).
  { cbn [score]. unfold user_score. rewrite F, HU. destruct (m_windows m); reflexivity. }
  rewrite !C30_best. unfold session_ctrls, runner_ctrls. destruct (m_windows m) eqn:W.
  - split; (split; [exists [], []; repeat split; intros d []|lia]).
  - assert (A : forall d, In d [PTL1 supported; Pkexec; Sudo can] -> (score m j d <= 1)%Z).
    { intros d [<-|[<-|[<-|[]]]]; cbn [score]; unfold ptl1_score, pkexec_score, sudo_score; rewrite HU;
        cbn [andb]; repeat match goal with |- context [if ?b then _ else _] => destruct b end; lia. }
    split; (split; [|lia]).
    + exists [PTL1 supported; Pkexec; Sudo can], []. rewrite SU. repeat split; auto. intros d [].
    + exists [PTL1 supported; Pkexec; Sudo can], [Qml]. rewrite SU. repeat split; auto.
      intros d [<-|[]]. cbn [score]. lia.
Qed.
Print Assumptions C30_ordinary_runs.

(** A job that asks for a user is only run by a controller that changes the user, or
    directly when the process is root.  The exception are QML jobs. *)
Theorem C30_user_respected m j ctrls c u :
  cj_user j = Some u -> cj_plugin j <> "qml" ->
  get_ctrl (score m j) ctrls = Chosen c -> changes_user c \/ (c = UserCtrl /\ m_root m = true).
Proof.
  intros U Q H. apply C30_best in H as [_ P]. destruct c; simpl; auto.
  - right. cbn [score] in P. unfold user_score, has_user in P. rewrite U in P.
    destruct (m_windows m); [lia|]. destruct (has_flag "win32" j); [lia|].
    destruct (m_root m); [auto|lia].
  - exfalso. cbn [score] in P. unfold qml_score in P.
    destruct (String.eqb_spec (cj_plugin j) "qml"); [contradiction|lia].
Qed.
Print Assumptions C30_user_respected.

(** And the command line of such a controller asks for exactly that user. *)
Theorem C30_command_user m c j via config session_dir nest_dir u argv :
  cj_user j = Some u -> changes_user c ->
  execution_command m c j via config session_dir nest_dir = Some argv ->
  exists rest, argv = "pkexec" :: "--user" :: u :: rest \/
               argv = "sudo" :: "-S" :: "-u" :: u :: "env" :: rest \/
               argv = "sudo" :: "--prompt=" :: "--reset-timestamp" :: "--stdin" :: "--user" :: u :: "env" :: rest.
Proof.
  intros U X H. destruct c; try destruct X; cbn [execution_command] in H; rewrite U in H;
    try (destruct (cj_command j); [|discriminate]); injection H as <-; eexists; cbn [app]; auto.
Qed.
Print Assumptions C30_command_user.

(** The controllers are tried in the documented order of preference. *)
Theorem C30_preference m j can supported u :
  m_windows m = false -> m_root m = false -> on_snap m = false ->
  cj_user j = Some u -> cj_plugin j <> "qml" -> has_flag "win32" j = false ->
  get_ctrl (score m j) (runner_ctrls false supported can) = Chosen
    (if p_is_provider1 (cj_provider j) && p_secure (cj_provider j) &&
        negb (env_true m "SSH_CONNECTION") && supported then PTL1 supported
     else if can then Sudo can
     else Pkexec).
Proof.
  intros W R S' U Q F.
  assert (HQ : qml_score j = (-1)%Z)
    by (unfold qml_score; destruct (String.eqb_spec (cj_plugin j) "qml"); congruence).
  unfold get_ctrl, runner_ctrls. cbn [map score].
  unfold ptl1_score, pkexec_score, sudo_score, user_score, has_user. rewrite W, R, S', U, F, HQ.
  destruct (p_is_provider1 (cj_provider j)), (p_secure (cj_provider j)), (env_true m "SSH_CONNECTION"),
    supported, can; reflexivity.
Qed.
Print Assumptions C30_preference.

(** QML jobs that ask for root run as the current user. *)
Definition some_provider : cprovider :=
  mk_cprovider true true None None None (Some "/usr/share/p/data") None None.
Definition user_machine : machine :=
  mk_machine false false [("PATH", "/bin"); ("LC_ALL", "pl_PL"); ("LANGUAGE", "pl"); ("HOME", "/home/u")].
Definition qml_root : cjob := mk_cjob some_provider "qml" [] [] (Some "root") "bash" None "c1".
Theorem C30_qml_refuted :
  exists m j c, cj_user j = Some "root" /\ m_root m = false /\
    get_ctrl (score m j) (runner_ctrls (m_windows m) true true) = Chosen c /\ ~ changes_user c.
Proof. exists user_machine, qml_root, Qml. repeat split. intros []. Qed.
Print Assumptions C30_qml_refuted.

(** When plainbox runs as root a job that asks for another user runs as root. *)
Theorem C30_other_user_refuted :
  exists m j c argv, cj_user j = Some "nobody" /\
    get_ctrl (score m j) (runner_ctrls (m_windows m) true true) = Chosen c /\
    execution_command m c j None None "/s" "/n" = Some argv /\ ~ In "nobody" argv.
Proof.
  exists (mk_machine false true []),
    (mk_cjob some_provider "shell" [] [] (Some "nobody") "bash" (Some "id") "c2"), UserCtrl, ["bash"; "-c"; "id"].
  repeat split. simpl. intuition discriminate.
Qed.
Print Assumptions C30_other_user_refuted.

(** A case for the theorems above. *)
Definition root_job : cjob :=
  mk_cjob some_provider "shell" ["noreturn"] ["HOME"] (Some "root") "bash" (Some "id -u") "c3".
Definition plain_job : cjob :=
  mk_cjob some_provider "shell" [] [] None "bash" (Some "id -u") "c4".
Example root_job_choices :
  get_ctrl (score user_machine root_job) (runner_ctrls false true true) = Chosen (PTL1 true) /\
  get_ctrl (score user_machine root_job) (runner_ctrls false false true) = Chosen (Sudo true) /\
  get_ctrl (score user_machine root_job) (runner_ctrls false false false) = Chosen Pkexec /\
  get_ctrl (score user_machine plain_job) (runner_ctrls false true true) = Chosen UserCtrl.
Proof. repeat split. Qed.

(** ** C31 *)

Lemma layered_unique m j config sd nd k : forall a b,
  layered m j config sd nd k a -> layered m j config sd nd k b -> a = b.
Proof.
  intros a b A B.
  assert (D : forall v w, assigned m j sd nd k v -> assigned m j sd nd k w -> v = w).
  { intros v w V W. apply assign_assigned in V, W. congruence. }
  destruct A as [v V|v V L E|V L]; destruct B as [w W|w W L' E'|W L'];
    try (f_equal; eauto; fail); try (exfalso; eapply V; eassumption);
    try (exfalso; eapply W; eassumption); try congruence.
  - destruct L' as [L'|L']; [contradiction|congruence].
  - destruct L as [L|L]; [contradiction|congruence].
Qed.

(** Every variable of the environment of a job comes from the layers in the order of
    the specification: what plainbox assigns, the environment of the process (without
    the variables of the locale), the configuration. *)
Theorem C31_layers m j config session_dir nest_dir k o : NoDup (dkeys (m_environ m)) ->
  dget k (execution_environment m j config session_dir nest_dir) = o <->
  layered m j config session_dir nest_dir k o.
Proof.
  intros N. 
  assert (L : layered m j config session_dir nest_dir k
                (dget k (execution_environment m j config session_dir nest_dir))).
  { rewrite (proj1 (environment_value m j config session_dir nest_dir k N)).
    destruct (assign m j session_dir nest_dir k) as [v|] eqn:A.
    - apply l_assigned, assign_assigned, A.
    - assert (NA : forall w, ~ assigned m j session_dir nest_dir k w).
      { intros w W. apply assign_assigned in W. congruence. }
      destruct (neutralb j && localeb k) eqn:Q.
      + apply andb_true_iff in Q as [Q1 Q2]. apply neutral_iff in Q1. apply locale_iff in Q2.
        apply l_configured; auto.
      + assert (NL : ~ (neutral j /\ locale_variable k)).
        { rewrite <- neutral_iff, <- locale_iff. intros [X Y]. rewrite X, Y in Q. discriminate. }
        destruct (dget k (m_environ m)) as [v|] eqn:D.
        * apply l_inherited; auto.
        * apply l_configured; auto. }
  split.
  - intros <-. exact L.
  - intros H. eapply layered_unique; eassumption.
Qed.
Print Assumptions C31_layers.

Lemma locale_not_assigned m j sd nd k v : locale_variable k -> ~ assigned m j sd nd k v.
Proof.
  intros L A. destruct L as [->|L].
  - inversion A; subst; try each_key.
  - inversion A; subst; try discriminate L;
    try each_key; try discriminate L.
Qed.

(** Without preserve-locale the language is C.UTF-8 whatever the process and the
    configuration say, and the other variables of the locale can only come from the
    configuration. *)
Theorem C31_locale m j config session_dir nest_dir : NoDup (dkeys (m_environ m)) -> neutral j ->
  dget "LANG" (execution_environment m j config session_dir nest_dir) = Some "C.UTF-8" /\
  forall k, locale_variable k ->
    dget k (execution_environment m j config session_dir nest_dir) = configured config k.
Proof.
  intros N L. split.
  - apply C31_layers; auto. apply l_assigned, a_lang, L.
  - intros k K. apply C31_layers; auto. apply l_configured; auto.
    intros w. apply locale_not_assigned, K.
Qed.
Print Assumptions C31_locale.

(** So they are absent when the configuration does not name them, ... *)
Theorem C31_no_locale m j config session_dir nest_dir k : NoDup (dkeys (m_environ m)) -> neutral j ->
  locale_variable k -> configured config k = None ->
  ~ In k (dkeys (execution_environment m j config session_dir nest_dir)).
Proof.
  intros N L K C. apply dget_None. rewrite <- C. apply C31_locale; auto.
Qed.
Print Assumptions C31_no_locale.

(** ... but the configuration can bring them back. *)
Theorem C31_config_locale_refuted :
  exists m j config, NoDup (dkeys (m_environ m)) /\ neutral j /\
    dget "LC_ALL" (execution_environment m j (Some config) "/s" "/n") = Some "pl_PL.UTF-8".
Proof.
  exists user_machine, plain_job, [("LC_ALL", "pl_PL.UTF-8")].
  split; [repeat constructor; simpl; intuition discriminate|]. split; [intros []|reflexivity].
Qed.
Print Assumptions C31_config_locale_refuted.

(** With preserve-locale the variables of the locale are those of the process. *)
Theorem C31_preserved m j config session_dir nest_dir k v : NoDup (dkeys (m_environ m)) ->
  ~ neutral j -> locale_variable k \/ k = "LANG" -> dget k (m_environ m) = Some v ->
  dget k (execution_environment m j config session_dir nest_dir) = Some v.
Proof.
  intros N P K D. apply C31_layers; auto. apply l_inherited; auto; [|tauto].
  intros w A. destruct K as [K|K]; [apply (locale_not_assigned _ _ _ _ _ _ K A)|]. subst k.
  inversion A; subst; try contradiction;
    try each_key.
Qed.
Print Assumptions C31_preserved.

(** The configuration never changes a variable that is there without it, and adds the
    others. *)
Theorem C31_config_never_overrides m j config session_dir nest_dir k : NoDup (dkeys (m_environ m)) ->
  dget k (execution_environment m j (Some config) session_dir nest_dir) =
  match dget k (execution_environment m j None session_dir nest_dir) with
  | Some v => Some v
  | None => dget k config
  end.
Proof.
  intros N. rewrite !(fun c => proj1 (environment_value m j c session_dir nest_dir k N)).
  destruct (assign _ _ _ _ _); [reflexivity|].
  destruct (if neutralb j && localeb k then None else _); reflexivity.
Qed.
Print Assumptions C31_config_never_overrides.

(** A variable of the process reaches the job unchanged, unless it is one of the locale
    or one plainbox assigns. *)
Theorem C31_inherited m j config session_dir nest_dir k v : NoDup (dkeys (m_environ m)) ->
  dget k (m_environ m) = Some v -> ~ locale_variable k ->
  (forall w, ~ assigned m j session_dir nest_dir k w) ->
  dget k (execution_environment m j config session_dir nest_dir) = Some v.
Proof.
  intros N D L A. apply C31_layers; auto. apply l_inherited; auto. tauto.
Qed.
Print Assumptions C31_inherited.

(** The session directory, the paths of the provider (those it has) and the nest are
    always the ones of this session and job. *)
Theorem C31_assigned m j config session_dir nest_dir : NoDup (dkeys (m_environ m)) ->
  let env := execution_environment m j config session_dir nest_dir in
  let p := cj_provider j in
  dget "PLAINBOX_SESSION_SHARE" env = Some (path_join session_dir "CHECKBOX_DATA") /\
  dget "CHECKBOX_DATA" env = Some (path_join session_dir "CHECKBOX_DATA") /\
  dget "PATH" env = Some (prefixed nest_dir (dget "PATH" (m_environ m))) /\
  (forall v, p_data_dir p = Some v -> dget "PLAINBOX_PROVIDER_DATA" env = Some v) /\
  (forall v, p_units_dir p = Some v -> dget "PLAINBOX_PROVIDER_UNITS" env = Some v) /\
  (forall v, p_checkbox_share p = Some v -> dget "CHECKBOX_SHARE" env = Some v) /\
  (forall v, p_extra_pythonpath p = Some v -> v <> "" ->
     dget "PYTHONPATH" env = Some (prefixed v (dget "PYTHONPATH" (m_environ m)))).
Proof.
  intros N env p. subst env p.
  assert (A : forall k v, assigned m j session_dir nest_dir k v ->
    dget k (execution_environment m j config session_dir nest_dir) = Some v).
  { intros k v H. apply C31_layers; auto. apply l_assigned, H. }
  split; [apply A, a_share; simpl; auto|]. split; [apply A, a_share; simpl; auto|].
  split; [apply A, a_path|]. split; [intros; apply A, a_data; assumption|].
  split; [intros; apply A, a_units; assumption|]. split; [intros; apply A, a_legacy; assumption|].
  intros v V E. apply A, a_pythonpath; assumption.
Qed.
Print Assumptions C31_assigned.

(** A provider without a data directory leaves a stale value of the process in place. *)
Theorem C31_stale_refuted :
  exists m j, NoDup (dkeys (m_environ m)) /\ p_data_dir (cj_provider j) = None /\
    dget "PLAINBOX_PROVIDER_DATA" (execution_environment m j None "/s" "/n") = Some "/other/provider/data".
Proof.
  exists (mk_machine false false [("PLAINBOX_PROVIDER_DATA", "/other/provider/data")]),
    (mk_cjob (mk_cprovider true true None None None None None None) "shell" [] [] None "bash" (Some "id") "c").
  split; [repeat constructor; simpl; auto|]. split; reflexivity.
Qed.
Print Assumptions C31_stale_refuted.

(** *** The environment that is handed to another user *)

Lemma dget_filter (f : string * string -> bool) (d : dict string) : NoDup (dkeys d) ->
  forall k, dget k (filter f d) = match dget k d with
                                  | Some v => if f (k, v) then Some v else None
                                  | None => None
                                  end.
Proof.
  induction d as [|[k' v'] d IH]; intros N k; [reflexivity|]. cbn [dkeys map fst] in N.
  apply NoDup_cons_iff in N as [N1 N2]. cbn [filter dget].
  destruct (String.eqb_spec k k') as [->|D].
  - destruct (f (k', v')) eqn:F; cbn [dget]; [rewrite String.eqb_refl; reflexivity|].
    rewrite IH by exact N2. replace (dget k' d) with (@None string); [reflexivity|].
    symmetry. apply dget_None, N1.
  - destruct (f (k', v')); cbn [dget]; [|apply IH, N2].
    destruct (String.eqb_spec k k'); [congruence|]. apply IH, N2.
Qed.

Definition copied (k : string) : bool := smem k copy_vars || String.prefix "SNAP" k.

Lemma dget_copy (base : dict string) : forall (d : dict string) k, NoDup (dkeys base) ->
  dget k (fold_left (fun d kv => if smem (fst kv) copy_vars || String.prefix "SNAP" (fst kv)
                                 then dset (fst kv) (snd kv) d else d) base d) =
  if copied k then match dget k base with Some v => Some v | None => dget k d end else dget k d.
Proof.
  induction base as [|[x v] base IH]; intros d k N.
  - cbn. destruct (copied k); reflexivity.
  - cbn [dkeys map fst] in N. apply NoDup_cons_iff in N as [N1 N2].
    cbn [fold_left fst snd]. fold (copied x). rewrite IH by exact N2. cbn [dget].
    destruct (String.eqb_spec k x) as [->|D].
    + assert (X : dget x base = None) by (apply dget_None, N1). rewrite X.
      destruct (copied x); [apply dget_dset_same|reflexivity].
    + destruct (copied x); [|reflexivity]. rewrite dget_dset_other by exact D. reflexivity.
Qed.

(** The command of a root job gets a variable of its environment unless the process of
    plainbox has it with the same value.  The variables the job lists in its environ field
    are always handed over. *)
Theorem C31_differential m j config session_dir nest_dir k v : NoDup (dkeys (m_environ m)) ->
  ~ (neutral j /\ In k ["LANG"; "LANGUAGE"; "LC_ALL"]) ->
  dget k (differential_environment m j config session_dir nest_dir) = Some v <->
  dget k (execution_environment m j config session_dir nest_dir) = Some v /\
  (dget k (m_environ m) <> Some v \/ In k (cj_environ j) \/
   (on_snap m = true /\ (In k copy_vars \/ String.prefix "SNAP" k = true))).
Proof.
  intros N NL. unfold differential_environment. cbv zeta. fold (neutralb j).
  destruct (environment_value m j config session_dir nest_dir k N) as [EV NE].
  set (target := execution_environment m j config session_dir nest_dir) in *.
  match goal with |- context [filter ?f target] => set (flt := f) end.
  assert (D1 : dget k (if neutralb j then dset "LC_ALL" "C.UTF-8" (dset "LANGUAGE" "" (dset "LANG" "C.UTF-8" (filter flt target)))
                       else filter flt target) =
               match dget k target with Some v => if flt (k, v) then Some v else None | None => None end).
  { transitivity (dget k (filter flt target)); [|apply (dget_filter flt target NE k)].
    destruct (neutralb j) eqn:NB; [|reflexivity].
    apply neutral_iff in NB.
    rewrite !dget_dset_other; [reflexivity| | |]; intros ->; apply NL; split; auto; simpl; auto. }
  assert (F : forall w, flt (k, w) = true <-> (dget k (m_environ m) <> Some w \/ In k (cj_environ j))).
  { intros w. subst flt. cbn [fst snd]. rewrite orb_true_iff, smem_In.
    destruct (dget k (m_environ m)) as [x|]; [|intuition discriminate].
    rewrite negb_true_iff. destruct (String.eqb_spec x w); intuition congruence. }
  assert (C : copied k = true -> dget k (m_environ m) <> None -> dget k target = dget k (m_environ m)).
  { intros CK DN. rewrite EV.
    assert (A : assign m j session_dir nest_dir k = None).
    { destruct (assign m j session_dir nest_dir k) as [w|] eqn:A; [exfalso|reflexivity].
      apply assign_assigned in A. unfold copied in CK.
      inversion A; subst; try discriminate CK;
        try each_key; try discriminate CK. }
    rewrite A.
    assert (L : localeb k = false).
    { destruct (localeb k) eqn:L; [exfalso|reflexivity]. apply locale_iff in L as [->|L]; [discriminate CK|].
      unfold copied in CK. apply orb_true_iff in CK as [CK|CK].
      - apply smem_In in CK. repeat (destruct CK as [<-|CK]; [discriminate L|]). destruct CK.
      - destruct k as [|c k]; [discriminate|]. cbn [String.prefix] in L, CK.
        destruct (ascii_dec "L" c) as [E1|E1]; [|discriminate L].
        destruct (ascii_dec "S" c) as [E2|E2]; [|discriminate CK]. congruence. }
    rewrite L, andb_false_r. destruct (dget k (m_environ m)); congruence. }
  assert (CI : copied k = true <-> In k copy_vars \/ String.prefix "SNAP" k = true).
  { unfold copied. rewrite orb_true_iff, smem_In. reflexivity. }
  assert (MAIN : (match dget k target with Some v => if flt (k, v) then Some v else None | None => None end) = Some v
     <-> dget k target = Some v /\ (dget k (m_environ m) <> Some v \/ In k (cj_environ j))).
  { destruct (dget k target) as [w|]; [|intuition discriminate].
    destruct (flt (k, w)) eqn:FW.
    - split; [|intros [H _]; exact H]. intros H. injection H as <-. split; auto. apply F, FW.
    - split; [discriminate|]. intros [H K]. injection H as <-. apply F in K. congruence. }
  destruct (on_snap m).
  - rewrite dget_copy by exact N. destruct (copied k) eqn:CK.
    + destruct (dget k (m_environ m)) as [w|] eqn:DB.
      * specialize (C eq_refl). rewrite C by discriminate. split.
        -- intros H. injection H as <-. split; [reflexivity|]. right. right. tauto.
        -- intros [H _]. exact H.
      * rewrite D1, MAIN. split; [tauto|]. intros [H _]. split; [exact H|]. left. discriminate.
    + rewrite D1, MAIN. split; [tauto|]. intros [H [K|[K|[_ K]]]]; auto.
      apply CI in K. congruence.
  - rewrite D1, MAIN. split; [tauto|]. intros [H [K|[K|[K _]]]]; auto. discriminate.
Qed.
Print Assumptions C31_differential.

(** The locale of a root job is neutral whatever the environment and the configuration. *)
Theorem C31_differential_locale m j config session_dir nest_dir : NoDup (dkeys (m_environ m)) -> neutral j ->
  let env := differential_environment m j config session_dir nest_dir in
  dget "LANG" env = Some "C.UTF-8" /\ dget "LANGUAGE" env = Some "" /\ dget "LC_ALL" env = Some "C.UTF-8".
Proof.
  intros N L env. subst env. unfold differential_environment. cbv zeta. fold (neutralb j).
  apply neutral_iff in L. rewrite L.
  destruct (on_snap m); [rewrite !dget_copy by exact N|]; cbn; rewrite !dget_dset; repeat split.
Qed.
Print Assumptions C31_differential_locale.

(** So laying it over the environment of plainbox gives every variable the job should
    have. *)
Theorem C31_differential_enough m j config session_dir nest_dir k v : NoDup (dkeys (m_environ m)) ->
  ~ (neutral j /\ In k ["LANGUAGE"; "LC_ALL"]) ->
  dget k (execution_environment m j config session_dir nest_dir) = Some v ->
  match dget k (differential_environment m j config session_dir nest_dir) with
  | Some w => Some w
  | None => dget k (m_environ m)
  end = Some v.
Proof.
  intros N NL E.
  destruct (String.eqb_spec k "LANG") as [->|KL].
  - destruct (neutralb j) eqn:NB.
    + apply neutral_iff in NB. rewrite (proj1 (C31_differential_locale m j config session_dir nest_dir N NB)).
      rewrite (proj1 (C31_locale m j config session_dir nest_dir N NB)) in E. exact E.
    + assert (NN : ~ neutral j) by (intros X; apply neutral_iff in X; congruence).
      destruct (dget "LANG" (differential_environment m j config session_dir nest_dir)) as [w|] eqn:D.
      * apply C31_differential in D as [D _]; [congruence|exact N|tauto].
      * destruct (dget "LANG" (m_environ m)) as [x|] eqn:B.
        -- destruct (String.eqb_spec x v) as [->|X]; [reflexivity|]. exfalso.
           assert (Y : dget "LANG" (differential_environment m j config session_dir nest_dir) = Some v).
           { apply C31_differential; [exact N|tauto|]. split; [exact E|]. left. congruence. }
           congruence.
        -- exfalso.
           assert (Y : dget "LANG" (differential_environment m j config session_dir nest_dir) = Some v).
           { apply C31_differential; [exact N|tauto|]. split; [exact E|]. left. congruence. }
           congruence.
  - assert (NL' : ~ (neutral j /\ In k ["LANG"; "LANGUAGE"; "LC_ALL"])).
    { intros [X Y]. apply NL. split; [exact X|]. simpl in *. intuition congruence. }
    destruct (dget k (differential_environment m j config session_dir nest_dir)) as [w|] eqn:D.
    + apply C31_differential in D as [D _]; auto. congruence.
    + destruct (dget k (m_environ m)) as [x|] eqn:B.
      * destruct (String.eqb_spec x v) as [->|X]; [reflexivity|]. exfalso.
        assert (Y : dget k (differential_environment m j config session_dir nest_dir) = Some v).
        { apply C31_differential; auto. split; [exact E|]. left. congruence. }
        congruence.
      * exfalso.
        assert (Y : dget k (differential_environment m j config session_dir nest_dir) = Some v).
        { apply C31_differential; auto. split; [exact E|]. left. congruence. }
        congruence.
Qed.
Print Assumptions C31_differential_enough.

(** The nest is always on the PATH that is handed over. *)
Theorem C31_differential_path m j config session_dir nest_dir : NoDup (dkeys (m_environ m)) ->
  dget "PATH" (differential_environment m j config session_dir nest_dir) =
  Some (prefixed nest_dir (dget "PATH" (m_environ m))).
Proof.
  intros N. apply C31_differential; [exact N|intros [_ H]; simpl in H; intuition discriminate|].
  split; [apply C31_assigned, N|]. left. unfold prefixed.
  destruct (dget "PATH" (m_environ m)) as [v|]; [|discriminate].
  intros H. injection H as H. apply (f_equal String.length) in H.
  assert (L : forall a b, String.length (String.append a b) = String.length a + String.length b).
  { clear. induction a as [|c a IH]; intros b; [reflexivity|]. cbn. rewrite IH. reflexivity. }
  rewrite L in H. cbn [String.length] in H. lia.
Qed.
Print Assumptions C31_differential_path.

(** But a variable plainbox sets is left out when the process happens to have it with the
    same value, so a root job need not see it (sudo and pkexec do not pass it on). *)
Theorem C31_differential_share_refuted :
  exists m j, NoDup (dkeys (m_environ m)) /\
    dget "PLAINBOX_SESSION_SHARE" (differential_environment m j None "/s" "/n") = None.
Proof.
  exists (mk_machine false false [("PLAINBOX_SESSION_SHARE", "/s/CHECKBOX_DATA")]), root_job.
  split; [repeat constructor; simpl; auto|reflexivity].
Qed.
Print Assumptions C31_differential_share_refuted.

Example c31_case :
  execution_environment user_machine plain_job (Some [("HOME", "x"); ("FOO", "bar"); ("PATH", "/evil")]) "/s" "/n" =
  [("PATH", "/n:/bin"); ("HOME", "/home/u"); ("LANG", "C.UTF-8");
   ("PLAINBOX_SESSION_SHARE", "/s/CHECKBOX_DATA"); ("CHECKBOX_DATA", "/s/CHECKBOX_DATA");
   ("PLAINBOX_PROVIDER_DATA", "/usr/share/p/data"); ("FOO", "bar")] /\
  NoDup (dkeys (m_environ user_machine)) /\ neutral plain_job.
Proof.
  split; [vm_compute; reflexivity|]. split; [repeat constructor; simpl; intuition discriminate|intros []].
Qed.

(** ** C44 *)

Lemma split_setting_app k v : split_setting k = None ->
  split_setting (String.append k (String "=" v)) = Some (k, v).
Proof.
  induction k as [|c k IH]; [reflexivity|]. cbn [split_setting String.append].
  destruct (Ascii.eqb c "="); [discriminate|].
  destruct (split_setting k) as [[a b]|]; [discriminate|]. intros _. rewrite IH by reflexivity. reflexivity.
Qed.

Lemma env_read_settings l cmd : (forall k v, In (k, v) l -> good_name k) ->
  (forall a r, cmd = a :: r -> String.prefix "-" a = false /\ split_setting a = None) ->
  env_read (map setting l ++ cmd) = Some (l, cmd).
Proof.
  intros G C. induction l as [|[k v] l IH].
  - cbn [map app]. destruct cmd as [|a r]; [reflexivity|]. destruct (C a r eq_refl) as [C1 C2].
    cbn [env_read]. rewrite C1, C2. reflexivity.
  - destruct (G k v (or_introl eq_refl)) as (G1 & G2 & G3). cbn [map app env_read].
    unfold setting at 1. cbn [fst snd].
    assert (P : String.prefix "-" (String.append k (String "=" v)) = false).
    { destruct k as [|c k]; [congruence|]. cbn [String.prefix String.append] in G1 |- *. destruct (ascii_dec "-" c); [|reflexivity].
      destruct k; discriminate. }
    rewrite P. unfold setting. cbn [fst snd]. rewrite split_setting_app by exact G2.
    fold setting. change (map (fun kv => String.append (fst kv) (String "=" (snd kv))) l) with (map setting l).
    rewrite IH; [reflexivity|]. intros k' v' I. apply (G k' v'). right. exact I.
Qed.

Lemma sort_items_perm d : Permutation (sort_items d) d.
Proof.
  unfold sort_items. induction d as [|x d IH]; [reflexivity|]. cbn [fold_right].
  assert (I : forall l, Permutation (insert_item x l) (x :: l)).
  { induction l as [|y l IHl]; [reflexivity|]. cbn [insert_item].
    match goal with |- context [if ?b then _ else _] => destruct b end; [reflexivity|].
    rewrite IHl. apply perm_swap. }
  rewrite I, IH. reflexivity.
Qed.

Lemma keys_del_lc e : incl (dkeys (del_lc e)) (dkeys e).
Proof.
  unfold del_lc. generalize (dkeys e) at 1. intros ks. revert e.
  induction ks as [|x ks IH]; intros e; [apply incl_refl|]. cbn [fold_left].
  eapply incl_tran; [apply IH|]. destruct (String.prefix "LC_" x); [apply dkeys_ddel_incl|apply incl_refl].
Qed.

(** The names in the environment that is handed over are good ones. *)
Lemma differential_names m j config sd nd : NoDup (dkeys (m_environ m)) ->
  (forall k, In k (dkeys (m_environ m)) -> good_name k) ->
  (forall c k, config = Some c -> In k (dkeys c) -> good_name k) ->
  forall k, In k (dkeys (differential_environment m j config sd nd)) -> good_name k.
Proof.
  intros N GB GC k I.
  destruct (in_dec string_dec k ["LANG"; "LANGUAGE"; "LC_ALL"]) as [K|K].
  { repeat (destruct K as [<-|K]; [repeat split; discriminate|]). destruct K. }
  apply dget_In_keys in I as [v I]. apply C31_differential in I as [I _]; [|exact N|tauto].
  apply C31_layers in I; [|exact N]. inversion I as [w A|w _ _ D|A D]; subst.
  - inversion A; subst; try (repeat split; discriminate);
      try each_key; try (repeat split; discriminate).
  - apply GB, dget_In_keys. eauto.
  - unfold configured in H. destruct config as [c|]; [|discriminate].
    apply (GC c); [reflexivity|]. apply dget_In_keys. eauto.
Qed.

Lemma differential_NoDup m j config session_dir nest_dir : NoDup (dkeys (m_environ m)) ->
  NoDup (dkeys (differential_environment m j config session_dir nest_dir)).
Proof.
  intros N. unfold differential_environment. cbv zeta.
    match goal with |- context [filter ?f ?t] => set (d := filter f t) end.
    assert (D : NoDup (dkeys d)).
    { subst d. destruct (environment_value m j config session_dir nest_dir "" N) as [_ NE].
      revert NE. generalize (execution_environment m j config session_dir nest_dir).
      match goal with |- context [filter ?f _] => generalize f end. clear.
      intros f d. induction d as [|x d IH]; intros NE; [constructor|].
      cbn [dkeys map] in NE. apply NoDup_cons_iff in NE as [N1 N2]. cbn [filter].
      destruct (f x); [|auto]. cbn [dkeys map]. constructor; [|apply IH, N2].
      intros X. apply N1. unfold dkeys. apply in_map_iff in X as (y & E & Y). apply filter_In in Y as [Y _].
      rewrite <- E. apply in_map, Y. }
    clearbody d.
    assert (D2 : NoDup (dkeys (if negb (has_flag "preserve-locale" j)
        then dset "LC_ALL" "C.UTF-8" (dset "LANGUAGE" "" (dset "LANG" "C.UTF-8" d)) else d))).
    { destruct (negb _); [repeat apply NoDup_dset|]; exact D. }
    destruct (on_snap m); [|exact D2].
    revert D2. match goal with |- NoDup (dkeys ?x) -> _ => generalize x end. clear.
    induction (m_environ m) as [|x b IH]; intros d D; [exact D|]. cbn [fold_left]. apply IH.
    destruct (smem (fst x) copy_vars || String.prefix "SNAP" (fst x)); [apply NoDup_dset|]; exact D.
Qed.

(** The command line of a root job: env(1) reads exactly the variables that have to be
    handed over and then runs the shell of the job with the command of the job.  This
    holds for any command text and any values, as long as the names of the variables and
    the shell are ones env(1) can handle. *)
Theorem C44_env_command m c j via config session_dir nest_dir argv :
  NoDup (dkeys (m_environ m)) ->
  (forall k, In k (dkeys (m_environ m)) -> good_name k) ->
  (forall d k, config = Some d -> In k (dkeys d) -> good_name k) ->
  String.prefix "-" (cj_shell j) = false -> split_setting (cj_shell j) = None ->
  c = Pkexec \/ (exists b, c = Sudo b \/ c = SudoPass b) ->
  execution_command m c j via config session_dir nest_dir = Some argv ->
  exists before settings command,
    argv = before ++ "env" :: map setting settings ++ [cj_shell j; "-c"; command] /\
    cj_command j = Some command /\
    env_read (map setting settings ++ [cj_shell j; "-c"; command]) =
      Some (settings, [cj_shell j; "-c"; command]) /\
    forall k v, In (k, v) settings <->
      dget k (differential_environment m j config session_dir nest_dir) = Some v.
Proof.
  intros N GB GC S1 S2 HC H.
  pose proof (differential_NoDup m j config session_dir nest_dir N) as ND.
  set (D := differential_environment m j config session_dir nest_dir) in *.
  assert (SI : forall k v, In (k, v) (sort_items D) <-> dget k D = Some v).
  { intros k v. split.
    - intros I. apply (Permutation_in _ (sort_items_perm D)) in I. apply In_dget; auto.
    - intros G. apply (Permutation_in _ (Permutation_sym (sort_items_perm D))). apply dget_In, G. }
  assert (GN : forall k v, In (k, v) (sort_items D) -> good_name k).
  { intros k v I. apply SI in I. eapply differential_names; eauto. apply dget_In_keys. eauto. }
  assert (FIN : forall before, 
    match cj_command j with
    | Some command => Some (before ++ "env" :: map setting (sort_items D) ++ [cj_shell j; "-c"; command])
    | None => None end = Some argv ->
    exists before settings command,
    argv = before ++ "env" :: map setting settings ++ [cj_shell j; "-c"; command] /\
    cj_command j = Some command /\
    env_read (map setting settings ++ [cj_shell j; "-c"; command]) =
      Some (settings, [cj_shell j; "-c"; command]) /\
    forall k v, In (k, v) settings <-> dget k D = Some v).
  { intros before E. destruct (cj_command j) as [command|] eqn:CC; [|discriminate]. injection E as <-.
    exists before, (sort_items D), command. split; [reflexivity|]. split; [reflexivity|]. split; [|exact SI].
    apply env_read_settings; [exact GN|]. intros a r E. injection E as <- _. auto. }
  unfold execution_command in H. fold D in H.
  destruct HC as [->|[b [-> | ->]]]; (destruct (cj_user j) as [u|]; [|discriminate]).
  - apply (FIN ["pkexec"; "--user"; u] H).
  - apply (FIN ["sudo"; "-S"; "-u"; u] H).
  - apply (FIN ["sudo"; "--prompt="; "--reset-timestamp"; "--stdin"; "--user"; u] H).
Qed.
Print Assumptions C44_env_command.

(** Ordinary jobs: the shell of the job gets the command of the job. *)
Theorem C44_user_command m j via config session_dir nest_dir argv : has_flag "win32" j = false ->
  execution_command m UserCtrl j via config session_dir nest_dir = Some argv ->
  exists command, cj_command j = Some command /\ argv = [cj_shell j; "-c"; command].
Proof.
  intros W H. cbn [execution_command] in H. rewrite W in H.
  destruct (cj_command j) as [c|]; [|discriminate]. injection H as <-. eauto.
Qed.
Print Assumptions C44_user_command.

Example c44_case :
  execution_command user_machine (Sudo true) root_job None (Some [("FOO", "a=b c")]) "/s" "/n" =
  Some ["sudo"; "-S"; "-u"; "root"; "env"; "CHECKBOX_DATA=/s/CHECKBOX_DATA"; "FOO=a=b c";
        "HOME=/home/u"; "LANG=C.UTF-8"; "LANGUAGE="; "LC_ALL=C.UTF-8"; "PATH=/n:/bin";
        "PLAINBOX_PROVIDER_DATA=/usr/share/p/data"; "PLAINBOX_SESSION_SHARE=/s/CHECKBOX_DATA";
        "bash"; "-c"; "id -u"].
Proof. vm_compute. reflexivity. Qed.
Example c44_names : forall k, In k (dkeys (m_environ user_machine)) -> good_name k.
Proof. intros k I. repeat (destruct I as [<-|I]; [repeat split; discriminate|]). destruct I. Qed.

(** A name that starts with a dash would be read as an option of env(1). *)
Theorem C44_dash_refuted :
  exists m j config argv, NoDup (dkeys (m_environ m)) /\
    execution_command m (Sudo true) j None (Some config) "/s" "/n" = Some argv /\
    env_read (skipn 5 argv) = None.
Proof.
  exists user_machine, root_job, [("-i", "x")]. eexists.
  split; [repeat constructor; simpl; intuition discriminate|]. split; [vm_compute; reflexivity|]. reflexivity.
Qed.
Print Assumptions C44_dash_refuted.
