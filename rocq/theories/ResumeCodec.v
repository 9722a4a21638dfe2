(** Proofs that the representation of results and meta-data can be read back. *)

From Coq Require Import Ascii String List Bool NArith ZArith Arith Lia DecimalString.
From Coq Require DecimalZ DecimalPos.
From Verif Require Import ScanModel Base BaseFacts JobModel SolverModel SolverSpec
  SessionModel SessionSpec JsonModel IologModel IologProps PathModel ResumeModel ResumeSpec.
Import ListNotations.
Local Open Scope nat_scope.
Local Open Scope list_scope.

Lemma of_to_text s : of_text (to_text s) = s.
Proof. apply string_of_list_ascii_of_string. Qed.

Lemma to_of_text t : to_text (of_text t) = t.
Proof. apply list_ascii_of_string_of_list_ascii. Qed.

Lemma to_text_inj a b : to_text a = to_text b -> a = b.
Proof. intros H. rewrite <- (of_to_text a), H. apply of_to_text. Qed.

Lemma text_eqb_eq a b : text_eqb a b = true <-> a = b.
Proof. unfold text_eqb. destruct (list_eq_dec ascii_dec a b); split; congruence. Qed.

Lemma text_eqb_refl a : text_eqb a a = true.
Proof. now apply text_eqb_eq. Qed.

Lemma text_eqb_neq a b : a <> b -> text_eqb a b = false.
Proof. intros H. unfold text_eqb. destruct (list_eq_dec ascii_dec a b); congruence. Qed.

(** ** Paths *)

Lemma split_join ws : ws <> [] -> Forall (fun w => ~ In slash w) ws ->
  split_slash (join_slash ws) = ws.
Proof.
  intros Hne H. induction H as [|w ws Hw H IH]; [congruence|].
  assert (G : forall rest, split_slash (w ++ slash :: rest) = w :: split_slash rest).
  { intros rest. clear - Hw. induction w as [|c w IH]; cbn; auto.
    destruct (Ascii.eqb_spec c slash); [subst; exfalso; apply Hw; left; auto|].
    rewrite IH; auto. intros Hi. apply Hw. right. auto. }
  destruct ws as [|w2 ws].
  - cbn. clear - Hw. induction w as [|c w IH]; cbn; auto.
    destruct (Ascii.eqb_spec c slash); [subst; exfalso; apply Hw; left; auto|].
    rewrite IH; auto. intros Hi. apply Hw. right. auto.
  - cbn [join_slash]. rewrite G. f_equal. apply IH. discriminate.
Qed.

Lemma norm_proper ws : forall acc, Forall component ws ->
  norm_components acc ws = rev acc ++ ws.
Proof.
  induction ws as [|w ws IH]; intros acc H; cbn; [now rewrite app_nil_r|].
  inversion H as [|? ? (H1 & H2 & H3 & H4) Hws]; subst.
  rewrite !text_eqb_neq by auto. cbn. rewrite IH by auto. cbn. now rewrite <- app_assoc.
Qed.

Lemma components_abs cwd ws : ws <> [] -> Forall component ws ->
  abs_components cwd (slash :: join_slash ws) = ws.
Proof.
  intros Hne H. unfold abs_components. cbn [isabs]. rewrite Ascii.eqb_refl.
  cbn [split_slash]. rewrite Ascii.eqb_refl. rewrite split_join; auto.
  - cbn. now apply norm_proper.
  - eapply Forall_impl; [|exact H]. intros w (_ & K & _). exact K.
Qed.

Lemma drop_common_prefix ds fs : drop_common ds (ds ++ fs) = ([], fs).
Proof. induction ds as [|d ds IH]; cbn; [now destruct fs|]. now rewrite text_eqb_refl. Qed.

Lemma join_app a b : a <> [] -> b <> [] -> join_slash (a ++ b) = join_slash a ++ slash :: join_slash b.
Proof.
  intros Ha Hb. induction a as [|w a IH]; [congruence|]. destruct a as [|w2 a].
  - cbn. destruct b; [congruence|auto].
  - change ((w :: w2 :: a) ++ b) with (w :: (w2 :: a) ++ b).
    assert (E : forall ws, ws <> [] -> join_slash (w :: ws) = w ++ slash :: join_slash ws)
      by (intros [|x ws]; [congruence|auto]).
    rewrite !E; [|discriminate|destruct a; discriminate]. rewrite IH by discriminate.
    now rewrite <- app_assoc.
Qed.

Lemma join_last ws : ws <> [] -> Forall component ws ->
  exists t c, join_slash ws = t ++ [c] /\ c <> slash.
Proof.
  intros Hne H. destruct (exists_last Hne) as (l & w & ->).
  apply Forall_app in H. destruct H as [_ H]. inversion H as [|? ? (H1 & H2 & _) _]; subst.
  destruct (exists_last H1) as (t & c & ->).
  assert (Hc : c <> slash) by (intros ->; apply H2; apply in_or_app; right; left; auto).
  destruct l as [|x l].
  - exists t, c. auto.
  - rewrite join_app by discriminate. exists (join_slash (x :: l) ++ slash :: t), c. split; auto.
    cbn. now rewrite <- app_assoc.
Qed.

Lemma join_head ws : ws <> [] -> Forall component ws -> isabs (join_slash ws) = false.
Proof.
  intros Hne H. destruct ws as [|w ws]; [congruence|].
  inversion H as [|? ? (H1 & H2 & _) _]; subst. destruct w as [|c w]; [congruence|].
  assert (Hc : Ascii.eqb c slash = false).
  { apply Ascii.eqb_neq. intros ->. apply H2. left. auto. }
  destruct ws; exact Hc.
Qed.

Lemma relpath_inside cwd dir f : inside dir f ->
  isabs (relpath cwd (to_text f) (to_text dir)) = false /\
  path_join (to_text dir) (relpath cwd (to_text f) (to_text dir)) = to_text f.
Proof.
  intros (ds & fs & H1 & H2 & H3 & H4 & -> & ->). unfold relpath.
  rewrite !components_abs; auto.
  2:{ intros E. apply app_eq_nil in E. tauto. }
  2:{ now apply Forall_app. }
  rewrite drop_common_prefix. cbn [map app].
  destruct fs as [|f0 fs0]; [congruence|]. set (fs := f0 :: fs0) in *. split; [now apply join_head|].
  unfold path_join. rewrite join_head by auto.
  destruct (join_last ds H1 H3) as (t & c & Ej & Hc).
  assert (El : last (slash :: join_slash ds) " "%char = c).
  { rewrite Ej. rewrite app_comm_cons. apply last_last. }
  rewrite El. destruct (Ascii.eqb_spec c slash); [congruence|].
  now rewrite join_app.
Qed.

(** ** Comments *)

Lemma no_escape_start t : (forall c, In c t -> nat_of_ascii c <> 27 /\ nat_of_ascii c <> 155) ->
  ansi_match t = None.
Proof.
  intros H. unfold ansi_match, ansi_start. destruct t as [|c t]; auto.
  destruct (H c (or_introl eq_refl)) as [H1 H2].
  apply Nat.eqb_neq in H1, H2. now rewrite H2, H1.
Qed.

Lemma no_escape_sub n : forall t,
  (forall c, In c t -> nat_of_ascii c <> 27 /\ nat_of_ascii c <> 155) -> ansi_sub n t = t.
Proof.
  induction n as [|n IH]; intros t H; cbn; auto. destruct t as [|c t]; auto.
  rewrite no_escape_start by auto. rewrite IH; auto. intros d Hd. apply H. right. auto.
Qed.

Lemma clean_no_escapes t : no_escapes t -> clean_comments t = t.
Proof. intros H. unfold clean_comments. rewrite no_escape_sub by exact H. apply of_to_text. Qed.

(** ** Numbers *)

Lemma float_token_spec t : float_notation t -> float_token (to_text t) = true.
Proof.
  intros (c & Hc & H). unfold float_token. apply existsb_exists. exists c. split; auto.
  now destruct H as [-> | [-> | ->]].
Qed.

Lemma uint_chars d : forall c, In c (to_text (NilEmpty.string_of_uint d)) -> is_digit c = true.
Proof.
  induction d; cbn; try tauto; intros c [<- | H]; auto.
Qed.

Lemma digit_plain c : is_digit c = true ->
  (Ascii.eqb c "." || Ascii.eqb c "e" || Ascii.eqb c "E")%char = false.
Proof. intros H. destruct c as [[] [] [] [] [] [] [] []]; try discriminate H; reflexivity. Qed.

Lemma int_text_plain z : float_token (int_text z) = false.
Proof.
  unfold float_token, int_text. apply Bool.not_true_is_false. intros H.
  apply existsb_exists in H. destruct H as (c & Hc & H).
  assert (G : c = "-"%char \/ is_digit c = true).
  { destruct (Z.to_int z) as [d|d] eqn:E; cbn in Hc.
    - right. unfold NilZero.string_of_uint in Hc.
      destruct d; try (now apply uint_chars in Hc). cbn in Hc. now destruct Hc as [<-|[]].
    - destruct Hc as [<-|Hc]; auto. right. unfold NilZero.string_of_uint in Hc.
      destruct d; try (now apply uint_chars in Hc). cbn in Hc. now destruct Hc as [<-|[]]. }
  destruct G as [-> | G]; [discriminate|]. apply digit_plain in G. congruence.
Qed.

Lemma int_text_value z : int_value (int_text z) = Some z.
Proof.
  unfold int_value, int_text. rewrite of_to_text. rewrite NilZero.isi.
  - cbn. now rewrite DecimalZ.of_to.
  - destruct z as [|p|p]; cbn; try discriminate. intros [= E].
    now apply DecimalPos.Unsigned.to_uint_nonnil in E.
  - destruct z as [|p|p]; cbn; try discriminate. intros [= E].
    now apply DecimalPos.Unsigned.to_uint_nonnil in E.
Qed.

(** ** Lookups *)

Lemma jget_fields k l :
  NoDup (map fst l) -> forall v, In (to_text k, v) l -> jget k l = Some v.
Proof.
  induction l as [|[k' v'] l IH]; cbn; [tauto|]. intros Hn v [H|H].
  - injection H as -> ->. rewrite text_eqb_refl.
    assert (E : jget k l = None).
    { inversion Hn as [|? ? Hni _]; subst. clear - Hni.
      induction l as [|[k' v'] l IH]; cbn in *; auto. rewrite IH by tauto.
      rewrite text_eqb_neq; auto. }
    now rewrite E.
  - inversion Hn; subst. now rewrite (IH H3 v H).
Qed.

Lemma jget_absent k l : ~ In (to_text k) (map fst l) -> jget k l = None.
Proof.
  induction l as [|[k' v'] l IH]; cbn; auto. intros H. rewrite IH by tauto.
  rewrite text_eqb_neq; auto.
Qed.

(** ** Records *)

Lemma rmap_ok {A B} (f : A -> rexn + B) (g : B -> A) l :
  (forall x, In x l -> f (g x) = inr x) -> rmap f (map g l) = inr l.
Proof.
  induction l as [|x l IH]; cbn; intros H; auto. rewrite H by auto. cbn.
  rewrite IH by auto. reflexivity.
Qed.

Lemma vbase64_ok d : vbase64 (of_text (b64encode (to_text d))) = inr d.
Proof.
  unfold vbase64. rewrite to_of_text, b64_ascii, b64_round_trip. now rewrite of_to_text.
Qed.

Lemma not_negative t : hd_error t <> Some "-"%char -> number_negative t = false.
Proof.
  intros H. unfold number_negative, number_value.
  destruct (cut _ t) as [mant ex] eqn:E. destruct (cut (Ascii.eqb ".") mant) as [a b]. cbn [fst].
  apply Z.ltb_ge.
  assert (D : forall u n, (0 <= n)%Z -> (0 <= fold_left (fun n c => if is_digit c
    then (n * 10 + digit c)%Z else n) u n)%Z).
  { induction u as [|c u IH]; cbn; intros n Hn; auto. apply IH. destruct (is_digit c); auto.
    unfold digit. lia. }
  assert (Hm : hd_error mant <> Some "-"%char).
  { destruct t as [|c t]; cbn in E.
    - injection E as <- <-. discriminate.
    - destruct (_ || _)%bool; [injection E as <- <-; discriminate|].
      destruct (cut _ t) as [x y]. injection E as <- <-. exact H. }
  unfold signed. destruct mant as [|c m]; [lia|].
  destruct (Ascii.eqb_spec c "-"); [subst; now elim Hm|]. apply D. lia.
Qed.

Lemma build_repr_iorec r : storable_iorec r -> build_iorec (repr_iorec r) = inr r.
Proof.
  intros (H1 & H2 & H3). unfold build_iorec, repr_iorec. cbn [vlist rbind vnth nth_error].
  cbn [vfloat]. rewrite float_token_spec by auto. cbn [rbind]. rewrite of_to_text.
  rewrite not_negative by auto. cbn [vnth nth_error rbind vstr jstring]. rewrite of_to_text.
  assert (E : smem (l_stream r) ["stdout"; "stderr"]%string = true).
  { apply smem_In. cbn. destruct H3; auto. }
  rewrite E. cbn [vnth nth_error rbind vstr]. rewrite vbase64_ok. cbn. now destruct r.
Qed.

Lemma text_outcome_ok o : text_outcome (outcome_text o) = inr o.
Proof. now destruct o. Qed.

Lemma vopt_jopt o : vopt vstr (jopt o) = inr o.
Proof. destruct o as [t|]; cbn; auto. now rewrite of_to_text. Qed.

Section Results.
  Variable isfile : string -> bool.
  Variable rewrite : string -> string -> option string.
  Variable flags : rflags.
  Variable dir : string.

  Lemma build_repr_result cwd version r : 5 <= version -> storable dir r ->
    (forall f, d_log (r_data r) = DiskLog f -> f_checks flags = true -> isfile f = true) ->
    build_result isfile rewrite flags (Some dir) version (repr_result cwd (Some dir) r) = inr r.
  Proof.
    intros Hv (H1 & H2 & H3) Hf. destruct r as [o [du co rc lg]]. cbn [r_data d_duration d_comments
      d_log d_code] in *.
    assert (Eo : vopt vstr (jopt (option_map outcome_text o)) = inr (option_map outcome_text o))
      by apply vopt_jopt.
    assert (Eo2 : (match option_map outcome_text o with
               | None => inr None
               | Some t => let* x := text_outcome t in inr (Some x)
               end) = inr o).
    { destruct o; cbn [option_map]; auto. now rewrite text_outcome_ok. }
    assert (Ec : vopt vstr (jopt (option_map clean_comments co)) = inr co).
    { rewrite vopt_jopt. destruct co as [t|]; cbn; auto. rewrite clean_no_escapes; auto. }
    assert (Er : vopt vint (match rc with Some z => JNum (int_text z) | None => JNull end) = inr rc).
    { destruct rc as [z|]; auto. cbn. rewrite int_text_plain, int_text_value. reflexivity. }
    assert (Ed : vopt vfloat (match du with Some t => JNum (to_text t) | None => JNull end) = inr du).
    { destruct du as [t|]; auto. cbn. rewrite float_token_spec by auto. cbn.
      now rewrite of_to_text. }
    unfold build_result, repr_result. cbn [r_data d_duration d_comments d_log d_code r_outcome].
    destruct lg as [l|f].
    - assert (El : rmap build_iorec (map repr_iorec l) = inr l).
      { apply rmap_ok. intros x Hx. apply build_repr_iorec. rewrite Forall_forall in H3. auto. }
      set (V := JObj _).
      assert (K1 : vkey V "outcome" = inr (jopt (option_map outcome_text o))) by reflexivity.
      assert (K2 : vkey V "comments" = inr (jopt (option_map clean_comments co))) by reflexivity.
      assert (K3 : vkey V "return_code" =
        inr (match rc with Some z => JNum (int_text z) | None => JNull end)) by reflexivity.
      assert (K4 : vkey V "execution_duration" =
        inr (match du with Some t => JNum (to_text t) | None => JNull end)) by reflexivity.
      assert (K5 : vkey V "io_log_filename" = inl RCorrupted) by reflexivity.
      assert (K6 : vkey V "io_log" = inr (JList (map repr_iorec l))) by reflexivity.
      rewrite K1. cbn [rbind]. rewrite Eo. cbn [rbind]. rewrite Eo2. cbn [rbind].
      rewrite K2. cbn [rbind]. rewrite Ec. cbn [rbind]. rewrite K3. cbn [rbind].
      rewrite Er. cbn [rbind]. rewrite K4. cbn [rbind]. rewrite Ed. cbn [rbind].
      rewrite K5, K6. cbn [rbind vlist]. rewrite El. reflexivity.
    - set (V := JObj _).
      assert (K1 : vkey V "outcome" = inr (jopt (option_map outcome_text o))) by reflexivity.
      assert (K2 : vkey V "comments" = inr (jopt (option_map clean_comments co))) by reflexivity.
      assert (K3 : vkey V "return_code" =
        inr (match rc with Some z => JNum (int_text z) | None => JNull end)) by reflexivity.
      assert (K4 : vkey V "execution_duration" =
        inr (match du with Some t => JNum (to_text t) | None => JNull end)) by reflexivity.
      assert (K5 : vkey V "io_log_filename" =
        inr (JStr (relpath cwd (to_text f) (to_text dir)))) by reflexivity.
      destruct (relpath_inside cwd dir f H3) as [Ha Hj].
      assert (Elf : load_filename (Some dir) version V = inr f).
      { unfold load_filename. rewrite K5. cbn [rbind vstr].
        assert (Hl : Nat.ltb version 5 = false) by (apply Nat.ltb_ge; auto). rewrite Hl.
        rewrite to_of_text, Ha, Hj. now rewrite of_to_text. }
      assert (Ecf : check_file isfile rewrite flags (Some dir) f = inr f).
      { unfold check_file. destruct (f_checks flags) eqn:E; auto.
        rewrite (Hf f) by auto. cbn. now rewrite (Hf f). }
      rewrite K1. cbn [rbind]. rewrite Eo. cbn [rbind]. rewrite Eo2. cbn [rbind].
      rewrite K2. cbn [rbind]. rewrite Ec. cbn [rbind]. rewrite K3. cbn [rbind].
      rewrite Er. cbn [rbind]. rewrite K4. cbn [rbind]. rewrite Ed. cbn [rbind].
      rewrite K5, Elf. cbn [rbind]. rewrite Ecf. reflexivity.
  Qed.

  Lemma build_repr_results cwd version h : 5 <= version -> (forall r, In r h -> storable dir r) ->
    (forall r f, In r h -> d_log (r_data r) = DiskLog f -> f_checks flags = true -> isfile f = true) ->
    build_results isfile rewrite flags (Some dir) version
      (JList (map (repr_result cwd (Some dir)) h)) = inr h.
  Proof.
    intros Hv Hs Hf. cbn [build_results vlist rbind]. apply rmap_ok. intros r Hr.
    assert (E : exists o, vdict (repr_result cwd (Some dir) r) = inr o) by (eexists; reflexivity).
    destruct E as [o ->]. cbn [rbind]. apply build_repr_result; eauto.
  Qed.
End Results.

(** ** Meta-data *)

Lemma restore_repr_meta version m repr : 3 <= version ->
  vkey repr "metadata" = inr (repr_meta m) ->
  exists m', restore_meta version repr = inr m' /\ same_meta m m'.
Proof.
  intros Hv Hk. exists (mk_meta (m_title m) (sorted_set (m_flags m)) (m_running m) (m_blob m) (m_app m)).
  split.
  2:{ repeat split; cbn; auto; apply sorted_set_In. }
  unfold restore_meta. rewrite Hk. cbn [rbind]. unfold repr_meta.
  set (V := JObj _).
  assert (K1 : vkey V "title" = inr (jopt (m_title m))) by reflexivity.
  assert (K2 : vkey V "flags" = inr (JList (map jstring (sorted_set (m_flags m))))) by reflexivity.
  assert (K3 : vkey V "running_job_name" = inr (jopt (m_running m))) by reflexivity.
  assert (K4 : vkey V "app_blob" =
    inr (match m_blob m with Some b => JStr (b64encode (to_text b)) | None => JNull end)) by reflexivity.
  assert (K5 : vkey V "app_id" = inr (jopt (m_app m))) by reflexivity.
  assert (K0 : exists o, vdict V = inr o) by (eexists; reflexivity). destruct K0 as [o0 K0].
  rewrite K0. cbn [rbind]. rewrite K1. cbn [rbind]. rewrite vopt_jopt. cbn [rbind].
  rewrite K2. cbn [rbind vlist]. rewrite rmap_ok.
  2:{ intros x _. cbn. now rewrite of_to_text. }
  cbn [rbind]. rewrite K3. cbn [rbind]. rewrite vopt_jopt. cbn [rbind].
  assert (L2 : Nat.ltb version 2 = false) by (apply Nat.ltb_ge; lia).
  assert (L3 : Nat.ltb version 3 = false) by (apply Nat.ltb_ge; lia).
  rewrite L2, L3, K4. cbn [rbind].
  destruct (m_blob m) as [b|]; cbn [vopt rbind vstr].
  - rewrite vbase64_ok. cbn [rbind]. rewrite K5. cbn [rbind]. rewrite vopt_jopt. reflexivity.
  - rewrite K5. cbn [rbind]. rewrite vopt_jopt. reflexivity.
Qed.
