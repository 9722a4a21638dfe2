(** * Lemmas about checking units *)
From Coq Require Import QArith.
From Coq Require Import Ascii String List Bool Arith Lia.
From Verif Require Import ScanModel Rfc822Model XparseModel JsonModel DurationModel FieldsModel SiblingsModel ValidateModel ValidateSpec.
From Verif Require Import Rfc822Proofs IniProofs FieldsProps SiblingsProofs.
Import ListNotations.
Local Open Scope nat_scope.
Local Open Scope list_scope.

Definition clean (g : gen) : Prop := snd g = None /\ forall i, In i (fst g) -> i_sev i <> Error.

Lemma clean_quiet : clean quiet.
Proof. split; [reflexivity|intros i []]. Qed.
Lemma clean_raises : forall e, ~ clean (raises e).
Proof. intros e [H _]. discriminate. Qed.
Lemma clean_gapp : forall a b, clean (gapp a b) <-> clean a /\ clean b.
Proof.
  intros [la [e|]] [lb fb]; unfold clean; simpl.
  - split; [intros [H _]|intros [[H _] _]]; discriminate.
  - split.
    + intros [H K]. repeat split; auto; intros i Hi; apply K; apply in_or_app; auto.
    + intros [[_ K] [H L]]. split; auto. intros i Hi. apply in_app_or in Hi as [Hi|Hi]; auto.
Qed.
Lemma clean_gcat : forall l, clean (gcat l) <-> Forall clean l.
Proof.
  induction l; simpl.
  - split; auto using clean_quiet.
  - rewrite clean_gapp, IHl, Forall_cons_iff. reflexivity.
Qed.

Lemma among_spec : forall l t, among l t = true <-> In t l.
Proof.
  intros l t. unfold among. rewrite existsb_exists. split.
  - intros (x & I & E). apply text_eqb_eq in E. now subst.
  - intros I. exists t. split; auto. apply text_eqb_refl.
Qed.
Lemma one_of_spec : forall o l, one_of o l = true <-> exists t, o = Some t /\ In t l.
Proof.
  intros [t|] l; simpl.
  - rewrite among_spec. split; [eauto|]. intros (? & E & I). injection E as <-. auto.
  - split; [discriminate|]. intros (? & E & _). discriminate.
Qed.
Lemma is_spec : forall o w, is o w = true <-> o = Some w.
Proof.
  intros [t|] w; simpl; [|split; discriminate].
  rewrite text_eqb_eq. split; [now intros ->|now intros [=]].
Qed.
Lemma occurs_spec : forall pat t, occurs pat t = true <-> contains pat t.
Proof.
  intros pat. induction t as [|c t IH].
  - simpl. destruct pat as [|p pat]; simpl.
    + split; auto. intros _. now exists [], [].
    + split; [discriminate|]. intros (a & b & E). destruct a; discriminate.
  - cbn [occurs]. destruct (drop_prefix pat (c :: t)) as [r|] eqn:D.
    + split; auto. intros _. apply drop_prefix_spec in D. exists [], r. now rewrite D.
    + rewrite IH. split.
      * intros (a & b & ->). now exists (c :: a), b.
      * intros (a & b & E). destruct a as [|x a].
        -- simpl in E. assert (drop_prefix pat (c :: t) = Some b) by (apply drop_prefix_spec; auto). congruence.
        -- injection E as -> ->. now exists a, b.
Qed.
Lemma drop_underscores_spec : forall t, exists n, t = repeat "_"%char n ++ drop_underscores t /\ hd_error (drop_underscores t) <> Some "_"%char.
Proof.
  induction t as [|c t (n & E & H)]; simpl.
  - now exists 0.
  - destruct (Ascii.eqb c UNDERSCORE) eqn:D.
    + apply Ascii.eqb_eq in D as ->. exists (S n). simpl. split; auto. now rewrite <- E.
    + exists 0. simpl. split; auto. intros [= ->]. now rewrite Ascii.eqb_refl in D.
Qed.
Lemma drop_underscores_only : forall n t, hd_error t <> Some "_"%char -> drop_underscores (repeat "_"%char n ++ t) = t.
Proof.
  induction n; simpl; auto. intros [|c t] H; auto. simpl. destruct (Ascii.eqb c UNDERSCORE) eqn:D; auto.
  apply Ascii.eqb_eq in D as ->. now contradict H.
Qed.
Lemma has_colons_contains : forall t, has_colons t = true <-> contains (T "::") t.
Proof.
  intros t. rewrite <- occurs_spec. induction t as [|c t IH].
  - split; discriminate.
  - destruct t as [|d t].
    + cbn [has_colons occurs drop_prefix T list_ascii_of_string].
      rewrite (Ascii.eqb_sym ":" c). destruct (Ascii.eqb c ":"); split; discriminate.
    + change (has_colons (c :: d :: t)) with ((Ascii.eqb c ":" && Ascii.eqb d ":") || has_colons (d :: t)).
      rewrite orb_true_iff, andb_true_iff, IH.
      change (occurs (T "::") (c :: d :: t)) with
        (match (if Ascii.eqb ":" c then if Ascii.eqb ":" d then Some t else None else None) with
         | Some _ => true | None => occurs (T "::") (d :: t) end).
      rewrite (Ascii.eqb_sym ":" c), (Ascii.eqb_sym ":" d).
      destruct (Ascii.eqb c ":"), (Ascii.eqb d ":"); split; auto; intros [[A B]|A]; auto; discriminate.
Qed.

Lemma filter_one : forall {A} (p : A -> bool) l x,
  filter p l = [x] <-> exists a b, l = a ++ x :: b /\ p x = true /\ forall y, In y (a ++ b) -> p y = false.
Proof.
  intros A p l x. split.
  - induction l as [|y l IH]; simpl; [discriminate|]. destruct (p y) eqn:E.
    + intros [= -> H]. exists [], l. repeat split; auto. intros z I. simpl in I.
      destruct (p z) eqn:Z; auto. assert (In z (filter p l)) by (apply filter_In; auto). now rewrite H in *.
    + intros H. destruct (IH H) as (a & b & -> & X & N). exists (y :: a), b. repeat split; auto. intros z [<-|I]; auto.
  - intros (a & b & -> & X & N). rewrite filter_app. simpl. rewrite X.
    assert (Z : forall c, (forall y, In y c -> p y = false) -> filter p c = []).
    { induction c as [|y c IH]; simpl; auto. intros H. rewrite (H y) by auto. apply IH. auto. }
    rewrite (Z a), (Z b); auto; intros y I; apply N, in_or_app; auto.
Qed.
Lemma key_eqb_spec : forall a b, key_eqb a b = true <-> a = b.
Proof.
  intros [a|] [b|]; simpl; try (split; congruence). rewrite text_eqb_eq. split; congruence.
Qed.
Lemma gapp_quiet : forall g, gapp g quiet = g.
Proof. intros [l [e|]]; simpl; auto. now rewrite app_nil_r. Qed.
Lemma gapp_assoc : forall a b c, gapp (gapp a b) c = gapp a (gapp b c).
Proof.
  intros [la [|]] [lb [|]] [lc fc]; simpl; auto. now rewrite app_assoc.
Qed.
Lemma gcat_app : forall a b, gcat (a ++ b) = gapp (gcat a) (gcat b).
Proof.
  induction a; simpl; intros; [destruct (gcat b) as [l [|]]; reflexivity|]. now rewrite IHa, gapp_assoc.
Qed.

Section Proofs.
  Variable P : Type.
  Variable vformat : P -> text -> text + fault.
  Variable render : option P -> text -> text.
  Variable accessed : bool -> text -> list text + fault.
  Variable has_param : P -> text -> bool.
  Variable shlex : text -> option nat.
  Variable py_float : text -> option Q.
  Variable number_truth : text -> bool.
  Variable isfile : text -> bool.
  Variable data_path : unit_ P -> text -> text.
  Variable job_attribute : text -> bool.
  Variable program : unit_ P -> list text + fault.
  Variable imported : text -> list text + fault.
  Variable template_resource_id : unit_ P -> option text + fault.
  Variable filter_program : unit_ P -> bool + fault.

  Notation vunit := (vunit P).
  Notation value := (value P vformat render).
  Notation run := (run P vformat render accessed has_param shlex).
  Notation report := (report P vformat render).
  Notation id_of := (id_of P vformat render).
  Notation plugin_of := (plugin_of P vformat render).
  Notation job_validators :=
    (job_validators P vformat render py_float number_truth isfile data_path job_attribute program imported).

  (** All fields of the unit can be read, with any of the defaults the code asks for: parameters
      are inserted into defaults too *)
  Definition ordinary (val : text -> option text -> option text) (d : option text) : Prop :=
    In d [None; Some w_bash; Some w_unspecified; Some w_question; Some w_job; Some w_uncategorised;
          val k_name None; val k_id (val k_name None)].
  Ltac ord := unfold ordinary; cbn [In]; solve [repeat first [left; reflexivity | right]].
  Definition legible (u : vunit) (val : text -> option text -> option text) : Prop :=
    forall n d, ordinary val d -> value u n d = inl (val n d).

  Lemma legible_message : forall u val, legible u val -> message_fault P vformat render u = None.
  Proof.
    intros u val L. unfold message_fault, partial_id, rbind. destruct (v_cls P u); auto.
    - fold (value u k_name None). rewrite L by ord. fold (value u k_id (val k_name None)). now rewrite L by ord.
    - now rewrite L by ord.
  Qed.
  Lemma report_clean : forall u val o f k s n, legible u val -> (clean (report u o f k s n) <-> s <> Error).
  Proof.
    intros u val o f k s n L. unfold ValidateModel.report. rewrite (legible_message u val L). unfold clean. simpl. split.
    - intros [_ H]. exact (H _ (or_introl eq_refl)).
    - intros H. split; auto. intros i [<-|[]]. exact H.
  Qed.

  Section OneUnit.
    Variable u : vunit.
    Variable val : text -> option text -> option text.
    Hypothesis L : legible u val.

    Lemma legible_id : job_id P vformat render (v_unit P u) =
      inl match f_provider P (v_unit P u), val k_id (val k_name None) with
          | Some (ns, _), Some (c :: r) => Some (ns ++ ":"%char :: ":"%char :: c :: r)
          | _, i => i
          end.
    Proof.
      unfold job_id, partial_id, rbind. fold (value u k_name None). rewrite L by ord. fold (value u k_id (val k_name None)).
      rewrite L by ord. destruct (f_provider P (v_unit P u)) as [[ns tr]|]; auto. destruct (val k_id _) as [[|]|]; auto.
    Qed.
    Lemma legible_flags : flags_of P vformat render u = inl (match val k_flags None with Some t => resplit t | None => [] end).
    Proof. unfold flags_of, flag_set, words_of_field, rbind. fold (value u k_flags None). now rewrite L by ord. Qed.
    Lemma legible_plugin : plugin_of u =
      inl match val k_plugin None with
          | Some p => Some p
          | None => if existsb (text_eqb w_simple) (match val k_flags None with Some t => resplit t | None => [] end) then Some w_shell else None
          end.
    Proof.
      unfold ValidateModel.plugin_of, plugin, rbind. fold (value u k_plugin None). rewrite L by ord.
      fold (flags_of P vformat render u). rewrite legible_flags. destruct (val k_plugin None); auto.
    Qed.
    Lemma legible_description : val k_purpose None = None -> val k_steps None = None -> val k_verification None = None ->
      description_of P vformat render u = inl (val k_description None).
    Proof.
      intros A B C. unfold description_of, description, describe, rbind.
      fold (value u k_description None). rewrite L by ord. destruct (val k_description None); auto.
      unfold stages, rbind.
      fold (value u k_purpose None). fold (value u k_steps None). fold (value u k_verification None).
      rewrite !L, A, B, C by ord. reflexivity.
    Qed.
    Lemma legible_description' : exists d, description_of P vformat render u = inl d.
    Proof.
      unfold description_of, description, describe, rbind.
      fold (value u k_description None). rewrite L by ord. destruct (val k_description None); eauto.
      unfold stages, rbind.
      fold (value u k_purpose None). fold (value u k_steps None). fold (value u k_verification None).
      rewrite !L by ord. eauto.
    Qed.
    Lemma legible_summary : exists d, summary_of P vformat render u = inl d.
    Proof.
      unfold summary_of, summary, partial_id, rbind. fold (value u k_name None). rewrite L by ord.
      fold (value u k_id (val k_name None)). rewrite L by ord.
      match goal with |- context [record_value _ _ _ _ ?n ?d] => fold (value u n d) end. rewrite L by ord. eauto.
    Qed.

    (** *** One validator *)
    Lemma soft_correct : forall k s only jud f b r, s <> Error -> only u = inl b -> (b = true -> jud u = inl r) ->
      clean (run (Correct P k s only jud) u f).
    Proof.
      intros k s only jud f b r S O J. simpl. rewrite O. destruct b; [|apply clean_quiet].
      rewrite J by auto. destruct r as [[|]|]; try apply clean_quiet; now apply (report_clean u val).
    Qed.
    Lemma soft_correct' : forall k s only jud f, s <> Error -> (exists b, only u = inl b) -> (exists r, jud u = inl r) ->
      clean (run (Correct P k s only jud) u f).
    Proof. intros k s only jud f S (b & O) (r & J). eapply soft_correct; eauto. Qed.
    Lemma hard_correct : forall k only jud f b r, only u = inl b -> (b = true -> jud u = inl r) ->
      (clean (run (Correct P k Error only jud) u f) <-> (b = true -> r = inl true)).
    Proof.
      intros k only jud f b r O J. simpl. rewrite O. destruct b.
      - rewrite J by auto. destruct r as [[|]|].
        + split; auto using clean_quiet.
        + rewrite (report_clean u val) by exact L. split; [congruence|]. intros H. specialize (H eq_refl). discriminate.
        + rewrite (report_clean u val) by exact L. split; [congruence|]. intros H. specialize (H eq_refl). discriminate.
      - split; auto using clean_quiet. discriminate.
    Qed.
    Lemma clean_deprecated : forall f, clean (run (Deprecated_field P) u f).
    Proof.
      intros f. simpl. rewrite L by ord. destruct (val f None); [|apply clean_quiet].
      apply (report_clean u val); auto. discriminate.
    Qed.
    Lemma clean_translatable : forall f, clean (run (Translatable P) u f).
    Proof.
      intros f. simpl. destruct (v_virtual P u); [apply clean_quiet|]. rewrite L by ord. destruct (val f None); [|apply clean_quiet].
      destruct (translatable P (v_unit P u) f); [apply clean_quiet|]. apply (report_clean u val); auto. discriminate.
    Qed.
    Lemma clean_untranslatable : forall f, clean (run (Untranslatable P) u f).
    Proof.
      intros f. simpl. rewrite L by ord. destruct (_ && _); [|apply clean_quiet]. apply (report_clean u val); auto. discriminate.
    Qed.
    Lemma clean_invariant : forall f, clean (run (Invariant P) u (T f)) <->
      (f_params P (v_unit P u) <> None -> same_in_all_instances accessed (jinja P (v_unit P u)) (f_data P (v_unit P u)) f).
    Proof.
      intros f. simpl. unfold same_in_all_instances. destruct (f_params P (v_unit P u)) as [p|].
      - destruct (tget (T f) (f_data P (v_unit P u))) as [v|].
        + unfold parameters_used. destruct (accessed (jinja P (v_unit P u)) v) as [[|n l]|e] eqn:A.
          * split; auto using clean_quiet. intros _ _ w [= <-]. exact A.
          * rewrite (report_clean u val) by exact L. split; [congruence|]. intros H.
            specialize (H ltac:(discriminate) v eq_refl). congruence.
          * split; [intros H; now apply clean_raises in H|]. intros H. specialize (H ltac:(discriminate) v eq_refl). congruence.
        + split; auto using clean_quiet. discriminate.
      - split; auto using clean_quiet. congruence.
    Qed.
    Lemma clean_variant : forall f, clean (run (Variant P) u (T f)) <->
      (forall p, f_params P (v_unit P u) = Some p ->
         differs_by_parameters P accessed has_param (jinja P (v_unit P u)) p (f_data P (v_unit P u)) f).
    Proof.
      intros f. cbn [ValidateModel.run]. unfold differs_by_parameters. destruct (f_params P (v_unit P u)) as [p|].
      - destruct (tget (T f) (f_data P (v_unit P u))) as [v|].
        + unfold parameters_used. destruct (accessed (jinja P (v_unit P u)) v) as [[|n l]|e] eqn:A.
          * rewrite (report_clean u val) by exact L. split; [congruence|]. intros H.
            destruct (H p eq_refl v eq_refl) as (l & E & N & _). rewrite A in E. injection E as <-. congruence.
          * rewrite clean_gcat, Forall_map, Forall_forall. split.
            -- intros H q [= <-] w [= <-]. exists (n :: l). repeat split; auto; try discriminate. intros m I.
               specialize (H m I). cbv beta in H. destruct (has_param p m); auto. apply (report_clean u val) in H; first [exact L | congruence].
            -- intros H m I. destruct (H p eq_refl v eq_refl) as (l' & E & N & K). rewrite A in E. injection E as <-.
               cbv beta. rewrite K by exact I. apply clean_quiet.
          * split; [intros H; now apply clean_raises in H|]. intros H. destruct (H p eq_refl v eq_refl) as (l & E & _). congruence.
        + split; auto using clean_quiet. intros _ q _ w E. discriminate.
      - split; auto using clean_quiet. discriminate.
    Qed.
    Lemma clean_shell : forall name f, clean (run (Shell_program P (get P vformat render name)) u f) <->
      (forall c, val name None = Some c -> ~ contains (T "<<") c -> shlex c = None).
    Proof.
      intros name f. cbn [ValidateModel.run]. unfold get. rewrite L by ord. destruct (val name None) as [t|].
      - destruct (occurs w_heredoc t) eqn:O.
        + split; auto using clean_quiet. intros _ c [= <-] N. exfalso. apply N. now apply occurs_spec.
        + destruct (shlex t) as [n|] eqn:S.
          * rewrite (report_clean u val) by exact L. split; [congruence|]. intros H. exfalso.
            rewrite (H t eq_refl) in S; [discriminate|]. intros C. apply occurs_spec in C. change (T "<<") with w_heredoc in C. congruence.
          * split; auto using clean_quiet. intros _ c [= <-] _. exact S.
      - split; auto using clean_quiet. discriminate.
    Qed.

    (** *** The fields of a job *)
    Notation get := (get P vformat render).
    Notation judge := (judge P).
    Notation direct_refs := (direct_refs P vformat render).
    Notation after_refs := (after_refs P vformat render).
    Notation resource_refs := (resource_refs P vformat render program).
    Notation import_refs := (import_refs P vformat render imported).
    Notation plugin_in := (plugin_in P vformat render).
    Notation given := (given P vformat render).
    Notation absent := (absent P vformat render).
    Notation qml_of := (qml_of P vformat render data_path).
    Notation duration_of := (duration_of P vformat render py_float).
    Notation always := (always P).
    Variable pl : option text.
    Hypothesis HP : plugin_of u = inl pl.

    Lemma parses_clean : forall k refs, clean (run (Correct P Wrong Error always (judge (get k) (fun _ => parses P refs))) u k) <->
      (exists l, refs u = inl l).
    Proof.
      intros k refs. rewrite (hard_correct _ _ _ _ true (parses P refs u)); [|reflexivity|].
      - unfold parses, rbind. destruct (refs u); split; eauto.
        + intros H. specialize (H eq_refl). discriminate.
        + intros [l [=]].
      - intros _. unfold ValidateModel.judge, ValidateModel.get. now rewrite L by ord.
    Qed.
    Lemma requires_clean : clean (run (Correct P Wrong Error (not_ P (absent k_requires)) (judge (get k_requires) (fun _ => parses P resource_refs))) u k_requires) <->
      (exists l, resource_refs u = inl l).
    Proof.
      rewrite (hard_correct _ _ _ _ (present (val k_requires None)) (parses P resource_refs u)).
      - unfold parses, ValidateModel.resource_refs, rbind. rewrite !L by ord. destruct (val k_requires None); simpl.
        + destruct (program (v_unit P u)); split; eauto.
          * intros H. specialize (H eq_refl). discriminate.
          * intros [l [=]].
        + split; eauto.
      - unfold not_, ValidateModel.absent, ValidateModel.get, rbind. rewrite L by ord. now rewrite negb_involutive.
      - intros _. unfold ValidateModel.judge, ValidateModel.get. now rewrite L by ord.
    Qed.
    Lemma member_clean : forall l g f v, g u = inl v -> (clean (run (Member_of P l g) u f) <-> exists t, v = Some t /\ In t l).
    Proof.
      intros l g f v G. unfold Member_of.
      rewrite (hard_correct _ _ _ _ true (inl (one_of v l))); [|reflexivity|intros _; unfold ValidateModel.judge; now rewrite G].
      rewrite <- one_of_spec. split.
      - intros H. specialize (H eq_refl). now injection H.
      - now intros ->.
    Qed.
    Lemma present_clean : forall only b g f v, only u = inl b -> g u = inl v ->
      (clean (run (Present_field P Error only g) u f) <-> (b = true -> v <> None)).
    Proof.
      intros only b g f v O G. unfold Present_field.
      rewrite (hard_correct _ _ _ _ b (inl (present v)) O); [|intros _; unfold ValidateModel.judge; now rewrite G].
      destruct v; simpl; split; intros H B; specialize (H B); auto; try discriminate. now contradict H.
    Qed.
    Lemma command_only : not_ P (plugin_in [w_manual_plugin; w_qml]) u = inl (negb (one_of pl [w_manual_plugin; w_qml])).
    Proof. unfold not_, ValidateModel.plugin_in, rbind. now rewrite HP. Qed.
    Lemma command_clean : clean (run (Present_field P Error (not_ P (plugin_in [w_manual_plugin; w_qml])) (get k_command)) u k_command) <->
      (pl <> Some (T "manual") -> pl <> Some (T "qml") -> val k_command None <> None).
    Proof.
      rewrite (present_clean _ _ _ _ _ command_only (L k_command None ltac:(ord))).
      rewrite negb_true_iff, <- not_true_iff_false, one_of_spec. split.
      - intros H A B. apply H. intros (t & E & [<- | [<- | []]]); auto.
      - intros H N. apply H; intros E; apply N; eexists; (split; [exact E|]); simpl; auto.
    Qed.
    Lemma description_clean : clean (run (Present_field P Error (and_ P (plugin_in [w_manual_plugin]) (no_stages P vformat render)) (description_of P vformat render)) u k_description) <->
      (pl = Some (T "manual") -> exists f, In f ["description"; "purpose"; "steps"; "verification"]%string /\ val (T f) None <> None).
    Proof.
      destruct legible_description' as (d & D).
      assert (O : and_ P (plugin_in [w_manual_plugin]) (no_stages P vformat render) u =
        inl (one_of pl [w_manual_plugin] && (negb (present (val k_purpose None)) && (negb (present (val k_steps None)) && negb (present (val k_verification None)))))).
      { unfold and_, no_stages, and_, ValidateModel.plugin_in, ValidateModel.absent, ValidateModel.get, rbind. rewrite HP, !L by ord.
        destruct (one_of pl [w_manual_plugin]), (present (val k_purpose None)), (present (val k_steps None)), (present (val k_verification None)); reflexivity. }
      rewrite (present_clean _ _ _ _ _ O D). rewrite !andb_true_iff, !negb_true_iff, one_of_spec. split.
      - intros H E.
        destruct (val k_purpose None) eqn:A1; [exists "purpose"%string; split; [simpl; tauto|]; change (T "purpose") with k_purpose; congruence|].
        destruct (val k_steps None) eqn:A2; [exists "steps"%string; split; [simpl; tauto|]; change (T "steps") with k_steps; congruence|].
        destruct (val k_verification None) eqn:A3; [exists "verification"%string; split; [simpl; tauto|]; change (T "verification") with k_verification; congruence|].
        exists "description"%string. split; [simpl; tauto|]. change (T "description") with k_description.
        rewrite legible_description in D by auto. injection D as ->. apply H. split; auto.
        exists w_manual_plugin. split; auto. now left.
      - intros H ((t & E & [<-|[]]) & A1 & A2 & A3). destruct (H E) as (f & I & N).
        assert (val k_purpose None = None) by (destruct (val k_purpose None); auto; discriminate).
        assert (val k_steps None = None) by (destruct (val k_steps None); auto; discriminate).
        assert (val k_verification None = None) by (destruct (val k_verification None); auto; discriminate).
        rewrite legible_description in D by auto. injection D as <-.
        destruct I as [<-|[<-|[<-|[<-|[]]]]]; auto; contradiction.
    Qed.
    Lemma given_is : forall k, given k u = inl (truthy (val k None)).
    Proof. intros k. unfold ValidateModel.given, ValidateModel.get, rbind. now rewrite L by ord. Qed.
    Lemma truthy_spec : forall o, truthy o = true <-> exists t, o = Some t /\ t <> [].
    Proof.
      intros [[|c t]|]; simpl; split; auto; try (intros [=]; fail).
      - intros (t & [= <-] & N). now contradict N.
      - intros _. eexists. split; eauto. discriminate.
      - intros (t & [=] & _).
    Qed.
    Lemma duration_clean :
      clean (run (Correct P Wrong Error (given k_duration)
           (judge duration_of (fun v _ => match v with Some q => inl (negb (Qle_bool q 0)) | None => inr Other_error end))) u k_duration) <->
      (forall d, val k_duration None = Some d -> d <> [] -> exists q, estimated_duration py_float (Some d) = Some q /\ (0 < q)%Q).
    Proof.
      rewrite (hard_correct _ _ _ _ _ (match estimated_duration py_float (val k_duration None) with Some q => inl (negb (Qle_bool q 0)) | None => inr Other_error end) (given_is _)).
      - rewrite truthy_spec. split.
        + intros H d E N. specialize (H (ex_intro _ d (conj E N))). rewrite E in H.
          destruct (estimated_duration py_float (Some d)) as [q|]; [|discriminate]. exists q. split; auto.
          injection H as H. apply negb_true_iff in H. apply Qnot_le_lt. intros C. apply Qle_bool_iff in C. congruence.
        + intros H (d & E & N). destruct (H d E N) as (q & Q & G). rewrite E, Q. f_equal. apply negb_true_iff.
          apply not_true_iff_false. intros C. apply Qle_bool_iff in C. apply Qle_not_lt in C. contradiction.
      - intros _. unfold ValidateModel.judge, ValidateModel.duration_of, ValidateModel.get, rbind. now rewrite L by ord.
    Qed.
    Lemma user_clean :
      clean (run (Correct P Wrong Error always (judge (get k_user) (fun v _ => inl match v with Some t => text_eqb t w_root | None => true end))) u k_user) <->
      (val k_user None = None \/ val k_user None = Some (T "root")).
    Proof.
      rewrite (hard_correct _ _ _ _ true (inl match val k_user None with Some t => text_eqb t w_root | None => true end)); [|reflexivity|].
      - destruct (val k_user None) as [t|]; [|tauto]. split.
        + intros H. specialize (H eq_refl). injection H as H. apply text_eqb_eq in H as ->. now right.
        + intros [[=]|[= ->]]. reflexivity.
      - intros _. unfold ValidateModel.judge, ValidateModel.get. now rewrite L by ord.
    Qed.
    Variable q : option text.
    Hypothesis HQ : qml_of u = inl q.
    Lemma plugin_in_is : forall l, plugin_in l u = inl (one_of pl l).
    Proof. intros l. unfold ValidateModel.plugin_in, rbind. now rewrite HP. Qed.
    Lemma qml_only : and_ P (plugin_in [w_qml]) (fun u => rbind (qml_of u) (fun q => inl (truthy q))) u = inl (one_of pl [w_qml] && truthy q).
    Proof. unfold and_, rbind. rewrite plugin_in_is, HQ. destruct (one_of pl [w_qml]); reflexivity. Qed.
    Lemma qml_clean :
      clean (run (Present_field P Error (plugin_in [w_qml]) qml_of) u k_qml) /\
      clean (run (Correct P Wrong Error (and_ P (plugin_in [w_qml]) (fun u => rbind (qml_of u) (fun q => inl (truthy q))))
           (judge qml_of (fun v _ => match v with Some t => inl (isfile t) | None => inr Other_error end))) u k_qml) <->
      (pl = Some (T "qml") -> exists f, q = Some f /\ (f <> [] -> isfile f = true)).
    Proof.
      rewrite (present_clean _ _ _ _ _ (plugin_in_is _) HQ).
      rewrite (hard_correct _ _ _ _ _ (match q with Some t => inl (isfile t) | None => inr Other_error end) qml_only);
        [|intros _; unfold ValidateModel.judge; now rewrite HQ].
      rewrite andb_true_iff, truthy_spec, one_of_spec. split.
      - intros [A B] E. assert (X : exists t, pl = Some t /\ In t [w_qml]) by (exists w_qml; split; auto; now left).
        specialize (A X). destruct q as [f|]; [|congruence]. exists f. split; auto. intros N.
        specialize (B (conj X (ex_intro _ f (conj eq_refl N)))). now injection B.
      - intros H. split.
        + intros (t & E & [<-|[]]). destruct (H E) as (f & -> & _). discriminate.
        + intros [(t & E & [<-|[]]) (f & -> & N)]. destruct (H E) as (f' & [= <-] & K). now rewrite K.
    Qed.
    Notation sib f := (Correct P Syntax_error Error (given k_siblings) (judge (get k_siblings) (fun v _ => f v))).
    Lemma loaded_clean : forall k f, clean (run (Correct P k Error (given k_siblings) (judge (get k_siblings) (fun v _ => loaded f v))) u k_siblings) <->
      (forall s, val k_siblings None = Some s -> s <> [] -> exists j, loads s = Some j /\ f j = inl true).
    Proof.
      intros k f. rewrite (hard_correct _ _ _ _ _ (loaded f (val k_siblings None)) (given_is _));
        [|intros _; unfold ValidateModel.judge, ValidateModel.get; now rewrite L by ord].
      rewrite truthy_spec. unfold loaded. split.
      - intros H s E N. specialize (H (ex_intro _ s (conj E N))). rewrite E in H. destruct (loads s); eauto. discriminate.
      - intros H (s & E & N). destruct (H s E N) as (j & J & F). now rewrite E, J.
    Qed.
    Lemma siblings_clean :
      clean (run (Correct P Syntax_error Error (given k_siblings) (judge (get k_siblings) (fun v _ => loaded (fun j => inl (json_truth number_truth j)) v))) u k_siblings) /\
      clean (run (Correct P Syntax_error Error (given k_siblings) (judge (get k_siblings) (fun v _ => loaded (fun j => inl match j with JList _ => true | _ => false end) v))) u k_siblings) /\
      clean (run (Correct P Syntax_error Error (given k_siblings) (judge (get k_siblings) (fun v _ => loaded all_dicts v))) u k_siblings) /\
      clean (run (Correct P Bad_reference Error (given k_siblings) (judge (get k_siblings) (fun v _ => loaded (known_keys job_attribute) v))) u k_siblings) <->
      (forall s, val k_siblings None = Some s -> s <> [] ->
        exists l, loads s = Some (JList l) /\ l <> [] /\
        forall o, In o l -> exists kvs, o = JObj kvs /\
          forall n name v, In (repeat "_"%char n ++ name, v) kvs -> hd_error name <> Some "_"%char -> job_attribute name = true).
    Proof.
      rewrite !loaded_clean. split.
      - intros (A & B & C & D) s E N. destruct (A s E N) as (j & J & At), (B s E N) as (j2 & J2 & Bt), (C s E N) as (j3 & J3 & Ct), (D s E N) as (j4 & J4 & Dt).
        assert (j2 = j) by congruence. assert (j3 = j) by congruence. assert (j4 = j) by congruence. subst j2 j3 j4.
        destruct j as [| | | |l|]; try discriminate. exists l. split; auto. split; [intros ->; discriminate|].
        simpl in Ct, Dt. injection Ct as Ct. rewrite Ct in Dt. injection Dt as Dt.
        rewrite forallb_forall in Ct, Dt. intros o I. specialize (Ct o I). specialize (Dt o I).
        destruct o as [| | | | |kvs]; try discriminate. exists kvs. split; auto. intros n name v K H.
        rewrite forallb_forall in Dt. specialize (Dt _ K). simpl in Dt. now rewrite drop_underscores_only in Dt.
      - intros H.
        assert (X : forall s, val k_siblings None = Some s -> s <> [] -> exists l, loads s = Some (JList l) /\ l <> [] /\ forallb is_dict l = true /\
          forallb (fun s => match s with JObj kvs => forallb (fun kv => job_attribute (drop_underscores (fst kv))) kvs | _ => true end) l = true).
        { intros s E N. destruct (H s E N) as (l & J & Nl & K). exists l. split; auto. split; auto. rewrite !forallb_forall. split.
          - intros o I. destruct (K o I) as (kvs & -> & _). reflexivity.
          - intros o I. destruct (K o I) as (kvs & -> & Z). rewrite forallb_forall. intros [k v] Ik. simpl.
            destruct (drop_underscores_spec k) as (n & Ek & Hd). apply (Z n _ v); auto. now rewrite <- Ek. }
        repeat split; intros s E N; destruct (X s E N) as (l & J & Nl & D & K); exists (JList l); split; auto; simpl.
        + destruct l; auto; congruence.
        + now rewrite D.
        + now rewrite D, K.
    Qed.
    Variable i : option text.
    Hypothesis HI : id_of u = Some (inl i).
    Lemma id_present_clean : clean (run (Present_field P Error always (id_attribute P vformat render)) u k_id) <-> i <> None.
    Proof.
      rewrite (present_clean _ true _ _ i); [intuition|reflexivity|]. unfold id_attribute. now rewrite HI.
    Qed.
    Lemma id_colons_clean :
      clean (run (Correct P Wrong Error (fun u => rbind (value u k_id None) (fun v => inl (truthy v)))
       (judge (id_attribute P vformat render) (fun _ u => rbind (value u k_id None) (fun v =>
          match v with Some t => inl (negb (has_colons t)) | None => inr Other_error end)))) u k_id) <->
      (forall t, val k_id None = Some t -> ~ contains (T "::") t).
    Proof.
      rewrite (hard_correct _ _ _ _ (truthy (val k_id None)) (match val k_id None with Some t => inl (negb (has_colons t)) | None => inr Other_error end)).
      - rewrite truthy_spec. split.
        + intros H t E. destruct t as [|c t].
          * intros (a & b & X). destruct a; discriminate.
          * assert (N : c :: t <> []) by discriminate. specialize (H (ex_intro _ _ (conj E N))). rewrite E in H.
            intros C. apply has_colons_contains in C. rewrite C in H. discriminate.
        + intros H (t & E & N). rewrite E. f_equal. apply negb_true_iff. apply not_true_iff_false. rewrite has_colons_contains. auto.
      - unfold rbind. now rewrite L by ord.
      - intros _. unfold ValidateModel.judge, id_attribute. rewrite HI. unfold rbind. now rewrite L by ord.
    Qed.
  End OneUnit.

  (** *** The whole table of a job *)
  Definition opt (r : list text + fault) : option (list text) := match r with inl l => Some l | inr _ => None end.
  Lemma opt_some : forall r, opt r <> None <-> exists l, r = inl l.
  Proof. intros [l|e]; simpl; (split; [intros H|intros [x H]]); eauto; congruence. Qed.

  (** What is seen of a job is what its attributes and methods give *)
  Record sees (u : vunit) (w : view) : Prop := {
    sees_field : legible u (see_field w);
    sees_id : id_of u = Some (inl (see_id w));
    sees_plugin : plugin_of u = inl (see_plugin w);
    sees_qml : qml_of P vformat render data_path u = inl (see_qml w);
    sees_direct : see_direct w = opt (direct_refs P vformat render u);
    sees_after : see_after w = opt (after_refs P vformat render u);
    sees_resources : see_resources w = opt (resource_refs P vformat render program u);
    sees_imports : see_imports w = opt (import_refs P vformat render imported u);
    sees_category : see_category w = opt (category_refs P vformat render u)
  }.

  Definition table_clean (t : list (text * list (validator P))) (u : vunit) : Prop :=
    Forall (fun fv => Forall (fun v => clean (run v u (fst fv))) (snd fv)) t.
  Lemma table_clean_spec : forall t u, clean (gcat (map (fun fv => gcat (map (fun v => run v u (fst fv)) (snd fv))) t)) <-> table_clean t u.
  Proof.
    intros t u. unfold table_clean. rewrite clean_gcat, Forall_map. rewrite !Forall_forall. split; intros H fv I; specialize (H fv I).
    - rewrite clean_gcat, Forall_map in H. exact H.
    - rewrite clean_gcat, Forall_map. exact H.
  Qed.

  Local Opaque ValidateModel.run.
  Lemma job_table_clean : forall u w, sees u w ->
    (table_clean job_validators u <->
     well_formed P accessed has_param shlex py_float isfile job_attribute
       (jinja P (v_unit P u)) (f_params P (v_unit P u)) (f_data P (v_unit P u)) w).
  Proof.
    intros u w S. pose proof (sees_field _ _ S) as L. pose proof (sees_plugin _ _ S) as HP.
    pose proof (sees_qml _ _ S) as HQ. pose proof (sees_id _ _ S) as HI.
    destruct (legible_description' u _ L) as (ds & DS). destruct (legible_summary u _ L) as (sm & SM).
    pose proof (legible_flags u _ L) as HF.
    unfold table_clean, ValidateModel.job_validators, id_validators, unit_validators, no_command.
    split.
    - intros H. repeat (apply Forall_cons_iff in H as [? H]). cbn [fst snd] in *.
      repeat match goal with H : Forall _ (_ :: _) |- _ => apply Forall_cons_iff in H as [? ?] end.
      constructor.
      + now apply (id_present_clean u _ L _ HI).
      + now apply (id_colons_clean u _ L _ HI).
      + now apply (member_clean u _ L plugins _ k_plugin _ HP).
      + now apply (command_clean u _ L _ HP).
      + now apply (clean_shell u _ L k_command k_command).
      + now apply (description_clean u _ L _ HP).
      + now apply (user_clean u _ L).
      + now apply (duration_clean u _ L).
      + now apply (member_clean u _ L shells (shell_of P vformat render) k_shell _ (L k_shell (Some w_bash) ltac:(ord))).
      + now apply (member_clean u _ L statuses (cert_of P vformat render) k_cert_field _ (L k_cert (Some w_unspecified) ltac:(ord))).
      + now apply (member_clean u _ L retries (retry_of P vformat render) k_retry_field _ (L k_retry (Some w_unspecified) ltac:(ord))).
      + apply (qml_clean u _ L _ HP _ HQ). split; assumption.
      + apply (siblings_clean u _ L). split; [|split; [|split]]; assumption.
      + rewrite (sees_direct _ _ S). apply opt_some. eapply (parses_clean u _ L k_depends); eassumption.
      + rewrite (sees_after _ _ S). apply opt_some. eapply (parses_clean u _ L k_after); eassumption.
      + rewrite (sees_resources _ _ S). apply opt_some. eapply (requires_clean u _ L); eassumption.
      + rewrite (sees_imports _ _ S). apply opt_some. eapply (parses_clean u _ L k_imports); eassumption.
      + intros N f I. simpl in I.
        repeat destruct I as [<-|I]; [..|contradiction]; apply (clean_invariant u _ L); auto.
      + intros p N f I. simpl in I.
        repeat destruct I as [<-|I]; [..|contradiction]; revert p N; apply (clean_variant u _ L); auto.
    - intros W.
      assert (HV : forall f, In f ["id"; "name"; "summary"; "description"]%string -> clean (run (Variant P) u (T f))).
      { intros f I. apply (clean_variant u _ L). intros p E. apply (wf_variant _ _ _ _ _ _ _ _ _ _ _ W p E f I). }
      assert (HN : forall f, In f ["plugin"; "user"; "environ"; "estimated_duration"; "shell"; "imports"; "category_id"; "flags"; "qml_file";
            "certification_status"; "auto_retry"; "unit"]%string -> clean (run (Invariant P) u (T f))).
      { intros f I. apply (clean_invariant u _ L). intros E. apply (wf_invariant _ _ _ _ _ _ _ _ _ _ _ W E f I). }
      pose proof (proj2 (qml_clean u _ L _ HP _ HQ) (wf_qml _ _ _ _ _ _ _ _ _ _ _ W)) as [Q1 Q2].
      pose proof (proj2 (siblings_clean u _ L) (wf_siblings _ _ _ _ _ _ _ _ _ _ _ W)) as (S1 & S2 & S3 & S4).
      repeat (apply Forall_cons; [cbn [fst snd]; repeat (apply Forall_cons); try apply Forall_nil|]); try apply Forall_nil;
      try apply (clean_untranslatable u _ L); try apply (clean_translatable u _ L); try apply (clean_deprecated u _ L);
      try assumption;
      try (match goal with |- clean (run (Invariant P) u ?k) =>
             first [apply (HN "plugin"%string) | apply (HN "user"%string) | apply (HN "environ"%string) | apply (HN "estimated_duration"%string)
                   |apply (HN "shell"%string) | apply (HN "imports"%string) | apply (HN "category_id"%string) | apply (HN "flags"%string)
                   |apply (HN "qml_file"%string) | apply (HN "certification_status"%string) | apply (HN "auto_retry"%string) | apply (HN "unit"%string)]; simpl; tauto end);
      try (match goal with |- clean (run (Variant P) u ?k) =>
             first [apply (HV "id"%string) | apply (HV "name"%string) | apply (HV "summary"%string) | apply (HV "description"%string)]; simpl; tauto end);
      try exact clean_quiet.
      all: try (eapply (soft_correct u _ L); [discriminate
        |unfold Present_field, Useless_field, and_, or_, not_, no_stages, and_, not_, plugin_in, absent, given, flagged, get, rbind, always; rewrite ?HP, ?HF, ?HQ; repeat rewrite L by ord; 
         repeat (match goal with |- context [if ?b then _ else _] => destruct b end); cbv beta iota; reflexivity
        |intros _; unfold judge, get, rbind, qml_of, duration_of, get, rbind; rewrite ?HP, ?HF, ?HQ, ?DS, ?SM; repeat rewrite L by ord; rewrite ?DS, ?SM; reflexivity]; fail).
      + apply (parses_clean u _ L k_after), opt_some. rewrite <- (sees_after _ _ S). apply (wf_after _ _ _ _ _ _ _ _ _ _ _ W).
      + apply (member_clean u _ L retries (retry_of P vformat render) k_retry_field _ (L k_retry (Some w_unspecified) ltac:(ord))), (wf_retry _ _ _ _ _ _ _ _ _ _ _ W).
      + apply (member_clean u _ L statuses (cert_of P vformat render) k_cert_field _ (L k_cert (Some w_unspecified) ltac:(ord))), (wf_status _ _ _ _ _ _ _ _ _ _ _ W).
      + apply (command_clean u _ L _ HP), (wf_command _ _ _ _ _ _ _ _ _ _ _ W).
      + apply (clean_shell u _ L k_command k_command), (wf_command_lexes _ _ _ _ _ _ _ _ _ _ _ W).
      + apply (parses_clean u _ L k_depends), opt_some. rewrite <- (sees_direct _ _ S). apply (wf_direct _ _ _ _ _ _ _ _ _ _ _ W).
      + apply (description_clean u _ L _ HP), (wf_description _ _ _ _ _ _ _ _ _ _ _ W).
      + apply (soft_correct' u _ L); [discriminate| |].
        * unfold and_, no_stages, and_, not_, plugin_in, absent, flagged, get, rbind. rewrite HP, HF, !L by ord.
          repeat (match goal with |- context [if ?b then _ else _] => destruct b end); eauto.
        * unfold judge. rewrite DS. eauto.
      + apply (duration_clean u _ L), (wf_duration _ _ _ _ _ _ _ _ _ _ _ W).
      + apply (id_present_clean u _ L _ HI), (wf_id _ _ _ _ _ _ _ _ _ _ _ W).
      + apply (id_colons_clean u _ L _ HI), (wf_no_namespace _ _ _ _ _ _ _ _ _ _ _ W).
      + apply (parses_clean u _ L k_imports), opt_some. rewrite <- (sees_imports _ _ S). apply (wf_imports _ _ _ _ _ _ _ _ _ _ _ W).
      + apply (present_clean u _ L _ true _ _ _ eq_refl HP). intros _. destruct (wf_plugin _ _ _ _ _ _ _ _ _ _ _ W) as (p & -> & _). discriminate.
      + apply (member_clean u _ L plugins _ k_plugin _ HP), (wf_plugin _ _ _ _ _ _ _ _ _ _ _ W).
      + apply (soft_correct' u _ L); [discriminate| |].
        * unfold and_, plugin_in, absent, get, rbind. rewrite HP, !L by ord. destruct (one_of (see_plugin w) _); eauto.
        * unfold judge, get. rewrite L by ord. eauto.
      + apply (soft_correct' u _ L); [discriminate| |].
        * unfold and_, plugin_in, rbind. rewrite HP, HQ. destruct (one_of (see_plugin w) _); eauto.
        * unfold judge. rewrite HQ. eauto.
      + apply (requires_clean u _ L), opt_some. rewrite <- (sees_resources _ _ S). apply (wf_resources _ _ _ _ _ _ _ _ _ _ _ W).
      + apply (member_clean u _ L shells (shell_of P vformat render) k_shell _ (L k_shell (Some w_bash) ltac:(ord))), (wf_shell _ _ _ _ _ _ _ _ _ _ _ W).
      + apply (soft_correct' u _ L); [discriminate| |].
        * unfold always. eauto.
        * unfold judge, unit_of. destruct (v_cls P u); rewrite ?L by ord; eauto.
      + apply (user_clean u _ L), (wf_user _ _ _ _ _ _ _ _ _ _ _ W).
  Qed.
  Local Transparent ValidateModel.run.

  (** ** Units together *)
  Notation context := (context P).
  Notation vmap := (vmap P).
  Notation value_map := (value_map P vformat render).
  Notation mget := (mget P).
  Notation run_in_context := (run_in_context P vformat render).
  Notation unit_of := (unit_of P vformat render).

  Definition has_key (k : option text) (x : vunit) : bool := match id_of x with Some (inl i) => key_eqb i k | _ => false end.
  Definition joined (a : option (list vunit)) (b : list vunit) : option (list vunit) :=
    match a, b with
    | None, [] => None
    | None, b => Some b
    | Some a, b => Some (a ++ b)
    end.
  Lemma mget_madd : forall m k k' u, mget k (madd P k' u m) = if key_eqb k k' then joined (mget k m) [u] else mget k m.
  Proof.
    induction m as [|[k0 l] m IH]; intros k k' u; simpl.
    - destruct (key_eqb k k'); reflexivity.
    - destruct (key_eqb k' k0) eqn:E.
      + apply key_eqb_spec in E as ->. simpl. destruct (key_eqb k k0); reflexivity.
      + simpl. rewrite IH. destruct (key_eqb k k0) eqn:F; auto. apply key_eqb_spec in F as ->.
        destruct (key_eqb k0 k') eqn:G; auto. apply key_eqb_spec in G as ->.
        assert (key_eqb k' k' = true) by now apply key_eqb_spec. congruence.
  Qed.
  Lemma value_map_get : forall us m0 m k, value_map m0 us = inl m -> mget k m = joined (mget k m0) (filter (has_key k) us).
  Proof.
    induction us as [|u us IH]; simpl; intros m0 m k H.
    - injection H as <-. destruct (mget k m0); simpl; auto. now rewrite app_nil_r.
    - destruct (id_of u) as [[i|e]|] eqn:E; try discriminate.
      + rewrite (IH _ _ k H), mget_madd.
        assert (X : has_key k u = key_eqb k i).
        { unfold has_key. rewrite E. destruct (key_eqb k i) eqn:F.
          - apply key_eqb_spec in F as ->. now apply key_eqb_spec.
          - apply not_true_iff_false. intros C. apply key_eqb_spec in C as ->.
            assert (key_eqb k k = true) by now apply key_eqb_spec. congruence. }
        rewrite X. destruct (key_eqb k i); auto. destruct (mget k m0); simpl; auto. now rewrite <- app_assoc.
      + rewrite (IH _ _ k H). assert (X : has_key k u = false) by (unfold has_key; now rewrite E). now rewrite X.
  Qed.
  Lemma value_map_ok : forall us, (forall x, In x us -> exists val, legible x val) -> forall m0, exists m, value_map m0 us = inl m.
  Proof.
    induction us as [|u us IH]; simpl; intros H m0; eauto.
    assert (X : id_of u = None \/ exists i, id_of u = Some (inl i)).
    { destruct (H u (or_introl eq_refl)) as (val & L). unfold ValidateModel.id_of. destruct (v_cls P u); auto; right.
      - rewrite (legible_id u val L). eauto.
      - unfold template_id, rbind. rewrite L by ord. eauto.
      - unfold named_id, rbind. rewrite L by ord. eauto. }
    destruct X as [->|(i & ->)]; apply IH; auto.
  Qed.

  Definition told (m : vmap) (v : validator P) (u : vunit) (field : text) : gen :=
    fst (run_in_context v u field (mk_context P [] (Some m))).
  Definition good (c : context) (m : vmap) : Prop :=
    value_map [] (c_units P c) = inl m /\ (c_cache P c = None \/ c_cache P c = Some m).
  Lemma run_in_context_told : forall v u f c m, good c m -> exists c',
    run_in_context v u f c = (told m v u f, c') /\ good c' m /\ c_units P c' = c_units P c.
  Proof.
    intros v u f [us ca] m [V C]. simpl in *. unfold told, ValidateModel.run_in_context, compute_shared. simpl.
    destruct v; try (exists (mk_context P us ca); simpl; repeat split; auto; fail).
    - destruct C as [-> | ->].
      + rewrite V. eexists. split; [reflexivity|]. repeat split; simpl; auto.
      + eexists. split; [reflexivity|]. repeat split; simpl; auto.
    - destruct C as [-> | ->].
      + rewrite V. eexists. split; [reflexivity|]. repeat split; simpl; auto.
      + eexists. split; [reflexivity|]. repeat split; simpl; auto.
  Qed.
  Lemma run_all_told : forall l u c m, good c m -> exists c',
    run_all P vformat render l u c = (gcat (map (fun fv => told m (snd fv) u (fst fv)) l), c') /\ good c' m /\ c_units P c' = c_units P c.
  Proof.
    induction l as [|[f v] l IH]; intros u c m G; simpl.
    - exists c. auto.
    - destruct (run_in_context_told v u f c m G) as (c1 & -> & G1 & U1).
      destruct (told m v u f) as [is_ [e|]]; simpl.
      + exists c1. auto.
      + destruct (IH u c1 m G1) as (c2 & -> & G2 & U2). exists c2. rewrite U2. auto.
  Qed.

  Lemma key_refl : forall k, key_eqb k k = true.
  Proof. intros k. now apply key_eqb_spec. Qed.
  Lemma has_key_spec : forall k x, has_key k x = true <-> id_of x = Some (inl k).
  Proof.
    intros k x. unfold has_key. destruct (id_of x) as [[i|]|]; try (split; discriminate). rewrite key_eqb_spec. split; congruence.
  Qed.
  Definition identifier (x : vunit) : option (option text) := match id_of x with Some (inl i) => Some i | _ => None end.
  Definition kind (x : vunit) : option text := match unit_of x with inl v => v | inr _ => None end.
  Definition plug (x : vunit) : option text := match plugin_of x with inl v => v | inr _ => None end.
  Lemma identifier_spec : forall k x, identifier x = Some k <-> has_key k x = true.
  Proof.
    intros k x. rewrite has_key_spec. unfold identifier. destruct (id_of x) as [[i|]|]; split; congruence.
  Qed.
  Lemma only_one_spec : forall all k x, the_only_one vunit identifier all k x <-> filter (has_key k) all = [x].
  Proof.
    intros all k x. rewrite filter_one. unfold the_only_one. split; intros (a & b & E & I & N); exists a, b; repeat split; auto.
    - now apply identifier_spec.
    - intros y Y. apply not_true_iff_false. rewrite <- identifier_spec. auto.
    - now apply identifier_spec.
    - intros y Y C. apply identifier_spec in C. rewrite N in C; auto. discriminate.
  Qed.

  Section Together.
    Variable all : list vunit.
    Variable m : vmap.
    Hypothesis LA : forall x, In x all -> exists val, legible x val.
    Hypothesis HM : value_map [] all = inl m.
    Variable u : vunit.
    Variable val : text -> option text -> option text.
    Hypothesis L : legible u val.

    Lemma mget_all : forall k, mget k m = match filter (has_key k) all with [] => None | l => Some l end.
    Proof. intros k. rewrite (value_map_get all [] m k HM). simpl. destruct (filter _ all); reflexivity. Qed.

    Lemma unique_clean : forall i f, In u all -> id_of u = Some (inl i) ->
      (clean (told m (Unique_value P) u f) <-> the_only_one vunit identifier all i u).
    Proof.
      intros i f I E. rewrite only_one_spec. unfold told. simpl. rewrite E, mget_all.
      assert (K : In u (filter (has_key i) all)) by (apply filter_In; split; auto; now apply has_key_spec).
      destruct (filter (has_key i) all) as [|x [|y l]]; [contradiction|..]; simpl.
      - destruct K as [->|[]]. split; auto using clean_quiet.
      - rewrite (report_clean u val) by exact L. split; [congruence|discriminate].
    Qed.

    Lemma reference_clean : forall refs ks f (good : vunit -> Prop),
      (forall x val', In x all -> legible x val' -> (clean (constraints_checked P vformat render ks u x f) <-> good x)) ->
      (clean (told m (Reference P refs ks) u f) <-> refers_to vunit identifier all good (opt (refs u))).
    Proof.
      intros refs ks f good G. unfold told. simpl. unfold refers_to. destruct (refs u) as [l|e]; simpl.
      - rewrite clean_gcat, Forall_map, Forall_forall. split.
        + intros H. exists l. split; auto. intros r I. specialize (H r I). unfold reference_checked in H.
          rewrite mget_all in H. destruct (filter (has_key (Some r)) all) as [|x [|y l']] eqn:F.
          * apply (report_clean u val) in H; first [exact L | congruence].
          * exists x. rewrite only_one_spec. split; auto.
            assert (X : In x all) by (apply (proj1 (filter_In (has_key (Some r)) x all)); rewrite F; now left).
            destruct (LA x X) as (v' & L'). now apply (G x v').
          * apply (report_clean u val) in H; first [exact L | congruence].
        + intros (l' & [= <-] & H) r I. destruct (H r I) as (x & O & Gx). unfold reference_checked. rewrite mget_all.
          apply only_one_spec in O. rewrite O.
          assert (X : In x all) by (apply (proj1 (filter_In (has_key (Some r)) x all)); rewrite O; now left).
          destruct (LA x X) as (v' & L'). now apply (G x v').
      - rewrite (report_clean u val) by exact L. split; [congruence|]. intros (l & [=] & _).
    Qed.
    Lemma is_a_clean : forall w f x val', legible x val' ->
      (clean (constraints_checked P vformat render [is_a P vformat render w] u x f) <-> kind x = Some w).
    Proof.
      intros w f x val' L'. simpl. unfold kind, rbind.
      assert (X : exists k, unit_of x = inl k) by (unfold ValidateModel.unit_of; destruct (v_cls P x); rewrite ?L' by ord; eauto).
      destruct X as (k & ->). rewrite gapp_quiet, <- is_spec. destruct (is k w).
      - split; auto using clean_quiet.
      - rewrite (report_clean u val) by exact L. split; [congruence|discriminate].
    Qed.
    Lemma is_resource_clean : forall f x val', legible x val' ->
      (clean (constraints_checked P vformat render [is_a P vformat render w_job; is_resource P vformat render] u x f) <->
       kind x = Some w_job /\ plug x = Some w_resource).
    Proof.
      intros f x val' L'. simpl. unfold kind, plug, rbind.
      assert (X : exists k, unit_of x = inl k) by (unfold ValidateModel.unit_of; destruct (v_cls P x); rewrite ?L' by ord; eauto).
      destruct X as (k & ->). rewrite (legible_plugin x val' L'). rewrite gapp_quiet, clean_gapp, <- !is_spec.
      destruct (is k w_job).
      - match goal with |- context [is ?p w_resource] => destruct (is p w_resource) end.
        + split; auto using clean_quiet.
        + rewrite (report_clean u val) by exact L. split; [intros [_ H]; congruence|intros [_ [=]]].
      - rewrite (report_clean u val) by exact L. split; [intros [H _]; congruence|intros [[=] _]].
    Qed.
  End Together.

  Lemma job_table_told : forall all m u w, (forall x, In x all -> exists val, legible x val) -> value_map [] all = inl m ->
    sees u w -> In u all ->
    (Forall (fun fv => Forall (fun v => clean (told m v u (fst fv))) (snd fv)) job_validators <->
     well_connected vunit identifier kind plug all u w).
  Proof.
    intros all m u w LA HM S I. pose proof (sees_field _ _ S) as L.
    assert (J : forall w f x val', In x all -> legible x val' -> (clean (constraints_checked P vformat render [is_a P vformat render w] u x f) <-> kind x = Some w))
      by (intros w0 f x val' _ L'; now apply (is_a_clean u _ L w0 f x val')).
    assert (R : forall f x val', In x all -> legible x val' ->
      (clean (constraints_checked P vformat render [is_a P vformat render w_job; is_resource P vformat render] u x f) <-> kind x = Some w_job /\ plug x = Some w_resource))
      by (intros f x val' _ L'; now apply (is_resource_clean u _ L f x val')).
    unfold ValidateModel.job_validators, id_validators, unit_validators, no_command. split.
    - intros H. repeat (apply Forall_cons_iff in H as [? H]). cbn [fst snd] in *.
      repeat match goal with H : Forall _ (_ :: _) |- _ => apply Forall_cons_iff in H as [? ?] end.
      constructor.
      + eapply (unique_clean all m HM u _ L); eauto. apply (sees_id _ _ S).
      + rewrite (sees_direct _ _ S). eapply (reference_clean all m LA HM u _ L _ [is_a P vformat render w_job] k_depends); eauto.
      + rewrite (sees_after _ _ S). eapply (reference_clean all m LA HM u _ L _ [is_a P vformat render w_job] k_after); eauto.
      + rewrite (sees_resources _ _ S). eapply (reference_clean all m LA HM u _ L _ [is_a P vformat render w_job; is_resource P vformat render] k_requires); eauto.
      + rewrite (sees_imports _ _ S). eapply (reference_clean all m LA HM u _ L _ [is_a P vformat render w_job] k_imports); eauto.
      + rewrite (sees_category _ _ S). eapply (reference_clean all m LA HM u _ L _ [is_a P vformat render w_category] k_category); eauto.
    - intros W.
      repeat (apply Forall_cons; [cbn [fst snd]; repeat (apply Forall_cons); try apply Forall_nil|]); try apply Forall_nil;
      match goal with
      | |- clean (told _ (Unique_value _) _ _) => idtac
      | |- clean (told _ (Reference _ _ _) _ _) => idtac
      | _ => exact clean_quiet
      end.
      + refine (proj2 (reference_clean all m LA HM u _ L _ _ _ _ (J _ _)) _). rewrite <- (sees_after _ _ S). apply (wc_after _ _ _ _ _ _ _ W).
      + refine (proj2 (reference_clean all m LA HM u _ L _ _ _ _ (J _ _)) _). rewrite <- (sees_category _ _ S). apply (wc_category _ _ _ _ _ _ _ W).
      + refine (proj2 (reference_clean all m LA HM u _ L _ _ _ _ (J _ _)) _). rewrite <- (sees_direct _ _ S). apply (wc_direct _ _ _ _ _ _ _ W).
      + apply (unique_clean all m HM u _ L (see_id w)); auto. apply (sees_id _ _ S). apply (wc_alone _ _ _ _ _ _ _ W).
      + refine (proj2 (reference_clean all m LA HM u _ L _ _ _ _ (J _ _)) _). rewrite <- (sees_imports _ _ S). apply (wc_imports _ _ _ _ _ _ _ W).
      + refine (proj2 (reference_clean all m LA HM u _ L _ _ _ _ (R _)) _). rewrite <- (sees_resources _ _ S). apply (wc_resources _ _ _ _ _ _ _ W).
  Qed.

  (** ** Checking, as a function of the units alone *)
  Section Checking.
  Variable other_validators : text -> list (text * list (validator P)).
  Variable try_instance : vunit -> (vunit + fault) + fault.
  Notation check := (ValidateModel.check P vformat render accessed has_param shlex py_float number_truth isfile data_path
    job_attribute program imported template_resource_id filter_program other_validators try_instance).
  Notation check_all := (ValidateModel.check_all P vformat render accessed has_param shlex py_float number_truth isfile data_path
    job_attribute program imported template_resource_id filter_program other_validators try_instance).
  Notation check_alone := (ValidateModel.check_alone P vformat render accessed has_param shlex py_float number_truth isfile data_path
    job_attribute program imported template_resource_id filter_program other_validators try_instance).
  Notation validators_of := (ValidateModel.validators_of P vformat render py_float number_truth isfile data_path
    job_attribute program imported template_resource_id filter_program other_validators).

  Definition told_all (m : vmap) (u : vunit) : gen :=
    gcat (map (fun fv => told m (snd fv) u (fst fv)) (flat P (validators_of (v_cls P u)))).
  Lemma check_told : forall u c m, good c m -> exists c',
    check u c = (gapp (check_alone u) (told_all m u), c') /\ good c' m /\ c_units P c' = c_units P c.
  Proof.
    intros u c m G. unfold ValidateModel.check, check_together. destruct (check_alone u) as [l [e|]]; simpl; eauto.
    destruct (run_all_told (flat P (validators_of (v_cls P u))) u c m G) as (c' & E & H). rewrite E. eauto.
  Qed.
  Lemma check_all_told : forall us c m, good c m -> exists c',
    check_all us c = (gcat (map (fun u => gapp (check_alone u) (told_all m u)) us), c') /\ good c' m /\ c_units P c' = c_units P c.
  Proof.
    induction us as [|u us IH]; intros c m G; simpl; eauto.
    destruct (check_told u c m G) as (c1 & -> & G1 & U1).
    destruct (gapp (check_alone u) (told_all m u)) as [l [e|]]; simpl; eauto.
    destruct (IH c1 m G1) as (c2 & -> & G2 & U2). exists c2. rewrite U2. auto.
  Qed.
  Lemma fresh_good : forall us m, value_map [] us = inl m -> good (mk_context P us None) m.
  Proof. intros us m H. split; auto. Qed.

  Lemma flat_clean : forall m u t, clean (gcat (map (fun fv => told m (snd fv) u (fst fv)) (flat P t))) <->
    Forall (fun fv => Forall (fun v => clean (told m v u (fst fv))) (snd fv)) t.
  Proof.
    intros m u t. rewrite clean_gcat, Forall_map. unfold flat. induction t as [|[f vs] t IH]; simpl.
    - split; auto.
    - rewrite Forall_app, IH, Forall_cons_iff. rewrite Forall_map. reflexivity.
  Qed.
  Lemma job_check_clean : forall all c m u w, (forall x, In x all -> exists val, legible x val) ->
    good c m -> c_units P c = all -> v_cls P u = CJob -> In u all -> sees u w ->
    (clean (fst (check u c)) <->
     well_formed P accessed has_param shlex py_float isfile job_attribute
       (jinja P (v_unit P u)) (f_params P (v_unit P u)) (f_data P (v_unit P u)) w /\
     well_connected vunit identifier kind plug all u w).
  Proof.
    intros all c m u w LA G U C I S. destruct (check_told u c m G) as (c' & -> & _). simpl. destruct G as [HM _]. rewrite U in HM.
    rewrite clean_gapp. unfold told_all. rewrite C. simpl ValidateModel.validators_of. rewrite flat_clean, (job_table_told all m u w LA HM S I).
    unfold ValidateModel.check_alone. rewrite C. unfold check_fields. rewrite C. simpl ValidateModel.validators_of.
    rewrite table_clean_spec, (job_table_clean u w S). reflexivity.
  Qed.
  End Checking.

  (** ** Units without parameters *)
  Definition plain_value (u : vunit) (n : text) (d : option text) : option text :=
    match value u n d with inl v => v | inr _ => None end.
  Lemma plain_legible : forall u, f_params P (v_unit P u) = None -> legible u (plain_value u).
  Proof.
    intros u H n d _. unfold plain_value, ValidateModel.value, record_value, insert. rewrite H.
    destruct (either n _ d); auto. destruct (jinja P (v_unit P u)); reflexivity.
  Qed.
  Definition got {A} (r : option A + fault) : option A := match r with inl v => v | inr _ => None end.
  Definition plain_view (u : vunit) : view :=
    mk_view (plain_value u) (got (job_id P vformat render (v_unit P u))) (got (plugin_of u)) (got (qml_of P vformat render data_path u))
      (opt (direct_refs P vformat render u)) (opt (after_refs P vformat render u)) (opt (resource_refs P vformat render program u))
      (opt (import_refs P vformat render imported u)) (opt (category_refs P vformat render u)).
  Lemma plain_sees : forall u, f_params P (v_unit P u) = None -> v_cls P u = CJob -> sees u (plain_view u).
  Proof.
    intros u H C. pose proof (plain_legible u H) as L. constructor; simpl; auto.
    - unfold ValidateModel.id_of. rewrite C, (legible_id u _ L). reflexivity.
    - rewrite (legible_plugin u _ L). reflexivity.
    - unfold qml_of, get, rbind. rewrite L by ord. reflexivity.
  Qed.

  (** Checking a job without parameters raises nothing *)
  Definition fine (g : gen) : Prop := snd g = None.
  Lemma fine_gapp : forall a b, fine a -> fine b -> fine (gapp a b).
  Proof. intros [la [e|]] [lb fb]; unfold fine; simpl; auto; discriminate. Qed.
  Lemma fine_gcat : forall l, Forall fine l -> fine (gcat l).
  Proof. induction 1; simpl; [reflexivity|now apply fine_gapp]. Qed.
  Lemma fine_report : forall u val o f k s n, legible u val -> fine (report u o f k s n).
  Proof. intros u val o f k s n L. unfold ValidateModel.report. now rewrite (legible_message u val L). Qed.
  Definition works {A} (f : vunit -> A + fault) (u : vunit) : Prop := exists a, f u = inl a.
  Lemma fine_correct : forall u val k s onlyif jd f, legible u val -> works onlyif u -> works jd u -> fine (run (Correct P k s onlyif jd) u f).
  Proof.
    Local Transparent ValidateModel.run.
    intros u val k s onlyif jd f L (b & O) (r & J). simpl. rewrite O. destruct b; [|reflexivity]. rewrite J.
    destruct r as [[]|]; try reflexivity; now apply (fine_report u val).
  Qed.
  Lemma fine_others : forall u val f, legible u val ->
    fine (run (Translatable P) u f) /\ fine (run (Untranslatable P) u f) /\ fine (run (Deprecated_field P) u f) /\
    fine (run (Shell_program P (get P vformat render k_command)) u f).
  Proof.
    intros u val f L. unfold ValidateModel.run, get. rewrite !L by ord. repeat split.
    - destruct (v_virtual P u); [reflexivity|]. destruct (val f None); [|reflexivity]. destruct (translatable _ _ _); [reflexivity|].
      apply (fine_report _ _ _ _ _ _ _ L).
    - destruct (_ && _); [|reflexivity]. apply (fine_report _ _ _ _ _ _ _ L).
    - destruct (val f None); [|reflexivity]. apply (fine_report _ _ _ _ _ _ _ L).
    - destruct (val k_command None); [|reflexivity]. destruct (occurs _ _); [reflexivity|]. destruct (shlex _); [|reflexivity].
      apply (fine_report _ _ _ _ _ _ _ L).
  Qed.
  Lemma works_not : forall f u, works f u -> works (not_ P f) u.
  Proof. intros f u (b & E). exists (negb b). unfold not_, rbind. now rewrite E. Qed.
  Lemma works_and : forall f g u, works f u -> works g u -> works (and_ P f g) u.
  Proof. intros f g u (b & E) (c & F). unfold works, and_, rbind. rewrite E. destruct b; eauto. Qed.
  Lemma works_judge : forall A (get : vunit -> A + fault) fn u, works get u -> works (judge P get fn) u.
  Proof. intros A get fn u (b & E). unfold works, ValidateModel.judge. rewrite E. eauto. Qed.
  Lemma works_get : forall u val n, legible u val -> works (get P vformat render n) u.
  Proof. intros u val n L. unfold works, get. rewrite L by ord. eauto. Qed.
  Lemma works_absent : forall u val n, legible u val -> works (absent P vformat render n) u.
  Proof. intros u val n L. unfold works, absent, get, rbind. rewrite L by ord. eauto. Qed.
  Lemma works_given : forall u val n, legible u val -> works (given P vformat render n) u.
  Proof. intros u val n L. unfold works, given, get, rbind. rewrite L by ord. eauto. Qed.
  Lemma works_plugin : forall u val, legible u val -> works plugin_of u.
  Proof. intros u val L. eexists. apply (legible_plugin u val L). Qed.
  Lemma works_plugin_in : forall u val l, legible u val -> works (plugin_in P vformat render l) u.
  Proof. intros u val l L. unfold works, plugin_in, rbind. rewrite (legible_plugin u val L). eauto. Qed.
  Lemma works_flagged : forall u val w, legible u val -> works (flagged P vformat render w) u.
  Proof. intros u val w L. unfold works, flagged, rbind. rewrite (legible_flags u val L). eauto. Qed.
  Lemma works_qml : forall u val, legible u val -> works (qml_of P vformat render data_path) u.
  Proof. intros u val L. unfold works, qml_of, get, rbind. rewrite L by ord. eauto. Qed.
  Lemma works_qml_given : forall u val, legible u val ->
    works (fun u => rbind (qml_of P vformat render data_path u) (fun q => inl (truthy q))) u.
  Proof. intros u val L. destruct (works_qml u val L) as (q & E). unfold works, rbind. rewrite E. eauto. Qed.
  Lemma works_id_given : forall u val n, legible u val -> works (fun u => rbind (value u n None) (fun v => inl (truthy v))) u.
  Proof. intros u val n L. unfold works, rbind. rewrite L by ord. eauto. Qed.
  Lemma works_always : forall u, works (always P) u.
  Proof. intros u. eexists. reflexivity. Qed.

  Lemma job_table_fine : forall u, f_params P (v_unit P u) = None -> v_cls P u = CJob ->
    Forall (fun fv => Forall (fun v => fine (run v u (fst fv))) (snd fv)) job_validators.
  Proof.
    intros u N C. pose proof (plain_legible u N) as L. pose proof (plain_sees u N C) as S.
    pose proof (legible_plugin u _ L) as HP.
    pose proof (sees_qml _ _ S) as HQ. pose proof (sees_id _ _ S) as HI. simpl in HQ, HI.
    destruct (legible_description' u _ L) as (ds & DS). destruct (legible_summary u _ L) as (sm & SM).
    pose proof (legible_flags u _ L) as HF.
    unfold ValidateModel.job_validators, id_validators, unit_validators, no_command, Present_field, Useless_field, Member_of, One_line, Short_value.
    repeat (apply Forall_cons; [cbn [fst snd]; repeat (apply Forall_cons); try apply Forall_nil|]); try apply Forall_nil;
    match goal with
    | |- fine (run (Unique_value _) _ _) => reflexivity
    | |- fine (run (Reference _ _ _) _ _) => reflexivity
    | |- fine (run (Invariant _) _ _) => unfold ValidateModel.run; rewrite N; reflexivity
    | |- fine (run (Variant _) _ _) => unfold ValidateModel.run; rewrite N; reflexivity
    | |- fine (run (Correct _ _ _ _ _) _ _) => apply (fine_correct _ _ _ _ _ _ _ L)
    | |- fine (run _ _ ?f) => apply (fine_others _ _ f L)
    end.
    all: repeat first [apply works_always | apply works_judge | apply works_not | apply works_and | apply (works_get _ _ _ L)
      | apply (works_absent _ _ _ L) | apply (works_given _ _ _ L) | apply (works_plugin_in _ _ _ L) | apply (works_flagged _ _ _ L)
      | apply (works_plugin _ _ L) | apply (works_qml _ _ L) | apply (works_qml_given _ _ L) | apply (works_id_given _ _ _ L) ].
    all: unfold works.
    all: first [exact (ex_intro _ _ DS) | exact (ex_intro _ _ SM)
      | unfold id_attribute; rewrite HI; eexists; reflexivity
      | unfold ValidateModel.unit_of; rewrite C; eexists; reflexivity
      | unfold retry_of, cert_of, shell_of; rewrite L by ord; eexists; reflexivity
      | unfold duration_of, get, rbind; rewrite L by ord; eexists; reflexivity].
  Qed.

  Definition sound_constraints (ks : list (constraint P)) : Prop :=
    ks = [is_a P vformat render w_job] \/ ks = [is_a P vformat render w_category] \/
    ks = [is_a P vformat render w_job; is_resource P vformat render].
  Lemma fine_constraints : forall ks u x f val val', sound_constraints ks -> legible u val -> legible x val' ->
    fine (constraints_checked P vformat render ks u x f).
  Proof.
    intros ks u x f val val' K L L'.
    assert (X : exists k, unit_of x = inl k) by (unfold ValidateModel.unit_of; destruct (v_cls P x); rewrite ?L' by ord; eauto).
    destruct X as (k & X).
    destruct K as [-> | [-> | ->]]; cbn [constraints_checked is_a is_resource k_only k_holds]; unfold rbind; rewrite X;
      rewrite ?(legible_plugin x val' L'); repeat apply fine_gapp; try reflexivity;
      repeat match goal with |- context [is ?a ?b] => destruct (is a b) end; try reflexivity; apply (fine_report u val _ _ _ _ _ L).
  Qed.
  Lemma fine_told_reference : forall all m u val refs ks f, (forall x, In x all -> exists val, legible x val) -> value_map [] all = inl m ->
    legible u val -> sound_constraints ks -> fine (told m (Reference P refs ks) u f).
  Proof.
    intros all m u val refs ks f LA HM L K. unfold told. simpl. destruct (refs u) as [l|]; [|apply (fine_report u val _ _ _ _ _ L)].
    apply fine_gcat, Forall_map, Forall_forall. intros r _. unfold reference_checked. rewrite (mget_all all m HM).
    destruct (filter (has_key (Some r)) all) as [|x [|y l']] eqn:F; try apply (fine_report u val _ _ _ _ _ L).
    assert (X : In x all) by (apply (proj1 (filter_In (has_key (Some r)) x all)); rewrite F; now left).
    destruct (LA x X) as (v' & L'). now apply (fine_constraints ks u x f val v').
  Qed.
  Lemma fine_told_unique : forall all m u val i f, value_map [] all = inl m -> legible u val -> In u all -> id_of u = Some (inl i) ->
    fine (told m (Unique_value P) u f).
  Proof.
    intros all m u val i f HM L I E. unfold told. simpl. rewrite E, (mget_all all m HM).
    assert (K : In u (filter (has_key i) all)) by (apply filter_In; split; auto; now apply has_key_spec).
    destruct (filter (has_key i) all) as [|x [|y l]]; [contradiction|reflexivity|]. apply (fine_report u val _ _ _ _ _ L).
  Qed.
  Lemma job_told_fine : forall all m u, (forall x, In x all -> exists val, legible x val) -> value_map [] all = inl m ->
    f_params P (v_unit P u) = None -> v_cls P u = CJob -> In u all ->
    Forall (fun fv => Forall (fun v => fine (told m v u (fst fv))) (snd fv)) job_validators.
  Proof.
    intros all m u LA HM N C I. pose proof (plain_legible u N) as L. pose proof (sees_id _ _ (plain_sees u N C)) as HI.
    unfold ValidateModel.job_validators, id_validators, unit_validators, no_command, Present_field, Useless_field, Member_of, One_line, Short_value.
    repeat (apply Forall_cons; [cbn [fst snd]; repeat (apply Forall_cons); try apply Forall_nil|]); try apply Forall_nil;
    match goal with
    | |- fine (told _ (Unique_value _) _ _) => exact (fine_told_unique all m u _ _ _ HM L I HI)
    | |- fine (told _ (Reference _ _ _) _ _) => apply (fine_told_reference all m u _ _ _ _ LA HM L); unfold sound_constraints; auto
    | _ => reflexivity
    end.
  Qed.
End Proofs.
