From Coq Require Import String Ascii List Bool Arith Lia.
From Verif Require Import PathModel ScanModel Rfc822Model Rfc822Proofs JsonModel IniModel IniProofs FieldsModel SiblingsModel ValidateModel ValidateSpec ValidateProofs ExportModel
  ExpunitModel ExpunitSpec.
Import ListNotations.
Local Open Scope nat_scope.
Local Open Scope list_scope.

(** ** Options *)

Lemma option_sep_spec c : option_sep c = true <-> separator c.
Proof.
  unfold option_sep, separator. rewrite !orb_true_iff, !Ascii.eqb_eq. tauto.
Qed.
Lemma option_sep_false c : option_sep c = false <-> ~ separator c.
Proof. rewrite <- option_sep_spec. destruct (option_sep c); split; congruence. Qed.

Lemma split_skip s : forall t, (forall c, In c s -> separator c) -> split_options true [] (s ++ t) = split_options true [] t.
Proof.
  induction s as [|c s IH]; intros t H; [reflexivity|]. cbn [app split_options].
  rewrite (proj2 (option_sep_spec c)) by (apply H; now left). apply IH. intros d D. apply H. now right.
Qed.
Lemma split_word w : forall acc t sk, (forall c, In c w -> ~ separator c) -> (sk = true -> acc = []) -> w <> [] ->
  split_options sk acc (w ++ t) = split_options false (rev w ++ acc) t.
Proof.
  induction w as [|c w IH]; intros acc t sk H S N; [congruence|]. cbn [app split_options].
  rewrite (proj2 (option_sep_false c)) by (apply H; now left).
  destruct w as [|d w]; [reflexivity|].
  rewrite IH; [|intros x X; apply H; now right|discriminate|discriminate]. cbn [rev]. rewrite <- !app_assoc. reflexivity.
Qed.
Lemma split_start t : (forall c, hd_error t = Some c -> ~ separator c) -> split_options true [] t = split_options false [] t.
Proof.
  destruct t as [|c t]; [reflexivity|]. intros H. cbn [split_options]. now rewrite (proj2 (option_sep_false c)) by now apply H.
Qed.
Lemma split_worded t l : worded t l -> split_options false [] t = l.
Proof.
  induction 1 as [w N|w s t l N S A D _ IH].
  - destruct w as [|c w]; [reflexivity|]. rewrite <- (app_nil_r (c :: w)) at 1.
    rewrite split_word by (auto; discriminate). cbn [split_options]. now rewrite app_nil_r, rev_involutive.
  - assert (E : split_options false [] (w ++ s ++ t) = split_options false (rev w) (s ++ t)).
    { destruct w as [|c w]; [reflexivity|]. rewrite split_word by (auto; discriminate). now rewrite app_nil_r. }
    rewrite E. destruct s as [|c s]; [congruence|]. cbn [app split_options].
    rewrite (proj2 (option_sep_spec c)) by (apply A; now left). rewrite rev_involutive. f_equal.
    rewrite split_skip by (intros d I; apply A; now right). now rewrite split_start.
Qed.
Lemma worded_some t : exists l, worded t l.
Proof.
  assert (X : forall n t, length t <= n -> exists l, worded t l).
  { clear t. induction n as [|n IH]; intros t L.
    - destruct t; [|cbn in L; lia]. exists [[]]. constructor. intros c [].
    - assert (F : forall t : text, exists w r, t = w ++ r /\ (forall c, In c w -> ~ separator c) /\
        (r = [] \/ exists c r', r = c :: r' /\ separator c)).
      { clear. induction t as [|c t (w & r & -> & A & B)]; [exists [], []; repeat split; auto; intros c []|].
        destruct (option_sep c) eqn:E.
        - exists [], (c :: w ++ r). repeat split; [intros d []|]. right. apply option_sep_spec in E. eauto.
        - exists (c :: w), r. repeat split; auto. apply option_sep_false in E. intros d [<-|D]; auto. }
      assert (G : forall t : text, exists s r, t = s ++ r /\ (forall c, In c s -> separator c) /\
        (forall c, hd_error r = Some c -> ~ separator c)).
      { clear. induction t as [|c t (w & r & -> & A & B)]; [exists [], []; repeat split; auto; [intros c []|discriminate]|].
        destruct (option_sep c) eqn:E.
        - exists (c :: w), r. repeat split; auto. apply option_sep_spec in E. intros d [<-|D]; auto.
        - exists [], (c :: w ++ r). repeat split; [intros d []|]. apply option_sep_false in E. intros d [= <-]. exact E. }
      destruct (F t) as (w & r & -> & A & [-> | (c & r' & -> & S)]).
      + rewrite app_nil_r. exists [w]. now constructor.
      + destruct (G r') as (s & q & -> & B & D). rewrite app_length in L. cbn in L. rewrite app_length in L.
        destruct (IH q ltac:(lia)) as [l Q]. exists (w :: l).
        change (w ++ c :: s ++ q) with (w ++ (c :: s) ++ q). constructor; auto; [discriminate|].
        intros d [<-|I]; auto. }
  apply (X (length t)). lia.
Qed.

(** ** Silence *)

Lemma silent_gapp a b : gapp a b = quiet <-> a = quiet /\ b = quiet.
Proof.
  destruct a as [la [e|]], b as [lb fb]; unfold gapp, quiet; cbn [fst snd].
  - split; [discriminate|intros [H _]; discriminate].
  - split.
    + intros H. injection H as H ->. apply app_eq_nil in H as [-> ->]. auto.
    + intros [H1 H2]. injection H1 as ->. injection H2 as -> ->. reflexivity.
Qed.
Lemma silent_gcat l : gcat l = quiet <-> Forall (fun g => g = quiet) l.
Proof.
  induction l as [|g l IH]; cbn [gcat fold_right]; [split; auto|].
  rewrite silent_gapp, Forall_cons_iff. fold (gcat l). now rewrite IH.
Qed.

Lemma jlookup_spec kvs k v : jlookup k kvs = Some v <-> says_last kvs k v.
Proof.
  unfold jlookup, says_last. revert v. induction kvs as [|[k' w] kvs IH] using rev_ind; intros v.
  - cbn [rev tget]. split; [discriminate|]. intros (a & b & E & _). destruct a; discriminate.
  - rewrite rev_app_distr. cbn [rev app tget]. destruct (text_eqb k k') eqn:E.
    + apply text_eqb_eq in E as <-. split.
      * intros [= ->]. exists kvs, []. split; [reflexivity|]. intros v' [].
      * intros (a & b & X & N). destruct b as [|y b] using rev_ind.
        -- apply app_inj_tail in X as [_ [= ->]]. reflexivity.
        -- exfalso. rewrite app_comm_cons, app_assoc in X. apply app_inj_tail in X as [_ <-]. apply (N w). apply in_app_iff. right. now left.
    + rewrite IH. split.
      * intros (a & b & -> & N). exists a, (b ++ [(k', w)]). split; [now rewrite <- app_assoc|].
        intros v' I. apply in_app_iff in I as [I|[[= -> ->]|[]]]; [now apply (N v')|]. now rewrite text_eqb_refl in E.
      * intros (a & b & X & N). destruct b as [|y b _] using rev_ind.
        -- apply app_inj_tail in X as [_ [= -> ->]]. now rewrite text_eqb_refl in E.
        -- rewrite app_comm_cons, app_assoc in X. apply app_inj_tail in X as [-> <-]. exists a, b. split; auto.
           intros v' I. apply (N v'). apply in_app_iff. now left.
Qed.

Section Proofs.
  Variable P : Type.
  Variable vformat : P -> text -> text + fault.
  Variable render : option P -> text -> text.
  Variable accessed : bool -> text -> list text + fault.
  Variable has_param : P -> text -> bool.
  Variable shlex : text -> option nat.
  Variable number_truth : text -> bool.
  Variable isfile : text -> bool.
  Variable wordchar : ascii -> bool.
  Variable C : Type.
  Variable load_entry_point : text -> option C.
  Variable data_dir : unit_ P -> option text.

  Notation vunit := (vunit P).
  Notation value := (value P vformat render).
  Notation run := (run P vformat render accessed has_param shlex).
  Notation report := (report P vformat render).
  Notation check_exporter := (check_exporter P vformat render accessed has_param shlex number_truth isfile wordchar C load_entry_point data_dir).

  (** What reading the fields of the unit gives *)
  Definition reads (u : vunit) (see : text -> option text -> option text) : Prop := forall n d, value u n d = inl (see n d).

  Lemma report_loud u o f k s n : report u o f k s n <> quiet.
  Proof. unfold ValidateModel.report, quiet, raises. destruct (message_fault P vformat render u); discriminate. Qed.
  Lemma raises_loud e : raises e <> quiet.
  Proof. discriminate. Qed.

  Lemma run_correct k s o j u f : run (Correct P k s o j) u f = quiet <-> o u = inl false \/ o u = inl true /\ j u = inl (inl true).
  Proof.
    Local Transparent ValidateModel.run.
    cbn [ValidateModel.run]. destruct (o u) as [[|]|e].
    - destruct (j u) as [[[|]|e]|e].
      + split; auto.
      + split; [intros H; now apply report_loud in H|intros [H|[_ H]]; discriminate].
      + split; [intros H; now apply report_loud in H|intros [H|[_ H]]; discriminate].
      + split; [discriminate|intros [H|[_ H]]; discriminate].
    - split; auto.
    - split; [discriminate|intros [H|[H _]]; discriminate].
  Qed.
  Lemma run_translatable u see f : reads u see -> (run (Translatable P) u f = quiet <->
    v_virtual P u = true \/ see f None = None \/ translatable P (v_unit P u) f = true).
  Proof.
    intros R. cbn [ValidateModel.run]. destruct (v_virtual P u); [split; auto|]. rewrite R. destruct (see f None).
    - destruct (translatable P (v_unit P u) f); [split; auto|].
      split; [intros H; now apply report_loud in H|]. intros [H|[H|H]]; discriminate.
    - split; auto.
  Qed.
  Lemma run_untranslatable u see f : reads u see -> (run (Untranslatable P) u f = quiet <->
    forall v, see f None = Some v -> v <> [] -> translatable P (v_unit P u) f = false).
  Proof.
    intros R. cbn [ValidateModel.run]. rewrite R. destruct (see f None) as [[|c v]|]; cbn [ValidateModel.truthy andb].
    - split; auto. intros _ v [= <-] H. congruence.
    - destruct (translatable P (v_unit P u) f).
      + split; [intros H; now apply report_loud in H|]. intros H. now specialize (H _ eq_refl ltac:(discriminate)).
      + split; auto.
    - split; auto. intros _ v H. discriminate.
  Qed.
  Lemma run_invariant u f : run (Invariant P) u f = quiet <->
    forall p v, f_params P (v_unit P u) = Some p -> tget f (f_data P (v_unit P u)) = Some v -> accessed (jinja P (v_unit P u)) v = inl [].
  Proof.
    cbn [ValidateModel.run]. unfold parameters_used. destruct (f_params P (v_unit P u)) as [p|]; [|split; auto; intros _ p v H; discriminate].
    destruct (tget f (f_data P (v_unit P u))) as [v|]; [|split; auto; intros _ q v _ H; discriminate].
    destruct (accessed (jinja P (v_unit P u)) v) as [[|x l]|e] eqn:E.
    - split; auto. intros _ q w _ [= <-]. exact E.
    - split; [intros H; now apply report_loud in H|]. intros H. specialize (H _ _ eq_refl eq_refl). congruence.
    - split; [discriminate|]. intros H. specialize (H _ _ eq_refl eq_refl). congruence.
  Qed.
  Lemma run_variant u f : run (Variant P) u f = quiet <->
    forall p v, f_params P (v_unit P u) = Some p -> tget f (f_data P (v_unit P u)) = Some v ->
      exists l, accessed (jinja P (v_unit P u)) v = inl l /\ l <> [] /\ forall n, In n l -> has_param p n = true.
  Proof.
    cbn [ValidateModel.run]. unfold parameters_used. destruct (f_params P (v_unit P u)) as [p|]; [|split; auto; intros _ p v H; discriminate].
    destruct (tget f (f_data P (v_unit P u))) as [v|]; [|split; auto; intros _ q v _ H; discriminate].
    destruct (accessed (jinja P (v_unit P u)) v) as [[|x l]|e] eqn:E.
    - split; [intros H; now apply report_loud in H|]. intros H. destruct (H _ _ eq_refl eq_refl) as (l & F & N & _). congruence.
    - rewrite silent_gcat, Forall_map, Forall_forall. split.
      + intros H q w [= <-] [= <-]. exists (x :: l). repeat split; [exact E|discriminate|]. intros n I. specialize (H n I). cbv beta in H.
        destruct (has_param p n); auto. now apply report_loud in H.
      + intros H n I. destruct (H _ _ eq_refl eq_refl) as (l' & F & _ & A). rewrite E in F. injection F as <-. now rewrite (A n I).
    - split; [discriminate|]. intros H. destruct (H _ _ eq_refl eq_refl) as (l & F & N & _). congruence.
  Qed.
  Lemma run_present s u see f n : reads u see -> (run (Present_field P s (always P) (fun u => value u n None)) u f = quiet <-> see n None <> None).
  Proof.
    intros R. unfold Present_field. rewrite run_correct. unfold always, judge. rewrite R.
    destruct (see n None); cbn [present]; split; try congruence.
    - intros _. right. auto.
    - intros [H|[_ H]]; discriminate.
  Qed.
  Lemma run_unique u f : run (Unique_value P) u f = quiet.
  Proof. reflexivity. Qed.

  (** ** The identifier and the type *)
  Lemma id_silent u see : v_cls P u = CNamed k_exporter -> reads u see ->
    (Forall (fun v => run v u k_id = quiet) (id_validators P vformat render) <->
     (exists i, see k_id None = Some i /\ forall a b, i <> a ++ W "::" ++ b) /\
     (forall v, see k_id None = Some v -> v <> [] -> translatable P (v_unit P u) k_id = false) /\
     (forall p v, f_params P (v_unit P u) = Some p -> tget k_id (f_data P (v_unit P u)) = Some v ->
        exists l, accessed (jinja P (v_unit P u)) v = inl l /\ l <> [] /\ forall n, In n l -> has_param p n = true)).
  Proof.
    intros K R. unfold id_validators. rewrite !Forall_cons_iff, (run_untranslatable u see), run_variant, run_unique by exact R.
    unfold Present_field. rewrite !run_correct.
    assert (ID : id_attribute P vformat render u =
      inl match f_provider P (v_unit P u), see k_id None with
          | Some (ns, _), Some (c :: r) => Some (ns ++ ":"%char :: ":"%char :: c :: r)
          | _, i => i
          end).
    { unfold id_attribute, id_of. rewrite K. unfold named_id, rbind. rewrite R.
      destruct (f_provider P (v_unit P u)) as [[ns tr]|], (see k_id None) as [[|c r]|]; reflexivity. }
    unfold always, judge, rbind. rewrite ID, R.
    destruct (see k_id None) as [i|].
    - assert (Q : ((inl (ValidateModel.truthy (Some i)) : bool + fault) = inl false \/
                   (inl (ValidateModel.truthy (Some i)) : bool + fault) = inl true /\
                   (inl (inl (negb (has_colons i))) : (bool + fault) + fault) = inl (inl true)) <->
                  forall a b, i <> a ++ W "::" ++ b).
      { assert (HC : has_colons i = true <-> exists a b, i = a ++ W "::" ++ b).
        { rewrite has_colons_contains. unfold contains. reflexivity. }
        destruct i as [|c i].
        - cbn [ValidateModel.truthy]. split; [|auto]. intros _ a b X. destruct a; discriminate.
        - cbn [ValidateModel.truthy]. destruct (has_colons (c :: i)).
          + split; [intros [X|[_ X]]; discriminate|]. intros X. destruct (proj1 HC eq_refl) as (a & b & E). now contradict E.
          + split; [|right; auto]. intros _ a b X. assert (false = true) by (apply HC; eauto). discriminate. }
      assert (F : forall pr : option text, pr <> None ->
        ((forall v, Some i = Some v -> v <> [] -> translatable P (v_unit P u) k_id = false) /\
         ((inl true : bool + fault) = inl false \/ (inl true : bool + fault) = inl true /\ (inl (inl (present pr)) : (bool + fault) + fault) = inl (inl true)) /\
         (forall p v, f_params P (v_unit P u) = Some p -> tget k_id (f_data P (v_unit P u)) = Some v ->
            exists l, accessed (jinja P (v_unit P u)) v = inl l /\ l <> [] /\ forall n, In n l -> has_param p n = true) /\
         quiet = quiet /\
         ((inl (ValidateModel.truthy (Some i)) : bool + fault) = inl false \/
          (inl (ValidateModel.truthy (Some i)) : bool + fault) = inl true /\
          (inl (inl (negb (has_colons i))) : (bool + fault) + fault) = inl (inl true)) /\ Forall (fun v => run v u k_id = quiet) []) <->
        (exists i0, Some i = Some i0 /\ forall a b, i0 <> a ++ W "::" ++ b) /\
        (forall v, Some i = Some v -> v <> [] -> translatable P (v_unit P u) k_id = false) /\
        (forall p v, f_params P (v_unit P u) = Some p -> tget k_id (f_data P (v_unit P u)) = Some v ->
            exists l, accessed (jinja P (v_unit P u)) v = inl l /\ l <> [] /\ forall n, In n l -> has_param p n = true)).
      { intros pr N. rewrite Q. destruct pr; [cbn [present]|congruence]. split.
        - intros (A & _ & B & _ & D & _). eauto.
        - intros ((i' & X & D) & A & B). injection X as <-. repeat match goal with |- _ /\ _ => split end; auto. }
      apply F. destruct (f_provider P (v_unit P u)) as [[ns tr]|]; [destruct i|]; discriminate.
    - split; [|intros ((i & H & _) & _); discriminate].
      intros (_ & [H|[_ H]] & _); [discriminate|]. destruct (f_provider P (v_unit P u)) as [[ns tr]|]; discriminate.
  Qed.
  Lemma unit_silent u see : v_cls P u = CNamed k_exporter -> reads u see ->
    (Forall (fun v => run v u k_unit = quiet) (unit_validators P vformat render) <->
     (forall v, see k_unit None = Some v -> v <> [] -> translatable P (v_unit P u) k_unit = false) /\
     (forall p v, f_params P (v_unit P u) = Some p -> tget k_unit (f_data P (v_unit P u)) = Some v -> accessed (jinja P (v_unit P u)) v = inl []) /\
     see k_unit None <> None).
  Proof.
    intros K R. unfold unit_validators. rewrite !Forall_cons_iff, (run_untranslatable u see), run_invariant by exact R.
    unfold Present_field. rewrite run_correct. unfold always, judge, unit_of. rewrite K, R.
    destruct (see k_unit None); cbn [present].
    - split; [intros (A & B & _); repeat split; auto; discriminate|]. intros (A & B & _). repeat split; auto.
    - split; [intros (_ & _ & [H|[_ H]] & _); discriminate|]. intros (_ & _ & H). congruence.
  Qed.

  Lemma ext_char_spec c : ext_char wordchar c = true <-> wordchar c = true \/ c = "."%char \/ c = "-"%char.
  Proof. unfold ext_char. rewrite !orb_true_iff, !Ascii.eqb_eq. tauto. Qed.
  Lemma ext_rest_spec t : ext_rest wordchar t = true <->
    exists w nl, t = w ++ nl /\ (nl = [] \/ nl = [NL]) /\ forall c, In c w -> ext_char wordchar c = true.
  Proof.
    induction t as [|c t IH].
    - split; auto. intros _. exists [], []. repeat split; auto; intros c [].
    - destruct t as [|d t].
      + cbn [ext_rest]. rewrite orb_true_iff, Ascii.eqb_eq. split.
        * intros [H | ->]; [exists [c], []|exists [], [NL]]; (repeat split; auto); intros x X; cbn in X; intuition congruence.
        * intros (w & nl & E & [-> | ->] & A).
          -- rewrite app_nil_r in E. subst w. left. apply A. now left.
          -- destruct w as [|x w]; [injection E as ->; auto|]. destruct w; discriminate.
      + change (ext_rest wordchar (c :: d :: t)) with (ext_char wordchar c && ext_rest wordchar (d :: t)).
        rewrite andb_true_iff, IH. split.
        * intros (X & w & nl & E & N & A). exists (c :: w), nl. rewrite E. repeat split; auto. intros x [<-|I]; auto.
        * intros (w & nl & E & N & A). destruct w as [|x w].
          -- destruct N as [-> | ->]; discriminate.
          -- injection E as <- E. split; [apply A; now left|]. exists w, nl. repeat split; auto. intros y I. apply A. now right.
  Qed.
  Lemma good_extension_spec t : good_extension wordchar t = true <->
    exists w nl, t = w ++ nl /\ w <> [] /\ (nl = [] \/ nl = [NL]) /\ forall c, In c w -> wordchar c = true \/ c = "."%char \/ c = "-"%char.
  Proof.
    destruct t as [|c t]; cbn [good_extension].
    - split; [discriminate|]. intros (w & nl & E & N & _). symmetry in E. apply app_eq_nil in E as [-> _]. congruence.
    - rewrite andb_true_iff, ext_rest_spec. split.
      + intros (X & w & nl & -> & N & A). exists (c :: w), nl. repeat split; auto; [discriminate|].
        intros x [<-|I]; apply ext_char_spec; auto.
      + intros (w & nl & E & N & M & A). destruct w as [|x w]; [congruence|]. injection E as <- ->. split.
        * apply ext_char_spec, A. now left.
        * exists w, nl. repeat split; auto. intros y I. apply ext_char_spec, A. now right.
  Qed.
  Lemma json_truth_spec j : json_truth number_truth j = true <-> something number_truth j.
  Proof.
    destruct j as [|b|t|[|]|[|]|[|]]; cbn; split; try congruence; try tauto; discriminate.
  Qed.
  Lemma count_nl_spec t : (count_nl t =? 0) = true <-> ~ In NL t.
  Proof.
    rewrite Nat.eqb_eq. unfold count_nl. induction t as [|c t IH]; [split; auto|]. cbn [filter In].
    destruct (Ascii.eqb NL c) eqn:E.
    - apply Ascii.eqb_eq in E as <-. cbn. split; [lia|]. intros H. exfalso. auto.
    - apply Ascii.eqb_neq in E. rewrite IH. split; [intros H [X|X]; auto; congruence|auto].
  Qed.

  (** The checks are silent for the units that are usable *)
  Lemma check_silent u see : v_cls P u = CNamed k_exporter -> reads u see -> f_provider P (v_unit P u) <> None ->
    (check_exporter u = quiet <->
     usable P accessed has_param number_truth isfile wordchar C load_entry_point see
       (translatable P (v_unit P u)) (v_virtual P u) (jinja P (v_unit P u)) (f_params P (v_unit P u)) (f_data P (v_unit P u)) (data_dir (v_unit P u))).
  Proof.
    intros K R PV. unfold ExpunitModel.check_exporter. rewrite silent_gcat. unfold exporter_validators. cbn [map fst snd].
    rewrite !Forall_cons_iff. rewrite !silent_gcat, !Forall_map. rewrite (id_silent u see K R), (unit_silent u see K R).
    rewrite !Forall_cons_iff. rewrite !(run_untranslatable u see), !(run_present _ u see), (run_translatable u see) by exact R.
    unfold Present_field, One_line, Short_value. rewrite !run_correct. unfold always, judge, summary_attr, rbind. rewrite !R.
    split.
    - intros ((D1 & D2 & D3 & _) & (E1 & E2 & E3 & _) & (X1 & X2 & X3 & _) & (I1 & I2 & I3) & (O1 & _) & (_ & S2 & S3 & S4 & _) & (U1 & U2 & U3) & _).
      constructor.
      + exact I1.
      + exact U3.
      + change (W "file_extension") with k_extension. destruct (see k_extension None) as [e|]; [|congruence].
        destruct X3 as [X3|[_ X3]]; [discriminate|]. injection X3 as X3. apply good_extension_spec in X3 as (w & nl & -> & X).
        exists w, nl. split; auto.
      + change (W "entry_point") with k_entry_point. destruct (see k_entry_point None) as [n|]; [|congruence].
        destruct E3 as [E3|[_ E3]]; [discriminate|]. destruct (load_entry_point n) as [c|] eqn:L; [|discriminate]. exists n, c. auto.
      + change (W "data") with k_data. intros t E N. rewrite E in D2. destruct t as [|c t]; [congruence|].
        destruct D2 as [D2|[_ D2]]; [discriminate|]. injection D2 as D2. unfold loaded in D2.
        destruct (loads (c :: t)) as [j|]; [|discriminate]. exists j. split; auto. injection D2 as D2. now apply json_truth_spec.
      + change (W "entry_point") with k_entry_point. change (W "data") with k_data. change (W "template") with k_template.
        intros E. rewrite E in D3. destruct D3 as [D3|[_ D3]]; [discriminate|]. injection D3 as D3. unfold template_found in D3.
        destruct (see k_data None) as [t|]; [|discriminate]. destruct (f_provider P (v_unit P u)); [|discriminate].
        destruct (data_dir (v_unit P u)) as [d|]; [|discriminate]. destruct (loads t) as [[| | | | |kvs]|] eqn:LT; try discriminate.
        destruct (jlookup k_template kvs) as [[| | |name| |]|] eqn:J; try discriminate. injection D3 as D3. apply jlookup_spec in J.
        exists t, kvs, d, name. auto.
      + change (W "summary") with k_summary. destruct (see k_summary (Some [])) as [s|]; [|destruct S3 as [S3|[_ S3]]; discriminate].
        exists s. split; auto. destruct S3 as [S3|[_ S3]]; [discriminate|]. injection S3 as S3. apply count_nl_spec in S3.
        destruct S4 as [S4|[_ S4]]; [discriminate|]. injection S4 as S4. apply Nat.leb_le in S4. auto.
      + exact S2.
      + intros f v [<-|[<-|[<-|[<-|[<-|[<-|[]]]]]]]; [apply D1|apply E2|apply X2|apply I2|apply O1|apply U1].
      + exact I3.
      + exact U2.
    - intros [HI HU HX HC HD HT HS HM HP HV HK].
      assert (Q : forall f, In f ["data"; "entry_point"; "file_extension"; "id"; "options"; "unit"]%string ->
        forall v, see (W f) None = Some v -> v <> [] -> translatable P (v_unit P u) (W f) = false) by (intros f I v; apply HP; exact I).
      change (W "file_extension") with k_extension in *. change (W "entry_point") with k_entry_point in *. change (W "data") with k_data in *.
      change (W "template") with k_template in *. change (W "summary") with k_summary in *.
      destruct HX as (w & nl & HX & W1 & W2 & W3). destruct HC as (n & c & HC & HL). destruct HS as (s & HS & S1 & S2).
      rewrite HX, HC, HS in *. cbn [present]. rewrite HL.
      rewrite (proj2 (good_extension_spec (w ++ nl))) by eauto 6. rewrite (proj2 (count_nl_spec s) S1), (proj2 (Nat.leb_le _ _) S2).
      repeat match goal with |- _ /\ _ => split end; auto; try discriminate; try exact HI; try exact HM; try exact HV; try exact HK; try exact HU.
      + apply (Q "data"%string). cbn; tauto.
      + destruct (see k_data None) as [[|d t]|] eqn:E; [now left| |now left]. right. split; auto. unfold loaded.
        destruct (HD _ eq_refl ltac:(discriminate)) as (j & -> & J). now rewrite (proj2 (json_truth_spec j) J).
      + destruct (is (Some n) w_jinja2) eqn:E; [|now left]. right. split; auto.
        apply is_spec in E. injection E as ->. destruct (HT eq_refl) as (t & kvs & d & name & -> & L & D & J & F).
        unfold template_found. rewrite D, L. destruct (f_provider P (v_unit P u)); [|congruence].
        apply jlookup_spec in J. now rewrite J, F.
      + intros v X. apply (Q "entry_point"%string); [cbn; tauto|]. cbn in *. now rewrite HC.
      + intros v X. apply (Q "file_extension"%string); [cbn; tauto|]. cbn in *. now rewrite HX.
      + apply (Q "id"%string). cbn; tauto.
      + apply (Q "options"%string). cbn; tauto.
      + apply (Q "unit"%string). cbn; tauto.
  Qed.
End Proofs.
