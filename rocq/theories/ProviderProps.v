(** * C55: what is loaded from a provider *)
From Coq Require Import String Ascii List Bool Arith Lia Permutation.
From Verif Require Import ScanModel Rfc822Model Rfc822Proofs JsonModel IniModel IniProofs ChecksumModel CacheModel ExportModel
  PluginModel PluginSpec PluginProps ProviderModel ProviderSpec.
Import ListNotations.
Local Open Scope nat_scope.
Local Open Scope list_scope.

Lemma starts_spec d f : starts d f = true <-> exists d', d = Some d' /\ extends d' f.
Proof.
  unfold starts, extends. destruct d as [d|]; [|split; [discriminate|intros (? & ? & _); discriminate]].
  rewrite tprefix_spec. split; [eauto|]. intros (d' & E & H). injection E as <-. exact H.
Qed.

(** ** Names *)

Lemma basename_from_noslash p : forall acc, ~ In SL p -> basename_from acc p = rev acc ++ p.
Proof.
  induction p as [|c p IH]; intros acc N; cbn [basename_from]; [now rewrite app_nil_r|].
  change CacheModel.SLASH with SL. destruct (Ascii.eqb_spec c SL) as [->|D]; [exfalso; apply N; now left|].
  rewrite IH by (intros I; apply N; now right). cbn [rev]. rewrite <- app_assoc. reflexivity.
Qed.
Lemma basename_from_slash p q : forall acc, basename_from acc (p ++ SL :: q) = basename_from [] q.
Proof.
  induction p as [|c p IH]; intros acc; cbn [app basename_from]; change CacheModel.SLASH with SL.
  - now rewrite Ascii.eqb_refl.
  - destruct (Ascii.eqb c SL); apply IH.
Qed.
Lemma basename_split d b : ~ In SL b -> (d = [] \/ exists d', d = d' ++ [SL]) -> basename (d ++ b) = b.
Proof.
  intros N [->|[d' ->]]; unfold basename.
  - cbn [app]. now rewrite basename_from_noslash.
  - rewrite <- app_assoc. cbn [app]. rewrite basename_from_slash, basename_from_noslash by assumption. reflexivity.
Qed.
Lemma has_slash_last p : In SL p -> exists a b, p = a ++ SL :: b /\ ~ In SL b.
Proof.
  induction p as [|c p IH]; [intros []|]. intros H. destruct (in_dec ascii_dec SL p) as [I|I].
  - destruct (IH I) as (a & b & -> & N). exists (c :: a), b. auto.
  - destruct H as [->|H]; [|contradiction]. exists [], p. auto.
Qed.
Lemma split_path p : exists d b, p = d ++ b /\ ~ In SL b /\ (d = [] \/ exists d', d = d' ++ [SL]) /\ basename p = b.
Proof.
  destruct (in_dec ascii_dec SL p) as [I|I].
  - destruct (has_slash_last p I) as (a & b & -> & N). exists (a ++ [SL]), b.
    assert (E : a ++ SL :: b = (a ++ [SL]) ++ b) by (now rewrite <- app_assoc). split; [assumption|]. split; [assumption|].
    split; [right; eauto|]. rewrite E. apply basename_split; [assumption|right; eauto].
  - exists [], p. split; [reflexivity|]. split; [assumption|]. split; [now left|]. apply (basename_split [] p I). now left.
Qed.

Lemma last_dot_none t : last_dot t = None <-> ~ In "."%char t.
Proof.
  induction t as [|c t IH]; cbn [last_dot In]; [tauto|]. destruct (last_dot t) as [b|].
  - split; [discriminate|]. intros N. exfalso. apply N. right. destruct (in_dec ascii_dec "."%char t) as [I|I]; [assumption|].
    apply IH in I. discriminate.
  - destruct IH as [IH _]. specialize (IH eq_refl). destruct (Ascii.eqb_spec c "."%char) as [->|D]; [split; [discriminate|tauto]|].
    split; [|reflexivity]. intros _ [H|H]; congruence || contradiction.
Qed.
Lemma last_dot_some t b : last_dot t = Some b <-> exists e, t = b ++ "."%char :: e /\ ~ In "."%char e.
Proof.
  revert b. induction t as [|c t IH]; intros b; cbn [last_dot].
  - split; [discriminate|]. intros (e & H & _). destruct b; discriminate.
  - destruct (last_dot t) as [b'|] eqn:L.
    + destruct (proj1 (IH b') eq_refl) as (e & Et & N). split.
      * intros H. injection H as <-. exists e. rewrite Et. auto.
      * intros (e' & H & N'). destruct b as [|c' b]; cbn [app] in H; injection H as H1 H2; subst c.
        -- exfalso. apply N'. rewrite <- H2, Et. apply in_app_iff. right. now left.
        -- assert (X : Some b' = Some b) by (apply IH; rewrite H2; eauto). injection X as ->. reflexivity.
    + apply last_dot_none in L. assert (K : forall c' b e, c :: t = (c' :: b) ++ "."%char :: e -> False).
      { intros c' b0 e H. cbn [app] in H. injection H as _ H2. apply L. rewrite H2. apply in_app_iff. right. now left. }
      destruct (Ascii.eqb_spec c "."%char) as [D|D].
      * split; [intros H; injection H as <-; exists t; subst c; auto|]. intros (e & H & N). destruct b as [|c' b]; [reflexivity|].
        exfalso. eapply K. exact H.
      * split; [discriminate|]. intros (e & H & N). destruct b as [|c' b]; [cbn [app] in H; injection H as H1 _; congruence|].
        exfalso. eapply K. exact H.
Qed.

Lemma extension_dot f e : ~ In "."%char e -> ~ In SL e -> extension f = "."%char :: e <-> has_suffix f ("."%char :: e).
Proof.
  intros Nd Ns. unfold extension. destruct (split_path f) as (d & b & -> & N & D & ->). unfold splitext_root. split.
  - destruct (last_dot b) as [r|] eqn:L.
    + destruct (existsb _ r) eqn:X.
      * apply last_dot_some in L as (e' & -> & N'). rewrite skipn_app, skipn_all, Nat.sub_diag. cbn [app skipn]. intros H. injection H as ->.
        apply existsb_exists in X as (c & Ic & X). apply negb_true_iff, Ascii.eqb_neq in X.
        exists d, r. split; [reflexivity|]. split; [assumption|]. split; [intros I; apply N, in_app_iff; now left|]. eauto.
      * rewrite skipn_all. discriminate.
    + rewrite skipn_all. discriminate.
  - intros (d' & r & E & D' & N' & c & Ic & Dc).
    assert (Eb : b = r ++ "."%char :: e).
    { assert (X : basename (d ++ b) = b) by now apply basename_split. rewrite E in X. rewrite <- X.
      apply basename_split; [|assumption]. intros I. apply in_app_iff in I as [I|[I|I]]; [contradiction|discriminate|contradiction]. }
    subst b. rewrite (proj2 (last_dot_some _ r)) by eauto.
    assert (X : existsb (fun c => negb (Ascii.eqb c "."%char)) r = true).
    { apply existsb_exists. exists c. split; [assumption|]. apply negb_true_iff. now apply Ascii.eqb_neq. }
    rewrite X, skipn_app, skipn_all, Nat.sub_diag. reflexivity.
Qed.
(** An extension has one dot only. *)
Lemma extension_one_dot f a b : extension f <> "."%char :: a ++ "."%char :: b.
Proof.
  unfold extension. destruct (split_path f) as (d & t & -> & N & D & ->). unfold splitext_root.
  destruct (last_dot t) as [r|] eqn:L; [|rewrite skipn_all; discriminate]. destruct (existsb _ r); [|rewrite skipn_all; discriminate].
  apply last_dot_some in L as (e' & -> & N'). rewrite skipn_app, skipn_all, Nat.sub_diag. cbn [app skipn]. intros H. injection H as ->.
  apply N'. apply in_app_iff. right. now left.
Qed.

(** ** Classification *)

Section Class.
  Context {X : Type}.
  Variables (p : provider) (executable : text -> bool) (magic_of : text -> magic X) (EXECUTABLES : list text).
  Notation classify := (classify X p executable magic_of EXECUTABLES).

  Lemma present_spec d t : In t (present d) <-> d = Some t /\ t <> [].
  Proof.
    destruct d as [[|c d]|]; cbn [present In].
    - split; [intros []|intros [E N]]. injection E as <-. congruence.
    - split; [intros [<-|[]]; split; [reflexivity|discriminate]|]. intros [E _]. injection E as <-. now left.
    - split; [intros []|intros [E _]; discriminate].
  Qed.
  Lemma if_present_In d (l : list (text -> classified X)) fn : In fn (if_present X d l) <-> In fn l /\ exists t, d = Some t /\ t <> [].
  Proof.
    unfold if_present. pose proof (present_spec d) as H. destruct (present d) as [|t r].
    - split; [intros []|]. intros [_ (t & E)]. apply H in E. destruct E.
    - split; [|tauto]. intros I. split; [assumption|]. exists t. apply H. now left.
  Qed.
  Lemma first_of_app (a b : list (text -> classified X)) f : first_of X (a ++ b) f = match first_of X a f with Skip => first_of X b f | c => c end.
  Proof. induction a as [|fn a IH]; cbn [app first_of]; [reflexivity|]. destruct (fn f); auto. Qed.
  Lemma first_of_is (l : list (text -> classified X)) f c : first_of X l f = c -> c <> Skip -> exists fn, In fn l /\ fn f = c.
  Proof.
    induction l as [|fn l IH]; cbn [first_of]; intros E N; [congruence|].
    destruct (fn f) eqn:F; try (exists fn; split; [now left|congruence]).
    destruct (IH E N) as (g & I & G). exists g. split; [now right|assumption].
  Qed.

  Lemma vcs_loop_cases n : forall h, vcs_loop X p n h = Hangs \/ vcs_loop X p n h = Skip \/ vcs_loop X p n h = Is R_vcs (p_base p) NoPlugin.
  Proof.
    induction n as [|n IH]; intros h; cbn [vcs_loop]; [now left|]. destruct (_ || _); [auto|]. destruct (tmem _ _); auto.
  Qed.

  Definition dir_present (d : option text) (t : text) : Prop := d = Some t /\ t <> [].
  (** Whether units are taken from a file depends on its directory and extension only. *)
  Theorem C55_unit_files f :
    (exists r b, classify f = Is r b UnitFile) <->
    (exists d, dir_present (p_jobs p) d /\ extends d f /\ (has_suffix f (T ".txt") \/ has_suffix f (T ".in") \/ has_suffix f (T ".pxu"))) \/
    (exists d, dir_present (p_units p) d /\ extends d f /\ (has_suffix f (T ".txt") \/ has_suffix f (T ".pxu"))).
  Proof.
    assert (Ext : forall e, ~ In "."%char (T e) -> ~ In SL (T e) -> text_eqb (extension f) ("."%char :: T e) = true <-> has_suffix f ("."%char :: T e)).
    { intros e N1 N2. rewrite text_eqb_eq. now apply extension_dot. }
    assert (J : tmem (extension f) [T ".txt"; T ".in"; T ".pxu"] = true <-> has_suffix f (T ".txt") \/ has_suffix f (T ".in") \/ has_suffix f (T ".pxu")).
    { unfold tmem. cbn [existsb]. rewrite orb_false_r, !orb_true_iff.
      rewrite (Ext "txt"%string), (Ext "in"%string), (Ext "pxu"%string) by (cbn; intuition discriminate). tauto. }
    assert (U : tmem (extension f) [T ".txt"; T ".txt.in"; T ".pxu"] = true <-> has_suffix f (T ".txt") \/ has_suffix f (T ".pxu")).
    { unfold tmem. cbn [existsb]. rewrite orb_false_r, !orb_true_iff.
      rewrite (Ext "txt"%string), (Ext "pxu"%string) by (cbn; intuition discriminate).
      assert (N : text_eqb (extension f) (T ".txt.in") = true <-> False).
      { rewrite text_eqb_eq. split; [|tauto]. apply (extension_one_dot f (T "txt") (T "in")). }
      rewrite N. tauto. }
    assert (J' : forall x, pxu_jobs X p f = x -> (exists d, p_jobs p = Some d /\ extends d f /\ (has_suffix f (T ".txt") \/ has_suffix f (T ".in") \/ has_suffix f (T ".pxu"))) /\ x = Is R_unit_source (p_jobs p) UnitFile \/
        ~ (exists d, p_jobs p = Some d /\ extends d f /\ (has_suffix f (T ".txt") \/ has_suffix f (T ".in") \/ has_suffix f (T ".pxu"))) /\ x = Skip).
    { intros x <-. unfold pxu_jobs. destruct (starts (p_jobs p) f && tmem (extension f) [T ".txt"; T ".in"; T ".pxu"]) eqn:E.
      - apply andb_true_iff in E as [A B]. apply starts_spec in A as (d & A & A'). apply J in B. left. split; [exists d; auto|reflexivity].
      - right. split; [|reflexivity]. intros (d & A & A' & B). apply J in B. rewrite (proj2 (starts_spec _ _)) in E by eauto. now rewrite B in E. }
    assert (U' : forall x, pxu_units X p f = x -> (exists d, p_units p = Some d /\ extends d f /\ (has_suffix f (T ".txt") \/ has_suffix f (T ".pxu"))) /\ x = Is R_unit_source (p_units p) UnitFile \/
        ~ (exists d, p_units p = Some d /\ extends d f /\ (has_suffix f (T ".txt") \/ has_suffix f (T ".pxu"))) /\ x = Skip).
    { intros x <-. unfold pxu_units. destruct (starts (p_units p) f && tmem (extension f) [T ".txt"; T ".txt.in"; T ".pxu"]) eqn:E.
      - apply andb_true_iff in E as [A B]. apply starts_spec in A as (d & A & A'). apply U in B. left. split; [exists d; auto|reflexivity].
      - right. split; [|reflexivity]. intros (d & A & A' & B). apply U in B. rewrite (proj2 (starts_spec _ _)) in E by eauto. now rewrite B in E. }
    assert (Not : forall fn, In fn (classify_fns X p executable magic_of EXECUTABLES) -> (exists r b, fn f = Is r b UnitFile) ->
      (fn = pxu_jobs X p /\ exists d, dir_present (p_jobs p) d) \/ (fn = pxu_units X p /\ exists d, dir_present (p_units p) d)).
    { clear J U J' U' Ext. intros fn I (r & b & E). unfold classify_fns in I. rewrite !in_app_iff in I. rewrite !if_present_In in I.
      destruct I as [[I H]|[[I H]|[[I _]|[[I _]|[[I _]|[[I _]|[[I _]|[[I _]|[[I _]|[[I _]|I]]]]]]]]]].
      - destruct I as [<-|[]]. left. auto.
      - destruct I as [<-|[]]. right. auto.
      - exfalso. destruct I as [<-|[]]. unfold data in E. destruct (starts _ _); discriminate.
      - exfalso. destruct I as [<-|[]]. unfold exec, by_magic in E. destruct (_ && _); [destruct (magic_of f)|]; discriminate.
      - exfalso. destruct I as [<-|[]]. unfold built_exec, by_magic in E. destruct (_ && _); [destruct (magic_of f)|]; discriminate.
      - exfalso. destruct I as [<-|[]]. unfold built_i18n in E. destruct (_ && _); discriminate.
      - exfalso. destruct I as [<-|[]]. unfold build in E. destruct (starts _ _); discriminate.
      - exfalso. destruct I as [<-|[]]. unfold po in E. destruct (_ && _); discriminate.
      - exfalso. destruct I as [<-|[]]. unfold src in E. destruct (starts _ _); discriminate.
      - exfalso. destruct I as [<-|[<-|[<-|[<-|[]]]]].
        + unfold legal in E. destruct (tmem _ _); discriminate.
        + unfold docs in E. destruct (tmem _ _); discriminate.
        + unfold manage_py in E. destruct (p_base p); [destruct (text_eqb _ _)|]; discriminate.
        + unfold vcs in E. destruct (tmem _ _); [discriminate|]. destruct (vcs_loop_cases (S (length f)) f) as [K|[K|K]]; rewrite K in E; discriminate.
      - exfalso. destruct I as [<-|[]]. discriminate. }
    split.
    - intros (r & b & E). destruct (first_of_is _ f _ E) as (fn & I & F); [discriminate|].
      destruct (Not fn I) as [[-> (d & D)]|[-> (d & D)]]; [eauto| |].
      + destruct (J' _ eq_refl) as [[(d' & A & B) _]|[_ K]]; [|rewrite F in K; discriminate]. left. exists d. split; [assumption|].
        destruct D as [D _]. rewrite D in A. injection A as <-. exact B.
      + destruct (U' _ eq_refl) as [[(d' & A & B) _]|[_ K]]; [|rewrite F in K; discriminate]. right. exists d. split; [assumption|].
        destruct D as [D _]. rewrite D in A. injection A as <-. exact B.
    - intros H. unfold ProviderModel.classify, classify_fns.
      assert (Pj : forall d, dir_present (p_jobs p) d -> if_present X (p_jobs p) [pxu_jobs X p] = [pxu_jobs X p]).
      { intros d [D N]. unfold if_present. rewrite D. destruct d; [congruence|reflexivity]. }
      assert (Pu : forall d, dir_present (p_units p) d -> if_present X (p_units p) [pxu_units X p] = [pxu_units X p]).
      { intros d [D N]. unfold if_present. rewrite D. destruct d; [congruence|reflexivity]. }
      rewrite first_of_app.
      assert (Fj : first_of X (if_present X (p_jobs p) [pxu_jobs X p]) f = Is R_unit_source (p_jobs p) UnitFile \/
                   first_of X (if_present X (p_jobs p) [pxu_jobs X p]) f = Skip).
      { unfold if_present. destruct (present (p_jobs p)); [now right|]. cbn [first_of].
        destruct (J' _ eq_refl) as [[_ K]|[_ K]]; rewrite K; auto. }
      destruct Fj as [->|Fj]; [eauto|]. rewrite Fj. destruct H as [(d & D & B)|(d & D & B)].
      + exfalso. rewrite (Pj d D) in Fj. cbn [first_of] in Fj. destruct (J' _ eq_refl) as [[_ K]|[K _]].
        * rewrite K in Fj. discriminate.
        * apply K. exists d. split; [apply D|assumption].
      + rewrite (Pu d D), first_of_app. cbn [first_of]. destruct (U' _ eq_refl) as [[_ K]|[K _]]; [rewrite K; eauto|].
        exfalso. apply K. exists d. split; [apply D|assumption].
  Qed.

  (** The rules in order, with what they can say. *)
  Lemma classify_cases f c : classify f = c ->
    (exists d, c = Is R_unit_source (Some d) UnitFile /\ extends d f) \/
    (exists d, c = Is R_data (Some d) ContentFile /\ extends d f /\ p_data p = Some d) \/
    (exists d, (p_bin p = Some d \/ build_bin_dir p = Some d) /\ extends d f /\ executable f = true /\ c = by_magic X magic_of f (Some d)) \/
    (c = Is R_i18n (build_bin_dir p) ContentFile) \/
    (exists d, c = Is R_build (Some d) NoPlugin /\ extends d f) \/
    (exists r k, (k = ContentFile /\ (r = R_legal \/ r = R_docs) \/ k = NoPlugin /\ (r = R_src \/ r = R_manage_py \/ r = R_vcs \/ r = R_unknown)) /\ c = Is r (p_base p) k) \/
    (c = Hangs /\ vcs X p f = Hangs /\ p_base p <> None).
  Proof.
    intros E. assert (NS : classify f <> Skip).
    { unfold ProviderModel.classify, classify_fns. rewrite !app_assoc, first_of_app. cbn [first_of unknown]. destruct (first_of _ _ f); discriminate. }
    rewrite E in NS. destruct (first_of_is _ f _ E NS) as (fn & I & F). clear E.
    unfold classify_fns in I. rewrite !in_app_iff in I. rewrite !if_present_In in I.
    assert (SK : forall (q : bool) (x : classified X), (if q then x else Skip) = c -> q = true /\ x = c) by (intros [] x Q; [auto|congruence]).
    destruct I as [[I H]|[[I H]|[[I _]|[[I _]|[[I _]|[[I _]|[[I _]|[[I _]|[[I _]|[[I (t & HB & _)]|I]]]]]]]]]].
    - destruct I as [<-|[]]. apply SK in F as [Q F]. apply andb_true_iff in Q as [Q _]. apply starts_spec in Q as (d & D & Q). rewrite D in F. left. eauto.
    - destruct I as [<-|[]]. apply SK in F as [Q F]. apply andb_true_iff in Q as [Q _]. apply starts_spec in Q as (d & D & Q). rewrite D in F. left. eauto.
    - destruct I as [<-|[]]. apply SK in F as [Q F]. apply starts_spec in Q as (d & D & Q). rewrite D in F. right; left. eauto.
    - destruct I as [<-|[]]. apply SK in F as [Q F]. apply andb_true_iff in Q as [Q Q']. apply starts_spec in Q as (d & D & Q). rewrite D in F.
      right; right; left. exists d. auto.
    - destruct I as [<-|[]]. apply SK in F as [Q F]. apply andb_true_iff in Q as [Q _]. apply andb_true_iff in Q as [Q Q']. apply starts_spec in Q as (d & D & Q).
      rewrite D in F. right; right; left. exists d. auto.
    - destruct I as [<-|[]]. apply SK in F as [Q F]. right; right; right; left. auto.
    - destruct I as [<-|[]]. apply SK in F as [Q F]. apply starts_spec in Q as (d & D & Q). rewrite D in F. right; right; right; right; left. eauto.
    - destruct I as [<-|[]]. apply SK in F as [Q F]. right; right; right; right; right; left. eauto 10.
    - destruct I as [<-|[]]. apply SK in F as [Q F]. right; right; right; right; right; left. eauto 10.
    - destruct I as [<-|[<-|[<-|[<-|[]]]]].
      + apply SK in F as [Q F]. right; right; right; right; right; left. eauto 10.
      + apply SK in F as [Q F]. right; right; right; right; right; left. eauto 10.
      + unfold manage_py in F. destruct (p_base p) as [b|] eqn:B; [|congruence]. apply SK in F as [Q F]. right; right; right; right; right; left. eauto 10.
      + assert (V : vcs X p f = c) by exact F. unfold vcs in F. destruct (tmem _ _); [right; right; right; right; right; left; eauto 10|].
        destruct (vcs_loop_cases (S (length f)) f) as [K|[K|K]]; rewrite K in F.
        * right; right; right; right; right; right. split; [auto|]. split; [congruence|]. rewrite HB. discriminate.
        * congruence.
        * right; right; right; right; right; left. eauto 10.
    - destruct I as [<-|[]]. right; right; right; right; right; left. exists R_unknown, NoPlugin. split; [auto 10|]. symmetry. exact F.
  Qed.

  (** The base directory of a file is a directory above it, except for translations. *)
  Theorem C55_base_is_above f r d c : classify f = Is r (Some d) c ->
    (forall b, p_base p = Some b -> extends b f) -> r <> R_i18n -> extends d f.
  Proof.
    intros E B NI. apply classify_cases in E as [(d' & E & H)|[(d' & E & H & _)|[(d' & _ & H & _ & E)|[E|[(d' & E & H)|[(r' & k & _ & E)|(E & _)]]]]]].
    - injection E as _ <- _. assumption.
    - injection E as _ <- _. assumption.
    - unfold by_magic in E. destruct (magic_of f); try discriminate; injection E as _ <- _; assumption.
    - injection E as -> _ _. congruence.
    - injection E as _ <- _. assumption.
    - injection E as _ E _. auto.
    - discriminate.
  Qed.

  (** Scripts and binaries are executable files below the directories of executables;
      a script is one that begins with #!. *)
  Theorem C55_executables f r b c : classify f = Is r b c -> r = R_script \/ r = R_binary ->
    executable f = true /\ c = ContentFile /\ (r = R_script <-> magic_of f = Script) /\ (r = R_binary <-> magic_of f = Binary) /\
    exists d, b = Some d /\ extends d f /\ (p_bin p = Some d \/ build_bin_dir p = Some d).
  Proof.
    intros E R. apply classify_cases in E as [(d' & E & H)|[(d' & E & H & _)|[(d' & D & H & XX & E)|[E|[(d' & E & H)|[(r' & k & K & E)|(E & _)]]]]]].
    - injection E as -> _ _. destruct R; discriminate.
    - injection E as -> _ _. destruct R; discriminate.
    - unfold by_magic in E. destruct (magic_of f) eqn:M; [injection E as -> -> ->|injection E as -> -> ->|discriminate].
      + split; [assumption|]. split; [reflexivity|]. split; [tauto|]. split; [split; discriminate|]. eauto.
      + split; [assumption|]. split; [reflexivity|]. split; [split; discriminate|]. split; [tauto|]. eauto.
    - injection E as -> _ _. destruct R; discriminate.
    - injection E as -> _ _. destruct R; discriminate.
    - injection E as <- _ _. destruct K as [[_ [K|K]]|[_ [K|[K|[K|K]]]]]; rewrite K in R; destruct R; discriminate.
    - discriminate.
  Qed.

  (** And every executable file below bin is one, unless it is also a source of units or
      below the directory of data. *)
  Theorem C55_executables_in_bin f d : dir_present (p_bin p) d -> extends d f -> executable f = true ->
    (forall r b, classify f <> Is r b UnitFile) -> (forall d', dir_present (p_data p) d' -> ~ extends d' f) ->
    classify f = match magic_of f with
                 | Script => Is R_script (Some d) ContentFile
                 | Binary => Is R_binary (Some d) ContentFile
                 | CannotOpen x => Fails x
                 end.
  Proof.
    intros [D ND] H XX NU NDt.
    assert (S1 : forall q : text -> classified X, (q f = Skip \/ exists r b, q f = Is r b UnitFile) -> forall dd, first_of X (if_present X dd [q]) f = Skip \/
      exists r b, first_of X (if_present X dd [q]) f = Is r b UnitFile).
    { intros q Q dd. unfold if_present. destruct (present dd); [now left|]. cbn [first_of]. destruct Q as [Q|(r & b & Q)]; rewrite Q; eauto. }
    revert NU. unfold ProviderModel.classify, classify_fns. rewrite first_of_app.
    destruct (S1 (pxu_jobs X p)) with (dd := p_jobs p) as [K|(r & b & K)].
    { unfold pxu_jobs. destruct (_ && _); eauto. }
    2: { rewrite K. intros NU. exfalso. eapply NU. reflexivity. }
    rewrite K. clear K. rewrite first_of_app. destruct (S1 (pxu_units X p)) with (dd := p_units p) as [K|(r & b & K)].
    { unfold pxu_units. destruct (_ && _); eauto. }
    2: { rewrite K. intros NU. exfalso. eapply NU. reflexivity. }
    rewrite K. clear K. intros _. rewrite first_of_app.
    assert (K : first_of X (if_present X (p_data p) [data X p]) f = Skip).
    { unfold if_present. destruct (present (p_data p)) as [|t l] eqn:E; [reflexivity|]. cbn [first_of]. unfold data.
      destruct (starts (p_data p) f) eqn:Q; [|reflexivity]. exfalso. apply starts_spec in Q as (d' & D' & Q).
      apply (NDt d'); [|assumption]. split; [assumption|]. rewrite D' in E. destruct d'; discriminate. }
    rewrite K, first_of_app. unfold if_present at 1. rewrite D. destruct d as [|c0 d]; [congruence|]. cbn [present first_of]. unfold exec.
    rewrite (proj2 (starts_spec _ _)) by eauto. rewrite XX. cbn [andb]. unfold by_magic. rewrite D. destruct (magic_of f); reflexivity.
  Qed.

  (** ** Version control *)

  Lemma not_ends_slash t : (forall q, t <> q ++ [SL]) -> match rev t with [] => True | c :: _ => c <> SL end.
  Proof.
    intros N. destruct (rev t) as [|c r] eqn:E; [trivial|]. intros ->. apply (N (rev r)).
    rewrite <- (rev_involutive t), E. reflexivity.
  Qed.
  Lemma after_slash_skip a b : ~ In SL a -> after_slash (a ++ SL :: b) = SL :: b.
  Proof.
    induction a as [|c a IH]; cbn [app after_slash]; intros N; [now rewrite Ascii.eqb_refl|].
    destruct (Ascii.eqb_spec c SL) as [->|D]; [exfalso; apply N; now left|]. apply IH. intros I; apply N; now right.
  Qed.
  Lemma pdirname_below d n : d <> [] -> (forall q, d <> q ++ [SL]) -> ~ In SL n -> pdirname (d ++ SL :: n) = d.
  Proof.
    intros ND NE N. unfold pdirname. rewrite rev_app_distr. cbn [rev]. rewrite <- app_assoc. cbn [app].
    rewrite after_slash_skip by (now rewrite <- in_rev). cbn [drop_slashes]. rewrite Ascii.eqb_refl.
    pose proof (not_ends_slash d NE) as H. destruct (rev d) as [|c r] eqn:E.
    - exfalso. apply ND. rewrite <- (rev_involutive d), E. reflexivity.
    - cbn [drop_slashes]. destruct (Ascii.eqb_spec c SL); [contradiction|]. transitivity (rev (c :: r)); [reflexivity|]. rewrite <- E. apply rev_involutive.
  Qed.
  Lemma below_snoc d l n : below d (l ++ [n]) = below d l ++ SL :: n.
  Proof. unfold below. rewrite map_app, concat_app. cbn [map concat]. rewrite app_nil_r, app_assoc. reflexivity. Qed.
  Lemma below_good d l : d <> [] -> (forall q, d <> q ++ [SL]) -> Forall is_name l -> below d l <> [] /\ (forall q, below d l <> q ++ [SL]).
  Proof.
    intros ND NE F. split.
    - unfold below. intros E. apply app_eq_nil in E as [E _]. contradiction.
    - destruct l as [|n l _] using rev_ind; [unfold below; cbn [map concat]; now rewrite app_nil_r|].
      apply Forall_app in F as [_ F]. inversion F as [|? ? [Nn Ns] _]. subst. rewrite below_snoc. intros q E.
      destruct n as [|c n _] using rev_ind; [congruence|]. assert (E' : (below d l ++ SL :: n) ++ [c] = q ++ [SL]) by (rewrite <- E, <- app_assoc; reflexivity).
      apply app_inj_tail in E' as [_ ->]. apply Ns. apply in_app_iff. right. now left.
  Qed.
  Lemma below_length d l : Forall is_name l -> length d + 2 * length l <= length (below d l).
  Proof.
    unfold below. rewrite app_length. induction l as [|n l IH]; cbn [map concat length]; intros F; [lia|].
    inversion F as [|? ? [Nn _] F']. subst. specialize (IH F'). cbn [app length]. rewrite app_length. destruct n; [congruence|]. cbn [length]. lia.
  Qed.

  (** A file that no earlier rule takes belongs to a version control system if it is one of
      the lists of ignored files, or if one of the names on its way from the base directory
      is that of a repository; nothing above the base directory matters. *)
  Lemma vcs_loop_spec b names : p_base p = Some b -> b <> [] -> (forall q, b <> q ++ [SL]) -> Forall is_name names ->
    forall n, length names < n -> vcs_loop X p n (below b names) =
    if existsb (fun c => text_eqb c (T ".git") || text_eqb c (T ".bzr")) names then Is R_vcs (Some b) NoPlugin else Skip.
  Proof.
    intros B NB NS. induction names as [|c names IH] using rev_ind; intros F n L.
    - destruct n as [|n]; [lia|]. cbn [vcs_loop]. rewrite B. unfold below. cbn [map concat]. rewrite app_nil_r, text_eqb_refl. reflexivity.
    - rewrite app_length in L. cbn [length] in L. destruct n as [|n]; [lia|]. cbn [vcs_loop]. rewrite B.
      apply Forall_app in F as [F Fc]. inversion Fc as [|? ? [Nc Sc] _]. subst.
      destruct (below_good b names NB NS F) as [G1 G2]. rewrite below_snoc.
      assert (LL : length b < length (below b names ++ SL :: c)) by (pose proof (below_length b names F); rewrite app_length; cbn [length]; lia).
      assert (N1 : text_eqb (below b names ++ SL :: c) b = false) by (apply text_eqb_neq; intros E; rewrite E in LL; lia).
      assert (N2 : text_eqb (below b names ++ SL :: c) [] = false) by (apply text_eqb_neq; intros E; rewrite E in LL; cbn [length] in LL; lia).
      assert (N3 : text_eqb (below b names ++ SL :: c) [SL] = false).
      { apply text_eqb_neq; intros E. rewrite E in LL. cbn [length] in LL. destruct b; [congruence|cbn [length] in LL; lia]. }
      rewrite N1, N2, N3. cbn [orb].
      assert (Bn : basename (below b names ++ SL :: c) = c).
      { change (SL :: c) with ([SL] ++ c). rewrite app_assoc. apply basename_split; [assumption|right; eauto]. }
      rewrite Bn, pdirname_below by assumption. rewrite existsb_app. cbn [existsb]. rewrite orb_false_r.
      unfold tmem. cbn [existsb]. rewrite orb_false_r. destruct (text_eqb c (T ".git") || text_eqb c (T ".bzr")); [now rewrite orb_true_r|].
      rewrite orb_false_r. apply IH; [assumption|lia].
  Qed.
  Theorem C55_vcs b names last : p_base p = Some b -> b <> [] -> (forall q, b <> q ++ [SL]) -> Forall is_name (names ++ [last]) ->
    (vcs X p (below b (names ++ [last])) = Is R_vcs (Some b) NoPlugin <->
      In last [T ".gitignore"; T ".bzrignore"] \/ exists c, In c (names ++ [last]) /\ In c [T ".git"; T ".bzr"]) /\
    (vcs X p (below b (names ++ [last])) = Skip <->
      ~ In last [T ".gitignore"; T ".bzrignore"] /\ forall c, In c (names ++ [last]) -> ~ In c [T ".git"; T ".bzr"]).
  Proof.
    intros B NB NS F. unfold vcs.
    assert (Bn : basename (below b (names ++ [last])) = last).
    { rewrite below_snoc. change (SL :: last) with ([SL] ++ last). rewrite app_assoc. apply Forall_app in F as [_ F]. inversion F as [|? ? [_ Fs] _]. subst.
      apply basename_split; [assumption|right; eauto]. }
    rewrite Bn. destruct (tmem last [T ".gitignore"; T ".bzrignore"]) eqn:M.
    - apply tmem_In in M. rewrite B. split; split; intros; [now left|reflexivity|discriminate|tauto].
    - assert (NM : ~ In last [T ".gitignore"; T ".bzrignore"]) by (rewrite <- tmem_In, M; discriminate).
      rewrite (vcs_loop_spec b (names ++ [last]) B NB NS F); [|pose proof (below_length b _ F); lia].
      assert (EX : existsb (fun c => text_eqb c (T ".git") || text_eqb c (T ".bzr")) (names ++ [last]) = true <-> exists c, In c (names ++ [last]) /\ In c [T ".git"; T ".bzr"]).
      { rewrite existsb_exists. cbn [In]. split; intros (c & I & H); exists c; (split; [assumption|]).
        - apply orb_true_iff in H as [H|H]; apply text_eqb_eq in H; auto.
        - apply orb_true_iff. destruct H as [<-|[<-|[]]]; rewrite text_eqb_refl; auto. }
      destruct (existsb _ _).
      + assert (K : exists c, In c (names ++ [last]) /\ In c [T ".git"; T ".bzr"]) by now apply EX.
        split; split; [auto|reflexivity|discriminate|]. intros [_ H]. destruct K as (c & I & J). destruct (H c I J).
      + assert (K : ~ exists c, In c (names ++ [last]) /\ In c [T ".git"; T ".bzr"]) by (intros K; apply EX in K; discriminate).
        split; split; [discriminate|tauto| |reflexivity]. intros _. split; [assumption|]. intros c I J. apply K. eauto.
  Qed.

  (** Every file below the base directory gets an answer, unless it is executable and
      cannot be opened. *)
  Theorem C55_every_file_is_classified b names last : p_base p = Some b -> b <> [] -> (forall q, b <> q ++ [SL]) -> Forall is_name (names ++ [last]) ->
    (exists r d c, classify (below b (names ++ [last])) = Is r d c) \/
    (exists x, classify (below b (names ++ [last])) = Fails x /\ executable (below b (names ++ [last])) = true /\
       magic_of (below b (names ++ [last])) = CannotOpen x).
  Proof.
    intros B NB NS F. set (f := below b (names ++ [last])).
    destruct (classify_cases f _ eq_refl) as [(d' & E & H)|[(d' & E & H & _)|[(d' & D & H & XX & E)|[E|[(d' & E & H)|[(r' & k & K & E)|(E & V & _)]]]]]];
      rewrite E; eauto.
    - unfold by_magic. destruct (magic_of f) eqn:M; eauto 6.
    - exfalso. destruct (C55_vcs b names last B NB NS F) as [[V1 V2] [V3 V4]]. fold f in V1, V2, V3, V4. rewrite V in V2, V4.
      destruct (in_dec (list_eq_dec ascii_dec) last [T ".gitignore"; T ".bzrignore"]) as [I|I]; [discriminate (V2 (or_introl I))|].
      destruct (existsb (fun c => tmem c [T ".git"; T ".bzr"]) (names ++ [last])) eqn:X1.
      + apply existsb_exists in X1 as (c & Ic & J). apply tmem_In in J. discriminate (V2 (or_intror (ex_intro _ c (conj Ic J)))).
      + discriminate V4. split; [assumption|]. intros c Ic J. apply tmem_In in J.
        assert (Y : existsb (fun c => tmem c [T ".git"; T ".bzr"]) (names ++ [last]) = true) by (apply existsb_exists; eauto). congruence.
  Qed.
End Class.
Print Assumptions C55_unit_files.
Print Assumptions C55_base_is_above.
Print Assumptions C55_executables.
Print Assumptions C55_executables_in_bin.
Print Assumptions C55_vcs.
Print Assumptions C55_every_file_is_classified.

(** ** Cases *)

Definition example_provider : provider :=
  mk_provider (Some (T "/p/units")) (Some (T "/p/jobs")) (Some (T "/p/data")) (Some (T "/p/bin")) (Some (T "/p/locale")) (Some (T "/p")).
Definition example_classify : text -> classified nat :=
  classify nat example_provider (fun f => text_eqb f (T "/p/bin/run") || text_eqb f (T "/p/bin/tool") || text_eqb f (T "/p/build/bin/tool"))
    (fun f => if text_eqb f (T "/p/bin/run") then Script else Binary) [T "tool"].
Example classified_files :
  map example_classify (map T ["/p/jobs/a.pxu"; "/p/jobs/b.txt.in"; "/p/units/c.txt"; "/p/units/d.py"; "/p/data/e.png"; "/p/bin/run"; "/p/bin/tool";
      "/p/build/bin/tool"; "/p/bin/notes"; "/p/COPYING"; "/p/manage.py"; "/p/.git/config"; "/p/src/Makefile"; "/p/x"]%string) =
    [Is R_unit_source (Some (T "/p/jobs")) UnitFile; Is R_unit_source (Some (T "/p/jobs")) UnitFile;
     Is R_unit_source (Some (T "/p/units")) UnitFile; Is R_unknown (Some (T "/p")) NoPlugin;
     Is R_data (Some (T "/p/data")) ContentFile; Is R_script (Some (T "/p/bin")) ContentFile;
     Is R_binary (Some (T "/p/bin")) ContentFile; Is R_binary (Some (T "/p/build/bin")) ContentFile;
     Is R_unknown (Some (T "/p")) NoPlugin; Is R_legal (Some (T "/p")) ContentFile; Is R_manage_py (Some (T "/p")) NoPlugin;
     Is R_vcs (Some (T "/p")) NoPlugin; Is R_src (Some (T "/p")) NoPlugin; Is R_unknown (Some (T "/p")) NoPlugin].
Proof. vm_compute. reflexivity. Qed.
Example a_file_below : exists names last, T "/p/.git/config" = below (T "/p") (names ++ [last]) /\ Forall is_name (names ++ [last]).
Proof.
  exists [T ".git"], (T "config"). split; [reflexivity|].
  repeat constructor; try discriminate; cbn; intuition discriminate.
Qed.

(** Refuted: units come from files in the directories for units only. *)
Theorem C55_units_come_from_their_directories_refuted :
  exists p f b, p_jobs p = Some (T "/p/jobs") /\ (forall names, f <> below (T "/p/jobs") names) /\
    classify nat p (fun _ => false) (fun _ => Binary) [] f = Is R_unit_source b UnitFile.
Proof.
  exists example_provider, (T "/p/jobs-old/a.pxu"), (Some (T "/p/jobs")). split; [reflexivity|]. split; [|vm_compute; reflexivity].
  intros [|n names] E; unfold below in E; cbn in E; discriminate.
Qed.
(** Refuted: the .txt.in files in the directory for units, which is one of the
    extensions that the rule lists, are sources of units. *)
Theorem C55_txt_in_files_are_loaded_refuted :
  exists p f r b c, p_units p = Some (T "/p/units") /\ f = below (T "/p/units") [T "a.txt.in"] /\
    classify nat p (fun _ => false) (fun _ => Binary) [] f = Is r b c /\ c <> UnitFile.
Proof.
  exists example_provider, (T "/p/units/a.txt.in"), R_unknown, (Some (T "/p")), NoPlugin. split; [reflexivity|]. split; [reflexivity|].
  split; [vm_compute; reflexivity|discriminate].
Qed.
(** Refuted: also the base directory of translations is above them. *)
Theorem C55_base_of_translations_refuted :
  exists p f d c, classify nat p (fun _ => false) (fun _ => Binary) [] f = Is R_i18n (Some d) c /\ ~ extends d f.
Proof.
  exists example_provider, (T "/p/build/mo/pl/x.mo"), (T "/p/build/bin"), ContentFile. split; [vm_compute; reflexivity|].
  intros (r & E). cbn in E. discriminate.
Qed.
(** Refuted: every path gets an answer; with two slashes in front and one at the end of
    the base directory the search never ends. *)
Theorem C55_search_always_ends_refuted :
  exists p f, p_base p = Some (T "//p/") /\ extends (T "//p/") f /\
    forall n, vcs_loop nat p (S (length f) + n) f = Hangs.
Proof.
  exists (mk_provider None None None None None (Some (T "//p/"))), (T "//p/x"). split; [reflexivity|]. split; [exists (T "x"); reflexivity|].
  assert (L : forall n, vcs_loop nat (mk_provider None None None None None (Some (T "//p/"))) n (T "//") = Hangs).
  { induction n as [|n IH]; [reflexivity|]. exact IH. }
  intros n. exact (L (4 + n)).
Qed.
Print Assumptions C55_units_come_from_their_directories_refuted.
Print Assumptions C55_txt_in_files_are_loaded_refuted.
Print Assumptions C55_base_of_translations_refuted.
Print Assumptions C55_search_always_ends_refuted.

(** ** Loading *)

Section Loading.
  Context {X Pr : Type}.
  Variable classify : text -> classified X.
  Variables (records : text -> list (list (text * text)) + Pr) (unit_class : text -> bool) (unknown_type : text -> Pr)
    (from_record : list (text * text) -> unit_ + Pr) (issues : unit_ -> list (bool * Pr)) (invalid : unit_ -> option Pr)
    (check validate : bool).
  Notation load_record := (load_record Pr unit_class unknown_type from_record issues invalid check validate).
  Notation load_records := (load_records Pr unit_class unknown_type from_record issues invalid check validate).
  Notation load_file := (load_file X Pr classify records unit_class unknown_type from_record issues invalid check validate).
  Notation load_files := (load_files X Pr classify records unit_class unknown_type from_record issues invalid check validate).
  Notation ensure_loaded := (ensure_loaded X Pr classify records unit_class unknown_type from_record issues invalid check validate).
  Notation makes := (makes Pr unit_class from_record issues invalid check validate).
  Notation fails := (fails Pr unit_class unknown_type from_record issues invalid check validate).
  Notation adds := (adds Pr records unit_class unknown_type from_record issues invalid check validate classify).

  Lemma first_error_none l : first_error Pr l = None -> forall i, ~ In (true, i) l.
  Proof.
    induction l as [|[[] e] l IH]; cbn [first_error]; intros E i; [intros []|discriminate|].
    intros [I|I]; [discriminate|]. exact (IH E i I).
  Qed.
  Lemma first_error_some l e : first_error Pr l = Some e -> exists l1 l2, l = l1 ++ (true, e) :: l2 /\ forall j, ~ In (true, j) l1.
  Proof.
    induction l as [|[[] e'] l IH]; cbn [first_error]; intros E; [discriminate| |].
    - injection E as ->. exists [], l. auto.
    - destruct (IH E) as (l1 & l2 & -> & N). exists ((false, e') :: l1), l2. split; [reflexivity|]. intros j [I|I]; [discriminate|]. exact (N j I).
  Qed.
  Lemma load_record_spec r : match load_record r with inl u => makes r u | inr e => fails r e end.
  Proof.
    unfold ProviderModel.load_record. cbv zeta. set (t := match tget (T "unit") r with Some n => n | None => T "job" end).
    assert (Ty : type_of r t) by (unfold type_of, t; destruct (tget _ r); reflexivity).
    destruct (unit_class t) eqn:U; [|eapply f_type; eassumption]. destruct (from_record r) as [u|e] eqn:F; [|eapply f_data; eassumption].
    assert (C : match (if check then first_error Pr (issues u) else None) with
                | Some e => check = true /\ exists l1 l2, issues u = l1 ++ (true, e) :: l2 /\ forall j, ~ In (true, j) l1
                | None => check = true -> forall i, ~ In (true, i) (issues u) end).
    { destruct check; [|discriminate]. destruct (first_error Pr (issues u)) eqn:E; [split; [reflexivity|]; now apply first_error_some|].
      intros _. now apply first_error_none. }
    destruct (if check then _ else _) as [e|].
    - destruct C as (C & l1 & l2 & E & N). eapply f_check; eassumption.
    - destruct validate eqn:V.
      + destruct (invalid u) as [e|] eqn:I; [eapply f_validate; eauto|]. split; [eauto|]. auto.
      + split; [eauto|]. split; [assumption|]. split; [assumption|]. discriminate.
  Qed.
  Lemma load_records_spec l : match load_records l with
    | inl us => Forall2 makes l us
    | inr e => exists l1 r l2 us, l = l1 ++ r :: l2 /\ Forall2 makes l1 us /\ fails r e end.
  Proof.
    induction l as [|r l IH]; cbn [ProviderModel.load_records]; [constructor|]. pose proof (load_record_spec r) as R. destruct (load_record r) as [u|e].
    - destruct (load_records l) as [us|e]; [constructor; assumption|]. destruct IH as (l1 & r' & l2 & us & -> & F & B).
      exists (r :: l1), r', l2, (u :: us). split; [reflexivity|]. split; [constructor; assumption|assumption].
    - exists [], r, l, []. auto.
  Qed.

  Definition answered (f : text) : Prop := exists r b c, classify f = Is r b c.
  Lemma load_file_spec f d d' : answered f -> load_file f d = (d', None) -> exists us ps, adds f us ps /\
    d_loaded d' = d_loaded d /\ d_units d' = d_units d ++ us /\ d_problems d' = d_problems d ++ ps /\
    d_paths d' = index u_path us (d_paths d) /\ d_ids d' = index u_id us (d_ids d).
  Proof.
    intros (r & b & c & K). unfold ProviderModel.load_file. rewrite K. unfold plugin_units. intros E. destruct c.
    - destruct (records f) as [l|e] eqn:R.
      + pose proof (load_records_spec l) as S. destruct (load_records l) as [us|e].
        * injection E as <-. eexists _, []. split; [eapply a_units; eassumption|]. cbn [d_loaded d_units d_problems d_paths d_ids index]; rewrite ?app_nil_r; auto 10.
        * destruct S as (l1 & rec & l2 & us & -> & F & B). injection E as <-. exists [], [e]. split; [eapply a_problem; eassumption|].
          cbn [d_loaded d_units d_problems d_paths d_ids index]; rewrite ?app_nil_r; auto 10.
      + injection E as <-. exists [], [e]. split; [eapply a_unreadable; eassumption|]. cbn [d_loaded d_units d_problems d_paths d_ids index]; rewrite ?app_nil_r; auto 10.
    - injection E as <-. eexists _, []. split; [eapply a_content; eassumption|]. cbn [d_loaded d_units d_problems d_paths d_ids]; rewrite ?app_nil_r; auto 10.
    - injection E as <-. eexists _, []. split; [eapply a_nothing; eassumption|]. cbn [d_loaded d_units d_problems d_paths d_ids index]; rewrite ?app_nil_r; auto 10.
  Qed.
  Lemma index_app key a : forall b d, index key (a ++ b) d = index key b (index key a d).
  Proof. induction a as [|u a IH]; intros b d; cbn [app index]; [reflexivity|]. apply IH. Qed.

  Lemma load_files_spec l : forall d d', (forall f, In f l -> answered f) -> load_files l d = (d', None) ->
    exists uss pss, Forall2 (fun f up => adds f (fst up) (snd up)) l (combine uss pss) /\ length uss = length l /\ length pss = length l /\
    d_loaded d' = d_loaded d /\ d_units d' = d_units d ++ concat uss /\ d_problems d' = d_problems d ++ concat pss /\
    d_paths d' = index u_path (concat uss) (d_paths d) /\ d_ids d' = index u_id (concat uss) (d_ids d).
  Proof.
    induction l as [|f l IH]; intros d d' A E; cbn [ProviderModel.load_files] in E.
    - injection E as <-. exists [], []. cbn. rewrite !app_nil_r. repeat split; auto.
    - destruct (load_file f d) as [d1 [x|]] eqn:L; [discriminate|].
      destruct (load_file_spec f d d1) as (us & ps & Ad & A1 & A2 & A3 & A4 & A5); [apply A; now left|exact L|].
      destruct (IH d1 d') as (uss & pss & F & L1 & L2 & B1 & B2 & B3 & B4 & B5); [intros g I; apply A; now right|exact E|].
      exists (us :: uss), (ps :: pss). cbn [combine concat length]. split; [constructor; assumption|]. split; [lia|]. split; [lia|].
      split; [congruence|]. rewrite B2, A2, B3, A3, B4, A4, B5, A5, !app_assoc, !index_app. auto.
  Qed.

  Lemma index_spec key us0 us : forall d, indexes key us0 d -> indexes key (us0 ++ us) (index key us d).
  Proof.
    revert us0. induction us as [|u us IH]; intros us0 d H; cbn [index]; [now rewrite app_nil_r|].
    replace (us0 ++ u :: us) with ((us0 ++ [u]) ++ us) by (rewrite <- app_assoc; reflexivity). apply IH. clear IH us.
    intros k. specialize (H k). rewrite filter_app. cbn [filter]. destruct (key u) as [k0|] eqn:K.
    - unfold append_to. destruct (text_eqb k0 k) eqn:Q.
      + apply text_eqb_eq in Q. subst k0. rewrite tget_tset, text_eqb_refl. split; [intros E; apply app_eq_nil in E as [_ E]; discriminate|].
        destruct (tget k d) as [l|]; [destruct H as [_ ->]; reflexivity|]. f_equal. symmetry. 
        assert (Z : forall l, (forall v, In v l -> key v <> Some k) -> filter (fun v => match key v with Some k' => text_eqb k' k | None => false end) l = []).
        { induction l as [|v l IHl]; intros Hl; [reflexivity|]. cbn [filter]. destruct (key v) as [kv|] eqn:Kv.
          - destruct (text_eqb kv k) eqn:Q; [|apply IHl; intros; apply Hl; now right]. apply text_eqb_eq in Q. subst kv. exfalso. eapply Hl; [now left|exact Kv].
          - apply IHl; intros; apply Hl; now right. }
        now apply Z.
      + rewrite tget_tset. assert (Q' : text_eqb k k0 = false) by (apply text_eqb_neq; intros ->; rewrite text_eqb_refl in Q; discriminate).
        rewrite ?Q, ?Q'. rewrite app_nil_r. destruct (tget k d); [assumption|]. intros v I. apply in_app_iff in I as [I|[<-|[]]]; [auto|].
        intros E. rewrite K in E. injection E as ->. rewrite text_eqb_refl in Q. discriminate.
    - rewrite app_nil_r. destruct (tget k d); [assumption|]. intros v I. apply in_app_iff in I as [I|[<-|[]]]; [auto|congruence].
  Qed.

  (** After loading, the units are those of the files in their order, a file with a
      problem adds its first problem and nothing else, and the two maps hold exactly
      these units; loading again changes nothing. *)
  Theorem C55_units_are_loaded files problems d : (forall f, In f files -> answered f) -> ensure_loaded files problems new_loader = (d, None) ->
    (exists uss pss, length uss = length files /\ length pss = length files /\
       Forall2 (fun f up => adds f (fst up) (snd up)) files (combine uss pss) /\
       d_units d = concat uss /\ d_problems d = concat pss ++ problems) /\
    indexes u_id (d_units d) (d_ids d) /\ indexes u_path (d_units d) (d_paths d) /\
    ensure_loaded files problems d = (d, None).
  Proof.
    intros A. unfold ProviderModel.ensure_loaded, load. cbn [new_loader d_loaded]. destruct (load_files files new_loader) as [d1 [x|]] eqn:L; [discriminate|].
    intros E. injection E as <-. destruct (load_files_spec files new_loader d1 A L) as (uss & pss & F & L1 & L2 & _ & B2 & B3 & B4 & B5).
    cbn [new_loader d_units d_problems d_paths d_ids app] in *. split.
    - exists uss, pss. rewrite B3. auto.
    - rewrite B2, B4, B5. split; [apply (index_spec u_id []); intros k; cbn; auto|]. split; [apply (index_spec u_path []); intros k; cbn; auto|reflexivity].
  Qed.

  (** Loading raises only when a file cannot be classified. *)
  Theorem C55_loading_raises files problems d x : ensure_loaded files problems new_loader = (d, Some x) ->
    exists f, In f files /\ classify f = Fails x.
  Proof.
    unfold ProviderModel.ensure_loaded, load. cbn [new_loader d_loaded]. destruct (load_files files new_loader) as [d1 o] eqn:L. destruct o as [y|]; [|discriminate].
    intros E. injection E as _ ->. revert L. generalize (@new_loader Pr) as d0. induction files as [|f files IH]; intros d0 L; cbn [ProviderModel.load_files] in L; [discriminate|].
    destruct (load_file f d0) as [d2 [y|]] eqn:E.
    - injection L as _ ->. exists f. split; [now left|]. unfold ProviderModel.load_file in E. destruct (classify f); try discriminate.
      + destruct (plugin_units _ _ _ _ _ _ _ _ _ _ _ _); discriminate.
      + congruence.
    - destruct (IH d2 L) as (g & I & G). exists g. split; [now right|assumption].
  Qed.
End Loading.
Print Assumptions C55_units_are_loaded.
Print Assumptions C55_loading_raises.

(** The jobs of a provider are its units of type job, by identifier, those with the same
    identifier in the order in which they were loaded. *)
Theorem C55_job_list us :
  (forall u, In u (job_list us) <-> In u us /\ u_type u = T "job") /\ weakly id_key (job_list us) /\
  (forall i, filter (fun u => text_eqb (id_key u) i) (job_list us) =
    filter (fun u => text_eqb (id_key u) i) (filter (fun u => text_eqb (u_type u) (T "job")) us)).
Proof.
  unfold job_list. split; [|split; [apply sort_weakly|intros i; apply sort_filter]].
  intros u. rewrite sort_In, filter_In, text_eqb_eq. reflexivity.
Qed.
(** Its executables are the paths of the files that are scripts or binaries, in order. *)
Theorem C55_executable_list us : 
  (forall f, In f (executable_list us) <-> exists u, In u us /\ u_type u = T "file" /\ path_key u = f /\ (u_role u = Some R_script \/ u_role u = Some R_binary)) /\
  weakly (fun f => f) (executable_list us).
Proof.
  unfold executable_list. split; [|apply sort_weakly]. intros f. rewrite sort_In, in_map_iff. split.
  - intros (u & E & I). apply filter_In in I as [I H]. apply andb_true_iff in H as [H R]. apply text_eqb_eq in H. exists u. split; [assumption|]. split; [assumption|].
    split; [assumption|]. unfold runs in R. destruct (u_role u) as [[]|]; try discriminate; auto.
  - intros (u & I & H & E & R). exists u. split; [assumption|]. apply filter_In. split; [assumption|]. rewrite H. cbn [andb]. destruct R as [-> | ->]; reflexivity.
Qed.
Print Assumptions C55_job_list.
Print Assumptions C55_executable_list.

(** A case: two good files, one with a fault in its second unit. *)
Definition ex_records (f : text) : list (list (text * text)) + nat :=
  if text_eqb f (T "/p/jobs/b.pxu") then inl [[(T "id", T "b1")]; [(T "unit", T "weird")]]
  else inl [[(T "id", T "z")]; [(T "unit", T "job"); (T "id", T "y")]].
Definition ex_from (r : list (text * text)) : unit_ + nat := inl (mk_unit (T "job") (tget (T "id") r) None None []).
Definition ex_load (classify : text -> classified nat) :=
  ensure_loaded nat nat classify ex_records (fun t => text_eqb t (T "job")) (fun _ => 7) ex_from (fun _ => []) (fun _ => None) true true
    (map T ["/p/bin/run"; "/p/jobs/a.pxu"; "/p/jobs/b.pxu"; "/p/x"]%string) [9].
Example loading_case :
  match ex_load example_classify new_loader with
  | (d, None) => (map u_path (d_units d), d_problems d, map u_id (job_list (d_units d)), executable_list (d_units d)) =
      ([Some (T "/p/bin/run"); None; None; Some (T "/p/jobs/a.pxu")], [7; 9], [Some (T "y"); Some (T "z")], [T "/p/bin/run"])
  | _ => False end.
Proof. vm_compute. reflexivity. Qed.
Example all_answered : forall f, In f (map T ["/p/bin/run"; "/p/jobs/a.pxu"; "/p/jobs/b.pxu"; "/p/x"]%string) -> answered example_classify f.
Proof. intros f I. cbn [map In] in I. intuition (subst f; eexists _, _, _; vm_compute; reflexivity). Qed.

(** Refuted: no unit is loaded twice.  When loading ends with an exception what was loaded
    so far is kept, and the next use of the provider loads everything again. *)
Theorem C55_units_are_loaded_once_refuted :
  exists (classify1 : text -> classified nat) (classify2 : text -> classified nat) files d1 d2,
    NoDup files /\
    ensure_loaded nat nat classify1 ex_records (fun t => text_eqb t (T "job")) (fun _ => 7) ex_from (fun _ => []) (fun _ => None) true true files [] new_loader = (d1, Some 13) /\
    ensure_loaded nat nat classify2 ex_records (fun t => text_eqb t (T "job")) (fun _ => 7) ex_from (fun _ => []) (fun _ => None) true true files [] d1 = (d2, None) /\
    map u_id (job_list (d_units d2)) = [Some (T "y"); Some (T "y"); Some (T "z"); Some (T "z")].
Proof.
  exists (fun f => if text_eqb f (T "/p/bin/run") then Fails 13 else example_classify f), example_classify, (map T ["/p/jobs/a.pxu"; "/p/bin/run"]%string).
  eexists _, _. split; [|split; [vm_compute; reflexivity|split; vm_compute; reflexivity]].
  repeat constructor; cbn [map In]; intuition discriminate.
Qed.
Print Assumptions C55_units_are_loaded_once_refuted.
