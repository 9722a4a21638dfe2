(** * C56: from the definition of a provider to the provider *)
From Coq Require Import String Ascii List Bool Arith Lia.
From Verif Require Import ScanModel Rfc822Model Rfc822Proofs IniModel IniProofs ConfigModel ConfigSpec ConfigProofs ConfigProps
  RegexModel RegexProofs ChecksumModel CacheModel ExportModel PluginModel PluginProps ProviderModel ProviderSpec ProviderProps ProvdefModel ProvdefSpec.
Import ListNotations.
Local Open Scope nat_scope.
Local Open Scope list_scope.

(** ** Patterns *)

Lemma between_spec a b c : between a b c = true <-> nat_of_ascii a <= nat_of_ascii c <= nat_of_ascii b.
Proof. unfold between. rewrite andb_true_iff, !Nat.leb_le. reflexivity. Qed.
Lemma digit_spec c : digit c = true <-> ProvdefSpec.is_digit c.
Proof. apply between_spec. Qed.
Lemma small_spec c : small c = true <-> is_small c.
Proof. apply between_spec. Qed.
Lemma name_char_spec c : small_digit_dash c = true <-> name_char c.
Proof. unfold small_digit_dash, name_char. rewrite !orb_true_iff, digit_spec, small_spec, Ascii.eqb_eq. tauto. Qed.
Lemma label_spec t : lang re_label t <-> label t.
Proof.
  unfold re_label, label. rewrite lang_cat. split.
  - intros (x & y & -> & A & B). apply lang_chr in A as (c & -> & P). rewrite lang_chars in B. exists c, y. split; [reflexivity|].
    split; [now apply small_spec|]. intros d I. now apply name_char_spec, B.
  - intros (c & r & -> & S & H). exists [c], r. split; [reflexivity|]. split; [constructor; now apply small_spec|].
    apply lang_chars. intros d I. now apply name_char_spec, H.
Qed.
Lemma year_spec t : lang (ROpt (seq [RChr digit; RChr digit; RChr digit; RChr digit; chr "."])) t <-> year t.
Proof.
  rewrite lang_opt. unfold year. cbn [seq]. split.
  - intros [->|H]; [now left|right]. apply lang_cat in H as (x & y & -> & A & H). apply lang_chr in A as (a & -> & A).
    apply lang_cat in H as (x & z & -> & B & H). apply lang_chr in B as (b & -> & B).
    apply lang_cat in H as (x & w & -> & C & H). apply lang_chr in C as (c & -> & C).
    apply lang_cat in H as (x & v & -> & D & H). apply lang_chr in D as (d & -> & D). apply lang_one in H as ->.
    exists a, b, c, d. rewrite <- !digit_spec. auto.
  - intros [->|(a & b & c & d & -> & A & B & C & D)]; [now left|right]. rewrite <- digit_spec in A, B, C, D.
    apply (l_cat _ _ [a]); [now constructor|]. apply (l_cat _ _ [b]); [now constructor|]. apply (l_cat _ _ [c]); [now constructor|].
    apply (l_cat _ _ [d]); [now constructor|]. now apply lang_one.
Qed.
Lemma labels_spec t : lang (RPlus (RCat (chr ".") re_label)) t <-> exists m, t = concat (map (fun k => "."%char :: k) m) /\ m <> [] /\ Forall label m.
Proof.
  assert (One : forall s, lang (RCat (chr ".") re_label) s <-> exists k, s = "."%char :: k /\ label k).
  { intros s. rewrite lang_cat. split.
    - intros (x & y & -> & A & B). apply lang_one in A as ->. apply label_spec in B. exists y. auto.
    - intros (k & -> & K). exists ["."%char], k. split; [reflexivity|]. split; [now apply lang_one|now apply label_spec]. }
  assert (Many : forall t, lang (RStar (RCat (chr ".") re_label)) t <-> exists m, t = concat (map (fun k => "."%char :: k) m) /\ Forall label m).
  { intros s. rewrite lang_star. split.
    - intros (l & -> & F). induction F as [|x l Hx F (m & E & M)]; [exists []; auto|]. apply One in Hx as (k & -> & K). exists (k :: m). cbn [map concat]. rewrite <- E. auto.
    - intros (m & -> & F). exists (map (fun k => "."%char :: k) m). split; [reflexivity|]. apply Forall_forall. intros x I. apply in_map_iff in I as (k & <- & I).
      apply One. exists k. split; [reflexivity|]. rewrite Forall_forall in F. auto. }
  unfold RPlus. rewrite lang_cat. split.
  - intros (x & y & -> & A & B). apply One in A as (k & -> & K). apply Many in B as (m & -> & M). exists (k :: m). split; [reflexivity|]. split; [discriminate|auto].
  - intros ([|k m] & -> & N & F); [congruence|]. inversion F as [|? ? K M]. subst. exists ("."%char :: k), (concat (map (fun k => "."%char :: k) m)).
    split; [reflexivity|]. split; [apply One; eauto|apply Many; eauto].
Qed.
Lemma iqn_lang t : lang re_iqn t <-> qualified t.
Proof.
  unfold re_iqn, qualified. cbn [seq]. split.
  - intros H. apply lang_cat in H as (y & r1 & -> & Y & H). apply lang_cat in H as (l & r2 & -> & L & H). apply lang_cat in H as (ms & r3 & -> & M & H).
    apply lang_cat in H as (c & n & -> & C & N). apply lang_one in C as ->. apply labels_spec in M as (m & -> & M1 & M2).
    exists y, l, m, n. split; [reflexivity|]. split; [now apply year_spec|]. split; [now apply label_spec|]. split; [assumption|]. split; [assumption|now apply label_spec].
  - intros (y & l & m & n & -> & Y & L & M1 & M2 & N). apply l_cat; [now apply year_spec|]. apply l_cat; [now apply label_spec|].
    apply l_cat; [apply labels_spec; eauto|]. change (":"%char :: n) with ([":"%char] ++ n). apply l_cat; [now apply lang_one|now apply label_spec].
Qed.
Lemma iqn_valid_spec t : iqn_valid t = true <-> qualified t \/ exists n, t = n ++ [NL] /\ qualified n.
Proof.
  unfold iqn_valid. rewrite match_end_spec, iqn_lang. split; (intros [H|(n & E & H)]; [now left|right; exists n; split; [assumption|now apply iqn_lang]]).
Qed.
Lemma short_lang t : lang (RPlus (RChr small_digit_dash)) t <-> short t.
Proof.
  rewrite lang_chars1. unfold short. split; (intros [N H]; split; [assumption|]; intros c I; apply name_char_spec, H, I).
Qed.
Lemma name_valid_spec t : name_valid t = true <->
  short t \/ (exists n, t = n ++ [NL] /\ short n) \/ exists n r, t = n ++ r /\ qualified n.
Proof.
  unfold name_valid. rewrite orb_true_iff, match_start_spec, match_end_spec, short_lang. split.
  - intros [(n & r & E & H)|[H|(n & E & H)]]; [right; right; exists n, r; split; [assumption|now apply iqn_lang]|now left|].
    right; left. exists n. split; [assumption|now apply short_lang].
  - intros [H|[(n & E & H)|(n & r & E & H)]]; [auto| |].
    + right. right. exists n. split; [assumption|now apply short_lang].
    + left. exists n, r. split; [assumption|now apply iqn_lang].
Qed.
Lemma domain_valid_spec t : domain_valid t = true <-> exists c r, t = c :: r /\ (is_small c \/ ProvdefSpec.is_digit c \/ c = "_"%char \/ c = "-"%char).
Proof.
  assert (P : forall c, small c || digit c || is_in ["_"; "-"]%char c = true <-> (is_small c \/ ProvdefSpec.is_digit c \/ c = "_"%char \/ c = "-"%char)).
  { intros c. rewrite !orb_true_iff, small_spec, digit_spec. unfold is_in. cbn [existsb]. rewrite !orb_true_iff, !Ascii.eqb_eq. intuition discriminate. }
  unfold domain_valid. rewrite match_start_spec. split.
  - intros (a & b & -> & H). apply lang_chars1 in H as [N H]. destruct a as [|c a]; [congruence|]. exists c, (a ++ b). split; [reflexivity|]. apply P, H. now left.
  - intros (c & r & -> & H). exists [c], r. split; [reflexivity|]. apply lang_chars1. split; [discriminate|]. intros d [<-|[]]. now apply P.
Qed.
Lemma version_valid_spec t : version_valid t = true <-> exists v c r, t = v ++ c :: r /\ (v = [] \/ v = T "v") /\ ProvdefSpec.is_digit c.
Proof.
  unfold version_valid. rewrite match_start_spec. unfold re_version. split.
  - intros (a & b & -> & H). cbn [seq] in H. apply lang_cat in H as (v & r1 & -> & V & H). apply lang_cat in H as (e & r2 & -> & E & H).
    apply lang_cat in H as (d & r3 & -> & D & _). apply lang_cat in D as (d1 & d2 & -> & D & _). apply lang_chars1 in D as [D1 D2].
    assert (V' : v = [] \/ v = T "v") by (apply lang_opt in V as [->|V]; [now left|apply lang_one in V; now right]).
    apply lang_opt in E as [->|E].
    + destruct d1 as [|c d1]; [congruence|]. exists v, c, (((d1 ++ d2) ++ r3) ++ b). split; [rewrite <- !app_assoc; reflexivity|].
      split; [assumption|]. apply digit_spec, D2. now left.
    + apply lang_cat in E as (e1 & e2 & -> & E & _). apply lang_chars1 in E as [E1 E2]. destruct e1 as [|c e1]; [congruence|].
      exists v, c, (e1 ++ e2 ++ d1 ++ d2 ++ r3 ++ b). split; [rewrite <- !app_assoc; reflexivity|]. split; [assumption|]. apply digit_spec, E2. now left.
  - intros (v & c & r & -> & V & C). exists (v ++ [c]), r. split; [rewrite <- app_assoc; reflexivity|]. cbn [seq].
    apply l_cat; [apply lang_opt; destruct V as [-> | ->]; [now left|right; now apply lang_one]|]. apply (l_cat _ _ []); [apply lang_opt; now left|].
    rewrite <- (app_nil_r [c]). apply l_cat.
    + rewrite <- (app_nil_r [c]). apply l_cat; [|apply l_nil]. apply lang_chars1. split; [discriminate|]. intros d [<-|[]]. now apply digit_spec.
    + apply lang_nullable. reflexivity.
Qed.

(** ** The definition *)

Section Props.
  Variable isdir : text -> bool.
  Variable to_float : text -> option text.
  Notation X_location := (X_location isdir). Notation X_units := (X_units isdir). Notation X_jobs := (X_jobs isdir).
  Notation X_data := (X_data isdir). Notation X_bin := (X_bin isdir). Notation X_locale := (X_locale isdir).
  Notation definition_class := (definition_class isdir).

  Lemma is_abs_spec t : is_abs t = true <-> exists r, t = SL :: r.
  Proof.
    destruct t as [|c r]; cbn [is_abs]; [split; [discriminate|intros (r & E); discriminate]|]. rewrite Ascii.eqb_eq.
    split; [intros ->; eauto|]. intros (r' & E). now injection E.
  Qed.
  Lemma valid_dir n v : validate (dir_variable isdir n) v = true <-> v = VUnset \/ exists t, v = VStr t /\ usable isdir t.
  Proof.
    destruct v as [t|b|z|f|l| |]; cbn [validate dir_variable v_validators v_kind forallb kind_validator not_empty_validator text_validator
      understands_unset accepts is_kind]; rewrite ?andb_true_r; try (split; [discriminate|intros [E|(t' & E & _)]; discriminate]).
    - rewrite !andb_true_iff, is_abs_spec. unfold usable. split.
      + intros (_ & _ & A & B). right. exists t. auto.
      + intros [E|(t' & E & A & B)]; [discriminate|]. injection E as <-. destruct A as (r & ->). split; [reflexivity|]. split; [reflexivity|]. eauto.
    - split; [now left|reflexivity].
  Qed.
  Lemma valid_name v : validate X_name v = true <-> exists t, v = VStr t /\ name_valid t = true /\ t <> [].
  Proof.
    destruct v as [t|b|z|f|l| |]; cbn; try (split; [discriminate|intros (t' & E & _); discriminate]).
    rewrite !andb_true_iff. split.
    - intros (A & B & _). exists t. split; [reflexivity|]. split; [assumption|]. intros ->. discriminate.
    - intros (t' & E & A & B). injection E as <-. destruct t; [congruence|auto].
  Qed.
  Lemma valid_version v : validate X_version v = true <-> exists t, v = VStr t /\ version_valid t = true /\ t <> [].
  Proof.
    destruct v as [t|b|z|f|l| |]; cbn -[version_valid]; try (split; [discriminate|intros (t' & E & _); discriminate]).
    rewrite !andb_true_iff. split.
    - intros (A & B & _). exists t. split; [reflexivity|]. split; [assumption|]. intros ->. discriminate.
    - intros (t' & E & A & B). injection E as <-. destruct t; [congruence|auto].
  Qed.
  Lemma valid_namespace v : validate X_namespace v = true <-> v = VUnset \/ exists t, v = VStr t /\ t <> [].
  Proof.
    destruct v as [t|b|z|f|l| |]; cbn; try (split; [discriminate|intros [E|(t' & E & _)]; discriminate]).
    - split; [intros H; right; exists t; split; [reflexivity|]; intros ->; discriminate|]. intros [E|(t' & E & N)]; [discriminate|]. injection E as <-. destruct t; [congruence|reflexivity].
    - split; [now left|reflexivity].
  Qed.
  Lemma valid_description v : validate X_description v = true <-> v = VUnset \/ exists t, v = VStr t.
  Proof.
    destruct v as [t|b|z|f|l| |]; cbn; try (split; [discriminate|intros [E|(t' & E)]; discriminate]); split; eauto.
  Qed.
  Lemma valid_domain v : validate X_domain v = true <-> v = VUnset \/ exists t, v = VStr t /\ domain_valid t = true.
  Proof.
    destruct v as [t|b|z|f|l| |]; cbn -[domain_valid]; try (split; [discriminate|intros [E|(t' & E & _)]; discriminate]).
    - rewrite andb_true_r. split; [eauto|]. intros [E|(t' & E & H)]; [discriminate|]. injection E as <-. assumption.
    - split; [now left|reflexivity].
  Qed.
  Lemma valid_reloc v : validate X_reloc v = true <-> v = VUnset \/ exists b, v = VBool b.
  Proof.
    destruct v as [t|b|z|f|l| |]; cbn; try (split; [discriminate|intros [E|(t' & E)]; discriminate]); split; eauto.
  Qed.

  Lemma says_like i x y v : v_section x = v_section y -> v_name x = v_name y -> v_kind x = v_kind y -> v_default x = v_default y ->
    says to_float i x v -> says to_float i y v.
  Proof.
    intros E1 E2 E3 E4 H. inversion H; subst.
    - rewrite E4. apply says_no_section. now rewrite <- E1.
    - rewrite E4. apply says_nothing; rewrite <- ?E1, <- ?E2; assumption.
    - apply says_none; rewrite <- ?E1, <- ?E2, <- ?E3; assumption.
    - eapply says_value; rewrite <- ?E1, <- ?E2, <- ?E3; eassumption.
  Qed.
  Lemma nodup_mangled : NoDup (map mangled (c_variables definition_class)).
  Proof.
    change (map mangled (c_variables definition_class)) with (map (fun s => SECTION ++ T "__" ++ T s) ["relocatable"; "location"; "name"; "namespace"; "version"; "description"; "gettext_domain"; "units_dir"; "jobs_dir"; "data_dir"; "bin_dir"; "locale_dir"]%string).
    repeat (apply NoDup_cons; [intros H; vm_compute in H; repeat (destruct H as [H|H]; [discriminate|]); exact H|]). apply NoDup_nil.
  Qed.

  Definition of (o : option text) : value := match o with Some t => VStr t | None => VUnset end.
  (** A configuration object has the values of a definition. *)
  Definition matches (g : config) (d : definition) : Prop :=
    (get_var X_reloc g = VBool (s_reloc d) \/ s_reloc d = false /\ get_var X_reloc g = VUnset) /\
    get_var X_location g = of (s_location d) /\ get_var X_name g = VStr (s_name d) /\ get_var X_namespace g = of (s_namespace d) /\
    get_var X_version g = VStr (s_version d) /\ get_var X_description g = of (s_description d) /\ get_var X_domain g = of (s_domain d) /\
    get_var X_units g = of (s_units d) /\ get_var X_jobs g = of (s_jobs d) /\ get_var X_data g = of (s_data d) /\
    get_var X_bin g = of (s_bin d) /\ get_var X_locale g = of (s_locale d).

  Lemma refusals_none l : refusals l = [] <-> forall x v, In (x, v) l -> validate x v = true.
  Proof.
    unfold refusals. induction l as [|[x v] l IH]; cbn [filter map fst snd]; [split; [intros _ ? ? []|reflexivity]|].
    destruct (validate x v) eqn:V; cbn [negb].
    - rewrite IH. split; [|intros H y w I; apply H; now right]. intros H y w [E|I]; [congruence|auto].
    - split; [discriminate|]. intros H. rewrite (H x v) in V; [discriminate|now left].
  Qed.

  Lemma dir_value n v : validate (dir_variable isdir n) v = true -> exists o, v = of o /\ usable_if_given isdir o.
  Proof.
    intros H. apply valid_dir in H as [->|(t & -> & U)]; [exists None; split; [reflexivity|discriminate]|].
    exists (Some t). split; [reflexivity|]. intros d E. injection E as <-. assumption.
  Qed.
  Lemma dir_valid n o : usable_if_given isdir o -> validate (dir_variable isdir n) (of o) = true.
  Proof. intros H. apply valid_dir. destruct o as [t|]; [right; exists t; split; [reflexivity|now apply H]|now left]. Qed.

  Lemma qualified_not_empty t : qualified t -> t <> [].
  Proof.
    intros (y & l & m & n & -> & _ & (c & r & -> & _) & _) E. apply app_eq_nil in E as [_ E]. discriminate.
  Qed.
  Lemma qualified_name_valid t : qualified t \/ (exists n, t = n ++ [NL] /\ qualified n) -> name_valid t = true /\ t <> [].
  Proof.
    intros [Q|(n & -> & Q)]; (split; [apply name_valid_spec; right; right|]).
    - exists t, []. rewrite app_nil_r. auto.
    - now apply qualified_not_empty.
    - eauto.
    - intros E. apply app_eq_nil in E as [_ E]. discriminate.
  Qed.
  Lemma named t : (short t \/ (exists n, t = n ++ [NL] /\ short n) \/ exists n r, t = n ++ r /\ qualified n) -> t <> [].
  Proof.
    intros [[N _]|[(n & -> & _)|(n & r & -> & Q)]] E.
    - contradiction.
    - apply app_eq_nil in E as [_ E]. discriminate.
    - apply app_eq_nil in E as [E _]. revert E. now apply qualified_not_empty.
  Qed.
  Lemma versioned t : (exists v c r, t = v ++ c :: r /\ (v = [] \/ v = T "v") /\ ProvdefSpec.is_digit c) -> t <> [].
  Proof. intros (v & c & r & -> & _) E. apply app_eq_nil in E as [_ E]. discriminate. Qed.

  Lemma whole_matches g d : matches g d -> (unnamed g = false) /\
    (whole_ok g = true <-> match s_namespace d with Some (_ :: _) => True | _ => qualified (s_name d) \/ exists n, s_name d = n ++ [NL] /\ qualified n end).
  Proof.
    intros (_ & _ & N & NS & _). unfold unnamed, whole_ok. rewrite N, NS. split; [apply andb_false_r|].
    destruct (s_namespace d) as [[|c ns]|]; cbn [of truth]; rewrite ?iqn_valid_spec; tauto.
  Qed.

  Lemma whole_same g p : whole_ok (mk_config (g_var g) (g_sect g) p) = whole_ok g.
  Proof. reflexivity. Qed.

  Lemma read_made t g : read_string to_float whole_ok definition_class t new_config = (g, None) -> unnamed g = false -> g_problems g = [] ->
    exists i d, read_text t empty_ini = (i, Fine) /\ defines to_float i d /\ acceptable isdir d /\ matches g d.
  Proof.
    intros E NU P. destruct (read_text t empty_ini) as [i e] eqn:R.
    destruct (C40_read_string to_float whole_ok definition_class t new_config g i e nodup_mangled) as (NA & vs & F & Tk & _ & _ & _ & PR); [constructor|exact R|exact E|].
    cbv zeta in PR. rewrite P in PR. symmetry in PR. apply app_eq_nil in PR as [PR W]. rewrite whole_same in W.
    assert (WW : whole_ok g = true) by (destruct (whole_ok g); [reflexivity|discriminate]).
    apply app_eq_nil in PR as [PE PV]. assert (e = Fine) as -> by (destruct e; [reflexivity|discriminate|congruence]).
    rewrite refusals_none in PV. cbn [c_variables ProvdefModel.definition_class] in F, Tk, PV.
    do 12 (match goal with F : Forall2 _ (_ :: _) _ |- _ => let v := fresh "v" in let vs := fresh "vs" in let S := fresh "S" in let F' := fresh "F'" in
      inversion F as [|? v ? vs S F']; subst; clear F; rename F' into F end).
    inversion F; subst. clear F. cbn [combine] in Tk, PV.
    assert (G : forall x w, In (x, w) [(X_reloc, v); (X_location, v0); (X_name, v1); (X_namespace, v2); (X_version, v3); (X_description, v4); (X_domain, v5);
      (X_units, v6); (X_jobs, v7); (X_data, v8); (X_bin, v9); (X_locale, v10)] -> get_var x g = w /\ validate x w = true).
    { intros x w I. split; [|apply PV; exact I]. specialize (Tk x w I). unfold taken in Tk. now rewrite (PV x w I) in Tk. }
    clear Tk PV.
    destruct (G X_reloc v) as [G0 V0]; [cbn [In]; tauto|]. destruct (G X_location v0) as [G1 V1]; [cbn [In]; tauto|].
    destruct (G X_name v1) as [G2 V2]; [cbn [In]; tauto|]. destruct (G X_namespace v2) as [G3 V3]; [cbn [In]; tauto|].
    destruct (G X_version v3) as [G4 V4]; [cbn [In]; tauto|]. destruct (G X_description v4) as [G5 V5]; [cbn [In]; tauto|].
    destruct (G X_domain v5) as [G6 V6]; [cbn [In]; tauto|]. destruct (G X_units v6) as [G7 V7]; [cbn [In]; tauto|].
    destruct (G X_jobs v7) as [G8 V8]; [cbn [In]; tauto|]. destruct (G X_data v8) as [G9 V9]; [cbn [In]; tauto|].
    destruct (G X_bin v9) as [G10 V10]; [cbn [In]; tauto|]. destruct (G X_locale v10) as [G11 V11]; [cbn [In]; tauto|]. clear G.
    apply dir_value in V1 as (loc & -> & U1). apply dir_value in V7 as (units & -> & U7). apply dir_value in V8 as (jobs & -> & U8).
    apply dir_value in V9 as (dat & -> & U9). apply dir_value in V10 as (bin & -> & U10). apply dir_value in V11 as (locale & -> & U11).
    apply valid_name in V2 as (name & -> & NV & _). apply valid_version in V4 as (version & -> & VV & _).
    assert (NSp : exists ns, v2 = of ns /\ ns <> Some []).
    { apply valid_namespace in V3 as [->|(ns & -> & N)]; [exists None|exists (Some ns)]; (split; [reflexivity|congruence]). }
    destruct NSp as (ns & -> & NSn).
    assert (De : exists de, v4 = of de) by (apply valid_description in V5 as [->|(de & ->)]; [exists None|exists (Some de)]; reflexivity).
    destruct De as (de & ->).
    assert (Do : exists dom, v5 = of dom /\ forall t0, dom = Some t0 -> domain_valid t0 = true).
    { apply valid_domain in V6 as [->|(dm & -> & H)]; [exists None; split; [reflexivity|discriminate]|exists (Some dm)]. split; [reflexivity|].
      intros t0 Et. injection Et as <-. assumption. }
    destruct Do as (dom & -> & DV).
    assert (Re : exists b, v = VBool b \/ b = false /\ v = VUnset) by (apply valid_reloc in V0 as [->|(b & ->)]; [exists false|exists b]; auto).
    destruct Re as (b & Re).
    exists i, (mk_definition b loc name ns version de dom units jobs dat bin locale).
    assert (MM : matches g (mk_definition b loc name ns version de dom units jobs dat bin locale)).
    { unfold matches. cbn [s_reloc s_location s_name s_namespace s_version s_description s_domain s_units s_jobs s_data s_bin s_locale].
      split; [rewrite G0; destruct Re as [->|[-> ->]]; auto|]. tauto. }
    split; [reflexivity|]. split; [|split; [|exact MM]].
    - unfold defines. cbn [s_reloc s_location s_name s_namespace s_version s_description s_domain s_units s_jobs s_data s_bin s_locale].
      split; [unfold says_flag; destruct Re as [->|[-> ->]]; [left|right; split; [reflexivity|]]; (eapply says_like; [..|eassumption]; reflexivity)|].
      repeat (split; [unfold says_text; eapply says_like; [..|eassumption]; reflexivity|]). unfold says_text; eapply says_like; [..|eassumption]; reflexivity.
    - unfold acceptable. cbn [s_reloc s_location s_name s_namespace s_version s_description s_domain s_units s_jobs s_data s_bin s_locale].
      split; [assumption|]. split; [|split; [now apply version_valid_spec|split; [intros t0 Et; apply domain_valid_spec; auto|auto 10]]].
      apply (whole_matches g _ MM) in WW. cbn [s_namespace s_name] in WW. destruct ns as [[|c n]|]; [now destruct NSn| |exact WW].
      split; [discriminate|]. now apply name_valid_spec.
  Qed.

  Lemma one_meaning t i x v v' : read_text t empty_ini = (i, Fine) -> says to_float i x v -> says to_float i x v' -> v = v'.
  Proof. intros R S1 S2. apply (C40_one_meaning to_float t x); rewrite R; assumption. Qed.

  Lemma read_defined t i d : read_text t empty_ini = (i, Fine) -> defines to_float i d -> acceptable isdir d ->
    exists g, read_string to_float whole_ok definition_class t new_config = (g, None) /\ unnamed g = false /\ g_problems g = [] /\ matches g d.
  Proof.
    intros R D A. unfold defines in D. destruct D as (D0 & D1 & D2 & D3 & D4 & D5 & D6 & D7 & D8 & D9 & D10 & D11).
    destruct A as (A1 & A2 & A4 & A6 & A7 & A8 & A9 & A10 & A11).
    assert (L0 : exists r, says to_float i X_reloc r /\ (r = VBool (s_reloc d) \/ s_reloc d = false /\ r = VUnset)).
    { destruct D0 as [D0|[Eb D0]]; eexists; (split; [eapply says_like; [..|exact D0]; reflexivity|]); auto. }
    destruct L0 as (r & L0 & Lr).
    assert (L : forall x k o, v_section x = SECTION -> v_name x = T k -> v_kind x = KStr -> v_default x = VUnset -> says_text to_float i k o -> says to_float i x (of o)).
    { intros x k o E1 E2 E3 E4 H. eapply says_like; [..|exact H]; rewrite ?E1, ?E2, ?E3, ?E4; reflexivity. }
    assert (D1' := L X_location _ _ eq_refl eq_refl eq_refl eq_refl D1). assert (D2' := L X_name _ _ eq_refl eq_refl eq_refl eq_refl D2).
    assert (D3' := L X_namespace _ _ eq_refl eq_refl eq_refl eq_refl D3). assert (D4' := L X_version _ _ eq_refl eq_refl eq_refl eq_refl D4).
    assert (D5' := L X_description _ _ eq_refl eq_refl eq_refl eq_refl D5). assert (D6' := L X_domain _ _ eq_refl eq_refl eq_refl eq_refl D6).
    assert (D7' := L X_units _ _ eq_refl eq_refl eq_refl eq_refl D7). assert (D8' := L X_jobs _ _ eq_refl eq_refl eq_refl eq_refl D8).
    assert (D9' := L X_data _ _ eq_refl eq_refl eq_refl eq_refl D9). assert (D10' := L X_bin _ _ eq_refl eq_refl eq_refl eq_refl D10).
    assert (D11' := L X_locale _ _ eq_refl eq_refl eq_refl eq_refl D11). clear L D1 D2 D3 D4 D5 D6 D7 D8 D9 D10 D11.
    destruct (read_string to_float whole_ok definition_class t new_config) as [g o] eqn:E.
    assert (O : o = None).
    { change o with (snd (g, o)). rewrite <- E. apply (C40_read_string_returns to_float whole_ok definition_class t new_config i Fine R). split; [discriminate|].
      split; [|split; [intros s []|intros s k []]]. intros x I. cbn [c_variables ProvdefModel.definition_class In] in I.
      repeat (destruct I as [<-|I]; [eauto|]). destruct I. }
    subst o.
    destruct (C40_read_string to_float whole_ok definition_class t new_config g i Fine nodup_mangled) as (_ & vs & F & Tk & _ & _ & _ & PR); [constructor|exact R|exact E|].
    cbv zeta in PR. cbn [app] in PR. rewrite whole_same in PR. cbn [c_variables ProvdefModel.definition_class] in F, Tk, PR.
    do 12 (match goal with F : Forall2 _ (_ :: _) _ |- _ => let v := fresh "v" in let vs := fresh "vs" in let S := fresh "S" in let F' := fresh "F'" in
      inversion F as [|? v ? vs S F']; subst; clear F; rename F' into F end).
    inversion F; subst. clear F.
    assert (v = r) as -> by (eapply one_meaning; eassumption). assert (v0 = of (s_location d)) as -> by (eapply one_meaning; eassumption).
    assert (v1 = VStr (s_name d)) as -> by (eapply one_meaning; eassumption). assert (v2 = of (s_namespace d)) as -> by (eapply one_meaning; eassumption).
    assert (v3 = VStr (s_version d)) as -> by (eapply one_meaning; eassumption). assert (v4 = of (s_description d)) as -> by (eapply one_meaning; eassumption).
    assert (v5 = of (s_domain d)) as -> by (eapply one_meaning; eassumption). assert (v6 = of (s_units d)) as -> by (eapply one_meaning; eassumption).
    assert (v7 = of (s_jobs d)) as -> by (eapply one_meaning; eassumption). assert (v8 = of (s_data d)) as -> by (eapply one_meaning; eassumption).
    assert (v9 = of (s_bin d)) as -> by (eapply one_meaning; eassumption). assert (v10 = of (s_locale d)) as -> by (eapply one_meaning; eassumption).
    cbn [combine] in Tk, PR.
    assert (NV : name_valid (s_name d) = true /\ s_name d <> []).
    { destruct (s_namespace d) as [ns|]; [|now apply qualified_name_valid]. destruct A2 as [_ A2]. split; [now apply name_valid_spec|now apply named]. }
    assert (PV : forall x w, In (x, w) [(X_reloc, r); (X_location, of (s_location d)); (X_name, VStr (s_name d)); (X_namespace, of (s_namespace d)); (X_version, VStr (s_version d));
       (X_description, of (s_description d)); (X_domain, of (s_domain d)); (X_units, of (s_units d)); (X_jobs, of (s_jobs d)); (X_data, of (s_data d));
       (X_bin, of (s_bin d)); (X_locale, of (s_locale d))] -> validate x w = true).
    { intros x w I. cbn [In] in I. repeat (destruct I as [I|I]; [injection I as <- <-|]); [..|destruct I]; try (apply dir_valid; assumption).
      - apply valid_reloc. destruct Lr as [->|[_ ->]]; eauto.
      - apply valid_name. eauto.
      - apply valid_namespace. destruct (s_namespace d) as [ns|]; [right; exists ns; split; [reflexivity|apply A2]|now left].
      - apply valid_version. eexists. split; [reflexivity|]. split; [now apply version_valid_spec|now apply versioned].
      - apply valid_description. destruct (s_description d) as [de|]; [right; exists de; reflexivity|left; reflexivity].
      - apply valid_domain. destruct (s_domain d) as [dm|]; [right; exists dm; split; [reflexivity|]; apply domain_valid_spec; auto|now left]. }
    assert (RF := PV). apply refusals_none in RF. rewrite RF in PR. cbn [app] in PR.
    assert (G : forall x w, In (x, w) [(X_reloc, r); (X_location, of (s_location d)); (X_name, VStr (s_name d)); (X_namespace, of (s_namespace d)); (X_version, VStr (s_version d));
       (X_description, of (s_description d)); (X_domain, of (s_domain d)); (X_units, of (s_units d)); (X_jobs, of (s_jobs d)); (X_data, of (s_data d));
       (X_bin, of (s_bin d)); (X_locale, of (s_locale d))] -> get_var x g = w).
    { intros x w I. specialize (Tk x w I). unfold taken in Tk. now rewrite (PV x w I) in Tk. }
    assert (MM : matches g d).
    { unfold matches. rewrite (G X_reloc r) by (cbn [In]; tauto). split; [assumption|]. repeat (split; [apply G; cbn [In]; tauto|]). apply G; cbn [In]; tauto. }
    destruct (whole_matches g d MM) as [UN WK]. exists g. split; [reflexivity|]. split; [assumption|]. split; [|assumption].
    rewrite PR. assert (K : whole_ok g = true) by (apply WK; destruct (s_namespace d) as [[|c n]|]; [destruct A2; congruence|trivial|assumption]). now rewrite K.
  Qed.

  (** ** Relocation and directories *)

  Lemma relocate_spec filename g d : matches g d -> g_problems g = [] ->
    match relocate isdir filename g with
    | Some g' => (s_reloc d = true -> usable isdir (pdirname filename)) /\ g_problems g' = [] /\ matches g' (relocated filename d)
    | None => s_reloc d = true /\ ~ usable isdir (pdirname filename)
    end.
  Proof.
    intros M P. unfold relocate. destruct M as (M0 & M1 & M2 & M3 & M4 & M5 & M6 & M7 & M8 & M9 & M10 & M11).
    assert (TR : truth (get_var X_reloc g) = s_reloc d) by (destruct M0 as [->|[-> ->]]; reflexivity). rewrite TR. unfold relocated.
    destruct (s_reloc d) eqn:B; [|split; [discriminate|]; split; [assumption|]; unfold matches; rewrite B; tauto].
    cbn [set_all_vars].
    assert (VL : validate X_location (VStr (pdirname filename)) = true <-> usable isdir (pdirname filename)).
    { unfold ProvdefModel.X_location. rewrite valid_dir. split; [intros [Q|(t & Q & U)]; [discriminate|]; injection Q as <-; assumption|eauto]. }
    assert (VU : forall n, validate (dir_variable isdir n) VUnset = true) by (intros n; apply valid_dir; now left).
    unfold set_var at 1. destruct (validate X_location (VStr (pdirname filename))) eqn:V.
    - unfold set_var. rewrite (VU "units_dir"%string : validate X_units VUnset = true), (VU "jobs_dir"%string : validate X_jobs VUnset = true), (VU "data_dir"%string : validate X_data VUnset = true),
        (VU "bin_dir"%string : validate X_bin VUnset = true), (VU "locale_dir"%string : validate X_locale VUnset = true). split; [intros _; now apply VL|]. split; [exact P|].
      unfold matches. cbn [s_reloc s_location s_name s_namespace s_version s_description s_domain s_units s_jobs s_data s_bin s_locale of].
      unfold get_var in *. cbn [g_var]. rewrite !tget_tset.
      repeat match goal with |- context [text_eqb (mangled ?x) (mangled ?y)] =>
        let b := eval vm_compute in (text_eqb (mangled x) (mangled y)) in change (text_eqb (mangled x) (mangled y)) with b end.
      cbv iota. tauto.
    - split; [reflexivity|]. intros U. apply VL in U. congruence.
  Qed.

  Lemma before_colon_spec t : (~ In ":"%char t /\ before_colon t = t) \/ exists r, t = before_colon t ++ ":"%char :: r /\ ~ In ":"%char (before_colon t).
  Proof.
    induction t as [|c t IH]; cbn [before_colon]; [left; split; [intros []|reflexivity]|]. destruct (Ascii.eqb_spec c ":"%char) as [->|D].
    - right. exists t. split; [reflexivity|intros []].
    - destruct IH as [[N E]|(r & E & N)]; [left|right].
      + split; [intros [H|H]; congruence || contradiction|now rewrite E].
      + exists r. cbn [app]. rewrite <- E. split; [reflexivity|]. intros [H|H]; congruence || contradiction.
  Qed.
  Lemma qualified_colon t : qualified t \/ (exists n, t = n ++ [NL] /\ qualified n) -> In ":"%char t.
  Proof.
    assert (Q : forall n, qualified n -> In ":"%char n).
    { intros n (y & l & m & k & -> & _). rewrite !in_app_iff. right. right. right. now left. }
    intros [H|(n & -> & H)]; [auto|]. apply in_app_iff. left. auto.
  Qed.

  Lemma effective_spec n loc own x g name parts : x = dir_variable isdir name -> get_var x g = of own -> get_var X_location g = of loc ->
    chosen isdir own loc [parts] n <-> n = effective isdir x g parts.
  Proof.
    intros _ G L. unfold effective, implicit. rewrite G, L. destruct own as [d|]; cbn [of as_text].
    - split; [intros H; inversion H; subst; congruence|]. intros ->. now apply c_own.
    - destruct loc as [l|]; cbn [of as_text existing].
      + destruct (isdir _) eqn:D.
        * split; [intros H; inversion H; subst; try congruence; match goal with Q : Some _ = Some _ |- _ => injection Q as <- end; congruence|].
          intros ->. eapply c_here; auto.
        * split; [intros H; inversion H; subst; try congruence; match goal with Q : Some _ = Some _ |- _ => injection Q as <- end; try congruence|].
          -- match goal with Q : chosen _ _ _ [] _ |- _ => inversion Q; subst; congruence end.
          -- intros ->. eapply c_later; auto. now apply c_none.
      + split; [intros H; inversion H; subst; congruence|]. intros ->. now apply c_nowhere.
  Qed.
  Lemma effective_locale_spec n loc own g : get_var X_locale g = of own -> get_var X_location g = of loc ->
    chosen isdir own loc [["locale"%string]; ["build"; "mo"]%string] n <-> n = effective_locale isdir g.
  Proof.
    intros G L. unfold effective_locale, implicit. rewrite G, L. destruct own as [d|]; cbn [of as_text].
    - split; [intros H; inversion H; subst; congruence|]. intros ->. now apply c_own.
    - destruct loc as [l|]; cbn [of as_text existing].
      + destruct (isdir (fold_left pjoin (map T ["locale"%string]) l)) eqn:D.
        * split; [intros H; inversion H; subst; try congruence; match goal with Q : Some _ = Some _ |- _ => injection Q as <- end; congruence|].
          intros ->. eapply c_here; auto.
        * destruct (isdir (fold_left pjoin (map T ["build"; "mo"]%string) l)) eqn:D2.
          -- split; [intros H; inversion H; subst; try congruence; match goal with Q : Some _ = Some _ |- _ => injection Q as <- end; try congruence|].
             ++ match goal with Q : chosen _ _ _ [_] _ |- _ => inversion Q; subst; try congruence end; match goal with Q : Some _ = Some _ |- _ => injection Q as <- end; congruence.
             ++ intros ->. eapply c_later; auto. eapply c_here; auto.
          -- split; [intros H; inversion H; subst; try congruence; match goal with Q : Some _ = Some _ |- _ => injection Q as <- end; try congruence|].
             ++ match goal with Q : chosen _ _ _ [_] _ |- _ => inversion Q; subst; try congruence end; match goal with Q : Some _ = Some _ |- _ => injection Q as <- end; try congruence.
                match goal with Q : chosen _ _ _ [] _ |- _ => inversion Q; subst; congruence end.
             ++ intros ->. eapply c_later; auto. eapply c_later; auto. now apply c_none.
      + split; [intros H; inversion H; subst; congruence|]. intros ->. now apply c_nowhere.
  Qed.

  Lemma relocated_keeps filename d : s_name (relocated filename d) = s_name d /\ s_namespace (relocated filename d) = s_namespace d.
  Proof. unfold relocated. destruct (s_reloc d); auto. Qed.

  Lemma from_definition_spec g d secure p : matches g d -> (s_namespace d <> Some []) ->
    (s_namespace d = None -> In ":"%char (s_name d)) ->
    provides isdir d secure p <-> p = from_definition isdir g secure.
  Proof.
    intros (M0 & M1 & M2 & M3 & M4 & M5 & M6 & M7 & M8 & M9 & M10 & M11) NE CO. unfold provides, from_definition. cbv zeta.
    rewrite (effective_spec (p_units (q_dirs p)) _ _ X_units g "units_dir" _ eq_refl M7 M1), (effective_spec (p_jobs (q_dirs p)) _ _ X_jobs g "jobs_dir" _ eq_refl M8 M1),
      (effective_spec (p_data (q_dirs p)) _ _ X_data g "data_dir" _ eq_refl M9 M1), (effective_spec (p_bin (q_dirs p)) _ _ X_bin g "bin_dir" _ eq_refl M10 M1),
      (effective_locale_spec (p_locale (q_dirs p)) _ _ g M11 M1).
    rewrite M2, M3, M4, M5, M6, M1. cbn [as_text].
    assert (AT : forall o, as_text (of o) = o) by (intros [t|]; reflexivity). rewrite !AT.
    assert (NS : forall q, ((forall ns, s_namespace d = Some ns -> q = ns) /\
        (s_namespace d = None -> exists r, s_name d = q ++ ":"%char :: r /\ ~ In ":"%char q)) <->
      q = if truth (of (s_namespace d)) then match s_namespace d with Some t => t | None => [] end else before_colon (s_name d)).
    { intros q. destruct (s_namespace d) as [[|c ns]|]; cbn [of truth].
      - now destruct NE.
      - split; [intros [H _]; auto|]. intros ->. split; [congruence|discriminate].
      - specialize (CO eq_refl). destruct (before_colon_spec (s_name d)) as [[N _]|(r & E & N)]; [contradiction|]. split.
        + intros [_ H]. destruct (H eq_refl) as (r' & E' & N'). revert E N. generalize (before_colon (s_name d)) as b. rewrite E'. clear - N'. intros b E N. revert b N N' E.
          induction q as [|c q IH]; intros [|c' b] N N' E; cbn [app] in E; [reflexivity| | |].
          * injection E as <- _. exfalso. apply N. now left.
          * injection E as -> _. exfalso. apply N'. now left.
          * injection E as -> E. f_equal. apply IH; [intros I; apply N; now right|intros I; apply N'; now right|assumption].
        + intros ->. split; [discriminate|]. intros _. eauto. }
    destruct p as [n ns v de se dom [pu pj pd pb pl pba]]. cbn [q_name q_namespace q_version q_description q_secure q_domain q_dirs p_units p_jobs p_data p_bin p_locale p_base].
    specialize (NS ns). unfold of at 2. split.
    - intros (-> & N1 & N2 & -> & -> & -> & -> & -> & -> & -> & -> & -> & ->). rewrite (proj1 NS (conj N1 N2)). reflexivity.
    - intros Q. injection Q as -> Q -> -> -> -> -> -> -> -> -> ->. apply NS in Q as [N1 N2]. repeat (split; [reflexivity || assumption|]). reflexivity.
  Qed.

  (** A file yields a provider exactly if it can be parsed, its definition is acceptable,
      and, if it is relocatable, its directory can be used; the provider is then the one
      that the definition describes, and it is secure exactly if the file is in one of the
      secure directories. *)
  Theorem C56_definitions_become_providers secure_dirs filename t p :
    plug_in isdir to_float secure_dirs filename t = Made p <->
    exists i d secure, read_text t empty_ini = (i, Fine) /\ defines to_float i d /\ acceptable isdir d /\
      (s_reloc d = true -> usable isdir (pdirname filename)) /\
      (secure = true <-> In (pdirname filename) secure_dirs) /\ provides isdir (relocated filename d) secure p.
  Proof.
    assert (FD : forall g d secure, matches g (relocated filename d) -> acceptable isdir d ->
      provides isdir (relocated filename d) secure p <-> p = from_definition isdir g secure).
    { intros g d secure M A. destruct (relocated_keeps filename d) as [K1 K2]. apply from_definition_spec; [assumption|rewrite K2|rewrite K1, K2].
      - intros Q. destruct A as (_ & A & _). rewrite Q in A. destruct A; congruence.
      - intros Q. destruct A as (_ & A & _). rewrite Q in A. now apply qualified_colon. }
    unfold plug_in. split.
    - destruct (read_string to_float whole_ok definition_class t new_config) as [g [e|]] eqn:E; [discriminate|].
      destruct (unnamed g) eqn:U; [discriminate|]. destruct (relocate isdir filename g) as [g'|] eqn:Rl; [|discriminate].
      destruct (g_problems g') as [|[]] eqn:P; try discriminate. intros H. injection H as <-.
      assert (P0 : g_problems g = []).
      { revert Rl P. unfold relocate. destruct (truth _); [|congruence].
        assert (K : forall l g1 g2, set_all_vars l g1 = Some g2 -> g_problems g2 = g_problems g1).
        { induction l as [|[x v] l IH]; intros g1 g2 Q; cbn [set_all_vars] in Q; [congruence|]. destruct (set_var x v g1) as [g3|] eqn:Sv; [|discriminate].
          apply set_var_some in Sv as (_ & _ & Sp & _). rewrite (IH _ _ Q). assumption. }
        intros Q Q'. apply K in Q. congruence. }
      destruct (read_made t g E U P0) as (i & d & R & D & A & M). pose proof (relocate_spec filename g d M P0) as RS. rewrite Rl in RS.
      destruct RS as (R1 & _ & R3). exists i, d, (tmem (pdirname filename) secure_dirs). split; [assumption|]. split; [assumption|]. split; [assumption|].
      split; [assumption|]. split; [apply tmem_In|]. now apply (FD g').
    - intros (i & d & secure & R & D & A & RU & S & PV). destruct (read_defined t i d R D A) as (g & E & U & P & M). rewrite E, U.
      pose proof (relocate_spec filename g d M P) as RS. destruct (relocate isdir filename g) as [g'|].
      + destruct RS as (_ & P' & M'). rewrite P'. f_equal. rewrite (FD g' d secure M' A) in PV. rewrite PV. f_equal.
        destruct (tmem (pdirname filename) secure_dirs) eqn:Tm.
        * symmetry. apply S. now apply tmem_In.
        * destruct secure; [|reflexivity]. assert (Q : tmem (pdirname filename) secure_dirs = true) by (apply tmem_In; now apply S). congruence.
      + destruct RS as [B NU]. destruct NU. auto.
  Qed.

  (** All directories of a provider are absolute and existed when it was loaded. *)
  Lemma pjoin_abs a b : (exists r, a = SL :: r) -> b <> [] -> (forall r, b <> SL :: r) -> exists r, pjoin a b = SL :: r.
  Proof.
    intros (r & ->) NB NS. unfold pjoin. destruct b as [|c b]; [congruence|]. change SLASH with SL. destruct (Ascii.eqb_spec c SL) as [->|D]; [destruct (NS b eq_refl)|].
    destruct (ends_slash (SL :: r)); cbn [app]; eauto.
  Qed.
  Lemma chosen_usable own loc l n d : usable_if_given isdir own -> usable_if_given isdir loc ->
    (forall parts, In parts l -> forall s, In s parts -> T s <> [] /\ forall r, T s <> SL :: r) ->
    chosen isdir own loc l n -> n = Some d -> usable isdir d.
  Proof.
    intros UO UL GP H. induction H as [d' l E|loc' parts l E EL I|loc' parts l o E EL I H IH|l E EL|E]; intros Q; try discriminate.
    - injection Q as <-. auto.
    - injection Q as <-. split; [|assumption]. destruct (UL _ EL) as [AB _]. assert (GP' := GP parts (or_introl eq_refl)). clear - AB GP'.
      revert loc' AB. induction parts as [|s parts IH]; intros loc' AB; cbn [map fold_left]; [assumption|]. apply IH; [intros s' Is; apply GP'; now right|].
      destruct (GP' s (or_introl eq_refl)). now apply pjoin_abs.
    - apply IH; [|assumption]. intros parts' I'. apply GP. now right.
  Qed.
  Theorem C56_directories_exist secure_dirs filename t p d :
    plug_in isdir to_float secure_dirs filename t = Made p ->
    In (Some d) [p_base (q_dirs p); p_units (q_dirs p); p_jobs (q_dirs p); p_data (q_dirs p); p_bin (q_dirs p); p_locale (q_dirs p)] ->
    usable isdir d.
  Proof.
    intros H. apply C56_definitions_become_providers in H as (i & df & secure & _ & _ & A & RU & _ & PV).
    destruct PV as (_ & _ & _ & _ & _ & _ & _ & PB & P1 & P2 & P3 & P4 & P5).
    destruct A as (A1 & _ & _ & _ & A7 & A8 & A9 & A10 & A11).
    assert (UN : usable_if_given isdir None) by (intros x; discriminate).
    assert (GG : usable_if_given isdir (s_location (relocated filename df)) /\ usable_if_given isdir (s_units (relocated filename df)) /\
      usable_if_given isdir (s_jobs (relocated filename df)) /\ usable_if_given isdir (s_data (relocated filename df)) /\
      usable_if_given isdir (s_bin (relocated filename df)) /\ usable_if_given isdir (s_locale (relocated filename df))).
    { unfold relocated. destruct (s_reloc df); [|tauto]. cbn [s_location s_units s_jobs s_data s_bin s_locale].
      split; [intros x E; injection E as <-; auto|tauto]. }
    destruct GG as (B1 & B2 & B3 & B4 & B5 & B6).
    assert (OK : forall l, l = [["units"%string]] \/ l = [["jobs"%string]] \/ l = [["data"%string]] \/ l = [["bin"%string]] \/ l = [["locale"%string]; ["build"; "mo"]%string] ->
      forall parts, In parts l -> forall s, In s parts -> T s <> [] /\ forall r, T s <> SL :: r).
    { intros l L parts I s Is. repeat (destruct L as [->|L]); try subst l; cbn [In] in I; repeat (destruct I as [<-|I]; [cbn [In] in Is; repeat (destruct Is as [<-|Is]; [split; [discriminate|intros r; discriminate]|]); destruct Is|]); destruct I. }
    intros I. cbn [In] in I. destruct I as [E|[E|[E|[E|[E|[E|[]]]]]]]; [rewrite PB in E; auto| | | | |];
      (eapply chosen_usable; [..|exact E]; [| |apply OK|eassumption]; [assumption|assumption|tauto]).
  Qed.

  (** A provider is secure exactly if its file is in one of the secure directories: nothing
      in the file matters. *)
  Theorem C56_secure_by_place secure_dirs filename t p :
    plug_in isdir to_float secure_dirs filename t = Made p -> (q_secure p = true <-> In (pdirname filename) secure_dirs).
  Proof.
    intros H. apply C56_definitions_become_providers in H as (i & df & secure & _ & _ & _ & _ & S & PV).
    destruct PV as (_ & _ & _ & _ & _ & E & _). rewrite E. exact S.
  Qed.

  (** Names and namespaces: a provider always has both, and without a namespace in the file
      the name begins with it. *)
  Theorem C56_names secure_dirs filename t p : plug_in isdir to_float secure_dirs filename t = Made p ->
    q_name p <> [] /\ q_namespace p <> [].
  Proof.
    intros H. apply C56_definitions_become_providers in H as (i & df & secure & _ & _ & A & _ & _ & PV).
    destruct PV as (E & N1 & N2 & _). destruct (relocated_keeps filename df) as [K1 K2]. rewrite K1 in *. rewrite K2 in *.
    destruct A as (_ & A & _). rewrite E. destruct (s_namespace df) as [ns|].
    - destruct A as [A1 A2]. split; [now apply named|]. now rewrite (N1 ns eq_refl).
    - split; [now apply qualified_name_valid|]. destruct (N2 eq_refl) as (r & E2 & _). intros Z. rewrite Z in E2. cbn [app] in E2.
      assert (Q : forall n, qualified n -> forall r, n <> ":"%char :: r).
      { intros n (y & l & m & k & -> & Y & L & _) r' B. unfold year in Y. unfold label in L. destruct Y as [->|Y].
        - destruct L as (c & l' & -> & Sc & _). cbn [app] in B. injection B as -> _. unfold is_small in Sc. cbn in Sc. lia.
        - destruct Y as (a & b & c' & d' & -> & Da & _). cbn [app] in B. injection B as -> _. unfold ProvdefSpec.is_digit in Da. cbn in Da. lia. }
      destruct A as [A|(n & E3 & A)]; [exact (Q _ A _ E2)|]. rewrite E3 in E2. destruct n as [|c n].
      + cbn [app] in E2. discriminate.
      + cbn [app] in E2. injection E2 as -> _. now apply (Q _ A n).
  Qed.
End Props.
Print Assumptions C56_definitions_become_providers.
Print Assumptions C56_directories_exist.
Print Assumptions C56_secure_by_place.
Print Assumptions C56_names.

(** ** Search paths *)

(** Outside of a snap the secure directories are the two system directories. *)
Theorem C56_secure_directories env listing : (env (T "SNAP") = None \/ env (T "SNAP") = Some []) -> (env (T "SNAP_APP_PATH") = None \/ env (T "SNAP_APP_PATH") = Some []) ->
  secure_list env listing = [T "/usr/local/share/plainbox-providers-1"; T "/usr/share/plainbox-providers-1"].
Proof. intros H1 H2. unfold secure_list, or_else. destruct H1 as [-> | ->]; destruct H2 as [-> | ->]; reflexivity. Qed.
Print Assumptions C56_secure_directories.

(** Inside of a snap they are what is in the directory of providers. *)
Theorem C56_secure_directories_of_a_snap env listing root : root <> [] ->
  env (T "SNAP") = Some root \/ (env (T "SNAP") = None \/ env (T "SNAP") = Some []) /\ env (T "SNAP_APP_PATH") = Some root ->
  forall d, In d (secure_list env listing) <->
    exists l n, listing (pjoin root (T "providers")) = Some l /\ In n l /\ d = pjoin (pjoin root (T "providers")) n.
Proof.
  intros NR H d. assert (E : or_else (env (T "SNAP")) (env (T "SNAP_APP_PATH")) = Some root).
  { unfold or_else. destruct root as [|c r]; [congruence|]. destruct H as [-> | [[-> | ->] ->]]; reflexivity. }
  unfold secure_list. rewrite E. destruct root as [|c r]; [congruence|]. cbv zeta. destruct (listing (pjoin (c :: r) (T "providers"))) as [l|].
  - rewrite in_map_iff. split; [intros (n & <- & I); eauto|]. intros (l' & n & Q & I & ->). injection Q as <-. eauto.
  - split; [intros []|]. intros (l & n & Q & _). discriminate.
Qed.
Print Assumptions C56_secure_directories_of_a_snap.

(** PROVIDERPATH is taken apart at its colons: nothing is lost, and texts without colons that
    are put together with them come back. *)
Fixpoint with_colons (l : list text) : text :=
  match l with [] => [] | [t] => t | t :: r => t ++ ":"%char :: with_colons r end.
Lemma split_colon_acc t : forall acc, exists a l, split_colon acc t = a :: l.
Proof. induction t as [|c t IH]; intros acc; cbn [split_colon]; [eauto|]. destruct (Ascii.eqb c ":"); eauto. Qed.
Lemma split_colon_join t : forall acc, with_colons (split_colon acc t) = rev acc ++ t /\ forall x, In x (split_colon acc t) -> In ":"%char x -> In ":"%char acc.
Proof.
  induction t as [|c t IH]; intros acc; cbn [split_colon].
  - cbn [with_colons]. rewrite app_nil_r. split; [reflexivity|]. intros x [<-|[]] H. now apply in_rev.
  - destruct (Ascii.eqb_spec c ":") as [->|D].
    + destruct (IH []) as [E F]. destruct (split_colon_acc t []) as (a & l & S). rewrite S in *. split.
      * cbn [with_colons]. change (match l with [] => a | _ :: _ => a ++ ":"%char :: with_colons l end) with (with_colons (a :: l)). now rewrite E.
      * intros x [<-|I] H; [now apply in_rev|]. destruct (F x I H).
    + destruct (IH (c :: acc)) as [E F]. split; [rewrite E; cbn [rev]; now rewrite <- app_assoc|].
      intros x I H. destruct (F x I H) as [Q|Q]; [congruence|assumption].
Qed.
Lemma colons_inj l : forall l', l <> [] -> l' <> [] -> (forall x, In x l -> ~ In ":"%char x) -> (forall x, In x l' -> ~ In ":"%char x) ->
  with_colons l = with_colons l' -> l = l'.
Proof.
  assert (P : forall a a' s s' : text, ~ In ":"%char a -> ~ In ":"%char a' -> a ++ ":"%char :: s = a' ++ ":"%char :: s' -> a = a' /\ s = s').
  { induction a as [|c a IH]; intros [|c' a'] s s' N N' E; cbn [app] in E.
    - injection E as ->. auto.
    - injection E as <- _. destruct N'. now left.
    - injection E as -> _. destruct N. now left.
    - injection E as -> E. apply IH in E as [-> ->]; [auto|intros I; apply N; now right|intros I; apply N'; now right]. }
  assert (Q : forall a a' s' : text, ~ In ":"%char a -> a <> a' ++ ":"%char :: s').
  { intros a a' s' N ->. apply N. apply in_app_iff. right. now left. }
  induction l as [|a l IH]; intros [|a' l'] NE NE' F F' E; try congruence.
  assert (Fa := F a (or_introl eq_refl)). assert (Fa' := F' a' (or_introl eq_refl)).
  destruct l as [|b l], l' as [|b' l']; cbn [with_colons] in E.
  - congruence.
  - exfalso. exact (Q _ _ _ Fa E).
  - exfalso. symmetry in E. exact (Q _ _ _ Fa' E).
  - apply P in E as [-> E]; [|assumption|assumption]. f_equal. apply IH; [discriminate|discriminate| | |exact E]; intros x I; [apply F|apply F']; now right.
Qed.
Theorem C56_provider_path env listing home p : env (T "PROVIDERPATH") = Some p ->
  forall l, insecure_list env listing home = l <-> l <> [] /\ (forall x, In x l -> ~ In ":"%char x) /\ with_colons l = p.
Proof.
  intros E l. unfold insecure_list. rewrite E. destruct (split_colon_join p []) as [J N]. destruct (split_colon_acc p []) as (a & r & S). split.
  - intros <-. split; [now rewrite S|]. split; [intros x I H; destruct (N x I H)|exact J].
  - intros (L1 & L2 & L3). apply colons_inj; [now rewrite S|assumption|intros x I H; destruct (N x I H)|assumption|]. rewrite J, L3. reflexivity.
Qed.
Print Assumptions C56_provider_path.
Theorem C56_provider_path_unset env listing home d : env (T "PROVIDERPATH") = None ->
  In d (insecure_list env listing home) <->
  In d (secure_list env listing) \/ exists data, d = pjoin data (T "plainbox-providers-1") /\
    (env (T "XDG_DATA_HOME") = Some data \/ env (T "XDG_DATA_HOME") = None /\ data = home).
Proof.
  intros E. unfold insecure_list. rewrite E, in_app_iff. unfold user_entry. cbn [In]. split.
  - intros [H|[<-|[]]]; [auto|]. right. eexists. split; [reflexivity|]. destruct (env (T "XDG_DATA_HOME")); auto.
  - intros [H|(dt & -> & H)]; [auto|]. right. left. destruct H as [-> |[-> ->]]; reflexivity.
Qed.
Print Assumptions C56_provider_path_unset.

(** A definition file at the top of a directory of PROVIDERPATH makes a secure provider
    exactly if that directory, without the slashes at its end, is a secure one. *)
Lemma slashes_rev k : rev (repeat SL k) = repeat SL k.
Proof.
  induction k as [|k IH]; cbn [repeat rev]; [reflexivity|]. rewrite IH. clear. induction k as [|k IH]; cbn [repeat app]; [reflexivity|now rewrite IH].
Qed.
Lemma pdirname_slashes base k name : base <> [] -> (forall q, base <> q ++ [SL]) -> ~ In SL name -> pdirname (base ++ repeat SL (S k) ++ name) = base.
Proof.
  intros NB NE N. unfold pdirname. rewrite !rev_app_distr, slashes_rev, <- app_assoc. cbn [repeat app].
  rewrite after_slash_skip by (now rewrite <- in_rev). cbn [drop_slashes]. rewrite Ascii.eqb_refl.
  assert (D : forall k r, drop_slashes (repeat SL k ++ r) = drop_slashes r).
  { clear. induction k as [|k IH]; intros r; cbn [repeat app drop_slashes]; [reflexivity|]. rewrite Ascii.eqb_refl. apply IH. }
  rewrite D. pose proof (not_ends_slash base NE) as H. destruct (rev base) as [|c r] eqn:E.
  - exfalso. apply NB. rewrite <- (rev_involutive base), E. reflexivity.
  - cbn [drop_slashes]. destruct (Ascii.eqb_spec c SL); [contradiction|]. transitivity (rev (c :: r)); [reflexivity|]. rewrite <- E. apply rev_involutive.
Qed.
Lemma ends_slash_last t : ends_slash t = true <-> exists q, t = q ++ [SL].
Proof.
  induction t as [|c [|c' t] IH]; cbn [ends_slash].
  - split; [discriminate|]. intros ([|a q] & E); discriminate.
  - change SLASH with SL. rewrite Ascii.eqb_eq. split; [intros ->; now exists []|]. intros ([|a [|b q]] & E); cbn [app] in E; congruence.
  - rewrite IH. split; intros (q & E); [exists (c :: q); cbn [app]; now rewrite E|]. destruct q as [|a q]; cbn [app] in E; [discriminate|]. injection E as _ E. eauto.
Qed.
Theorem C56_secure_on_the_path isdir to_float secure_dirs base k name t p : base <> [] -> (forall q, base <> q ++ [SL]) -> ~ In SL name -> name <> [] ->
  plug_in isdir to_float secure_dirs (pjoin (base ++ repeat SL k) name) t = Made p -> (q_secure p = true <-> In base secure_dirs).
Proof.
  intros NB NE N NN H. apply C56_secure_by_place in H. rewrite H. clear H. assert (E : pdirname (pjoin (base ++ repeat SL k) name) = base).
  { unfold pjoin. destruct name as [|c name]; [congruence|]. change SLASH with SL. destruct (Ascii.eqb_spec c SL) as [->|D]; [destruct N; now left|].
    destruct (base ++ repeat SL k) as [|b bs] eqn:B; [apply app_eq_nil in B as [B _]; contradiction|]. rewrite <- B. clear b bs B.
    destruct (ends_slash (base ++ repeat SL k)) eqn:En.
    - destruct k as [|k]; [apply ends_slash_last in En as (q & En); rewrite app_nil_r in En; destruct (NE q En)|]. rewrite <- app_assoc. now apply pdirname_slashes.
    - destruct k as [|k].
      + rewrite app_nil_r. exact (pdirname_slashes base 0 (c :: name) NB NE N).
      + assert (Q : ends_slash (base ++ repeat SL (S k)) = true); [|congruence]. apply ends_slash_last. exists (base ++ repeat SL k). rewrite <- app_assoc. f_equal.
        rewrite <- (slashes_rev (S k)). cbn [repeat rev]. now rewrite slashes_rev. }
  now rewrite E.
Qed.
Print Assumptions C56_secure_on_the_path.

(** ** Cases *)

Definition LF : string := String NL "".
Definition lines (l : list string) : text := T (fold_right (fun a b => (a ++ LF ++ b)%string) ""%string l).
Definition disk (t : text) : bool := existsb (text_eqb t) [T "/srv"; T "/srv/jobs"; T "/srv/build/mo"; T "/other"].
Definition no_float (_ : text) : option text := None.
Definition good : text := lines
  ["[PlainBox Provider]"; "name = 2014.com.example:tests"; "version = 1.0"; "description = Some tests"; "location = /srv"; "units_dir = /other"]%string.
Definition secure_dirs : list text := [T "/usr/share/plainbox-providers-1"].

Example C56_good : plug_in disk no_float secure_dirs (T "/usr/share/plainbox-providers-1/x.provider") good =
  Made (mk_provider1 (T "2014.com.example:tests") (T "2014.com.example") (T "1.0") (VStr (T "Some tests")) true None
    (mk_provider (Some (T "/other")) (Some (T "/srv/jobs")) None None (Some (T "/srv/build/mo")) (Some (T "/srv")))).
Proof. vm_compute. reflexivity. Qed.
Example C56_good_relocated : plug_in disk no_float secure_dirs (T "/srv/x.provider") (lines
  ["[PlainBox Provider]"; "name = tests"; "namespace = 2014.com.example"; "version = 1.0"; "relocatable = yes"; "units_dir = /other"]%string) =
  Made (mk_provider1 (T "tests") (T "2014.com.example") (T "1.0") VUnset false None
    (mk_provider None (Some (T "/srv/jobs")) None None (Some (T "/srv/build/mo")) (Some (T "/srv")))).
Proof. vm_compute. reflexivity. Qed.
Example C56_bad_directory : plug_in disk no_float secure_dirs (T "/srv/x.provider") (good ++ lines ["data_dir = /nowhere"%string]) =
  Refused (PValue (X_data disk) (VStr (T "/nowhere"))).
Proof. vm_compute. reflexivity. Qed.
Example C56_path_case : insecure_list (fun k => if text_eqb k (T "PROVIDERPATH") then Some (T "/a::/b") else None) (fun _ => None) (T "/home") = [T "/a"; []; T "/b"].
Proof. vm_compute. reflexivity. Qed.
Example C56_snap_case : secure_list (fun k => if text_eqb k (T "SNAP") then Some (T "/snap/x") else None)
    (fun d => if text_eqb d (T "/snap/x/providers") then Some [T "p1"; T "p2"] else None) = [T "/snap/x/providers/p1"; T "/snap/x/providers/p2"].
Proof. vm_compute. reflexivity. Qed.

(** ** What does not hold *)

(** Names, versions and domains that are accepted need not be well-formed. *)
Theorem C56_names_well_formed_refuted : exists isdir to_float filename t p,
  plug_in isdir to_float [] filename t = Made p /\ ~ short (q_name p) /\ ~ qualified (q_name p) /\ In " "%char (q_name p).
Proof.
  exists disk, no_float, (T "/srv/x.provider"), (lines
    ["[PlainBox Provider]"; "name = 2014.com.example:tests; and more"; "namespace = 2014.com.example"; "version = 1.0"]%string).
  eexists. split; [vm_compute; reflexivity|]. cbn [q_name]. split; [|split].
  - intros [_ H]. specialize (H " "%char). unfold name_char, is_small, ProvdefSpec.is_digit in H. destruct H as [H|[H|H]]; [vm_compute; tauto|..]; cbn in H; [lia|lia|discriminate].
  - intros Q. assert (E : iqn_valid (T "2014.com.example:tests; and more") = true) by (apply iqn_valid_spec; left; exact Q). vm_compute in E. discriminate.
  - vm_compute. tauto.
Qed.
Print Assumptions C56_names_well_formed_refuted.
Theorem C56_versions_well_formed_refuted : exists isdir to_float filename t p,
  plug_in isdir to_float [] filename t = Made p /\ q_version p = T "1 / not a version" /\ q_domain p = Some (T "x/../../etc").
Proof.
  exists disk, no_float, (T "/srv/x.provider"), (lines
    ["[PlainBox Provider]"; "name = 2014.com.example:tests"; "version = 1 / not a version"; "gettext_domain = x/../../etc"]%string).
  eexists. split; [vm_compute; reflexivity|]. split; vm_compute; reflexivity.
Qed.
Print Assumptions C56_versions_well_formed_refuted.

(** A definition that is not acceptable need not be refused with the exception for plug-ins
    that cannot be loaded; other exceptions come out, and the loading of all providers ends. *)
Theorem C56_bad_definitions_are_refused_refuted : exists isdir to_float filename,
  plug_in isdir to_float [] filename (lines ["[PlainBox Provider]"; "version = 1.0"]%string) = Escapes EType /\
  plug_in isdir to_float [] filename (lines ["[PlainBox Provider]"; "name = Tests"; "version = 1.0"]%string) = Escapes EType /\
  plug_in isdir to_float [] filename (good ++ lines ["name = again"%string]) = Escapes EAttribute /\
  plug_in isdir to_float [] filename (good ++ lines ["gettext_domain = 50% off"%string]) = Escapes EInterpolation /\
  plug_in isdir to_float [] filename (good ++ lines ["relocatable = perhaps"%string]) = Escapes EValue /\
  plug_in isdir to_float [] (T "x.provider") (good ++ lines ["relocatable = yes"%string]) = Escapes_validation.
Proof. exists disk, no_float, (T "/srv/x.provider"). repeat split; vm_compute; reflexivity. Qed.
Print Assumptions C56_bad_definitions_are_refused_refuted.

(** Anybody who can set the environment can choose the secure directories. *)
Theorem C56_secure_is_system_refuted : forall root n, root <> [] -> exists env listing, In (pjoin (pjoin root (T "providers")) n) (secure_list env listing).
Proof.
  intros root n NR. exists (fun k => if text_eqb k (T "SNAP") then Some root else None), (fun _ => Some [n]).
  apply (C56_secure_directories_of_a_snap _ _ root NR); [left; reflexivity|]. exists [n], n. split; [reflexivity|]. split; [now left|reflexivity].
Qed.
Print Assumptions C56_secure_is_system_refuted.
