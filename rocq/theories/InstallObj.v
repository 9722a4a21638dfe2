(** * Installing providers: what is written to the definition file *)
From Coq Require Import String Ascii List Bool Arith Lia.
From Verif Require Import ScanModel Rfc822Model Rfc822Spec Rfc822Proofs IniModel IniProofs ConfigModel ConfigSpec ConfigProofs ConfigWrite ConfigRound ConfigProps
  RegexModel PluginModel ProviderModel ProviderSpec ProviderProps ProvdefModel ProvdefSpec ProvdefProps InstallModel InstallSpec InstallProofs InstallText.
Import ListNotations.
Local Open Scope nat_scope.
Local Open Scope list_scope.

(** ** Paths *)

Lemma comps_slash r : comps (SL :: r) = comps r.
Proof. apply (comps_app [] r). Qed.
Lemma comps_root root t : (exists r, t = SL :: r) -> comps (root ++ t) = comps root ++ comps t.
Proof. intros (r & ->). now rewrite comps_app, comps_slash. Qed.
Lemma path_abs t cs : (exists r, t = SL :: r) -> exists r, path t cs = SL :: r.
Proof. intros (r & ->). unfold path. cbn [app]. eauto. Qed.
Lemma comp_const (t : text) : t <> [] -> forallb (fun c => negb (Ascii.eqb c SL)) t = true -> component t.
Proof.
  intros N F. split; [exact N|]. intros I. rewrite forallb_forall in F. specialize (F _ I). now rewrite Ascii.eqb_refl in F.
Qed.
Lemma file_name_no_slash name : ~ In SL name -> ~ In SL (file_name name).
Proof.
  intros N I. unfold file_name, without_colon in I. apply in_app_or in I as [I|I]; [|vm_compute in I; intuition discriminate].
  apply in_map_iff in I as (c & E & I). destruct (Ascii.eqb c ":"); [discriminate|]. subst c. contradiction.
Qed.
Lemma file_name_long name t : length t < 9 -> file_name name <> t.
Proof. intros L <-. unfold file_name in L. rewrite app_length in L. cbn in L. lia. Qed.
Lemma dest_components l name k : plain_name name -> Forall component (dest l name k).
Proof.
  intros (NE & NS & _). assert (N : component name) by now split.
  assert (F : component (file_name name)). { split; [|now apply file_name_no_slash]. unfold file_name. intros E. apply app_eq_nil in E as [_ E]. discriminate. }
  destruct l, k; cbn [dest]; repeat (apply Forall_cons; [first [exact N|exact F|apply comp_const; [discriminate|reflexivity]]|]); apply Forall_nil.
Qed.
Lemma paths root prefix l name k : plain_path prefix -> plain_name name -> comps (root ++ path prefix (dest l name k)) = place root prefix l name k.
Proof.
  intros (A & _) N. rewrite comps_root by now apply path_abs. rewrite comps_path by now apply dest_components. reflexivity.
Qed.
Lemma places_apart root prefix l name k k' : (l = Unix -> name <> T "locale") -> k <> k' -> apart (place root prefix l name k) (place root prefix l name k').
Proof.
  intros U N. unfold place. apply apart_common, apart_common.
  assert (FN : forall t, length t < 9 -> file_name name <> t) by apply file_name_long.
  assert (FN' : forall t, length t < 9 -> t <> file_name name) by (intros t L E; symmetry in E; revert E; now apply FN).
  destruct (list_eq_dec ascii_dec name PPP) as [E|E].
  - rewrite E in *. destruct l, k, k'; try contradiction; cbn [dest];
      repeat first [apply apart_heads; first [discriminate|apply FN; cbn; lia|apply FN'; cbn; lia]|apply apart_next].
  - assert (E' : PPP <> name) by congruence.
    destruct l, k, k'; try contradiction; cbn [dest]; try specialize (U eq_refl);
      repeat first [apply apart_heads; first [discriminate|assumption|apply FN; cbn; lia|apply FN'; cbn; lia|congruence]|apply apart_next].
Qed.

(** ** setup *)

(** What setup makes of its arguments *)
Definition described (location name : text) (namespace : option text) (version description : text) (domain : option text) : definition :=
  mk_definition false (Some location) name namespace version (Some description) domain None None None None None.
Lemma setup_spec f location name namespace version description domain g : setup f location name namespace version description domain = Some g ->
  exists n v d, name = Some n /\ version = Some v /\ description = Some d /\
    matches (isdir f) g (described location n namespace v d domain) /\
    usable (isdir f) location /\ name_valid n = true /\ n <> [] /\ namespace <> Some [] /\ version_valid v = true /\ (forall t, domain = Some t -> domain_valid t = true) /\
    g_problems g = [].
Proof.
  unfold setup. cbn [set_all_vars]. unfold set_var.
  destruct (validate (X_location (isdir f)) (VStr location)) eqn:E1; [|discriminate].
  destruct (validate X_name (given name VNone)) eqn:E2; [|discriminate].
  destruct (validate X_namespace (given namespace VUnset)) eqn:E3; [|discriminate].
  destruct (validate X_version (given version VNone)) eqn:E4; [|discriminate].
  destruct (validate X_description (given description VNone)) eqn:E5; [|discriminate].
  destruct (validate X_domain (given domain VUnset)) eqn:E6; [|discriminate].
  intros E. injection E as <-.
  apply valid_dir in E1 as [E1|(loc & E1 & U)]; [discriminate|]. injection E1 as <-.
  apply valid_name in E2 as (n & E2 & NV & NN). destruct name as [n'|]; [|discriminate]. injection E2 as ->.
  apply valid_version in E4 as (v & E4 & VV & VN). destruct version as [v'|]; [|discriminate]. injection E4 as ->.
  apply valid_description in E5 as [E5|(d & E5)]; [destruct description; discriminate|]. destruct description as [d'|]; [|discriminate]. injection E5 as ->.
  exists n, v, d. split; [reflexivity|]. split; [reflexivity|]. split; [reflexivity|]. split; [|split; [exact U|split; [exact NV|split; [exact NN|split; [|split; [exact VV|split; [|reflexivity]]]]]]].
  - unfold matches, described. cbn [s_reloc s_location s_name s_namespace s_version s_description s_domain s_units s_jobs s_data s_bin s_locale of].
    split; [right; split; reflexivity|]. split; [reflexivity|]. split; [reflexivity|]. split; [destruct namespace; reflexivity|]. split; [reflexivity|]. split; [reflexivity|].
    split; [destruct domain; reflexivity|]. repeat (split; [reflexivity|]). reflexivity.
  - apply valid_namespace in E3 as [E3|(t & E3 & N)]; [destruct namespace; [discriminate|congruence]|]. destruct namespace; [|discriminate]. injection E3 as ->. congruence.
  - intros t ->. cbn [given] in E6. apply valid_domain in E6 as [E6|(t' & E6 & V)]; [discriminate|]. congruence.
Qed.

(** Everything that is written can be *)
Definition portable_definition (d : definition) : Prop :=
  portable_if_given (s_location d) /\ portable (s_name d) /\ portable_if_given (s_namespace d) /\ portable (s_version d) /\ portable_if_given (s_description d) /\ portable_if_given (s_domain d).
Lemma plain_of o : portable_if_given o -> plain_value (of o).
Proof. intros H. destruct o as [t|]; [right; exists t; split; [reflexivity|now apply H]|now left]. Qed.
Lemma obj_spec isdir g d : matches isdir g d -> s_reloc d = false -> get_var X_reloc g = VUnset -> portable_definition d ->
  s_units d = None -> s_jobs d = None -> s_data d = None -> s_bin d = None -> s_locale d = None ->
  exists i, get_parser_obj (definition_class isdir) g = Some i /\ good i /\
    has i (T "relocatable") = None /\ has i (T "location") = option_map Some (s_location d) /\ has i (T "name") = Some (Some (s_name d)) /\
    has i (T "namespace") = option_map Some (s_namespace d) /\ has i (T "version") = Some (Some (s_version d)) /\
    has i (T "description") = option_map Some (s_description d) /\ has i (T "gettext_domain") = option_map Some (s_domain d) /\
    has i (T "units_dir") = None /\ has i (T "jobs_dir") = None /\ has i (T "data_dir") = None /\ has i (T "bin_dir") = None /\ has i (T "locale_dir") = None.
Proof.
  intros (M0 & M1 & M2 & M3 & M4 & M5 & M6 & M7 & M8 & M9 & M10 & M11) R RU (P1 & P2 & P3 & P4 & P5 & P6) U1 U2 U3 U4 U5.
  rewrite U1 in M7. rewrite U2 in M8. rewrite U3 in M9. rewrite U4 in M10. rewrite U5 in M11.
  destruct (parser_obj isdir g) as (i & E & G & A & _).
  { intros x X. cbn [c_variables definition_class In] in X.
    repeat destruct X as [<-|X]; try contradiction; rewrite ?RU, ?M1, ?M2, ?M3, ?M4, ?M5, ?M6, ?M7, ?M8, ?M9, ?M10, ?M11;
      first [now left|now apply plain_of|right; eexists; split; [reflexivity|assumption]]. }
  exists i. split; [exact E|]. split; [exact G|].
  assert (OF : forall o, match of o with VStr t => Some (Some t) | _ => None end = option_map Some o) by (intros [|]; reflexivity).
  pose proof (A X_reloc) as A0. pose proof (A (X_location isdir)) as A1. pose proof (A X_name) as A2. pose proof (A X_namespace) as A3. pose proof (A X_version) as A4.
  pose proof (A X_description) as A5. pose proof (A X_domain) as A6. pose proof (A (X_units isdir)) as A7. pose proof (A (X_jobs isdir)) as A8. pose proof (A (X_data isdir)) as A9.
  pose proof (A (X_bin isdir)) as A10. pose proof (A (X_locale isdir)) as A11. clear A.
  rewrite RU in A0. rewrite M1, OF in A1. rewrite M2 in A2. rewrite M3, OF in A3. rewrite M4 in A4. rewrite M5, OF in A5. rewrite M6, OF in A6. rewrite M7 in A7. rewrite M8 in A8. rewrite M9 in A9. rewrite M10 in A10. rewrite M11 in A11.
  cbn [of] in *.
  split; [apply A0; cbn; tauto|]. split; [apply A1; cbn; tauto|]. split; [apply A2; cbn; tauto|]. split; [apply A3; cbn; tauto|]. split; [apply A4; cbn; tauto|].
  split; [apply A5; cbn; tauto|]. split; [apply A6; cbn; tauto|]. split; [apply A7; cbn; tauto|]. split; [apply A8; cbn; tauto|]. split; [apply A9; cbn; tauto|]. split; [apply A10; cbn; tauto|].
  apply A11; cbn; tauto.
Qed.

(** ** Paths that can be written *)

Lemma lstrip_len t : length (lstrip t) <= length t.
Proof. induction t as [|c t IH]; cbn [lstrip]; [lia|]. destruct (isspace c); cbn [length]; lia. Qed.
Lemma stripped_end t : strip t = t -> starts_tight (rev t).
Proof.
  intros H. apply stripped_rstrip in H. unfold rstrip in H. apply (f_equal (@rev _)) in H. rewrite rev_involutive in H.
  unfold starts_tight. destruct (rev t) as [|c r]; [exact I|]. cbn [lstrip] in H. destruct (isspace c); [|reflexivity].
  apply (f_equal (@length _)) in H. cbn [length] in H. pose proof (lstrip_len r). lia.
Qed.
(** A component that can end a path *)
Definition path_end (c : text) : Prop := c <> [] /\ ~ In NL c /\ ~ In PCT c /\ starts_tight (rev c).
Lemma path_portable prefix cs c : plain_path prefix -> Forall (fun x => ~ In NL x /\ ~ In PCT x) cs -> path_end c -> portable (path prefix (cs ++ [c])).
Proof.
  intros ((r & A) & N & P) F (NE & CN & CP & CT).
  assert (IN : forall x, x <> SL -> In x (path prefix (cs ++ [c])) -> In x prefix \/ exists y, In y (cs ++ [c]) /\ In x y).
  { intros x X I. unfold path in I. apply in_app_or in I as [I|I]; [now left|right]. apply in_concat in I as (y & Y & I). apply in_map_iff in Y as (z & <- & Z).
    destruct I as [I|I]; [congruence|]. now exists z. }
  assert (NO : forall x, x <> SL -> ~ In x prefix -> (forall y, In y cs -> ~ In x y) -> ~ In x c -> ~ In x (path prefix (cs ++ [c]))).
  { intros x X X1 X2 X3 I. destruct (IN x X I) as [I'|(y & Y & I')]; [contradiction|]. apply in_app_or in Y as [Y|[<-|[]]]; [now apply (X2 y)|contradiction]. }
  rewrite Forall_forall in F. split.
  - apply writable_line.
    + apply NO; [discriminate|exact N|intros y Y; now apply F|exact CN].
    + destruct (path_abs prefix (cs ++ [c])) as (q & ->); [now exists r|]. reflexivity.
    + unfold path. rewrite map_app, concat_app, app_assoc, rev_app_distr. cbn [map concat]. rewrite app_nil_r. cbn [rev].
      destruct (rev c) as [|x y] eqn:E; [apply (f_equal (@rev _)) in E; rewrite rev_involutive in E; contradiction|]. exact CT.
  - apply NO; [discriminate|exact P|intros y Y; now apply F|exact CP].
Qed.
Lemma plain_component name : plain_name name -> path_end name.
Proof.
  intros (NE & _ & NN & W & P). split; [exact NE|]. split; [exact NN|]. split; [exact P|]. unfold writable in W. rewrite split_nl_line in W by exact NN.
  apply stripped_end. apply W.
Qed.
Ltac no_char := let X := fresh in intros X; vm_compute in X; intuition discriminate.
Lemma dest_portable prefix name k : plain_path prefix -> plain_name name -> k <> Definition_ -> portable (path prefix (dest Unix name k)).
Proof.
  intros P N D. destruct (plain_component name N) as (_ & N1 & N2 & _).
  destruct k; try congruence; cbn [dest].
  1: change [T "lib"; name; T "bin"] with ([T "lib"; name] ++ [T "bin"]).
  2: change [T "share"; T "locale"] with ([T "share"] ++ [T "locale"]).
  3: change [T "share"; name; T "data"] with ([T "share"; name] ++ [T "data"]).
  4: change [T "share"; name; T "jobs"] with ([T "share"; name] ++ [T "jobs"]).
  5: change [T "share"; name; T "units"] with ([T "share"; name] ++ [T "units"]).
  all: apply path_portable; [exact P| |split; [discriminate|split; [no_char|split; [no_char|reflexivity]]]];
    repeat (apply Forall_cons; [split; first [assumption|no_char]|]); apply Forall_nil.
Qed.
Lemma home_portable prefix name : plain_path prefix -> plain_name name -> portable (path prefix [T "lib"; PPP; name]).
Proof.
  intros P N. change [T "lib"; PPP; name] with ([T "lib"; PPP] ++ [name]). apply path_portable; [exact P| |now apply plain_component].
  repeat (apply Forall_cons; [split; no_char|]); apply Forall_nil.
Qed.

(** ** What is written *)

(** The definition that goes with the installed provider *)
Definition installed (l : layout) (prefix : text) (f : fs) (loc : text) (exes : list text) (d : definition) : definition :=
  let dir k := if exists_ (f (comps loc ++ source k)) then Some (path prefix (dest Unix (s_name d) k)) else None in
  match l with
  | Unix => mk_definition false None (s_name d) (s_namespace d) (s_version d) (s_description d) (s_domain d)
      (dir Units) (dir Jobs) (dir Data) (match exes with [] => dir Bin | _ => Some (path prefix (dest Unix (s_name d) Bin)) end) (dir Mo)
  | Flat => mk_definition false (Some (path prefix [T "lib"; PPP; s_name d])) (s_name d) (s_namespace d) (s_version d) (s_description d) (s_domain d)
      None None None None None
  | Relocatable => mk_definition true None (s_name d) (s_namespace d) (s_version d) (s_description d) (s_domain d) None None None None None
  end.
Lemma true_portable : portable (T "True").
Proof. split; [apply writable_line; [no_char|reflexivity|reflexivity]|no_char]. Qed.

Section Obj.
  Variable to_float : text -> option text.
  Lemma config_obj_spec l prefix f loc exes g d : plain_path prefix -> plain_name (s_name d) -> matches (isdir f) g d -> s_reloc d = false -> get_var X_reloc g = VUnset ->
    portable_definition d -> s_units d = None -> s_jobs d = None -> s_data d = None -> s_bin d = None -> s_locale d = None ->
    exists i i', config_obj l prefix (s_name d) (comps loc) exes f g = Some i /\ read_text (write_ini i) empty_ini = (i', Fine) /\ defines to_float i' (installed l prefix f loc exes d).
  Proof.
    intros PP PN M R RU P U1 U2 U3 U4 U5.
    destruct (obj_spec (isdir f) g d M R RU P U1 U2 U3 U4 U5) as (i & E & G & H0 & H1 & H2 & H3 & H4 & H5 & H6 & H7 & H8 & H9 & H10 & H11).
    unfold config_obj. rewrite E.
    enough (X : exists i1, match l with
      | Flat => set_options [(T "location", path prefix [T "lib"; PPP; s_name d])] i
      | Relocatable => option_map (remove_option (T "location")) (set_options [(T "relocatable", T "True")] i)
      | Unix => set_options (map (fun e => (snd e, path prefix (dest Unix (s_name d) (fst e)))) (filter (fun e => exists_ (f (comps loc ++ source (fst e)))) def_map)
             ++ match exes with [] => [] | _ => [(T "bin_dir", path prefix (dest Unix (s_name d) Bin))] end) (remove_option (T "location") i) end = Some i1 /\ good i1 /\
      (let d' := installed l prefix f loc exes d in
       has i1 (T "relocatable") = (if s_reloc d' then Some (Some (T "True")) else None) /\ has i1 (T "location") = option_map Some (s_location d') /\
       has i1 (T "name") = Some (Some (s_name d)) /\ has i1 (T "namespace") = option_map Some (s_namespace d) /\ has i1 (T "version") = Some (Some (s_version d)) /\
       has i1 (T "description") = option_map Some (s_description d) /\ has i1 (T "gettext_domain") = option_map Some (s_domain d) /\
       has i1 (T "units_dir") = option_map Some (s_units d') /\ has i1 (T "jobs_dir") = option_map Some (s_jobs d') /\ has i1 (T "data_dir") = option_map Some (s_data d') /\
       has i1 (T "bin_dir") = option_map Some (s_bin d') /\ has i1 (T "locale_dir") = option_map Some (s_locale d'))).
    { destruct X as (i1 & E1 & G1 & X). cbv zeta in X. destruct X as (X0 & X1 & X2 & X3 & X4 & X5 & X6 & X7 & X8 & X9 & X10 & X11).
      destruct (read_good to_float i1 G1) as (i2 & R2 & S2 & SF & ST). exists i1, i2. split; [exact E1|]. split; [exact R2|].
      assert (SAME : s_name (installed l prefix f loc exes d) = s_name d /\ s_namespace (installed l prefix f loc exes d) = s_namespace d /\ s_version (installed l prefix f loc exes d) = s_version d /\
        s_description (installed l prefix f loc exes d) = s_description d /\ s_domain (installed l prefix f loc exes d) = s_domain d) by (destruct l; repeat split; reflexivity).
      destruct SAME as (Q1 & Q2 & Q3 & Q4 & Q5).
      unfold defines. rewrite Q1, Q2, Q3, Q4, Q5.
      split; [destruct (s_reloc (installed l prefix f loc exes d)); auto|].
      split; [now apply S2|]. split; [now apply S2|]. split; [now apply S2|]. split; [now apply S2|]. split; [now apply S2|]. split; [now apply S2|].
      split; [now apply S2|]. split; [now apply S2|]. split; [now apply S2|]. split; now apply S2. }
    destruct l.
    - destruct (remove_good i (T "location") G) as [GR HR].
      match goal with |- context [set_options ?L ?J] => destruct (set_options_good L J GR) as (i1 & E1 & G1 & H1') end.
      { intros k v I. assert (X : exists it, it <> Definition_ /\ In k names /\ v = path prefix (dest Unix (s_name d) it)).
        { apply in_app_or in I as [I|I].
          - apply in_map_iff in I as ([it n] & Q & I). apply filter_In in I as [I _]. cbn [fst snd] in Q. assert (n = k) by congruence. subst n. exists it.
            cbn [def_map In] in I. split; [|split; [|congruence]]; repeat destruct I as [I|I]; try contradiction; injection I as <- <-; try discriminate; cbn; tauto.
          - destruct exes; [destruct I|]. destruct I as [I|[]]. exists Bin. split; [discriminate|]. split; [|congruence].
            assert (k = T "bin_dir") by congruence. subst k. cbn. tauto. }
        destruct X as (it & D & K & ->). split; [exact K|now apply dest_portable]. }
      exists i1. split; [exact E1|]. split; [exact G1|]. cbv zeta. cbn [installed s_reloc s_location s_units s_jobs s_data s_bin s_locale].
      rewrite !H1', !HR. rewrite H0, H2, H3, H4, H5, H6, H7, H8, H9, H10, H11. clear.
      cbn [def_map filter fst].
      destruct (exists_ (f (comps loc ++ source Bin))), (exists_ (f (comps loc ++ source Mo))), (exists_ (f (comps loc ++ source Data))), (exists_ (f (comps loc ++ source Jobs))),
        (exists_ (f (comps loc ++ source Units))), exes; repeat split; reflexivity.
    - destruct (set_options_good [(T "location", path prefix [T "lib"; PPP; s_name d])] i G) as (i1 & E1 & G1 & H1').
      { intros k v [I|[]]. assert (k = T "location") by congruence. assert (v = path prefix [T "lib"; PPP; s_name d]) by congruence. subst. split; [cbn; tauto|now apply home_portable]. }
      exists i1. split; [exact E1|]. split; [exact G1|]. cbv zeta. cbn [installed s_reloc s_location s_units s_jobs s_data s_bin s_locale].
      rewrite !H1'. rewrite H0, H2, H3, H4, H5, H6, H7, H8, H9, H10, H11. repeat split; reflexivity.
    - destruct (set_options_good [(T "relocatable", T "True")] i G) as (i1 & E1 & G1 & H1').
      { intros k v [I|[]]. assert (k = T "relocatable") by congruence. assert (v = T "True") by congruence. subst. split; [cbn; tauto|exact true_portable]. }
      destruct (remove_good i1 (T "location") G1) as [GR HR].
      exists (remove_option (T "location") i1). rewrite E1. split; [reflexivity|]. split; [exact GR|]. cbv zeta. cbn [installed s_reloc s_location s_units s_jobs s_data s_bin s_locale].
      rewrite !HR, !H1'. rewrite H0, H2, H3, H4, H5, H6, H7, H8, H9, H10, H11. repeat split; reflexivity.
  Qed.
End Obj.

