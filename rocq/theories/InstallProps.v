(** * C65: installing a provider and loading the installed one *)
From Coq Require Import String Ascii List Bool Arith Lia.
From Verif Require Import ScanModel Rfc822Model Rfc822Spec Rfc822Proofs IniModel IniProofs ConfigModel ConfigSpec ConfigProofs ConfigWrite ConfigRound ConfigProps
  RegexModel PluginModel ProviderModel ProviderSpec ProviderProps ProvdefModel ProvdefSpec ProvdefProps InstallModel InstallSpec InstallProofs InstallText InstallObj.
Import ListNotations.
Local Open Scope nat_scope.
Local Open Scope list_scope.

(** ** Loading what was installed *)

Lemma pjoin_comps a b : (exists r, a = SL :: r) -> component b -> comps (pjoin a b) = comps a ++ [b].
Proof.
  intros (r & A) [NE NS]. unfold pjoin. destruct b as [|c b]; [congruence|].
  replace (Ascii.eqb c SLASH) with false by (symmetry; apply Ascii.eqb_neq; intros ->; apply NS; now left). rewrite A.
  destruct (ends_slash (SL :: r)) eqn:E.
  - apply ends_slash_last in E as (q & E). rewrite E, <- app_assoc. cbn [app]. rewrite !comps_app, (comps_one (c :: b)) by assumption. cbn. now rewrite app_nil_r.
  - change SLASH with SL. now rewrite comps_app, (comps_one (c :: b)) by assumption.
Qed.
Fixpoint first_of (isdir : text -> bool) (x : text) (l : list (list string)) : option text :=
  match l with
  | [] => None
  | parts :: r => let d := fold_left pjoin (map T parts) x in if isdir d then Some d else first_of isdir x r
  end.
Definition choose (isdir : text -> bool) (own loc : option text) (l : list (list string)) : option text :=
  match own with Some d => Some d | None => match loc with Some x => first_of isdir x l | None => None end end.
Lemma choose_chosen isdir own loc l : chosen isdir own loc l (choose isdir own loc l).
Proof.
  unfold choose. destruct own as [d|]; [now apply c_own|]. destruct loc as [x|]; [|now apply c_nowhere].
  induction l as [|parts r IH]; cbn [first_of]; [now apply c_none|]. destruct (isdir _) eqn:E; [eapply c_here; eauto|eapply c_later; eauto].
Qed.
(** The provider of a definition *)
Definition provider_of (isdir : text -> bool) (d : definition) (secure : bool) : provider1 :=
  mk_provider1 (s_name d) (match s_namespace d with Some ns => ns | None => before_colon (s_name d) end) (s_version d)
    (match s_description d with Some t => VStr t | None => VUnset end) secure (s_domain d)
    (mk_provider (choose isdir (s_units d) (s_location d) [["units"%string]]) (choose isdir (s_jobs d) (s_location d) [["jobs"%string]])
       (choose isdir (s_data d) (s_location d) [["data"%string]]) (choose isdir (s_bin d) (s_location d) [["bin"%string]])
       (choose isdir (s_locale d) (s_location d) [["locale"%string]; ["build"; "mo"]%string]) (s_location d)).
Lemma provider_of_spec isdir d secure : (s_namespace d = None -> qualified (s_name d)) -> provides isdir d secure (provider_of isdir d secure).
Proof.
  intros Q. unfold provides, provider_of. cbn [q_name q_namespace q_version q_description q_secure q_domain q_dirs p_base p_units p_jobs p_data p_bin p_locale].
  split; [reflexivity|]. split; [intros ns ->; reflexivity|]. split.
  - intros N. rewrite N. destruct (before_colon_spec (s_name d)) as [[C _]|(r & E & C)].
    + exfalso. apply C. apply qualified_colon. left. now apply Q.
    + exists r. now split.
  - repeat (split; [reflexivity|]). repeat (split; [apply choose_chosen|]). apply choose_chosen.
Qed.
Lemma own_provider isdir g d : matches isdir g d -> (s_namespace d = None -> qualified (s_name d)) -> s_namespace d <> Some [] ->
  from_definition isdir g false = provider_of isdir d false.
Proof.
  intros M Q N. symmetry. apply (from_definition_spec isdir g d false (provider_of isdir d false) M N).
  - intros E. apply qualified_colon. left. now apply Q.
  - now apply provider_of_spec.
Qed.
Lemma acceptable_names (name : text) (namespace : option text) : name_valid name = true -> name <> [] -> (namespace = None -> qualified name) -> namespace <> Some [] ->
  match namespace with
  | None => qualified name \/ exists n, name = n ++ [NL] /\ qualified n
  | Some ns => ns <> [] /\ (short name \/ (exists n, name = n ++ [NL] /\ short n) \/ exists n r, name = n ++ r /\ qualified n)
  end.
Proof.
  intros V NE Q N. destruct namespace as [ns|]; [|left; auto]. split; [intros ->; now apply N|]. apply name_valid_spec in V. tauto.
Qed.

Section Arrives.
  Variable f : fs.
  Variables location : text.
  Variable exes : list text.
  Hypothesis ABS : exists r, location = SL :: r.
  Hypothesis TIDY : tidy f location exes.
  Variable seen : fs.

  Lemma goes_dir k : k <> Bin -> k <> Definition_ -> goes f location exes k -> f (comps location ++ source k) = Some Dir.
  Proof. intros A B G. destruct (proj1 TIDY k A B) as [E|E]; [|exact E]. destruct k; cbn [goes] in G; congruence. Qed.
  Lemma goes_exists k : k <> Bin -> k <> Definition_ -> goes f location exes k <-> exists_ (f (comps location ++ source k)) = true.
  Proof. intros A B. destruct k; try congruence; cbn [goes]; destruct (f _); cbn; split; congruence. Qed.
  Lemma part_carried k b o' : k <> Bin -> k <> Definition_ -> source k = [b] -> component b ->
    (goes f location exes k -> exists there, o' = Some there /\ forall x, seen (comps there ++ x) = f ((comps location ++ source k) ++ x)) ->
    (~ goes f location exes k -> o' = None) ->
    carried f (if isdir f (pjoin location b) then Some (pjoin location b) else None) seen o'.
  Proof.
    intros A B S CB G NG. unfold isdir. rewrite pjoin_comps by assumption. rewrite <- S. destruct (exists_ (f (comps location ++ source k))) eqn:E.
    - apply goes_exists in E; [|assumption|assumption]. rewrite (goes_dir k A B E). cbn [is_dir]. destruct (G E) as (there & -> & H). cbn [carried].
      intros x. rewrite pjoin_comps by assumption. rewrite H, S. reflexivity.
    - assert (N : ~ goes f location exes k) by (intros G'; apply goes_exists in G'; congruence). rewrite (NG N).
      destruct (f (comps location ++ source k)); [discriminate|exact I].
  Qed.
  Lemma locale_carried o' :
    (goes f location exes Mo -> exists there, o' = Some there /\ forall x, seen (comps there ++ x) = f ((comps location ++ source Mo) ++ x)) ->
    (~ goes f location exes Mo -> o' = None) ->
    carried f (first_of (isdir f) location [["locale"%string]; ["build"; "mo"]%string]) seen o'.
  Proof.
    intros G NG. cbn [first_of map fold_left]. unfold isdir at 1. rewrite pjoin_comps by (first [assumption|apply comp_const; [discriminate|reflexivity]]).
    destruct TIDY as (_ & _ & NL' & _). rewrite NL'.
    assert (AB : exists r, pjoin location (T "build") = SL :: r) by (apply pjoin_abs; [assumption|discriminate|intros r; discriminate]).
    assert (E : comps (pjoin (pjoin location (T "build")) (T "mo")) = comps location ++ source Mo).
    { rewrite pjoin_comps by (first [assumption|apply comp_const; [discriminate|reflexivity]]). rewrite pjoin_comps by (first [assumption|apply comp_const; [discriminate|reflexivity]]). now rewrite <- app_assoc. }
    unfold isdir. rewrite E. destruct (exists_ (f (comps location ++ source Mo))) eqn:X.
    - apply goes_exists in X; [|discriminate|discriminate]. rewrite (goes_dir Mo) by (assumption || discriminate). cbn [is_dir]. destruct (G X) as (there & -> & H). cbn [carried].
      intros x. now rewrite E, H.
    - assert (N : ~ goes f location exes Mo) by (intros G'; apply goes_exists in G'; congruence). rewrite (NG N).
      destruct (f (comps location ++ source Mo)); [discriminate|exact I].
  Qed.
  Lemma programs_in there : (forall x, seen (comps there ++ x) = programs_content f (rev exes) x) -> programs_carried f exes seen (Some there).
  Proof.
    intros H e I. rewrite H. apply programs_one; [|now apply -> in_rev]. rewrite map_rev. apply NoDup_rev. apply TIDY.
  Qed.
End Arrives.

Lemma nonempty_match {A B} (l : list A) (a b : B) : l <> [] -> match l with [] => a | _ => b end = b.
Proof. destruct l; congruence. Qed.
Lemma empty_or {A} (l : list A) : l = [] \/ l <> [].
Proof. destruct l; [now left|right; discriminate]. Qed.

Definition empty_or_dec {A} (l : list A) : {l = []} + {l <> []} := match l with [] => left eq_refl | x :: r => right (fun E => nil_cons (eq_sym E)) end.

Section Main.
  Variable to_float : text -> option text.
  Variable secure : list text.
  Variable f : fs.
  Variables root prefix location name version description : text.
  Variables namespace domain : option text.
  Variable g : config.
  Variable order : list item.
  Variable exes : list text.
  Hypothesis SETUP : setup f location (Some name) namespace (Some version) (Some description) domain = Some g.
  Hypothesis PRE : presentable f location name namespace version description domain exes.
  Hypothesis PP : plain_path prefix.
  Hypothesis ALL : all_items order.
  Notation d := (described location name namespace version description domain).

  Lemma main_facts : matches (isdir f) g d /\ usable (isdir f) location /\ name_valid name = true /\ name <> [] /\ namespace <> Some [] /\
    version_valid version = true /\ (forall t, domain = Some t -> domain_valid t = true).
  Proof.
    destruct (setup_spec _ _ _ _ _ _ _ _ SETUP) as (n & v & e & E1 & E2 & E3 & M & H). injection E1 as <-. injection E2 as <-. injection E3 as <-. tauto.
  Qed.
  Lemma main_reloc : get_var X_reloc g = VUnset.
  Proof.
    unfold setup in SETUP. cbn [set_all_vars] in SETUP. unfold set_var in SETUP.
    repeat match type of SETUP with context [if ?b then _ else _] => destruct b; [|discriminate] end. injection SETUP as <-. reflexivity.
  Qed.
  Lemma main_portable : portable_definition d.
  Proof.
    destruct PRE as (_ & (_ & _ & _ & PN) & P1 & P2 & P3 & P4 & P5 & _). unfold portable_definition, described. cbn [s_location s_name s_namespace s_version s_description s_domain].
    split; [intros t E; congruence|]. split; [exact PN|]. split; [exact P2|]. split; [exact P3|]. split; [intros t E; congruence|exact P5].
  Qed.
  Lemma main_obj l : exists i i', config_obj l prefix name (comps location) exes f g = Some i /\ read_text (write_ini i) empty_ini = (i', Fine) /\
    defines to_float i' (installed l prefix f location exes d).
  Proof.
    apply (config_obj_spec to_float l prefix f location exes g d); try reflexivity; try exact PP; try apply main_facts; try apply main_reloc; try apply main_portable. apply PRE.
  Qed.
  Lemma main_name : as_text (get_var X_name g) = Some name.
  Proof. destruct main_facts as ((_ & _ & M & _) & _). now rewrite M. Qed.
  Lemma main_location : as_text (get_var (X_location (isdir f)) g) = Some location.
  Proof. destruct main_facts as ((_ & M & _) & _). now rewrite M. Qed.
  Lemma main_own : from_definition (isdir f) g false = provider_of (isdir f) d false.
  Proof. apply own_provider; [apply main_facts|apply PRE|apply main_facts]. Qed.

  (** What is common to all definitions *)
  Lemma main_loaded seen filename t i' l : read_text t empty_ini = (i', Fine) -> defines to_float i' (installed l prefix f location exes d) ->
    (let e := installed l prefix f location exes d in usable_if_given (isdir seen) (s_location e) /\ usable_if_given (isdir seen) (s_units e) /\ usable_if_given (isdir seen) (s_jobs e) /\
     usable_if_given (isdir seen) (s_data e) /\ usable_if_given (isdir seen) (s_bin e) /\ usable_if_given (isdir seen) (s_locale e)) ->
    (l = Relocatable -> usable (isdir seen) (pdirname filename)) ->
    plug_in (isdir seen) to_float secure filename t = Made (provider_of (isdir seen) (relocated filename (installed l prefix f location exes d)) (tmem (pdirname filename) secure)).
  Proof.
    intros R D U L. cbv zeta in U. destruct U as (U1 & U2 & U3 & U4 & U5 & U6).
    destruct main_facts as (_ & _ & NV & NE & NN & VV & DV). destruct PRE as (Q & _).
    apply C56_definitions_become_providers. exists i', (installed l prefix f location exes d), (tmem (pdirname filename) secure).
    assert (SAME : s_name (installed l prefix f location exes d) = name /\ s_namespace (installed l prefix f location exes d) = namespace /\ s_version (installed l prefix f location exes d) = version /\
        s_domain (installed l prefix f location exes d) = domain) by (destruct l; repeat split; reflexivity).
    destruct SAME as (S1 & S2 & S3 & S4).
    split; [exact R|]. split; [exact D|]. split; [|split; [|split]].
    - unfold acceptable. rewrite S1, S2, S3, S4. split; [exact U1|]. split; [now apply acceptable_names|]. split; [now apply version_valid_spec|].
      split; [intros u E; now apply domain_valid_spec, DV|]. tauto.
    - intros E. apply L. destruct l; [discriminate|discriminate|reflexivity].
    - rewrite tmem_In. tauto.
    - apply provider_of_spec. intros N. destruct (relocated_keeps filename (installed l prefix f location exes d)) as [K1 K2]. rewrite K1, S1. rewrite K2, S2 in N. auto.
  Qed.

  Lemma main_abs : exists r, location = SL :: r.
  Proof. apply main_facts. Qed.
  Lemma main_tidy : tidy f location exes. Proof. apply PRE. Qed.

  Lemma arrived_intro seen e q : s_name e = name -> s_namespace e = namespace -> s_version e = version -> s_description e = Some description -> s_domain e = domain ->
    q = provider_of (isdir seen) e (q_secure q) ->
    carried f (if isdir f (pjoin location (T "units")) then Some (pjoin location (T "units")) else None) seen (choose (isdir seen) (s_units e) (s_location e) [["units"%string]]) ->
    carried f (if isdir f (pjoin location (T "jobs")) then Some (pjoin location (T "jobs")) else None) seen (choose (isdir seen) (s_jobs e) (s_location e) [["jobs"%string]]) ->
    carried f (if isdir f (pjoin location (T "data")) then Some (pjoin location (T "data")) else None) seen (choose (isdir seen) (s_data e) (s_location e) [["data"%string]]) ->
    carried f (first_of (isdir f) location [["locale"%string]; ["build"; "mo"]%string]) seen (choose (isdir seen) (s_locale e) (s_location e) [["locale"%string]; ["build"; "mo"]%string]) ->
    programs_carried f exes seen (choose (isdir seen) (s_bin e) (s_location e) [["bin"%string]]) ->
    arrived f exes (from_definition (isdir f) g false) seen q.
  Proof.
    intros E1 E2 E3 E4 E5 -> U J D M B. rewrite main_own. unfold arrived, provider_of at 1 2 3 4 5 6 7 8 9 10. cbn [q_name q_namespace q_version q_description q_domain].
    split; [exact E1|]. split; [rewrite E1, E2; reflexivity|]. split; [exact E3|]. split; [rewrite E4; reflexivity|]. split; [exact E5|].
    cbn [provider_of q_dirs p_units p_jobs p_data p_locale p_bin s_units s_jobs s_data s_bin s_locale s_location described choose].
    split; [exact U|]. split; [exact J|]. split; [exact D|]. split; [exact M|exact B].
  Qed.
  (** *** The layout of a system *)
  Lemma unix_seen f' k : k <> Definition_ -> forall x, seen_from f' (comps root) (comps (path prefix (dest Unix name k)) ++ x) = f' (place root prefix Unix name k ++ x).
  Proof.
    intros K x. unfold seen_from, place. rewrite comps_path by (apply dest_components; apply PRE). now rewrite <- !app_assoc.
  Qed.

  (** Installing as a part of a system, below some root: whoever has that root
      loads the same provider *)
  Theorem C65_installed_unix filename : name <> T "locale" -> room f root prefix Unix name location exes ->
    (f (comps location ++ [T "bin"]) <> None -> exes <> []) ->
    exists f' t q, install root prefix Unix order exes g f = (f', true) /\
      f' (place root prefix Unix name Definition_) = Some (File t) /\
      plug_in (isdir (seen_from f' (comps root))) to_float secure filename t = Made q /\
      arrived f exes (from_definition (isdir f) g false) (seen_from f' (comps root)) q.
  Proof.
    intros NL' [FREE AWAY] BIN. destruct (main_obj Unix) as (i & i' & OBJ & RD & DEF).
    destruct (installed_fs f root prefix name location Unix exes g i main_name main_location OBJ) with (order := order) as (f' & E & AT & KEEP & ABOVE & _);
      [intros k; apply paths; [exact PP|apply PRE]|exact FREE|intros k k' N; apply places_apart; [intros _; exact NL'|exact N]|exact AWAY|exact main_tidy|exact ALL|].
    set (seen := seen_from f' (comps root)).
    assert (DIR : forall k, k <> Definition_ -> goes f location exes k -> usable (isdir seen) (path prefix (dest Unix name k))).
    { intros k K G. split; [apply path_abs; apply PP|]. unfold isdir. pose proof (unix_seen f' k K []) as S. rewrite !app_nil_r in S. fold seen in S. rewrite S.
      pose proof (AT k [] G) as C. rewrite app_nil_r in C. rewrite C. destruct (item_eq k Bin) as [->|NB]; [cbn [content]; now rewrite programs_dir|].
      pose proof (goes_dir f location exes main_tidy k NB K G) as DD. destruct k; try congruence; cbn [content]; rewrite app_nil_r, DD; reflexivity. }
    assert (OPT : forall k, k <> Bin -> k <> Definition_ -> usable_if_given (isdir seen) (if exists_ (f (comps location ++ source k)) then Some (path prefix (dest Unix name k)) else None)).
    { intros k B D t Q. destruct (exists_ (f (comps location ++ source k))) eqn:X; [|discriminate]. injection Q as <-. apply DIR; [exact D|]. now apply goes_exists. }
    assert (NOBIN : exes = [] -> exists_ (f (comps location ++ source Bin)) = false).
    { intros Z. destruct (f (comps location ++ source Bin)) eqn:X; [|reflexivity]. exfalso. apply BIN; [|exact Z]. change [T "bin"] with (source Bin). congruence. }
    pose proof (main_loaded seen filename (write_ini i) i' Unix RD DEF) as LOAD.
    exists f', (write_ini i). eexists. split; [exact E|]. split; [|split].
    - pose proof (AT Definition_ [] I) as C. now rewrite app_nil_r in C.
    - apply LOAD; [|discriminate]. cbv zeta. cbn [installed s_location s_units s_jobs s_data s_bin s_locale described s_name].
      split; [discriminate|]. split; [apply OPT; discriminate|]. split; [apply OPT; discriminate|]. split; [apply OPT; discriminate|]. split; [|apply OPT; discriminate].
      destruct (empty_or exes) as [EX|EX].
      + rewrite NOBIN by exact EX. rewrite EX. discriminate.
      + rewrite nonempty_match by exact EX. intros t Q. replace t with (path prefix (dest Unix name Bin)) by congruence. apply DIR; [discriminate|]. exact EX.
    - assert (PART : forall k, k <> Bin -> k <> Definition_ ->
        (goes f location exes k -> exists there, (if exists_ (f (comps location ++ source k)) then Some (path prefix (dest Unix name k)) else None) = Some there /\
          forall x, seen (comps there ++ x) = f ((comps location ++ source k) ++ x)) /\
        (~ goes f location exes k -> (if exists_ (f (comps location ++ source k)) then Some (path prefix (dest Unix name k)) else None) = None)).
      { intros k B D. split.
        - intros G. pose proof G as X. apply goes_exists in X; [|exact B|exact D]. rewrite X. eexists. split; [reflexivity|]. intros x. unfold seen. rewrite unix_seen by exact D. rewrite AT by exact G.
          destruct k; try congruence; reflexivity.
        - intros N. destruct (exists_ (f (comps location ++ source k))) eqn:X; [|reflexivity]. apply (goes_exists f location exes k B D) in X. contradiction. }
      eapply (arrived_intro seen (relocated filename (installed Unix prefix f location exes d))); try reflexivity;
        cbn [relocated installed s_reloc s_units s_jobs s_data s_bin s_locale s_location choose described s_name].
      + replace (choose _ _ _ _) with (if exists_ (f (comps location ++ source Units)) then Some (path prefix (dest Unix name Units)) else None) by (now destruct (exists_ (f (comps location ++ source Units)))).
        apply (part_carried f location exes main_abs main_tidy seen Units); try apply PART; try discriminate; try reflexivity. apply comp_const; [discriminate|reflexivity].
      + replace (choose _ _ _ _) with (if exists_ (f (comps location ++ source Jobs)) then Some (path prefix (dest Unix name Jobs)) else None) by (now destruct (exists_ (f (comps location ++ source Jobs)))).
        apply (part_carried f location exes main_abs main_tidy seen Jobs); try apply PART; try discriminate; try reflexivity. apply comp_const; [discriminate|reflexivity].
      + replace (choose _ _ _ _) with (if exists_ (f (comps location ++ source Data)) then Some (path prefix (dest Unix name Data)) else None) by (now destruct (exists_ (f (comps location ++ source Data)))).
        apply (part_carried f location exes main_abs main_tidy seen Data); try apply PART; try discriminate; try reflexivity. apply comp_const; [discriminate|reflexivity].
      + replace (choose _ _ _ _) with (if exists_ (f (comps location ++ source Mo)) then Some (path prefix (dest Unix name Mo)) else None) by (now destruct (exists_ (f (comps location ++ source Mo)))).
        apply (locale_carried f location exes main_abs main_tidy seen); apply PART; discriminate.
      + destruct (empty_or exes) as [EX|EX].
        * rewrite NOBIN by exact EX. rewrite EX. reflexivity.
        * rewrite nonempty_match by exact EX. apply (programs_in f location exes main_tidy seen). intros x. unfold seen. rewrite unix_seen by discriminate. rewrite AT; [reflexivity|]. exact EX.
  Qed.
  (** *** The layouts with one directory *)
  Definition sub (k : item) : text :=
    match k with Bin => T "bin" | Mo => T "locale" | Data => T "data" | Jobs => T "jobs" | Units => T "units" | Definition_ => file_name name end.
  Lemma home_arrives l home there seen f' i q :
    (forall k, k <> Definition_ -> dest l name k = home ++ [sub k]) -> l <> Unix ->
    vacant f (comps root ++ comps prefix ++ home) ->
    apart (place root prefix l name Definition_) ((comps root ++ comps prefix ++ home) ++ [T "build"; T "mo"]) ->
    (forall k x, goes f location exes k -> f' (place root prefix l name k ++ x) = content f location exes i k x) ->
    (forall p, (forall k, goes f location exes k -> apart (place root prefix l name k) p) -> f' p = f p) ->
    (exists r, there = SL :: r) -> (forall y, seen (comps there ++ y) = f' ((comps root ++ comps prefix ++ home) ++ y)) ->
    q = provider_of (isdir seen) (mk_definition (s_reloc (installed l prefix f location exes d)) (Some there) name namespace version (Some description) domain None None None None None) (q_secure q) ->
    arrived f exes (from_definition (isdir f) g false) seen q.
  Proof.
    intros DEST NU [VAC _] AD AT KEEP ABS SEEN Q.
    assert (PL : forall k, k <> Definition_ -> place root prefix l name k = (comps root ++ comps prefix ++ home) ++ [sub k]).
    { intros k K. unfold place. rewrite DEST by exact K. now rewrite !app_assoc. }
    assert (CS : forall k, component (sub k)).
    { intros k. destruct k; cbn [sub]; try (apply comp_const; [discriminate|reflexivity]).
      split; [unfold file_name; intros E; apply app_eq_nil in E as [_ E]; discriminate|]. apply file_name_no_slash. apply PRE. }
    assert (AT' : forall k x, k <> Definition_ -> goes f location exes k -> seen (comps (pjoin there (sub k)) ++ x) = content f location exes i k x).
    { intros k x K G. rewrite pjoin_comps by (assumption || apply CS). rewrite <- app_assoc, SEEN, app_assoc, <- PL by exact K. now apply AT. }
    assert (NOT : forall k, k <> Definition_ -> ~ goes f location exes k -> isdir seen (pjoin there (sub k)) = false).
    { intros k K G. unfold isdir. rewrite pjoin_comps by (assumption || apply CS). rewrite SEEN, KEEP.
      - rewrite VAC by discriminate. reflexivity.
      - intros k' G'. rewrite <- PL by exact K. apply places_apart; [intros; contradiction|]. intros ->. contradiction. }
    assert (YES : forall k, k <> Definition_ -> goes f location exes k -> isdir seen (pjoin there (sub k)) = true).
    { intros k K G. unfold isdir. pose proof (AT' k [] K G) as H. rewrite app_nil_r in H. rewrite H.
      destruct (item_eq k Bin) as [->|NB]; [cbn [content]; now rewrite programs_dir|].
      pose proof (goes_dir f location exes main_tidy k NB K G) as DD. destruct k; try congruence; cbn [content]; rewrite app_nil_r, DD; reflexivity. }
    assert (PART : forall k, k <> Bin -> k <> Definition_ ->
        (goes f location exes k -> exists h, (if isdir seen (pjoin there (sub k)) then Some (pjoin there (sub k)) else None) = Some h /\
          forall x, seen (comps h ++ x) = f ((comps location ++ source k) ++ x)) /\
        (~ goes f location exes k -> (if isdir seen (pjoin there (sub k)) then Some (pjoin there (sub k)) else None) = None)).
    { intros k B D. split.
      - intros G. rewrite YES by assumption. eexists. split; [reflexivity|]. intros x. rewrite AT' by assumption. destruct k; try congruence; reflexivity.
      - intros N. now rewrite NOT. }
    eapply (arrived_intro seen (mk_definition (s_reloc (installed l prefix f location exes d)) (Some there) name namespace version (Some description) domain None None None None None)); try reflexivity; [exact Q| | | | |];
      cbn [s_units s_jobs s_data s_bin s_locale s_location choose].
    - apply (part_carried f location exes main_abs main_tidy seen Units); try apply (PART Units); try discriminate; try reflexivity. apply comp_const; [discriminate|reflexivity].
    - apply (part_carried f location exes main_abs main_tidy seen Jobs); try apply (PART Jobs); try discriminate; try reflexivity. apply comp_const; [discriminate|reflexivity].
    - apply (part_carried f location exes main_abs main_tidy seen Data); try apply (PART Data); try discriminate; try reflexivity. apply comp_const; [discriminate|reflexivity].
    - apply (locale_carried f location exes main_abs main_tidy seen).
      + intros G. cbn [first_of map fold_left]. change (T "locale") with (sub Mo). destruct (proj1 (PART Mo ltac:(discriminate) ltac:(discriminate)) G) as (h & E & H).
        rewrite (YES Mo) in * by (discriminate || exact G). exists h. now split.
      + intros N. cbn [first_of map fold_left]. change (T "locale") with (sub Mo). rewrite (NOT Mo) by (discriminate || exact N).
        assert (AB : exists r, pjoin there (T "build") = SL :: r) by (apply pjoin_abs; [assumption|discriminate|intros r; discriminate]).
        unfold isdir. rewrite pjoin_comps by (first [assumption|apply comp_const; [discriminate|reflexivity]]). rewrite pjoin_comps by (first [assumption|apply comp_const; [discriminate|reflexivity]]).
        rewrite <- app_assoc, SEEN. cbn [app]. rewrite KEEP; [rewrite VAC by discriminate; reflexivity|]. intros k G. destruct (item_eq k Definition_) as [->|K]; [exact AD|].
        rewrite PL by exact K. apply apart_common. destruct k; apply apart_heads; first [discriminate|congruence].
    - cbn [first_of map fold_left]. change (T "bin") with (sub Bin). destruct (empty_or exes) as [EX|EX].
      + rewrite NOT; [exact EX|discriminate|]. cbn [goes]. congruence.
      + rewrite YES; [|discriminate|exact EX]. apply (programs_in f location exes main_tidy seen). intros x. rewrite AT'; [reflexivity|discriminate|exact EX].
  Qed.

  Lemma vacant_free a c : vacant f a -> c <> [] -> free f (a ++ c).
  Proof.
    intros [V F] N. split.
    - intros x. rewrite <- app_assoc. apply V. intros E. apply app_eq_nil in E as [E _]. contradiction.
    - intros k. rewrite firstn_app. destruct (k - length a) as [|m] eqn:E.
      + rewrite firstn_O, app_nil_r. apply F.
      + rewrite (firstn_all2 a) by lia. destruct c as [|y c]; [congruence|]. cbn [firstn]. rewrite V by discriminate. reflexivity.
  Qed.

  (** Installing into a directory of its own *)
  Theorem C65_installed_flat filename : room f root prefix Flat name location exes -> (exists k, k <> Definition_ /\ goes f location exes k) ->
    exists f' t q, install root prefix Flat order exes g f = (f', true) /\
      f' (place root prefix Flat name Definition_) = Some (File t) /\
      plug_in (isdir (seen_from f' (comps root))) to_float secure filename t = Made q /\
      arrived f exes (from_definition (isdir f) g false) (seen_from f' (comps root)) q.
  Proof.
    intros [[VAC FD] AWAY] (k0 & K0 & G0). destruct (main_obj Flat) as (i & i' & OBJ & RD & DEF).
    assert (DEST : forall k, k <> Definition_ -> dest Flat name k = [T "lib"; PPP; name] ++ [sub k]) by (intros k K; destruct k; try congruence; reflexivity).
    destruct (installed_fs f root prefix name location Flat exes g i main_name main_location OBJ) with (order := order) as (f' & E & AT & KEEP & ABOVE & _);
      [intros k; apply paths; [exact PP|apply PRE]| |intros k k' N; apply places_apart; [discriminate|exact N]|exact AWAY|exact main_tidy|exact ALL|].
    { intros k G. destruct (item_eq k Definition_) as [->|K]; [exact FD|]. unfold place. rewrite DEST by exact K. rewrite !app_assoc. apply vacant_free; [rewrite <- !app_assoc; exact VAC|discriminate]. }
    set (seen := seen_from f' (comps root)).
    assert (CH : comps (path prefix [T "lib"; PPP; name]) = comps prefix ++ [T "lib"; PPP; name]).
    { apply comps_path. pose proof (dest_components Flat name Bin (proj1 (proj2 PRE))) as F. cbn [dest] in F. inversion F as [|? ? A F1]; subst. inversion F1 as [|? ? B F2]; subst. inversion F2 as [|? ? C F3]; subst.
      constructor; [exact A|]. constructor; [exact B|]. constructor; [exact C|constructor]. }
    assert (SEEN : forall y, seen (comps (path prefix [T "lib"; PPP; name]) ++ y) = f' ((comps root ++ comps prefix ++ [T "lib"; PPP; name]) ++ y)).
    { intros y. unfold seen, seen_from. now rewrite CH, <- !app_assoc. }
    assert (LOC : usable (isdir seen) (path prefix [T "lib"; PPP; name])).
    { split; [apply path_abs; apply PP|]. unfold isdir. pose proof (SEEN []) as S. rewrite !app_nil_r in S. rewrite S. rewrite (ABOVE _ k0 [sub k0] G0); [reflexivity| |discriminate].
      unfold place. rewrite DEST by exact K0. now rewrite !app_assoc. }
    exists f', (write_ini i). eexists. split; [exact E|]. split; [|split].
    - pose proof (AT Definition_ [] I) as C. now rewrite app_nil_r in C.
    - apply (main_loaded seen filename (write_ini i) i' Flat RD DEF); [|discriminate]. cbv zeta. cbn [installed s_location s_units s_jobs s_data s_bin s_locale described s_name].
      split; [intros t Q; replace t with (path prefix [T "lib"; PPP; name]) by congruence; exact LOC|]. repeat (split; [discriminate|]). discriminate.
    - apply (home_arrives Flat [T "lib"; PPP; name] (path prefix [T "lib"; PPP; name]) seen f' i); try assumption; try discriminate; try reflexivity.
      + unfold place. rewrite <- !app_assoc. apply apart_common, apart_common. cbn [dest app]. apply apart_heads. discriminate.
      + apply path_abs, PP.
  Qed.

  (** Installing a tree that can be moved: wherever it is, the same provider is loaded *)
  Theorem C65_relocatable there seen : room f root prefix Relocatable name location exes ->
    (exists r, there = SL :: r) -> (forall r, there <> r ++ [SL]) ->
    exists f' t, install root prefix Relocatable order exes g f = (f', true) /\
      f' (place root prefix Relocatable name Definition_) = Some (File t) /\
      ((forall p, seen (comps there ++ p) = f' (comps root ++ comps prefix ++ p)) ->
       exists q, plug_in (isdir seen) to_float secure (there ++ SL :: file_name name) t = Made q /\
         arrived f exes (from_definition (isdir f) g false) seen q).
  Proof.
    intros [VAC AWAY] ABS NS. destruct (main_obj Relocatable) as (i & i' & OBJ & RD & DEF).
    destruct (installed_fs f root prefix name location Relocatable exes g i main_name main_location OBJ) with (order := order) as (f' & E & AT & KEEP & ABOVE & _);
      [intros k; apply paths; [exact PP|apply PRE]| |intros k k' N; apply places_apart; [discriminate|exact N]|exact AWAY|exact main_tidy|exact ALL|].
    { intros k G. unfold place. rewrite app_assoc. apply vacant_free; [exact VAC|]. destruct k; discriminate. }
    exists f', (write_ini i). split; [exact E|]. split; [pose proof (AT Definition_ [] I) as C; now rewrite app_nil_r in C|].
    intros SEEN.
    assert (DN : pdirname (there ++ SL :: file_name name) = there).
    { apply (pdirname_slashes there 0 (file_name name)); [destruct ABS as (r & ->); discriminate|exact NS|]. apply file_name_no_slash. apply PRE. }
    assert (LOC : usable (isdir seen) there).
    { split; [exact ABS|]. unfold isdir. pose proof (SEEN []) as S. rewrite !app_nil_r in S. rewrite S. rewrite (ABOVE _ Definition_ [file_name name] I); [reflexivity| |discriminate].
      unfold place. cbn [dest]. now rewrite app_assoc. }
    eexists. split.
    - apply (main_loaded seen (there ++ SL :: file_name name) (write_ini i) i' Relocatable RD DEF); [|rewrite DN; intros _; exact LOC].
      cbv zeta. cbn [installed s_location s_units s_jobs s_data s_bin s_locale described s_name]. repeat (split; [discriminate|]). discriminate.
    - assert (HN : (comps root ++ comps prefix ++ []) = comps root ++ comps prefix) by now rewrite app_nil_r.
      apply (home_arrives Relocatable [] there seen f' i); try assumption; try discriminate.
      + intros k K. destruct k; try congruence; reflexivity.
      + rewrite HN. exact VAC.
      + unfold place. rewrite HN. rewrite app_assoc. apply apart_common. cbn [dest app]. apply apart_heads. apply file_name_long. cbn. lia.
      + intros y. rewrite HN, SEEN, app_assoc. reflexivity.
      + unfold relocated. cbn [installed s_reloc]. rewrite DN. reflexivity.
  Qed.

  (** Nothing that was there is lost or changed, and what is new is at the places
      for the parts or a directory above one *)
  Theorem C65_installing_destroys_nothing l : (l = Unix -> name <> T "locale") -> room f root prefix l name location exes ->
    exists f', install root prefix l order exes g f = (f', true) /\ (forall p n, f p = Some n -> f' p = Some n) /\
      (forall p, f' p <> f p -> exists k, goes f location exes k /\ ((exists x, p = place root prefix l name k ++ x) \/ exists x, place root prefix l name k = p ++ x /\ f' p = Some Dir)).
  Proof.
    intros NL' [RM AWAY]. destruct (main_obj l) as (i & i' & OBJ & _ & _).
    assert (FREE : forall k, goes f location exes k -> free f (place root prefix l name k)).
    { intros k G. destruct l; [now apply RM| |].
      - destruct RM as [VAC FD]. destruct (item_eq k Definition_) as [->|K]; [exact FD|]. unfold place.
        replace (dest Flat name k) with ([T "lib"; PPP; name] ++ [sub k]) by (destruct k; try congruence; reflexivity).
        rewrite !app_assoc. apply vacant_free; [rewrite <- !app_assoc; exact VAC|discriminate].
      - unfold place. rewrite app_assoc. apply vacant_free; [exact RM|]. destruct k; discriminate. }
    destruct (installed_fs f root prefix name location l exes g i main_name main_location OBJ) with (order := order) as (f' & E & AT & KEEP & ABOVE & SAME);
      [intros k; apply paths; [exact PP|apply PRE]|exact FREE|intros k k' N; now apply places_apart|exact AWAY|exact main_tidy|exact ALL|].
    exists f'. split; [exact E|]. split; [exact SAME|]. intros p D.
    assert (GD : forall k, {goes f location exes k} + {~ goes f location exes k}).
    { intros k. destruct (empty_or_dec exes) as [Z|Z]; destruct (f (comps location ++ source k)) eqn:Q; destruct k; cbn [goes];
        first [left; exact I|left; congruence|right; congruence]. }
    assert (X : (exists k, goes f location exes k /\ ~ apart (place root prefix l name k) p) \/ forall k, goes f location exes k -> apart (place root prefix l name k) p).
    { assert (DA : forall k, {apart (place root prefix l name k) p} + {~ apart (place root prefix l name k) p}).
      { intros k. unfold apart. destruct (below _ _); [right; intros [? ?]; discriminate|]. destruct (below _ _); [right; intros [? ?]; discriminate|left; now split]. }
      assert (Y : forall ks, (exists k, In k ks /\ goes f location exes k /\ ~ apart (place root prefix l name k) p) \/ forall k, In k ks -> goes f location exes k -> apart (place root prefix l name k) p).
      { induction ks as [|k ks IH]; [right; intros k []|]. destruct (GD k) as [G|G]; [destruct (DA k) as [A|A]|].
        - destruct IH as [(k' & I' & H)|IH]; [left; exists k'; split; [now right|exact H]|right; intros k' [<-|I'] G'; [exact A|now apply IH]].
        - left. exists k. split; [now left|now split].
        - destruct IH as [(k' & I' & H)|IH]; [left; exists k'; split; [now right|exact H]|right; intros k' [<-|I'] G'; [contradiction|now apply IH]]. }
      destruct (Y [Bin; Mo; Data; Jobs; Units; Definition_]) as [(k & _ & H)|H]; [left; now exists k|right]. intros k G. apply H; [|exact G]. destruct k; cbn; tauto. }
    destruct X as [(k & G & NA)|X]; [|exfalso; apply D; now apply KEEP].
    exists k. split; [exact G|]. unfold apart in NA. destruct (below (place root prefix l name k) p) as [x|] eqn:B1.
    - left. exists x. now apply below_spec.
    - destruct (below p (place root prefix l name k)) as [x|] eqn:B2; [|exfalso; apply NA; now split]. right. exists x. apply below_spec in B2. split; [exact B2|].
      apply (ABOVE p k x G B2). intros ->. rewrite app_nil_r in B2. rewrite B2, below_refl in B1. discriminate.
  Qed.
End Main.
Print Assumptions C65_installing_destroys_nothing.
Print Assumptions C65_installed_unix.
Print Assumptions C65_installed_flat.
Print Assumptions C65_relocatable.

(** ** Developing *)

Lemma pjoin_comps' a b : component b -> comps (pjoin a b) = comps a ++ [b].
Proof.
  intros [NE NS]. unfold pjoin. destruct b as [|c b]; [congruence|].
  replace (Ascii.eqb c SLASH) with false by (symmetry; apply Ascii.eqb_neq; intros ->; apply NS; now left).
  destruct a as [|x a]; [cbn [comps]; rewrite comps_one by assumption; reflexivity|].
  destruct (ends_slash (x :: a)) eqn:E.
  - apply ends_slash_last in E as (q & E). rewrite E, <- app_assoc. cbn [app]. rewrite !comps_app, (comps_one (c :: b)) by assumption. cbn. now rewrite app_nil_r.
  - change SLASH with SL. now rewrite comps_app, (comps_one (c :: b)) by assumption.
Qed.

Section Develop.
  Variable to_float : text -> option text.
  Variable f : fs.
  Variables location name version description directory : text.
  Variables namespace domain : option text.
  Variable g : config.
  Hypothesis SETUP : setup f location (Some name) namespace (Some version) (Some description) domain = Some g.
  Hypothesis QUAL : namespace = None -> qualified name.
  Hypothesis PN : plain_name name.
  Hypothesis P1 : portable location.
  Hypothesis P2 : portable_if_given namespace.
  Hypothesis P3 : portable version.
  Hypothesis P4 : portable description.
  Hypothesis P5 : portable_if_given domain.
  Notation where_ := (comps directory ++ [file_name name]).

  Lemma dev_where : comps (pjoin directory (file_name name)) = where_.
  Proof.
    apply pjoin_comps'. split; [|apply file_name_no_slash, PN]. unfold file_name. intros E. apply app_eq_nil in E as [_ E]. discriminate.
  Qed.
  Lemma dev_name : as_text (get_var X_name g) = Some name.
  Proof.
    destruct (setup_spec _ _ _ _ _ _ _ _ SETUP) as (n & v & e & E1 & E2 & E3 & (_ & _ & M & _) & _). rewrite M. cbn [as_text described s_name]. congruence.
  Qed.

  (** Registering a provider for development: what is loaded from the file is
      exactly the provider that manage.py works with *)
  Theorem C65_develop secure force filename : (is_file (f where_) = true -> force = true) -> is_dir (f where_) = false ->
    (forall k, is_file (f (firstn k (comps directory))) = false) ->
    exists f' t, develop false force directory g f = (f', Done) /\ f' where_ = Some (File t) /\
      plug_in (isdir f') to_float secure filename t = Made (from_definition (isdir f') g (tmem (pdirname filename) secure)) /\
      (forall p n, p <> where_ -> f p = Some n -> f' p = Some n).
  Proof.
    intros FO ND NF. destruct (setup_spec _ _ _ _ _ _ _ _ SETUP) as (n & v & e & E1 & E2 & E3 & M & U & NV & NE & NN & VV & DV & _).
    injection E1 as <-. injection E2 as <-. injection E3 as <-.
    set (d := described location name namespace version description domain) in *.
    assert (PD : portable_definition d).
    { unfold portable_definition, d, described. cbn [s_location s_name s_namespace s_version s_description s_domain].
      split; [intros t E; congruence|]. split; [apply PN|]. split; [exact P2|]. split; [exact P3|]. split; [intros t E; congruence|exact P5]. }
    assert (RU : get_var X_reloc g = VUnset).
    { unfold setup in SETUP. cbn [set_all_vars] in SETUP. unfold set_var in SETUP.
      repeat match type of SETUP with context [if ?b then _ else _] => destruct b; [|discriminate] end. injection SETUP as <-. reflexivity. }
    destruct (obj_spec (isdir f) g d M eq_refl RU PD eq_refl eq_refl eq_refl eq_refl eq_refl) as (i & E & G & H0 & H1 & H2 & H3 & H4 & H5 & H6 & H7 & H8 & H9 & H10 & H11).
    unfold develop. cbv zeta. rewrite dev_name, dev_where. rewrite removelast_last.
    replace (is_file (f where_) && negb force) with false by (destruct (is_file (f where_)), force; try reflexivity; specialize (FO eq_refl); discriminate).
    assert (MK : makedirs (comps directory) f = Some (fun p => match below p (comps directory) with Some _ => match f p with Some n => Some n | None => Some Dir end | None => f p end)).
    { unfold makedirs. match goal with |- (if ?b then _ else _) = _ => assert (X : b = false) end.
      { match goal with |- ?t = false => destruct t eqn:X; [|reflexivity] end. apply existsb_exists in X as (k & _ & X). now rewrite NF in X. }
      now rewrite X. }
    rewrite MK. set (f1 := fun p => match below p (comps directory) with Some _ => match f p with Some n => Some n | None => Some Dir end | None => f p end).
    assert (D1 : f1 (comps directory) = Some Dir).
    { unfold f1. rewrite below_refl. pose proof (NF (length (comps directory))) as Q. rewrite firstn_all in Q. destruct (f (comps directory)) as [[|]|]; cbn in Q; congruence. }
    assert (D2 : is_dir (f1 where_) = false). { unfold f1. now rewrite below_longer. }
    assert (WN : forall (a b : bool), (match where_ with [] => a | _ => b end) = b) by (intros a b; now destruct (comps directory)).
    unfold write_file at 1. rewrite removelast_last, D1, D2, WN. cbn [is_dir negb andb].
    unfold write. rewrite E. cbn [option_map]. unfold write_file. rewrite removelast_last, WN. unfold put at 1 2. rewrite below_longer, below_refl, D1. cbn [is_dir negb andb].
    set (f' := put where_ (Some (File (write_ini i))) (put where_ (Some (File [])) f1)).
    assert (KEPT : forall p n, p <> where_ -> f p = Some n -> f' p = Some n).
    { intros p m NP Q. unfold f', put. destruct (below where_ p) as [[|y x]|] eqn:B.
      - apply below_spec in B. rewrite app_nil_r in B. contradiction.
      - unfold f1. rewrite Q. now destruct (below p (comps directory)).
      - unfold f1. rewrite Q. now destruct (below p (comps directory)). }
    exists f', (write_ini i). split; [reflexivity|]. split; [unfold f', put; now rewrite below_refl|]. split; [|exact KEPT].
    destruct (read_good to_float i G) as (i2 & R2 & S2 & SF & _).
    assert (U' : usable (isdir f') location).
    { destruct U as [UA UD]. split; [exact UA|]. unfold isdir in *. destruct (f (comps location)) as [[|]|] eqn:Q; try discriminate. rewrite (KEPT _ Dir); [reflexivity| |exact Q].
      intros EW. rewrite EW in Q. rewrite Q in ND. discriminate. }
    assert (PR : provides (isdir f') (relocated filename d) (tmem (pdirname filename) secure) (provider_of (isdir f') d (tmem (pdirname filename) secure))).
    { change (relocated filename d) with d. apply provider_of_spec. exact QUAL. }
    assert (SAME : from_definition (isdir f') g (tmem (pdirname filename) secure) = provider_of (isdir f') d (tmem (pdirname filename) secure)).
    { symmetry. apply (from_definition_spec (isdir f') g d); [exact M|exact NN| |apply provider_of_spec; exact QUAL]. intros Q. apply qualified_colon. left. now apply QUAL. }
    rewrite SAME. apply C56_definitions_become_providers. exists i2, d, (tmem (pdirname filename) secure). split; [exact R2|]. split; [|split; [|split; [|split]]].
    - unfold defines, d, described. cbn [s_reloc s_location s_name s_namespace s_version s_description s_domain s_units s_jobs s_data s_bin s_locale].
      split; [now apply SF|]. split; [now apply S2|]. split; [now apply S2|]. split; [now apply S2|]. split; [now apply S2|]. split; [now apply S2|]. split; [now apply S2|].
      split; [now apply S2|]. split; [now apply S2|]. split; [now apply S2|]. split; now apply S2.
    - unfold acceptable, d, described. cbn [s_location s_name s_namespace s_version s_domain s_units s_jobs s_data s_bin s_locale].
      split; [intros t Q; replace t with location by congruence; exact U'|]. split; [now apply acceptable_names|]. split; [now apply version_valid_spec|].
      split; [intros u Q; now apply domain_valid_spec, DV|]. repeat (split; [discriminate|]). discriminate.
    - discriminate.
    - rewrite tmem_In. tauto.
    - exact PR.
  Qed.

  (** A file that is there is not overwritten without being told to *)
  Theorem C65_develop_asks_first : is_file (f where_) = true -> develop false false directory g f = (f, Exists).
  Proof. intros H. unfold develop. cbv zeta. rewrite dev_name, dev_where, H. reflexivity. Qed.
  (** Unregistering removes that file and nothing else *)
  Theorem C65_undevelop force : exists f', develop true force directory g f = (f', Done) /\ is_file (f' where_) = false /\ (forall p, p <> where_ -> f' p = f p).
  Proof.
    unfold develop. cbv zeta. rewrite dev_name, dev_where. destruct (is_file (f where_)) eqn:Q.
    - eexists. split; [reflexivity|]. split; [unfold put; now rewrite below_refl|]. intros p N. unfold put. destruct (below where_ p) as [[|]|] eqn:B; try reflexivity.
      apply below_spec in B. rewrite app_nil_r in B. contradiction.
    - exists f. split; [reflexivity|]. split; [exact Q|reflexivity].
  Qed.
End Develop.
Print Assumptions C65_develop.
Print Assumptions C65_develop_asks_first.
Print Assumptions C65_undevelop.

(** ** Validating *)

(** Validation fails exactly when there was a problem loading the provider, an
    error, or, if it is strict, a warning; what is not shown are advices *)
Theorem C65_validate_verdict strict deprecated problems issues : let '(shown_, hidden, code) := validate_command strict deprecated problems issues in
  (code = 0 \/ code = 1) /\
  (code = 1 <-> problems > 0 \/ exists s k, In (s, k) issues /\ (s = Error \/ strict = true /\ s = Warning)) /\
  (forall s k, In (s, k) issues -> s <> Advice -> In (s, k) shown_) /\
  (strict = true -> hidden = 0) /\ length shown_ + hidden = problems * problems + length issues.
Proof.
  unfold validate_command. cbv zeta.
  assert (EI : forall i, In i (early_issues problems) <-> problems > 0 /\ i = (Error, false)).
  { intros i. unfold early_issues. rewrite in_concat. split.
    - intros (x & X & Y). assert (problems > 0) by (destruct problems; [destruct X|lia]). split; [assumption|]. apply repeat_spec in X. subst x. now apply repeat_spec in Y.
    - intros [P ->]. exists (repeat (Error, false) problems). split; [destruct problems; [lia|now left]|]. destruct problems; [lia|now left]. }
  split; [match goal with |- context [if ?b then _ else _] => destruct b end; auto|]. split; [|split; [|split]].
  - match goal with |- context [if ?b then _ else _] => destruct b eqn:X end.
    + split; [intros _|reflexivity]. apply existsb_exists in X as ([s k] & I & Fl). apply in_app_or in I as [I|I]; [left; now apply EI in I|right].
      exists s, k. split; [exact I|]. unfold failing in Fl. cbn [fst] in Fl. destruct s, strict; cbn in Fl; auto; discriminate.
    + split; [discriminate|]. intros H. exfalso. assert (existsb (failing strict) (early_issues problems ++ issues) = true); [|congruence]. apply existsb_exists. destruct H as [H|(s & k & I & H)].
      * exists (Error, false). split; [apply in_or_app; left; now apply EI|reflexivity].
      * exists (s, k). split; [apply in_or_app; now right|]. unfold failing. cbn [fst]. destruct H as [->|[-> ->]]; reflexivity.
  - intros s k I N. apply filter_In. split; [apply in_or_app; now right|]. unfold shown. cbn [fst snd]. destruct s; try reflexivity. congruence.
  - intros ->. match goal with |- length ?l = 0 => enough (l = []) as -> by reflexivity end. induction (early_issues problems ++ issues) as [|i r IH]; [reflexivity|]. cbn [filter]. unfold shown at 1. rewrite orb_true_r. exact IH.
  - rewrite <- app_length. transitivity (length (early_issues problems ++ issues)).
    + rewrite app_length. generalize (early_issues problems ++ issues). intros r. induction r as [|i r IH]; [reflexivity|]. cbn [filter]. destruct (shown strict deprecated i); cbn [negb length]; lia.
    + rewrite app_length. f_equal. unfold early_issues.
      assert (L : forall m n, length (concat (repeat (repeat (Error, false) n) m)) = m * n).
      { intros m n. induction m as [|m IH]; [reflexivity|]. cbn [repeat concat]. rewrite app_length, IH, repeat_length. reflexivity. }
      apply L.
Qed.
Print Assumptions C65_validate_verdict.
