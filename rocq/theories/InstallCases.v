(** * C65: archives of sources, cases, and what does not work *)
From Coq Require Import String Ascii List Bool Arith Lia.
From Verif Require Import ScanModel Rfc822Model Rfc822Spec Rfc822Proofs IniModel IniProofs ConfigModel ConfigSpec ConfigProofs ConfigWrite ConfigRound ConfigProps
  RegexModel PluginModel ProviderModel ProviderSpec ProviderProps ProvdefModel ProvdefSpec ProvdefProps InstallModel InstallSpec InstallProofs InstallText InstallObj InstallProps.
Import ListNotations.
Local Open Scope nat_scope.
Local Open Scope list_scope.

(** ** sdist *)

Lemma setup_at f location f2 location2 name namespace version description domain g :
  setup f location name namespace version description domain = Some g -> usable (isdir f2) location2 ->
  exists g2, setup f2 location2 name namespace version description domain = Some g2.
Proof.
  unfold setup. cbn [set_all_vars]. unfold set_var. intros H U.
  destruct (validate (X_location (isdir f)) (VStr location)) eqn:E1; [|discriminate].
  assert (E : validate (X_location (isdir f2)) (VStr location2) = true) by (apply valid_dir; right; eauto). rewrite E.
  destruct (validate X_name (given name VNone)) eqn:E2; [|discriminate].
  destruct (validate X_namespace (given namespace VUnset)) eqn:E3; [|discriminate].
  destruct (validate X_version (given version VNone)) eqn:E4; [|discriminate].
  destruct (validate X_description (given description VNone)) eqn:E5; [|discriminate].
  destruct (validate X_domain (given domain VUnset)) eqn:E6; [|discriminate]. eauto.
Qed.

(** Unpacking a source archive gives the same provider, apart from translations:
    they have to be built again *)
Theorem C65_sdist f location name namespace version description domain g f2 location2 :
  setup f location name namespace version description domain = Some g ->
  (namespace = None -> forall n, name = Some n -> qualified n) ->
  (exists r, location2 = SL :: r) -> (forall x, f2 (comps location2 ++ x) = archive (comps location) f x) ->
  exists g2, setup f2 location2 name namespace version description domain = Some g2 /\
    let p := from_definition (isdir f) g false in let q := from_definition (isdir f2) g2 false in
    q_name q = q_name p /\ q_namespace q = q_namespace p /\ q_version q = q_version p /\ q_description q = q_description p /\ q_domain q = q_domain p /\
    carried f (p_units (q_dirs p)) f2 (p_units (q_dirs q)) /\ carried f (p_jobs (q_dirs p)) f2 (p_jobs (q_dirs q)) /\
    carried f (p_data (q_dirs p)) f2 (p_data (q_dirs q)) /\ carried f (p_bin (q_dirs p)) f2 (p_bin (q_dirs q)) /\ p_locale (q_dirs q) = None.
Proof.
  intros S Q ABS AR.
  assert (U : usable (isdir f2) location2). { split; [exact ABS|]. unfold isdir. pose proof (AR []) as A. rewrite app_nil_r in A. rewrite A. reflexivity. }
  destruct (setup_at _ _ _ _ _ _ _ _ _ _ S U) as (g2 & S2). exists g2. split; [exact S2|].
  destruct (setup_spec _ _ _ _ _ _ _ _ S) as (n & v & e & E1 & E2 & E3 & M & UL & _ & _ & NN & _).
  destruct (setup_spec _ _ _ _ _ _ _ _ S2) as (n2 & v2 & e2 & F1 & F2 & F3 & M2 & _ & _ & _ & _).
  assert (n2 = n) by congruence. assert (v2 = v) by congruence. assert (e2 = e) by congruence. subst n2 v2 e2.
  cbv zeta. rewrite (own_provider (isdir f) g _ M) by (cbn [described s_namespace s_name]; auto). rewrite (own_provider (isdir f2) g2 _ M2) by (cbn [described s_namespace s_name]; auto).
  cbn [provider_of described q_name q_namespace q_version q_description q_domain q_dirs p_units p_jobs p_data p_bin p_locale s_name s_namespace s_version s_description s_domain s_units s_jobs s_data s_bin s_locale s_location choose].
  split; [reflexivity|]. split; [reflexivity|]. split; [reflexivity|]. split; [reflexivity|]. split; [reflexivity|].
  assert (PART : forall b, tmem (T b) included = true -> component (T b) -> carried f (first_of (isdir f) location [[b]]) f2 (first_of (isdir f2) location2 [[b]])).
  { intros b I C. cbn [first_of map fold_left].
    assert (SAME : forall x, f2 (comps (pjoin location2 (T b)) ++ x) = f (comps (pjoin location (T b)) ++ x)).
    { intros x. rewrite !pjoin_comps' by exact C. rewrite <- !app_assoc, AR. unfold archive. cbn [app]. now rewrite I. }
    assert (SI : isdir f2 (pjoin location2 (T b)) = isdir f (pjoin location (T b))).
    { unfold isdir. pose proof (SAME []) as A. rewrite !app_nil_r in A. now rewrite A. }
    rewrite SI. destruct (isdir f (pjoin location (T b))); [|exact Logic.I]. exact SAME. }
  assert (C : forall b, b <> []  -> forallb (fun c => negb (Ascii.eqb c SL)) b = true -> component b) by apply comp_const.
  split; [apply PART; [reflexivity|apply C; [discriminate|reflexivity]]|]. split; [apply PART; [reflexivity|apply C; [discriminate|reflexivity]]|].
  split; [apply PART; [reflexivity|apply C; [discriminate|reflexivity]]|]. split; [apply PART; [reflexivity|apply C; [discriminate|reflexivity]]|].
  cbn [first_of map fold_left]. unfold isdir. rewrite !pjoin_comps' by (apply C; [discriminate|reflexivity]). rewrite <- app_assoc, !AR. reflexivity.
Qed.
Print Assumptions C65_sdist.

(** ** Small file systems *)

Fixpoint path_eqb (a b : list text) : bool :=
  match a, b with [], [] => true | x :: a', y :: b' => text_eqb x y && path_eqb a' b' | _, _ => false end.
Lemma path_eqb_eq a : forall b, path_eqb a b = true <-> a = b.
Proof.
  induction a as [|x a IH]; intros [|y b]; cbn [path_eqb]; try (split; [discriminate|discriminate]); [tauto|].
  rewrite andb_true_iff, text_eqb_eq, IH. split; [intros [-> ->]; reflexivity|intros E; injection E as -> ->; now split].
Qed.
Fixpoint table (l : list (string * node)) : fs :=
  fun p => match l with [] => None | (t, n) :: r => if path_eqb (comps (T t)) p then Some n else table r p end.
Definition nothing_below (l : list (string * node)) (d : list text) : bool := forallb (fun e => match below d (comps (T (fst e))) with None => true | Some _ => false end) l.
Lemma table_below l d x : nothing_below l d = true -> table l (d ++ x) = None.
Proof.
  induction l as [|[t n] l IH]; intros H; [reflexivity|]. cbn [nothing_below forallb fst] in H. apply andb_prop in H as [A B]. cbn [table].
  destruct (path_eqb (comps (T t)) (d ++ x)) eqn:E; [|now apply IH]. apply path_eqb_eq in E. rewrite E, below_app in A. discriminate.
Qed.
Definition no_file_above (l : list (string * node)) (d : list text) : bool :=
  forallb (fun e => match snd e with File _ => match below (comps (T (fst e))) d with None => true | Some _ => false end | Dir => true end) l.
Lemma table_above l d k : no_file_above l d = true -> is_file (table l (firstn k d)) = false.
Proof.
  induction l as [|[t n] l IH]; intros H; [reflexivity|]. cbn [no_file_above forallb fst snd] in H. apply andb_prop in H as [A B]. cbn [table].
  destruct (path_eqb (comps (T t)) (firstn k d)) eqn:E; [|now apply IH]. apply path_eqb_eq in E. destruct n; [reflexivity|].
  rewrite E in A. rewrite <- (firstn_skipn k d) in A at 2. rewrite below_app in A. discriminate.
Qed.
Lemma table_free l d : nothing_below l d = true -> no_file_above l d = true -> free (table l) d.
Proof. intros A B. split; [intros x; now apply table_below|intros k; now apply table_above]. Qed.
Lemma no_chars (c : ascii) (t : text) : forallb (fun x => negb (Ascii.eqb x c)) t = true -> ~ In c t.
Proof. intros H I. rewrite forallb_forall in H. specialize (H _ I). now rewrite Ascii.eqb_refl in H. Qed.
Definition portable_b (t : text) : bool :=
  forallb (fun x => negb (Ascii.eqb x NL)) t && forallb (fun x => negb (Ascii.eqb x PCT)) t &&
  match t with c :: _ => negb (isspace c) | [] => true end && match rev t with c :: _ => negb (isspace c) | [] => true end.
Lemma portable_of t : portable_b t = true -> portable t.
Proof.
  unfold portable_b. intros H. apply andb_prop in H as [H D]. apply andb_prop in H as [H C]. apply andb_prop in H as [A B].
  split; [|now apply no_chars]. apply writable_line; [now apply no_chars| |].
  - destruct t; [exact I|]. cbn. now destruct (isspace a).
  - destruct (rev t); [exact I|]. cbn. now destruct (isspace a).
Qed.

(** A provider with units, a program and translations *)
Definition demo : fs := table
  [("/", Dir); ("/src", Dir); ("/src/units", Dir); ("/src/units/a.pxu", File (T "unit: job")); ("/src/bin", Dir); ("/src/bin/run", File (T "#!/bin/sh"));
   ("/src/build", Dir); ("/src/build/mo", Dir); ("/src/build/mo/pl.mo", File (T "..."))]%string.
Definition demo_name : text := T "2016.com.example:demo".
Definition demo_exes : list text := [T "/src/bin/run"].
Definition demo_setup : option config := setup demo (T "/src") (Some demo_name) None (Some (T "1.0")) (Some (T "A demo")) (Some (T "demo")).
Lemma demo_qualified : qualified demo_name.
Proof.
  exists (T "2016."), (T "com"), [T "example"], (T "demo"). split; [reflexivity|]. split; [right; exists "2"%char, "0"%char, "1"%char, "6"%char; split; [reflexivity|]; unfold ProvdefSpec.is_digit; cbn; lia|].
  assert (L : forall c r, is_small c -> forallb small_digit_dash r = true -> label (c :: r)).
  { intros c r C R. exists c, r. split; [reflexivity|]. split; [exact C|]. intros x X. rewrite forallb_forall in R. apply name_char_spec. now apply R. }
  split; [apply L; [unfold is_small; cbn; lia|reflexivity]|]. split; [discriminate|]. split; [constructor; [apply L; [unfold is_small; cbn; lia|reflexivity]|constructor]|].
  apply L; [unfold is_small; cbn; lia|reflexivity].
Qed.
Definition demo_order : list item := [Units; Mo; Bin; Jobs; Definition_; Data].
Example C65_case_demo : exists g, demo_setup = Some g /\ presentable demo (T "/src") demo_name None (T "1.0") (T "A demo") (Some (T "demo")) demo_exes /\ plain_path (T "/usr") /\
  all_items demo_order /\ demo_name <> T "locale" /\ (demo (comps (T "/src") ++ [T "bin"]) <> None -> demo_exes <> []) /\ (exists k, k <> Definition_ /\ goes demo (T "/src") demo_exes k) /\
  forall l, room demo (T "/stage") (T "/usr") l demo_name (T "/src") demo_exes.
Proof.
  eexists. split; [vm_compute; reflexivity|]. split.
  { split; [intros _; exact demo_qualified|]. split.
    - split; [discriminate|]. split; [apply no_chars; reflexivity|]. split; [apply no_chars; reflexivity|]. apply portable_of; reflexivity.
    - split; [apply portable_of; reflexivity|]. split; [intros t; discriminate|]. split; [apply portable_of; reflexivity|]. split; [apply portable_of; reflexivity|].
      split; [intros t E; injection E as <-; apply portable_of; reflexivity|].
      split; [intros k A B; destruct k; try congruence; vm_compute; auto|]. split; [reflexivity|]. split; [reflexivity|].
      split; [intros e [<-|[]]; eexists; vm_compute; reflexivity|]. constructor; [intros []|constructor]. }
  split; [split; [eexists; reflexivity|]; split; apply no_chars; reflexivity|].
  split; [split; [repeat constructor; cbn; intuition discriminate|intros k; destruct k; cbn; tauto]|]. split; [discriminate|]. split; [intros _; discriminate|].
  split; [exists Units; split; [discriminate|vm_compute; discriminate]|].
  intros l. split.
  - destruct l; cbn [room].
    + intros k _. apply table_free; destruct k; reflexivity.
    + split; [|apply table_free; reflexivity]. split; [intros x _; now apply table_below|intros k; now apply table_above].
    + split; [intros x _; now apply table_below|intros k; now apply table_above].
  - intros k k' _. split; destruct l, k, k'; reflexivity.
Qed.
Definition found (b : bool) (P : fs -> bool) (r : fs * bool) : bool := Bool.eqb (snd r) b && P (fst r).
Lemma found_ok b P r : found b P r = true -> exists f', r = (f', b) /\ P f' = true.
Proof. unfold found. destruct r as [f' c]. cbn. intros H. apply andb_prop in H as [A B]. apply eqb_prop in A as ->. eauto. Qed.
Definition holds_file (p : text) (t : text) (f : fs) : bool := match f (comps p) with Some (File u) => text_eqb u t | _ => false end.
Lemma holds_file_ok p t f : holds_file p t f = true -> f (comps p) = Some (File t).
Proof. unfold holds_file. destruct (f (comps p)) as [[|u]|]; try discriminate. intros H. apply text_eqb_eq in H as ->. reflexivity. Qed.
(** It works, and the program is there *)
Example C65_case_demo_installed : exists g f', demo_setup = Some g /\ install (T "/stage") (T "/usr") Unix demo_order demo_exes g demo = (f', true) /\
  f' (comps (T "/stage/usr/lib/2016.com.example:demo/bin/run")) = Some (File (T "#!/bin/sh")).
Proof.
  eexists. assert (E : demo_setup = Some _) by (vm_compute; reflexivity).
  match type of E with _ = Some ?g => destruct (found_ok true (holds_file (T "/stage/usr/lib/2016.com.example:demo/bin/run") (T "#!/bin/sh")) (install (T "/stage") (T "/usr") Unix demo_order demo_exes g demo)) as (f' & A & B) end;
    [vm_compute; reflexivity|]. exists f'. split; [exact E|]. split; [exact A|]. now apply holds_file_ok.
Qed.

(** It can be registered for development, unless something is there *)
Example C65_case_develop : exists g f', demo_setup = Some g /\ is_file (demo (comps (T "/home/u/providers"))) = false /\
  (forall k, is_file (demo (firstn k (comps (T "/home/u/providers")))) = false) /\ develop false false (T "/home/u/providers") g demo = (f', Done).
Proof.
  eexists. assert (E : demo_setup = Some _) by (vm_compute; reflexivity).
  match type of E with _ = Some ?g => exists (fst (develop false false (T "/home/u/providers") g demo)) end.
  split; [exact E|]. split; [reflexivity|]. split; [intros k; apply table_above; reflexivity|].
  match goal with |- ?x = (_, ?d) => assert (D : snd x = d) by (vm_compute; reflexivity) end.
  rewrite <- D. apply surjective_pairing.
Qed.
(** An archive of it, unpacked *)
Example C65_case_sdist : exists g f2, demo_setup = Some g /\ (forall x, f2 (comps (T "/tmp/demo-1.0") ++ x) = archive (comps (T "/src")) demo x) /\
  isdir f2 (T "/tmp/demo-1.0/units") = true /\ isdir f2 (T "/tmp/demo-1.0/build") = false.
Proof.
  exists (match demo_setup with Some g => g | None => new_config end).
  exists (fun p => match below (comps (T "/tmp/demo-1.0")) p with Some x => archive (comps (T "/src")) demo x | None => None end).
  split; [vm_compute; reflexivity|]. split; [intros x; now rewrite below_app|]. split; vm_compute; reflexivity.
Qed.

(** ** What does not work *)

Definition load (f : fs) (root : text) (filename : text) : option (made provider1) :=
  match f (comps (root ++ filename)) with Some (File t) => Some (plug_in (isdir (seen_from f (comps root))) (fun _ => None) [] filename t) | _ => None end.
Definition installs (f : fs) (location name : string) (root prefix : string) (l : layout) (exes : list text) : option (fs * bool) :=
  match setup f (T location) (Some (T name)) None (Some (T "1.0")) (Some (T "A demo")) None with
  | Some g => Some (install (T root) (T prefix) l demo_order exes g f)
  | None => None
  end.
(** Whether installing went well and the installed provider is refused *)
Definition useless (f : fs) (location name root prefix : string) (l : layout) (exes : list text) : Prop :=
  exists f' p, installs f location name root prefix l exes = Some (f', true) /\ load f' (T root) (path (T prefix) (dest l (T name) Definition_)) = Some (Refused p).

Definition founds (b : bool) (P : fs -> bool) (r : option (fs * bool)) : bool := match r with Some x => found b P x | None => false end.
Lemma founds_ok b P r : founds b P r = true -> exists f', r = Some (f', b) /\ P f' = true.
Proof. destruct r as [x|]; [|discriminate]. intros H. apply found_ok in H as (f' & -> & H). eauto. Qed.
Definition refused (root filename : text) (f : fs) : bool := match load f root filename with Some (Refused _) => true | _ => false end.
Lemma useless_ok f location name root prefix l exes :
  founds true (refused (T root) (path (T prefix) (dest l (T name) Definition_))) (installs f location name root prefix l exes) = true -> useless f location name root prefix l exes.
Proof.
  intros H. apply founds_ok in H as (f' & A & B). unfold refused in B. destruct (load f' (T root) (path (T prefix) (dest l (T name) Definition_))) as [[| q | |]|] eqn:E; try discriminate.
  exists f', q. now split.
Qed.

(** A directory for programs without programs *)
Theorem C65_programs_directory_refuted : exists f, useless f "/src" "2016.com.example:demo" "/stage" "/usr" Unix [].
Proof.
  exists (table [("/", Dir); ("/src", Dir); ("/src/units", Dir); ("/src/bin", Dir); ("/src/bin/README", File (T "nothing"))]%string).
  apply useless_ok. vm_compute; reflexivity.
Qed.
(** A short name without a namespace *)
Theorem C65_short_names_refuted : exists f, useless f "/src" "demo" "/stage" "/usr" Unix [] /\ useless f "/src" "demo" "/stage" "/usr" Flat [] .
Proof.
  exists (table [("/", Dir); ("/src", Dir); ("/src/units", Dir)]%string). split; apply useless_ok; vm_compute; reflexivity.
Qed.
(** Nothing to install in the flat layout *)
Theorem C65_empty_flat_refuted : exists f, useless f "/src" "2016.com.example:demo" "/stage" "/usr" Flat [].
Proof. exists (table [("/", Dir); ("/src", Dir)]%string). apply useless_ok; vm_compute; reflexivity. Qed.
(** A percent sign: the definition is left empty *)
Theorem C65_percent_refuted : exists f f', installs f "/src" "2016.com.example:demo" "" "/opt/100%" Unix [] = Some (f', false) /\
  f' (comps (T "/opt/100%/share/plainbox-providers-1/2016.com.example.demo.provider")) = Some (File []).
Proof.
  exists (table [("/", Dir); ("/src", Dir); ("/src/units", Dir)]%string).
  edestruct founds_ok as (f' & A & B); [|exists f'; split; [exact A|apply holds_file_ok; exact B]]. vm_compute; reflexivity.
Qed.
(** Installing again *)
Theorem C65_install_again_refuted : exists f f' f'', installs f "/src" "2016.com.example:demo" "" "/usr" Unix [] = Some (f', true) /\
  installs f' "/src" "2016.com.example:demo" "" "/usr" Unix [] = Some (f'', false).
Proof.
  exists (table [("/", Dir); ("/src", Dir); ("/src/units", Dir)]%string).
  edestruct (founds_ok true (fun f' => founds false (fun _ => true) (installs f' "/src" "2016.com.example:demo" "" "/usr" Unix []))) as (f' & A & B); cycle 1.
  - exists f'. destruct (founds_ok _ _ _ B) as (f'' & C & _). exists f''. split; [exact A|exact C].
  - vm_compute; reflexivity.
Qed.
(** Translations cannot be installed where there are some *)
Theorem C65_translations_refuted : exists f f', f (comps (T "/usr/share/locale")) = Some Dir /\ installs f "/src" "2016.com.example:demo" "" "/usr" Unix [] = Some (f', false).
Proof.
  exists (table [("/", Dir); ("/usr", Dir); ("/usr/share", Dir); ("/usr/share/locale", Dir); ("/src", Dir); ("/src/build", Dir); ("/src/build/mo", Dir)]%string).
  edestruct (founds_ok false (fun _ => true)) as (f' & A & _); [|exists f'; split; [reflexivity|exact A]]. vm_compute; reflexivity.
Qed.
(** Ready-made translations are used, but not installed *)
Definition untranslated (root filename : text) (f : fs) : bool :=
  match load f root filename with Some (Made q) => match p_locale (q_dirs q) with None => true | Some _ => false end | _ => false end.
Theorem C65_ready_made_translations_refuted : exists f g f' q,
  setup f (T "/src") (Some (T "2016.com.example:demo")) None (Some (T "1.0")) (Some (T "A demo")) None = Some g /\
  p_locale (q_dirs (from_definition (isdir f) g false)) = Some (T "/src/locale") /\
  installs f "/src" "2016.com.example:demo" "/stage" "/usr" Unix [] = Some (f', true) /\
  load f' (T "/stage") (path (T "/usr") (dest Unix (T "2016.com.example:demo") Definition_)) = Some (Made q) /\ p_locale (q_dirs q) = None.
Proof.
  exists (table [("/", Dir); ("/src", Dir); ("/src/units", Dir); ("/src/locale", Dir)]%string). eexists.
  edestruct (founds_ok true (untranslated (T "/stage") (path (T "/usr") (dest Unix (T "2016.com.example:demo") Definition_)))) as (f' & A & B); cycle 1.
  - unfold untranslated in B. destruct (load f' (T "/stage") (path (T "/usr") (dest Unix (T "2016.com.example:demo") Definition_))) as [[q | | |]|] eqn:E; try discriminate.
    exists f', q. split; [vm_compute; reflexivity|]. split; [vm_compute; reflexivity|]. split; [exact A|]. split; [exact E|]. now destruct (p_locale (q_dirs q)).
  - vm_compute; reflexivity.
Qed.
(** A description is required although it is not said to be *)
Theorem C65_description_is_required f location name namespace version domain : setup f location name namespace version None domain = None.
Proof.
  destruct (setup f location name namespace version None domain) as [g|] eqn:E; [|reflexivity]. apply setup_spec in E as (n & v & d & _ & _ & X & _). discriminate.
Qed.
(** The command that signs an archive is a text for the shell *)
Theorem C65_signing_refuted : exists f g version, setup f (T "/src") (Some (T "demo")) (Some (T "com.example")) (Some version) (Some (T "A demo")) None = Some g /\
  sign_command (T "demo") version = T "gpg --armor --sign --detach-sig demo-1;reboot;.tar.gz".
Proof. exists (table [("/", Dir); ("/src", Dir)]%string). eexists. exists (T "1;reboot;"). split; vm_compute; reflexivity. Qed.
Print Assumptions C65_programs_directory_refuted.
Print Assumptions C65_short_names_refuted.
Print Assumptions C65_empty_flat_refuted.
Print Assumptions C65_percent_refuted.
Print Assumptions C65_install_again_refuted.
Print Assumptions C65_translations_refuted.
Print Assumptions C65_ready_made_translations_refuted.
Print Assumptions C65_description_is_required.
Print Assumptions C65_signing_refuted.
