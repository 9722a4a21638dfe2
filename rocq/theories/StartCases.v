(** * C67: starting a provider, what is in it *)
From Coq Require Import String Ascii List Bool Arith Lia.
From Verif Require Import ScanModel Rfc822Model Rfc822Spec Rfc822Proofs IniModel IniProofs ConfigModel ConfigSpec ConfigWrite CacheModel ExportModel PluginModel PluginProps ProviderModel ProviderProps
  ProvdefModel ProvdefSpec ProvdefProps InstallModel InstallSpec InstallProofs InstallText InstallObj InstallProps InstallCases StartModel StartSpec StartProofs StartProps.
Import ListNotations.
Local Open Scope nat_scope.
Local Open Scope list_scope.

(** ** From the start to an installed provider *)
Theorem C67_started_and_installed to_float secure cwd location name w root prefix order filename :
  qualified name -> (exists r, location = SL :: r) -> portable location -> comps location = cwd ++ [name] ->
  w_fs w cwd = Some Dir -> (forall x, w_fs w (cwd ++ name :: x) = None) -> (forall x, w_exec w (cwd ++ name :: x) = false) ->
  plain_path prefix -> all_items order ->
  exists states domain g, start_provider cwd skeleton name w = Some (states, Completed) /\
    let f := w_fs (final w (states, Completed)) in
    let exes := [pjoin (pjoin location (T "bin")) (T "custom-executable")] in
    setup f location (Some name) None (Some (T "1.0")) (Some (new_description name)) (Some domain) = Some g /\
    (room f root prefix Unix name location exes ->
     exists f' t q, install root prefix Unix order exes g f = (f', true) /\ f' (place root prefix Unix name Definition_) = Some (File t) /\
       plug_in (isdir (seen_from f' (comps root))) to_float secure filename t = Made q /\
       arrived f exes (from_definition (isdir f) g false) (seen_from f' (comps root)) q).
Proof.
  intros Q A P C D N X PP ALL. destruct (C67_new_provider cwd name w Q D N X) as (states & manage & domain & E & H & _ & _ & M & _).
  rewrite <- C in H. destruct (C67_installable (final w (states, Completed)) location name manage domain Q A P H M) as [PR NL'].
  destruct (C67_setup (w_fs (final w (states, Completed))) location name domain Q A (proj1 H) M) as (g & G). exists states, domain, g. split; [exact E|]. cbv zeta. split; [exact G|].
  intros R. apply (C65_installed_unix to_float secure _ root prefix location name (T "1.0") (new_description name) None (Some domain) g order _ G PR PP ALL filename NL' R). intros _. discriminate.
Qed.
Print Assumptions C67_started_and_installed.

(** ** What the files are *)

Lemma tprefix_common l a b : tprefix (l ++ a) (l ++ b) = tprefix a b.
Proof.
  destruct (tprefix a b) eqn:E.
  - apply tprefix_spec in E as (r & ->). apply tprefix_spec. exists r. now rewrite app_assoc.
  - destruct (tprefix (l ++ a) (l ++ b)) eqn:F; [|reflexivity]. apply tprefix_spec in F as (r & F). rewrite <- app_assoc in F. apply app_inv_head in F. assert (X : tprefix a b = true) by (apply tprefix_spec; now exists r). congruence.
Qed.
Lemma text_eqb_common l a b : text_eqb (l ++ a) (l ++ b) = text_eqb a b.
Proof.
  destruct (text_eqb a b) eqn:E; [apply text_eqb_eq in E as ->; apply text_eqb_refl|].
  destruct (text_eqb (l ++ a) (l ++ b)) eqn:F; [|reflexivity]. apply text_eqb_eq in F. apply app_inv_head in F. subst. now rewrite text_eqb_refl in E.
Qed.
Lemma basename_plain l a b : ~ In SL b -> basename (l ++ a ++ SL :: b) = b.
Proof. intros N. rewrite app_assoc. unfold basename. rewrite basename_from_slash. now rewrite basename_from_noslash by exact N. Qed.

Section Files.
  Variable X : Type.
  Variable location : text.
  Variable executable : text -> bool.
  Variable magic_of : text -> magic X.
  Variable EXECUTABLES : list text.
  Hypothesis NE : location <> [].
  Hypothesis NS : forall q, location <> q ++ [SL].
  (** The directories of a new provider *)
  Definition new_dirs : provider :=
    mk_provider (Some (location ++ T "/units")) None (Some (location ++ T "/data")) (Some (location ++ T "/bin")) None (Some location).
  Definition file (d b : string) : text := location ++ T d ++ SL :: T b.
  Hypothesis EXEC : forall d b, executable (file d b) = in_paths (comps (T d ++ SL :: T b)) new_programs.
  Hypothesis MAGIC : magic_of (file "/bin" "custom-executable") = Script.

  Lemma starts_in s d b : starts (Some (location ++ T s)) (file d b) = tprefix (T s) (T d ++ SL :: T b).
  Proof. unfold starts, file. apply tprefix_common. Qed.
  Lemma pjoin_location t c r : t = c :: r -> c <> SL -> pjoin location t = location ++ SL :: t.
  Proof.
    intros -> N. unfold pjoin. change SLASH with SL. replace (Ascii.eqb c SL) with false by (symmetry; now apply Ascii.eqb_neq). destruct location as [|x l] eqn:E; [congruence|].
    destruct (ends_slash (x :: l)) eqn:S; [|reflexivity]. apply ends_slash_last in S as (q & S). exfalso. apply (NS q). exact S.
  Qed.
  Lemma pjoin_twice a b c r d q : T a = c :: r -> c <> SL -> T b = d :: q -> d <> SL -> (forall z, T a <> z ++ [SL]) -> pjoin (pjoin location (T a)) (T b) = location ++ SL :: T a ++ SL :: T b.
  Proof.
    intros A NA B NB Z. rewrite (pjoin_location (T a) c r A NA). unfold pjoin. rewrite B. change SLASH with SL. replace (Ascii.eqb d SL) with false by (symmetry; now apply Ascii.eqb_neq).
    destruct (location ++ SL :: T a) as [|x l] eqn:E; [destruct location; discriminate|]. rewrite <- E. destruct (ends_slash (location ++ SL :: T a)) eqn:S.
    - apply ends_slash_last in S as (z & S). exfalso. destruct (exists_last (l := T a)) as (z' & e & Y); [congruence|]. rewrite Y in S. change (location ++ SL :: z' ++ [e]) with (location ++ (SL :: z') ++ [e]) in S.
      rewrite app_assoc in S. apply app_inj_tail in S as [_ S]. subst e. now apply (Z z').
    - now rewrite <- app_assoc.
  Qed.
  Lemma new_build : build_dir new_dirs = Some (location ++ T "/build") /\ build_bin_dir new_dirs = Some (location ++ T "/build/bin") /\ build_mo_dir new_dirs = Some (location ++ T "/build/mo") /\
    src_dir new_dirs = Some (location ++ T "/src") /\ po_dir new_dirs = Some (location ++ T "/po").
  Proof.
    unfold build_dir, build_bin_dir, build_mo_dir, src_dir, po_dir, ProviderModel.sub. cbn [new_dirs p_base fold_left].
    assert (Z : forall z, T "build" <> z ++ [SL]) by (intros z E; apply (f_equal (@rev ascii)) in E; rewrite rev_app_distr in E; discriminate).
    rewrite (pjoin_twice "build" "bin" _ _ _ _ eq_refl ltac:(discriminate) eq_refl ltac:(discriminate) Z), (pjoin_twice "build" "mo" _ _ _ _ eq_refl ltac:(discriminate) eq_refl ltac:(discriminate) Z).
    rewrite (pjoin_location (T "build") _ _ eq_refl), (pjoin_location (T "src") _ _ eq_refl), (pjoin_location (T "po") _ _ eq_refl) by discriminate. auto.
  Qed.
  Lemma present_in t : t <> [] -> present (Some (location ++ t)) = [location ++ t].
  Proof. intros N. unfold present. destruct (location ++ t) eqn:E; [apply app_eq_nil in E as [_ E]; congruence|reflexivity]. Qed.
  Lemma present_location : present (Some location) = [location].
  Proof. unfold present. destruct location; [congruence|reflexivity]. Qed.

  Definition new_role (d b : string) : classified X :=
    let r := T d ++ SL :: T b in
    if tprefix (T "/units") r && tmem (extension (T b)) [T ".txt"; T ".txt.in"; T ".pxu"] then Is R_unit_source (Some (location ++ T "/units")) UnitFile
    else if tprefix (T "/data") r then Is R_data (Some (location ++ T "/data")) ContentFile
    else if tprefix (T "/bin") r && in_paths (comps r) new_programs then by_magic X magic_of (file d b) (Some (location ++ T "/bin"))
    else if tprefix (T "/build") r then unknown X new_dirs (file d b)
    else if text_eqb (T d) (T "/po") && (tmem (extension (T b)) [T ".po"; T ".pot"] || text_eqb (T b) (T "POTFILES.in")) then Is R_src (Some location) NoPlugin
    else if tprefix (T "/src") r then Is R_src (Some location) NoPlugin
    else if tmem (T b) [T "COPYING"; T "COPYING.LESSER"; T "LICENSE"] then Is R_legal (Some location) ContentFile
    else if tmem (T b) [T "README"; T "README.md"; T "README.rst"; T "README.txt"] then Is R_docs (Some location) ContentFile
    else if text_eqb (T "/manage.py") r then Is R_manage_py (Some location) NoPlugin
    else if tmem (T b) [T ".gitignore"; T ".bzrignore"] then Is R_vcs (Some location) NoPlugin
    else unknown X new_dirs (file d b).
  Lemma file_basename d b : ~ In SL (T b) -> basename (file d b) = T b /\ extension (file d b) = extension (T b).
  Proof.
    intros N. assert (E : basename (file d b) = T b) by (unfold file; now apply basename_plain). split; [exact E|]. unfold extension. rewrite E.
    replace (basename (T b)) with (T b); [reflexivity|]. symmetry. unfold basename. now rewrite basename_from_noslash by exact N.
  Qed.
  Lemma classify_new d b : ~ In SL (T b) -> (forall q, T d <> q ++ [SL]) -> tprefix (T "/build") (T d ++ SL :: T b) = false ->
    new_role d b <> unknown X new_dirs (file d b) -> classify X new_dirs executable magic_of EXECUTABLES (file d b) = new_role d b.
  Proof.
    intros N Z B U. destruct (file_basename d b N) as [BN EX]. destruct new_build as (B1 & B2 & B3 & B4 & B5).
    assert (DN : pdirname (file d b) = location ++ T d).
    { unfold file. rewrite app_assoc. apply pdirname_below; [destruct location; [congruence|discriminate]| |exact N].
      intros q E. destruct (T d) as [|x l] eqn:TD; [rewrite app_nil_r in E; now apply (NS q)|]. destruct (exists_last (l := x :: l)) as (z & e & Y); [discriminate|]. rewrite Y in E.
      rewrite app_assoc in E. apply app_inj_tail in E as [_ E]. subst e. now apply (Z z). }
    assert (BB : tprefix (T "/build/bin") (T d ++ SL :: T b) = false).
    { destruct (tprefix (T "/build/bin") _) eqn:E; [|reflexivity]. apply tprefix_spec in E as (r & E). assert (Y : tprefix (T "/build") (T d ++ SL :: T b) = true) by (apply tprefix_spec; exists (T "/bin" ++ r); rewrite E; reflexivity). congruence. }
    assert (BM : tprefix (T "/build/mo") (T d ++ SL :: T b) = false).
    { destruct (tprefix (T "/build/mo") _) eqn:E; [|reflexivity]. apply tprefix_spec in E as (r & E). assert (Y : tprefix (T "/build") (T d ++ SL :: T b) = true) by (apply tprefix_spec; exists (T "/mo" ++ r); rewrite E; reflexivity). congruence. }
    unfold classify, classify_fns, if_present. rewrite B1, B2, B3, B4, B5. cbn [new_dirs p_units p_jobs p_data p_bin p_locale p_base].
    rewrite !present_in by discriminate. rewrite present_location. cbn [present app ProviderModel.first_of].
    unfold pxu_units, data, exec, built_exec, built_i18n, build, po, src, legal, docs, manage_py, vcs. rewrite B1, B2, B3, B4, B5. cbn [new_dirs p_units p_jobs p_data p_bin p_locale p_base].
    rewrite !starts_in, BN, EX, DN, BB, BM, B, EXEC, text_eqb_common. rewrite (pjoin_location (T "manage.py") _ _ eq_refl) by discriminate.
    change (SL :: T "manage.py") with (T "/manage.py"). assert (MP : text_eqb (location ++ T "/manage.py") (file d b) = text_eqb (T "/manage.py") (T d ++ SL :: T b)) by (unfold file; apply text_eqb_common).
    rewrite MP. cbn [andb].
    revert U. unfold new_role. cbv zeta. rewrite B.
    destruct (tprefix (T "/units") _ && _); [reflexivity|]. destruct (tprefix (T "/data") _); [reflexivity|].
    destruct (tprefix (T "/bin") _ && _); [unfold by_magic; now destruct (magic_of (file d b))|].
    destruct (text_eqb (T d) (T "/po") && _); [reflexivity|]. destruct (tprefix (T "/src") _); [reflexivity|].
    destruct (tmem (T b) [T "COPYING"; _; _]); [reflexivity|]. destruct (tmem (T b) [T "README"; _; _; _]); [reflexivity|].
    destruct (text_eqb (T "/manage.py") _); [reflexivity|]. destruct (tmem (T b) [T ".gitignore"; _]); [reflexivity|]. congruence.
  Qed.
End Files.

(** The files of a new provider are what they are meant to be, and there is one
    program among them *)
Theorem C67_files X location executable magic_of EXECUTABLES : location <> [] -> (forall q, location <> q ++ [SL]) ->
  (forall d b, executable (file location d b) = in_paths (comps (T d ++ SL :: T b)) new_programs) ->
  magic_of (file location "/bin" "custom-executable") = Script ->
  forall d b r, In (d, b, r) new_roles ->
    (exists base c, classify X (new_dirs location) executable magic_of EXECUTABLES (file location d b) = Is r base c /\
       (r = R_unit_source <-> c = UnitFile) /\ (c = UnitFile -> base = Some (location ++ T "/units"))) /\
    (runs (Some r) = true <-> (d, b) = ("/bin", "custom-executable")%string).
Proof.
  intros NE NS EXEC MAGIC d b r I.
  assert (OK : forall r base c, new_role X location magic_of d b = Is r base c -> ~ In SL (T b) -> (forall q, T d <> q ++ [SL]) -> tprefix (T "/build") (T d ++ SL :: T b) = false ->
    r <> R_unknown -> classify X (new_dirs location) executable magic_of EXECUTABLES (file location d b) = Is r base c).
  { intros r' base c E N Z B U. rewrite <- E. apply classify_new; try assumption. rewrite E. unfold unknown. congruence. }
  assert (ND : forall l : list ascii, existsb (Ascii.eqb SL) l = false -> ~ In SL l).
  { intros l H K. assert (existsb (Ascii.eqb SL) l = true) by (apply existsb_exists; exists SL; split; [exact K|reflexivity]). congruence. }
  assert (ZD : forall (l q : list ascii), existsb (Ascii.eqb SL) (firstn 1 (rev l)) = false -> l <> q ++ [SL]).
  { intros l q H ->. rewrite rev_app_distr in H. discriminate. }
  assert (SCRIPT : new_role X location magic_of "/bin" "custom-executable" = Is R_script (Some (location ++ T "/bin")) ContentFile).
  { transitivity (by_magic X magic_of (file location "/bin" "custom-executable") (Some (location ++ T "/bin"))); [reflexivity|]. unfold by_magic. now rewrite MAGIC. }
  repeat (destruct I as [I|I]; [assert (D : d = fst (fst (d, b, r)) /\ b = snd (fst (d, b, r)) /\ r = snd (d, b, r)) by auto; rewrite <- I in D; cbn [fst snd] in D; destruct D as (-> & -> & ->);
    (split; [eexists _, _; split; [apply OK; [first [reflexivity|exact SCRIPT]|apply ND; reflexivity|intros q; apply ZD; reflexivity|reflexivity|discriminate]|split; [split; [try discriminate|try discriminate]; reflexivity|first [discriminate|reflexivity]]]|split; [try discriminate; reflexivity|try discriminate; reflexivity]])|]).
  destruct I.
Qed.
Print Assumptions C67_files.
(** These are all the files *)
Theorem C67_all_files manage p t : listed (new_provider manage) p = Some (File t) ->
  exists d b r, In (d, b, r) new_roles /\ p = comps (T d ++ SL :: T b).
Proof.
  intros H.
  assert (I : exists n, In (p, n) (new_provider manage) /\ n = File t).
  { revert H. generalize (new_provider manage). induction l as [|[q n] l IH]; cbn [listed]; [discriminate|]. destruct (path_eq q p) as [->|_]; [intros E; exists n; split; [now left|congruence]|].
    intros E. destruct (IH E) as (m & A & B). exists m. split; [now right|exact B]. }
  destruct I as (n & I & N).
  assert (F : forall d b r q, In (d, b, r) new_roles -> comps (T d ++ SL :: T b) = q -> q = p -> exists d b r, In (d, b, r) new_roles /\ p = comps (T d ++ SL :: T b)).
  { intros d b r q A B C. exists d, b, r. split; [exact A|congruence]. }
  cbn [new_provider In] in I. clear H.
  repeat (destruct I as [I|I]; [assert (D : p = fst (p, n) /\ n = snd (p, n)) by auto; rewrite <- I in D; cbn [fst snd] in D; destruct D as [D1 D2]; first [exfalso; congruence|
    match type of D1 with
    | _ = [T "manage.py"] => eapply (F "" "manage.py" R_manage_py)%string
    | _ = [T "README.md"] => eapply (F "" "README.md" R_docs)%string
    | _ = [T ".gitignore"] => eapply (F "" ".gitignore" R_vcs)%string
    | _ = [T ".bzrignore"] => eapply (F "" ".bzrignore" R_vcs)%string
    | _ = [T "units"; T ?b] => eapply (F "/units" b R_unit_source)%string
    | _ = [T "po"; T ?b] => eapply (F "/po" b R_src)%string
    | _ = [T "data"; T ?b] => eapply (F "/data" b R_data)%string
    | _ = [T "bin"; T "README.md"] => eapply (F "/bin" "README.md" R_docs)%string
    | _ = [T "bin"; T "custom-executable"] => eapply (F "/bin" "custom-executable" R_script)%string
    end; [cbn; tauto|vm_compute; reflexivity|symmetry; exact D1]]|]). destruct I.
Qed.
Print Assumptions C67_all_files.

(** The units of a new provider load, they are these, and the jobs are in
    categories that are there *)
Theorem C67_units :
  defines_units t_units_examples_trivial_pxu
    [("category", "examples/trivial"); ("test plan", "trivial"); ("job", "examples/trivial/always-pass"); ("job", "examples/trivial/always-fail")]%string /\
  defines_units t_units_examples_normal_pxu
    [("test plan", "normal"); ("category", "examples/normal"); ("job", "examples/normal/data-access"); ("job", "examples/normal/bin-access"); ("job", "examples/normal/info-collection")]%string /\
  defines_units t_units_examples_intermediate_pxu
    [("test plan", "intermediate"); ("category", "examples/intermediate"); ("job", "examples/intermediate/dependency-target"); ("job", "examples/intermediate/dependency-source");
     ("job", "detected_device"); ("job", "examples/intermediate/test-webcam")]%string /\
  categorised t_units_examples_trivial_pxu /\ categorised t_units_examples_normal_pxu /\ categorised t_units_examples_intermediate_pxu.
Proof.
  assert (D : forall t us, match load_stream t with inl rs => map (fun r => (field "unit" r, field "id" r)) rs = us | inr _ => False end -> defines_units t us).
  { intros t us H. unfold defines_units. destruct (load_stream t) as [rs|]; [|destruct H]. now exists rs. }
  assert (C : forall t, match load_stream t with inl rs => forallb (fun r => negb (String.eqb (field "unit" r) "job") || existsb (fun c => String.eqb (field "unit" c) "category" && String.eqb (field "id" c) (field "category_id" r)) rs) rs = true | inr _ => False end -> categorised t).
  { intros t H. unfold categorised. destruct (load_stream t) as [rs|]; [|destruct H]. exists rs. split; [reflexivity|]. intros r I J. rewrite forallb_forall in H. specialize (H r I). rewrite J in H. cbn [String.eqb negb orb] in H.
    apply existsb_exists in H as (c & K & E). apply andb_prop in E as [E1 E2]. apply String.eqb_eq in E1, E2. now exists c. }
  split; [apply D; vm_compute; reflexivity|]. split; [apply D; vm_compute; reflexivity|]. split; [apply D; vm_compute; reflexivity|].
  split; [apply C; vm_compute; reflexivity|]. split; apply C; vm_compute; reflexivity.
Qed.
Print Assumptions C67_units.

(** ** What is not so *)

(** The list of files with translatable texts names files that are not there *)
Theorem C67_translations_refuted : exists kind files, In kind (split_nl t_po_POTFILES_in) /\
  kind = T "[type: gettext/rfc822deb] " ++ files /\ forall manage, listed (new_provider manage) (comps files) = None.
Proof.
  exists (T "[type: gettext/rfc822deb] jobs/examples-trivial.txt"), (T "jobs/examples-trivial.txt"). split; [vm_compute; tauto|]. split; [reflexivity|]. intros manage. vm_compute. reflexivity.
Qed.
Print Assumptions C67_translations_refuted.

(** A name may end in a newline, and then manage.py has a text that is not closed
    on its line *)
Theorem C67_newline_refuted : exists name w states t line, taken name /\ start_provider [] empty_skeleton name w = Some (states, Completed) /\
  w_fs (final w (states, Completed)) [name; T "manage.py"] = Some (File t) /\
  In line (split_nl t) /\ count_occ ascii_dec line """"%char = 1.
Proof.
  assert (K : taken (demo_name ++ [NL])) by (right; exists demo_name; split; [reflexivity|exact demo_qualified]).
  destruct (start_makes [] empty_skeleton (demo_name ++ [NL]) (mk_world (fun p => match p with [] => Some Dir | _ => None end) (fun _ => false)) _ K eq_refl (fun x => eq_refl) (make_empty _)) as (states & E & S).
  exists (demo_name ++ [NL]), (mk_world (fun p => match p with [] => Some Dir | _ => None end) (fun _ => false)), states, (manage_py_of (demo_name ++ [NL])), (T "    description=N_(""The 2016.com.example:demo").
  split; [exact K|]. split; [exact E|]. split.
  - destruct S as (A & _). destruct (start_root [] _ K) as (R & _). rewrite R in A. exact (A [T "manage.py"]).
  - split; [vm_compute; tauto|reflexivity].
Qed.
Print Assumptions C67_newline_refuted.

(** ** A case *)
Definition home : world := mk_world (table [("/", Dir); ("/home", Dir); ("/home/notes", File (T "mine"))]%string) (fun _ => false).
Example C67_case : qualified demo_name /\ w_fs home [T "home"] = Some Dir /\ (forall x, w_fs home ([T "home"] ++ demo_name :: x) = None) /\ (forall x, w_exec home ([T "home"] ++ demo_name :: x) = false) /\
  (exists r, T "/home/2016.com.example:demo" = SL :: r) /\ portable (T "/home/2016.com.example:demo") /\ comps (T "/home/2016.com.example:demo") = [T "home"] ++ [demo_name] /\
  plain_path (T "/usr") /\ all_items demo_order.
Proof.
  split; [exact demo_qualified|]. split; [reflexivity|]. split; [intros x; apply (table_below _ ([T "home"; demo_name]) x); vm_compute; reflexivity|]. split; [reflexivity|].
  split; [eexists; reflexivity|]. split; [apply portable_of; reflexivity|]. split; [reflexivity|].
  split; [split; [eexists; reflexivity|]; split; apply no_chars; reflexivity|]. split; [repeat constructor; cbn; intuition discriminate|intros k; destruct k; cbn; tauto].
Qed.
(** And there is room to install it *)
Example C67_case_room : exists states, start_provider [T "home"] skeleton demo_name home = Some (states, Completed) /\
  room (w_fs (final home (states, Completed))) (T "/stage") (T "/usr") Unix demo_name (T "/home/2016.com.example:demo") [T "/home/2016.com.example:demo/bin/custom-executable"].
Proof.
  destruct C67_case as (Q & D & N & X & _). destruct (C67_new_provider [T "home"] demo_name home Q D N X) as (states & manage & domain & E & _ & K & _). exists states. split; [exact E|].
  assert (G : forall p, below [T "home"; demo_name] p = None -> w_fs (final home (states, Completed)) p = w_fs home p) by (intros p P; now apply K).
  split.
  - intros k _. split.
    + intros x. rewrite G; [apply table_below; destruct k; vm_compute; reflexivity|]. destruct k; reflexivity.
    + intros n. destruct (below [T "home"; demo_name] (firstn n (place (T "/stage") (T "/usr") Unix demo_name k))) eqn:B.
      * exfalso. destruct k; (do 7 (destruct n as [|n]; [discriminate B|]); destruct n; discriminate B).
      * rewrite (G _ B). apply table_above. destruct k; vm_compute; reflexivity.
  - intros k k' _. split; destruct k, k'; reflexivity.
Qed.
