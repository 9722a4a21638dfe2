(** * C76: translations of a provider *)
From Coq Require Import String Ascii List Bool Arith ZArith Lia Permutation.
From Verif Require Import ScanModel PathModel IniModel RestartModel ConfigModel ExportModel ResumeSpec ResumeCodec BuildModel BuildSpec BuildProps.
Import ListNotations.
Local Open Scope nat_scope.
Local Open Scope list_scope.

Lemma last_dot_none t : last_dot t = None <-> ~ In "."%char t.
Proof.
  induction t as [|c t IH]; cbn; [split; auto|]. destruct (last_dot t) as [b|]; [split; [discriminate|]|].
  - intros N. exfalso. assert (X : Some b = None) by (apply IH; tauto). discriminate.
  - destruct (Ascii.eqb_spec c "."%char) as [-> |E]; [split; [discriminate|tauto]|]. split; [|reflexivity]. intros _ [H|H]; [congruence|]. now apply IH.
Qed.
Lemma last_dot_some a b : ~ In "."%char b -> last_dot (a ++ "."%char :: b) = Some a.
Proof.
  intros N. induction a as [|c a IH]; cbn.
  - apply last_dot_none in N. now rewrite N.
  - now rewrite IH.
Qed.
Lemma last_dot_inv t a : last_dot t = Some a -> exists b, t = a ++ "."%char :: b /\ ~ In "."%char b.
Proof.
  revert a. induction t as [|c t IH]; cbn; [discriminate|]. intros a. destruct (last_dot t) as [x|] eqn:E.
  - intros [= <-]. destruct (IH x eq_refl) as (b & -> & N). now exists b.
  - destruct (Ascii.eqb_spec c "."%char) as [-> |]; [|discriminate]. intros [= <-]. exists t. split; [reflexivity|]. now apply last_dot_none.
Qed.
Lemma some_nondot b : existsb (fun c => negb (Ascii.eqb c "."%char)) b = true <-> exists c, In c b /\ c <> "."%char.
Proof. rewrite existsb_exists. split; intros (c & I & H); exists c; (split; [assumption|]); [now apply negb_true_iff, Ascii.eqb_neq in H|now apply negb_true_iff, Ascii.eqb_neq]. Qed.
Lemma root_stem stem e : ~ In "."%char e -> (exists c, In c stem /\ c <> "."%char) -> splitext_root (stem ++ "."%char :: e) = stem.
Proof. intros N H. unfold splitext_root. rewrite last_dot_some by assumption. apply some_nondot in H. now rewrite H. Qed.
Lemma root_dots stem e : ~ In "."%char e -> (forall c, In c stem -> c = "."%char) -> splitext_root (stem ++ "."%char :: e) = stem ++ "."%char :: e.
Proof.
  intros N H. unfold splitext_root. rewrite last_dot_some by assumption. destruct (existsb _ stem) eqn:E; [|reflexivity]. apply some_nondot in E as (c & I & X). now contradiction (X (H c I)).
Qed.
Lemma po_nodot : ~ In "."%char (T "po").
Proof. cbn. intros [H|[H|[]]]; discriminate. Qed.
Lemma language_root f l : language f l -> splitext_root f = l.
Proof.
  intros H. inversion H as [stem c I N|stem D]; subst.
  - change (T ".po") with ("."%char :: T "po"). apply root_stem; [apply po_nodot|eauto].
  - change (T ".po") with ("."%char :: T "po"). apply root_dots; [apply po_nodot|assumption].
Qed.
Lemma language_exists f : ends_with_po f = true <-> exists stem, f = stem ++ T ".po".
Proof.
  unfold ends_with_po. split.
  - intros H. apply andb_true_iff in H as [L H]. apply text_eqb_eq in H. exists (firstn (length f - 3) f). rewrite <- H. now rewrite firstn_skipn.
  - intros (stem & ->). rewrite app_length. change (length (T ".po")) with 3. apply andb_true_iff. split; [apply Nat.leb_le; lia|]. apply text_eqb_eq.
    replace (length stem + 3 - 3) with (length stem) by lia. rewrite skipn_app, skipn_all, Nat.sub_diag. reflexivity.
Qed.
Lemma language_total stem : exists l, language (stem ++ T ".po") l.
Proof.
  destruct (existsb (fun c => negb (Ascii.eqb c "."%char)) stem) eqn:E.
  - apply some_nondot in E as (c & I & N). eexists. now apply (language_stem stem c).
  - eexists. apply language_dots. intros c I. destruct (Ascii.eqb_spec c "."%char) as [|N]; [assumption|]. exfalso. assert (X : existsb (fun c => negb (Ascii.eqb c "."%char)) stem = true) by (apply some_nondot; eauto). congruence.
Qed.
Lemma languages_flat {B} (g : text -> list B) listing ls : languages listing ls ->
  flat_map (fun i => if ends_with_po i then g (splitext_root i) else []) listing = flat_map g ls.
Proof.
  induction 1 as [|f l r ls H _ IH|f r ls H _ IH]; cbn [flat_map]; [reflexivity| |].
  - assert (E : ends_with_po f = true) by (apply language_exists; inversion H; eauto). rewrite E, (language_root f l H). now rewrite IH.
  - assert (E : ends_with_po f = false). { destruct (ends_with_po f) eqn:E; [|reflexivity]. apply language_exists in E as (s & ->). destruct (language_total s) as (l & L). now contradiction (H l). } now rewrite E, IH.
Qed.
Theorem C76_languages_exist listing : exists ls, languages listing ls.
Proof.
  induction listing as [|f r (ls & IH)]; [exists []; constructor|]. destruct (ends_with_po f) eqn:E.
  - apply language_exists in E as (s & ->). destruct (language_total s) as (l & L). exists (l :: ls). now constructor.
  - exists ls. apply other_file; [|assumption]. intros l L. assert (X : ends_with_po f = true) by (apply language_exists; inversion L; eauto). congruence.
Qed.
Print Assumptions C76_languages_exist.

Lemma map_lower_dot e t : map lower e = "."%char :: t -> exists e', e = "."%char :: e' /\ map lower e' = t.
Proof.
  destruct e as [|c e]; [discriminate|]. cbn. intros [= E <-]. exists e. split; [|reflexivity]. f_equal. revert E. unfold lower. cbv zeta.
  destruct (Nat.leb 65 (nat_of_ascii c) && Nat.leb (nat_of_ascii c) 90 || Nat.leb 192 (nat_of_ascii c) && Nat.leb (nat_of_ascii c) 222 && negb (Nat.eqb (nat_of_ascii c) 215))%bool eqn:B; [|auto].
  intros E. exfalso. apply (f_equal nat_of_ascii) in E. rewrite nat_ascii_embedding in E.
  - change (nat_of_ascii "."%char) with 46 in E. apply orb_true_iff in B as [B|B]; rewrite ?andb_true_iff in B; [destruct B as [B _]|destruct B as [[B _] _]]; apply Nat.leb_le in B; lia.
  - apply orb_true_iff in B as [B|B]; rewrite ?andb_true_iff in B; [destruct B as [_ B]|destruct B as [[_ B] _]]; apply Nat.leb_le in B; lia.
Qed.
Lemma lower_dot_in e : In "."%char e -> In "."%char (map lower e).
Proof. intros I. apply (in_map lower) in I. exact I. Qed.
Lemma qml_nodot e' : map lower e' = T "qml" -> ~ In "."%char e'.
Proof. intros E I. apply lower_dot_in in I. rewrite E in I. cbn in I. intuition discriminate. Qed.
Lemma ext_root n : splitext_root n ++ splitext_ext n = n.
Proof.
  unfold splitext_ext, splitext_root. destruct (last_dot n) as [b|] eqn:L; [|now rewrite skipn_all, app_nil_r]. destruct (existsb _ b); [|now rewrite skipn_all, app_nil_r].
  apply last_dot_inv in L as (e & -> & _). rewrite skipn_app, skipn_all, Nat.sub_diag. reflexivity.
Qed.
Lemma qml_spec n : text_eqb (map lower (splitext_ext n)) (T ".qml") = true <-> is_qml n.
Proof.
  rewrite text_eqb_eq. split.
  - intros H. pose proof (ext_root n) as R. destruct (map_lower_dot _ _ H) as (e' & E & _). unfold splitext_root in R. destruct (last_dot n) as [b|] eqn:L.
    + destruct (existsb _ b) eqn:X.
      * apply some_nondot in X as (c & I & N). exists b, (splitext_ext n), c. repeat split; try assumption. now symmetry.
      * exfalso. rewrite <- (app_nil_r n) in R at 3. apply app_inv_head in R. rewrite R in H. discriminate.
    + exfalso. rewrite <- (app_nil_r n) in R at 3. apply app_inv_head in R. rewrite R in H. discriminate.
  - intros (stem & e & c & -> & E & I & N). destruct (map_lower_dot _ _ E) as (e' & -> & E'). unfold splitext_ext. rewrite root_stem by (try (now apply qml_nodot); eauto). rewrite skipn_app, skipn_all, Nat.sub_diag. exact E.
Qed.

Lemma leads_rel cwd cs ps : proper ps -> proper cs -> leads cs (relpath cwd (at_ ps) (at_ cs)) ps.
Proof.
  intros P C. destruct (relpath_words cwd ps cs P C) as (ws & N & F & E & A & NE & G). rewrite E. split; [assumption|]. intros any. rewrite split_noabs by assumption. specialize (G [] ltac:(constructor)). now rewrite !app_nil_r in G.
Qed.
Lemma leads_rel_more cwd cs ps w : proper ps -> proper cs -> component w -> leads cs (relpath cwd (at_ ps) (at_ cs) ++ T "/" ++ w) (ps ++ [w]).
Proof.
  intros P C W. destruct (relpath_words cwd ps cs P C) as (ws & N & F & E & A & NE & G). rewrite E.
  assert (J : join_slash ws ++ T "/" ++ w = join_slash (ws ++ [w])) by (rewrite join_app by (assumption || discriminate); reflexivity). rewrite J.
  assert (A' : isabs (join_slash (ws ++ [w])) = false /\ join_slash (ws ++ [w]) <> []).
  { rewrite <- J. destruct (join_slash ws) as [|c t]; [contradiction|]. split; [exact A|discriminate]. }
  split; [apply A'|]. intros any. rewrite split_noabs; try assumption; try apply A'; [|destruct ws; discriminate|].
  - apply G. now apply proper1.
  - apply Forall_app. split; [assumption|]. constructor; [apply W|constructor].
Qed.
Lemma language_component f l : component f -> language f l -> component l /\ component (l ++ T ".po").
Proof.
  intros (F1 & F2 & F3 & F4) L. 
  assert (PO : forall l, ~ In slash l -> component (l ++ T ".po")).
  { intros x NS. repeat split; try (intros E; apply (f_equal (@length ascii)) in E; rewrite app_length in E; cbn in E; lia). intros I. apply in_app_iff in I as [I|I]; [contradiction|]. cbn in I. intuition discriminate. }
  inversion L as [stem c I N|stem D]; subst.
  - assert (NS : ~ In slash l) by (intros X; apply F2; apply in_app_iff; now left). split; [|now apply PO]. split; [intros ->; destruct I|]. split; [assumption|].
    split; intros ->; cbn in I; intuition congruence.
  - split; [now repeat split|]. now apply PO.
Qed.

Section Lang.
  Variable cs : list text.
  Hypothesis CS : proper cs.
  Notation cwd := (at_ cs).

  Lemma po_at ds : proper ds -> po_dir (at_ ds) = at_ (ds ++ [T "po"]).
  Proof. intros P. apply join_at; [assumption|apply c_po]. Qed.
  Lemma mo_at ds l : proper ds -> component l -> mo_dir (at_ ds) l = at_ (ds ++ [T "build"; T "mo"; l; T "LC_MESSAGES"]).
  Proof.
    intros P L. unfold mo_dir. rewrite join_at by (assumption || apply c_build). rewrite join_at by (apply c_mo || (apply proper_app; [assumption|apply proper1, c_build])).
    rewrite join_at by (try assumption; repeat apply proper_app; try assumption; apply proper1; (apply c_build || apply c_mo)).
    rewrite join_at by (try apply c_lc; repeat apply proper_app; try assumption; apply proper1; (apply c_build || apply c_mo || assumption)). now rewrite <- !app_assoc.
  Qed.
  (** All steps, in their order: the template, the translations of each language, and the
      catalogue of each language where the installed provider looks for it. *)
  Theorem C76_translations no_pot no_merge no_mo domain ex data files listing ls ds : proper ds -> component (domain ++ T ".mo") ->
    Forall component listing -> languages listing ls ->
    match data with None => files = [] | Some l => Forall (fun x => proper (fst (fst x)) /\ component (snd (fst x))) l /\ qml_files l files end ->
    exists pot merge mo,
      i18n cwd (mk_flags false no_pot no_merge no_mo) (Some domain) ex (option_map (map (fun x => (at_ (fst (fst x)), snd (fst x), snd x))) data) listing (at_ ds) =
        ((if ex then [] else [MakeDirs (at_ (ds ++ [T "po"]))]) ++ pot ++ merge ++ mo, Exit None) /\
      (if no_pot then pot = [] else template ds domain files pot) /\
      (if no_merge then merge = [] else merges ds domain ls merge) /\
      (if no_mo then mo = [] else catalogues cs ds domain ls mo).
  Proof.
    intros P D FL L DT. pose proof (po_at ds P) as PO.
    exists (if no_pot then [] else update_pot cwd domain (at_ ds) (option_map (map (fun x => (at_ (fst (fst x)), snd (fst x), snd x))) data) false),
      (if no_merge then [] else merge_po domain (at_ ds) listing false), (if no_mo then [] else build_mo cwd domain (at_ ds) listing false).
    assert (LC : Forall component ls /\ Forall (fun l => component (l ++ T ".po")) ls).
    { clear - FL L. induction L as [|f l r ls H _ IH|f r ls H _ IH]; [split; constructor| |]; inversion FL; subst; destruct (IH ltac:(assumption)); [|now split]. destruct (language_component f l ltac:(assumption) H). split; now constructor. }
    split; [unfold i18n; cbn [f_dry f_no_pot f_no_merge f_no_mo]; now rewrite PO|]. split; [|split].
    - destruct no_pot; [reflexivity|]. unfold update_pot, cmd. rewrite PO. destruct data as [l|]; cbn [option_map].
      + destruct DT as [DP Q]. set (qml := map _ _). assert (F2 : Forall2 (fun f q => leads (ds ++ [T "po"]) q f) files qml).
        { subst qml. clear - DP Q P CS. induction Q as [|d n r l H Q IH|d n r l Q IH|d n b r l H Q IH]; cbn [map filter fst snd]; [constructor| | |]; inversion DP as [|? ? (H1 & H2) DP']; subst; cbn [fst snd] in H1, H2.
          - apply qml_spec in H. rewrite H. cbn [andb map fst snd]. constructor; [|now apply IH]. rewrite join_at by assumption. apply leads_rel; [apply proper_app; [assumption|now apply proper1]|apply proper_app; [assumption|apply proper1, c_po]].
          - rewrite andb_false_r. now apply IH.
          - assert (E : text_eqb (map lower (splitext_ext n)) (T ".qml") = false) by (destruct (text_eqb (map lower (splitext_ext n)) (T ".qml")) eqn:E; [exfalso; apply H; now apply qml_spec|reflexivity]). rewrite E. now apply IH. }
        destruct qml as [|q qml].
        * inversion F2; subst. constructor.
        * cbn [app]. apply (template_qml ds domain files (q :: qml)); [intros ->; inversion F2|exact F2].
      + subst files. constructor.
    - destruct no_merge; [reflexivity|]. unfold merge_po. rewrite (languages_flat (fun l => MakeDirs (mo_dir (at_ ds) l) :: cmd [T "intltool-update"; T "--gettext-package=" ++ domain; T "--dist"; l] (Some (po_dir (at_ ds))) false) listing ls L).
      destruct LC as [LC _]. clear - LC P PO. induction LC as [|l ls LC _ IH]; cbn [flat_map cmd app]; [constructor|]. rewrite PO, mo_at by assumption. constructor. rewrite PO in IH. exact IH.
    - destruct no_mo; [reflexivity|]. unfold build_mo. rewrite (languages_flat (fun l => MakeDirs (mo_dir (at_ ds) l) :: cmd [T "msgfmt"; relpath cwd (po_dir (at_ ds)) cwd ++ T "/" ++ l ++ T ".po"; T "-o"; relpath cwd (mo_dir (at_ ds) l ++ T "/" ++ domain ++ T ".mo") cwd] None false) listing ls L).
      destruct LC as [LC LP]. clear - LC LP P PO D CS. induction LC as [|l ls LC _ IH]; cbn [flat_map cmd app]; [constructor|]. inversion LP; subst. rewrite PO, mo_at by assumption. rewrite PO in IH. constructor; [| |now apply IH].
      + pose proof (leads_rel_more cwd cs (ds ++ [T "po"]) (l ++ T ".po")) as W. rewrite <- app_assoc in W. apply W; try assumption. apply proper_app; [assumption|apply proper1, c_po].
      + assert (E : at_ (ds ++ [T "build"; T "mo"; l; T "LC_MESSAGES"]) ++ T "/" ++ domain ++ T ".mo" = at_ (ds ++ [T "build"; T "mo"; l; T "LC_MESSAGES"; domain ++ T ".mo"])).
        { unfold at_. change (ds ++ [T "build"; T "mo"; l; T "LC_MESSAGES"; domain ++ T ".mo"]) with (ds ++ [T "build"; T "mo"; l; T "LC_MESSAGES"] ++ [domain ++ T ".mo"]). rewrite (app_assoc ds), (join_app (ds ++ _) [domain ++ T ".mo"]) by (destruct ds; discriminate). reflexivity. }
        rewrite E. apply leads_rel; [|assumption]. apply proper_app; [assumption|]. repeat constructor; try assumption; try apply c_build; try apply c_mo; try apply c_lc; apply LC || apply D.
  Qed.
  (** A dry run runs nothing. *)
  Theorem C76_dry_run no_pot no_merge no_mo domain ex data listing loc : Forall (fun e => ~ runs e) (fst (i18n cwd (mk_flags true no_pot no_merge no_mo) domain ex data listing loc)).
  Proof.
    unfold i18n. destruct domain as [d|]; [|constructor]. cbn [fst f_dry f_no_pot f_no_merge f_no_mo].
    assert (M : forall (g : text -> text) l, Forall (fun e => ~ runs e) (flat_map (fun i => if ends_with_po i then MakeDirs (g i) :: [] else []) l)).
    { intros g l. induction l as [|i l IH]; cbn; [constructor|]. destruct (ends_with_po i); [constructor; [now intros []|exact IH]|exact IH]. }
    apply Forall_app. split; [destruct ex; repeat constructor; now intros []|]. apply Forall_app. split.
    - destruct no_pot; [constructor|]. unfold update_pot, cmd. cbn [app]. destruct data as [l|]; [|constructor]. cbv zeta. match goal with |- context [match ?m with [] => _ | _ :: _ => _ end] => destruct m end; constructor.
    - apply Forall_app. split; [destruct no_merge; [constructor|apply (M (fun i => mo_dir loc (splitext_root i)))]|destruct no_mo; [constructor|apply (M (fun i => mo_dir loc (splitext_root i)))]].
  Qed.
  (** Without a domain nothing is done. *)
  Theorem C76_no_domain f ex data listing loc : i18n cwd f None ex data listing loc = ([], Exit (Some 1%Z)).
  Proof. reflexivity. Qed.
  (** ... but with a dry run directories are made. *)
  Theorem C76_dry_run_changes_nothing_refuted f domain data listing ds : proper ds -> In (MakeDirs (at_ (ds ++ [T "po"]))) (fst (i18n cwd f (Some domain) false data listing (at_ ds))).
  Proof. intros P. unfold i18n. rewrite po_at by assumption. cbn [fst]. now left. Qed.
End Lang.
Print Assumptions C76_translations.
Print Assumptions C76_dry_run.
Print Assumptions C76_no_domain.
Print Assumptions C76_dry_run_changes_nothing_refuted.

(** ** Concrete cases *)
Definition ex_dir := [T "home"; T "me"; T "my prov"].
Definition ex_world (files : list text) := mk_world (map (fun f => ex_dir ++ [T "src"; f]) files) (fun p => existsb (fun f => text_eqb p (at_ (ex_dir ++ [T "src"; f]))) files) (fun _ => false).
Example C76_case_dir : proper ex_dir /\ no_magic ex_dir.
Proof.
  split; [repeat constructor; try discriminate; cbn; intuition discriminate|]. intros d c I J. repeat (destruct I as [<-|I]; [cbn in J; intuition (subst; discriminate)|]). destruct I.
Qed.
Example C76_case_make : build (T "/") (ex_world [T "Makefile"; T "x.go"]) (builtin (T "/")) None (fun _ => 2%Z) (at_ ex_dir) =
  ([MakeDirs (T "/home/me/my prov/build/bin"); Shell (T "VPATH=../../src make -f ../../src/Makefile") (T "/home/me/my prov/build/bin") (T "../../src")], Exit (Some 2%Z)).
Proof. vm_compute. reflexivity. Qed.
Example C76_case_go : guess (ex_world [T "x.go"]) (builtin (T "/")) (at_ ex_dir) = Some (Some (T "go build ../../src/*.go")).
Proof. vm_compute. reflexivity. Qed.
Example C76_case_nothing : build (T "/") (ex_world [T "x.c"]) (builtin (T "/")) None (fun _ => 2%Z) (at_ ex_dir) = ([], Exit (Some 0%Z)).
Proof. vm_compute. reflexivity. Qed.
Example C76_case_languages : languages [T "de.po"; T "prov.pot"; T "pt.br.po"] [T "de"; T "pt.br"].
Proof.
  apply language_file; [apply (language_stem (T "de") "d"); [now left|discriminate]|]. apply other_file.
  - intros l L. assert (X : ends_with_po (T "prov.pot") = true) by (apply language_exists; inversion L; eauto). vm_compute in X. discriminate.
  - apply language_file; [apply (language_stem (T "pt.br") "p"); [now left|discriminate]|]. constructor.
Qed.
Example C76_case_i18n : i18n (at_ ex_dir) (mk_flags false false true false) (Some (T "prov")) true (Some [(T "/home/me/my prov/data", T "a.QML", true)]) [T "de.po"; T "prov.pot"] (at_ ex_dir) =
  ([Run [T "intltool-update"; T "--gettext-package=prov"; T "--pot"] (Some (T "/home/me/my prov/po"));
    Run [T "xgettext"; T "-o"; T "prov.pot"; T "--qt"; T "--c++"; T "--join-existing"; T "--keyword=tr"; T "--keyword=tr:1,2"; T "--from-code=UTF-8"; T "../data/a.QML"] (Some (T "/home/me/my prov/po"));
    MakeDirs (T "/home/me/my prov/build/mo/de/LC_MESSAGES");
    Run [T "msgfmt"; T "po/de.po"; T "-o"; T "build/mo/de/LC_MESSAGES/prov.mo"] None], Exit None).
Proof. vm_compute. reflexivity. Qed.

(** ** What does not hold *)

(** Without any build system (the entry points are not installed) there is an IndexError
    rather than nothing to do. *)
Theorem C76_no_build_systems_refuted cwd w code loc : build cwd w [] None code loc = ([], IndexError).
Proof. reflexivity. Qed.
Print Assumptions C76_no_build_systems_refuted.
(** The name of the directory is taken for a pattern when Go sources are looked for: they
    are not found in a directory such as /a[b], and those of /ab are found instead. *)
Theorem C76_any_directory_refuted :
  let here := [T "a[b]"] in let there := [T "ab"] in
  let only ds := mk_world [ds ++ [T "src"; T "x.go"]] (fun _ => false) (fun _ => false) in
  proper here /\ has_go_source (only here) here /\ guess (only here) (builtin (T "/")) (at_ here) = Some None /\
  ~ has_go_source (only there) here /\ guess (only there) (builtin (T "/")) (at_ here) = Some (Some (T "go build ../../src/*.go")).
Proof.
  split; [repeat constructor; try discriminate; cbn; intuition discriminate|]. split.
  - exists (T "x.go"). split; [now left|]. split; [now exists (T "x")|discriminate].
  - split; [vm_compute; reflexivity|]. split; [|vm_compute; reflexivity]. intros (n & [E|[]] & _). discriminate.
Qed.
Print Assumptions C76_any_directory_refuted.
(** A build system with a negative score is used when there is no better one. *)
Theorem C76_negative_scores_refuted w loc : exists b, (b_probe b w (src_dir loc) < 0)%Z /\ guess w [b] loc = Some (Some (b_command b (src_dir loc) (build_bin_dir loc))).
Proof. exists (mk_buildsystem (fun _ _ => (-1)%Z) (fun _ _ => [])). split; [reflexivity|]. reflexivity. Qed.
Print Assumptions C76_negative_scores_refuted.
