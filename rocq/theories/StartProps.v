(** * C67: starting a provider *)
From Coq Require Import String Ascii List Bool Arith Lia.
From Verif Require Import ScanModel Rfc822Model Rfc822Spec Rfc822Proofs IniModel IniProofs ConfigModel ConfigSpec ConfigWrite PluginModel PluginProps ProviderModel ProvdefModel ProvdefSpec ProvdefProps
  InstallModel InstallSpec InstallProofs InstallText InstallObj InstallProps StartModel StartSpec StartProofs.
Import ListNotations.
Local Open Scope nat_scope.
Local Open Scope list_scope.

(** ** Names *)

(** The characters of names *)
Definition iqn_char (c : ascii) : Prop := name_char c \/ c = "."%char \/ c = ":"%char.
Lemma label_chars l c : label l -> In c l -> iqn_char c.
Proof. intros (d & r & -> & S & H) [<-|I]; left; [now left|now apply H]. Qed.
Lemma qualified_chars t c : qualified t -> In c t -> iqn_char c.
Proof.
  intros (y & l & m & n & -> & Y & L & _ & M & N) I. apply in_app_or in I as [I|I].
  - destruct Y as [->|(a & b & d & e & -> & A & B & D & E)]; [destruct I|].
    destruct I as [<-|[<-|[<-|[<-|[<-|[]]]]]]; [left; right; now left|left; right; now left|left; right; now left|left; right; now left|right; now left].
  - apply in_app_or in I as [I|I]; [now apply (label_chars l)|]. apply in_app_or in I as [I|I].
    + apply in_concat in I as (k & K & I). apply in_map_iff in K as (k' & <- & K). destruct I as [<-|I]; [right; now left|]. rewrite Forall_forall in M. now apply (label_chars k'); [apply M|].
    + destruct I as [<-|I]; [right; now right|]. now apply (label_chars n).
Qed.
Lemma iqn_char_not (bad : ascii) : (nat_of_ascii bad < 45 \/ nat_of_ascii bad = 47 \/ 58 < nat_of_ascii bad < 97 \/ 122 < nat_of_ascii bad) -> forall c, iqn_char c -> c <> bad.
Proof.
  intros B c [[H|[H|H]]|[H|H]] E; subst; unfold is_small, ProvdefSpec.is_digit in *; cbn in *; lia.
Qed.
Lemma qualified_without bad t : (nat_of_ascii bad < 45 \/ nat_of_ascii bad = 47 \/ 58 < nat_of_ascii bad < 97 \/ 122 < nat_of_ascii bad) -> qualified t -> ~ In bad t.
Proof. intros B Q I. apply (iqn_char_not bad B bad); [now apply (qualified_chars t)|reflexivity]. Qed.
Lemma taken_without bad t : bad <> NL -> (nat_of_ascii bad < 45 \/ nat_of_ascii bad = 47 \/ 58 < nat_of_ascii bad < 97 \/ 122 < nat_of_ascii bad) -> taken t -> ~ In bad t.
Proof.
  intros D B [Q|(n & -> & Q)]; [now apply qualified_without|]. intros I. apply in_app_or in I as [I|[I|[]]]; [revert I; now apply qualified_without|congruence].
Qed.
Lemma qualified_ne t : qualified t -> t <> [] /\ t <> T ".".
Proof. intros Q. split; intros ->; pose proof (qualified_colon _ (or_introl Q)) as I; [destruct I|destruct I as [I|[]]; discriminate]. Qed.
Lemma taken_ok t : taken t -> name_ok t = true.
Proof.
  intros K. unfold name_ok. assert (C : In ":"%char t) by (now apply qualified_colon).
  apply andb_true_intro. split; [apply andb_true_intro; split; [apply andb_true_intro; split|]|].
  - destruct t; [destruct C|reflexivity].
  - apply forallb_forall. intros c I. apply negb_true_iff, Ascii.eqb_neq. intros ->. revert I. apply taken_without; [discriminate|cbn; lia|exact K].
  - apply negb_true_iff. destruct (text_eqb t (T ".")) eqn:E; [|reflexivity]. apply text_eqb_eq in E as ->. destruct C as [C|[]]; discriminate.
  - apply forallb_forall. intros c I. apply andb_true_intro. split; apply negb_true_iff, Ascii.eqb_neq; intros ->; revert I; (apply taken_without; [discriminate|cbn; lia|exact K]).
Qed.

(** A name is taken or there is an error about the arguments and nothing happens *)
Theorem C67_names cwd l name w : start_provider cwd l name w <> None <-> taken name.
Proof.
  unfold start_provider, taken. rewrite <- iqn_valid_spec. destruct (iqn_valid name); split; congruence.
Qed.
Print Assumptions C67_names.

(** ** Nothing is overwritten *)

(** Whatever the skeleton is and whenever it stops, everything that there was is
    still there *)
Theorem C67_nothing_is_overwritten cwd l name w states e : start_provider cwd l name w = Some (states, e) ->
  forall w' p n, In w' states -> w_fs w p = Some n -> w_fs w' p = Some n.
Proof.
  unfold start_provider. destruct (iqn_valid name); [|discriminate]. intros E w' p n I F.
  pose proof (careful_skeleton cwd (keywords name) (T ".") name l w) as C.
  assert (E' : instantiate_skeleton cwd (keywords name) (T ".") name l w = (states, e)) by congruence. rewrite E' in C. exact (C w' I p n F).
Qed.
Print Assumptions C67_nothing_is_overwritten.

Lemma start_root cwd name : taken name -> resolve cwd (pjoin (T ".") name) = cwd ++ [name] /\ relative (pjoin (T ".") name) /\ pjoin (T ".") name = T "./" ++ name.
Proof.
  intros K. destruct (name_ok_spec [] name (taken_ok name K)) as [N _]. destruct (resolve_in cwd (T ".") name) as [A B]; [split; [discriminate|reflexivity]|exact N|].
  split; [|split; [exact B|]].
  - rewrite A. unfold resolve. cbn [is_abs]. replace (filter _ (comps (T "."))) with (@nil text) by reflexivity. now rewrite app_nil_r.
  - destruct N as [[NE NS] _]. unfold pjoin. destruct name as [|c r]; [congruence|]. replace (Ascii.eqb c SLASH) with false; [reflexivity|]. symmetry. apply Ascii.eqb_neq. intros ->. apply NS. now left.
Qed.
(** If there is something with that name nothing is done *)
Theorem C67_in_the_way cwd l name w : taken name -> w_fs w (cwd ++ [name]) <> None ->
  start_provider cwd l name w = Some ([], InTheWay (T "./" ++ name)).
Proof.
  intros K E. unfold start_provider. rewrite (proj2 (iqn_valid_spec name) K). f_equal. unfold instantiate_skeleton, instantiate.
  destruct (name_ok_spec (keywords name) name (taken_ok name K)) as [_ F]. rewrite F. cbv zeta. destruct (start_root cwd name K) as (R & _ & J).
  unfold there. rewrite R. destruct (w_fs w (cwd ++ [name])); [|congruence]. cbn [exists_]. now rewrite <- J.
Qed.
Print Assumptions C67_in_the_way.

(** A run that was interrupted after its first step is not completed by another:
    that one refuses, and changes nothing *)
Theorem C67_interrupted cwd l name w states e w' : start_provider cwd l name w = Some (states, e) -> In w' states ->
  forall l', start_provider cwd l' name w' = Some ([], InTheWay (T "./" ++ name)).
Proof.
  intros E I l'. assert (K : taken name) by (apply (C67_names cwd l name w); congruence). apply C67_in_the_way; [exact K|].
  assert (E' : instantiate_skeleton cwd (keywords name) (T ".") name l w = (states, e)) by (unfold start_provider in E; rewrite (proj2 (iqn_valid_spec name) K) in E; congruence).
  clear E. rename E' into E. unfold instantiate_skeleton in E.
  destruct (name_ok_spec (keywords name) name (taken_ok name K)) as [_ F]. destruct (start_root cwd name K) as (R & _ & _).
  set (r := instantiate cwd (keywords name) (T ".") (Directory name) w) in *.
  assert (D : r = ([], snd r) /\ snd r <> Completed \/ exists w1, r = ([w1], Completed) /\ w_fs w1 (cwd ++ [name]) = Some Dir).
  { unfold r, instantiate. rewrite F. cbv zeta. destruct (there _ _ w); [left; split; [reflexivity|discriminate]|]. unfold mkdir. rewrite R.
    destruct (_ && negb (exists_ _)); cbn [call]; [|left; split; [reflexivity|discriminate]]. right. eexists. split; [reflexivity|]. cbn [w_fs]. apply put_at. }
  destruct D as [[D1 D2]|(w1 & D1 & D2)].
  - rewrite then_fails in E by exact D2. rewrite D1 in E. assert (states = []) by congruence. subst states. destruct I.
  - rewrite D1 in E. unfold then_ in E. cbn [snd fst] in E. rewrite F in E. unfold final in E. cbn [fst fold_left app] in E.
    assert (ST : states = w1 :: fst (instantiate_all cwd (keywords name) (pjoin (T ".") name) l w1)) by congruence. subst states.
    destruct I as [<-|I]; [congruence|]. pose proof (careful_all cwd (keywords name) (pjoin (T ".") name) l w1 w' I) as C. rewrite (C _ _ D2). discriminate.
Qed.
Print Assumptions C67_interrupted.

(** ** The new provider *)

(** The name as it is when the directory is made; the rest is done in it *)
Lemma start_makes cwd l name w all : taken name -> w_fs w cwd = Some Dir -> (forall x, w_fs w (cwd ++ name :: x) = None) -> make (keywords name) [] l = Some all ->
  exists states, start_provider cwd l name w = Some (states, Completed) /\
    stage cwd (pjoin (T ".") name) w all (executables l) (final w (states, Completed)).
Proof.
  intros K D N M. unfold start_provider. rewrite (proj2 (iqn_valid_spec name) K). unfold instantiate_skeleton.
  destruct (name_ok_spec (keywords name) name (taken_ok name K)) as [_ F]. destruct (start_root cwd name K) as (R & RR & _).
  unfold instantiate at 1. rewrite F. cbv zeta. unfold there, mkdir. rewrite R, removelast_last, D, (N []). cbn [exists_ is_dir negb andb]. rewrite then_call. cbv beta.
  set (w1 := mk_world _ _).
  assert (S : stage cwd (pjoin (T ".") name) w [] [] w1).
  { unfold stage. rewrite R. split; [|split; [|split; [intros x; reflexivity|intros p _; reflexivity]]]; unfold w1; cbn [w_fs].
    - intros [|x y]; [rewrite app_nil_r; apply put_at|]. rewrite put_other; [rewrite <- app_assoc; apply N|]. intros X. apply (f_equal (@length text)) in X. rewrite app_length in X. cbn [length] in X. lia.
    - intros p P. rewrite put_other; [reflexivity|]. intros ->. now rewrite below_refl in P. }
  destruct (make_all cwd (keywords name) (pjoin (T ".") name) w RR l [] [] w1 all S M) as (tr & E & S'). rewrite E. cbn [fst snd app] in *.
  eexists. split; [reflexivity|]. unfold final in *. cbn [fst fold_left] in *. exact S'.
Qed.
Lemma stage_holds cwd name w l programs w' : taken name -> stage cwd (pjoin (T ".") name) w l programs w' -> (forall x, w_exec w (cwd ++ name :: x) = false) ->
  holds w' (cwd ++ [name]) l programs /\ (forall p, below (cwd ++ [name]) p = None -> w_fs w' p = w_fs w p /\ w_exec w' p = w_exec w p).
Proof.
  intros K (A & B & C & D) X. destruct (start_root cwd name K) as (R & _ & _). rewrite R in *. split; [split; [|split]|].
  - now rewrite <- (app_nil_r (cwd ++ [name])), A.
  - intros x N. rewrite A. destruct x; [congruence|reflexivity].
  - intros x. rewrite C. replace ((cwd ++ [name]) ++ x) with (cwd ++ name :: x) by (now rewrite <- app_assoc). rewrite X, orb_false_r. apply in_paths_spec.
  - intros p P. split; [now apply B|now apply D].
Qed.

(** The manage.py of a name *)
Definition manage_py_of (name : text) : text := match format (keywords name) Outside t_manage_py with Some t => t | None => [] end.
Lemma manage_py_formats name : format (keywords name) Outside t_manage_py = Some (manage_py_of name).
Proof. reflexivity. Qed.
Lemma make_empty name : make (keywords name) [] empty_skeleton = Some (empty_provider (manage_py_of name)).
Proof. reflexivity. Qed.

Definition comments_of_manage_py : text := T "
# You can inject other stuff here but please don't go overboard.
#
# In particular, if you need comprehensive compilation support to get
# your bin/ populated then please try to discuss that with us in the
# upstream project IRC channel #checkbox on irc.freenode.net.

# NOTE: one thing that you could do here, that makes a lot of sense,
# is to compute version somehow. This may vary depending on the
# context of your provider. Future version of PlainBox will offer git,
# bzr and mercurial integration using the versiontools library
# (optional)
".
Lemma manage_py_text name : manage_py_of name =
  T "#!/usr/bin/env python3
from plainbox.provider_manager import setup, N_
" ++ comments_of_manage_py ++ T "
setup(
    name=" ++ repr name ++ T ",
    version=""1.0"",
    description=N_(""The " ++ name ++ T " provider""),
    gettext_domain=""" ++ domain_of name ++ T """,
)".
Proof. reflexivity. Qed.

Lemma regroup (h c s v the p g z q n d : text) :
  h ++ c ++ s ++ (q ++ n ++ q) ++ (v ++ the) ++ n ++ (p ++ g) ++ d ++ z = h ++ c ++ (s ++ q) ++ n ++ (q ++ v) ++ (the ++ n ++ p) ++ g ++ d ++ z.
Proof. now rewrite <- !app_assoc. Qed.
Definition comment_b (l : text) : bool := match l with [] => true | c :: _ => Ascii.eqb c "#" end.
Lemma comments_b ls : forallb comment_b ls = true -> Forall (fun line => line = [] \/ exists r, line = "#"%char :: r) ls.
Proof.
  intros H. rewrite forallb_forall in H. apply Forall_forall. intros l I. specialize (H l I). destruct l as [|c r]; [now left|]. right. apply Ascii.eqb_eq in H as ->. now exists r.
Qed.
Lemma manage_py_calls name : qualified name -> calls_setup name (new_description name) (domain_of name) (manage_py_of name).
Proof.
  intros Q. exists comments_of_manage_py. split.
  - rewrite manage_py_text. unfold repr. rewrite escaped_plain by (apply qualified_without; [cbn; lia|exact Q]). unfold new_description.
    exact (regroup (T "#!/usr/bin/env python3
from plainbox.provider_manager import setup, N_
") comments_of_manage_py (T "
setup(
    name=") (T ",
    version=""1.0"",
    description=N_(""") (T "The ") (T " provider") (T """),
    gettext_domain=""") (T """,
)") [APOS] name (domain_of name)).
  - apply comments_b. vm_compute. reflexivity.
Qed.
Lemma domain_chars name : dots_and_colons name (domain_of name).
Proof.
  unfold dots_and_colons, domain_of. induction name as [|c r IH]; cbn [map]; constructor; [|exact IH].
  destruct (Ascii.eqb_spec c "."); [now left; split; [left|]|]. destruct (Ascii.eqb_spec c ":"); [now left; split; [right|]|]. right. now split.
Qed.
Lemma qualified_literal name : qualified name -> literal name.
Proof. intros Q c I. pose proof (qualified_chars name c Q I) as C. repeat split; (apply iqn_char_not; [cbn; lia|exact C]). Qed.
Lemma new_literals name : qualified name -> literal name /\ literal (new_description name) /\ literal (domain_of name).
Proof.
  intros Q. pose proof (qualified_literal name Q) as L. split; [exact L|]. split.
  - intros c I. unfold new_description in I. apply in_app_or in I as [I|I].
    + cbn in I. destruct I as [<-|[<-|[<-|[<-|[]]]]]; repeat split; discriminate.
    + apply in_app_or in I as [I|I]; [now apply L|]. cbn in I. repeat (destruct I as [<-|I]; [repeat split; discriminate|]). destruct I.
  - intros c I. unfold domain_of in I. apply in_map_iff in I as (d & E & I). destruct (Ascii.eqb d "." || Ascii.eqb d ":"); subst c; [repeat split; discriminate|now apply L].
Qed.
Lemma make_full name : make (keywords name) [] skeleton = Some (new_provider (manage_py_of name)).
Proof. reflexivity. Qed.

(** A new provider is complete: it has its manage.py, which calls setup with its
    name, and the examples; and nothing else has changed *)
Theorem C67_new_provider cwd name w : qualified name -> w_fs w cwd = Some Dir ->
  (forall x, w_fs w (cwd ++ name :: x) = None) -> (forall x, w_exec w (cwd ++ name :: x) = false) ->
  exists states manage domain, start_provider cwd skeleton name w = Some (states, Completed) /\
    holds (final w (states, Completed)) (cwd ++ [name]) (new_provider manage) new_programs /\
    (forall p, below (cwd ++ [name]) p = None -> w_fs (final w (states, Completed)) p = w_fs w p /\ w_exec (final w (states, Completed)) p = w_exec w p) /\
    calls_setup name (new_description name) domain manage /\ dots_and_colons name domain /\ literal name /\ literal (new_description name) /\ literal domain.
Proof.
  intros Q D N X. destruct (start_makes cwd skeleton name w _ (or_introl Q) D N (make_full name)) as (states & E & S).
  destruct (stage_holds cwd name w _ _ _ (or_introl Q) S X) as [H K]. exists states, (manage_py_of name), (domain_of name).
  split; [exact E|]. split; [exact H|]. split; [exact K|]. split; [now apply manage_py_calls|]. split; [apply domain_chars|]. now apply new_literals.
Qed.
Print Assumptions C67_new_provider.
(** With --empty there is only manage.py *)
Theorem C67_empty_provider cwd name w : qualified name -> w_fs w cwd = Some Dir ->
  (forall x, w_fs w (cwd ++ name :: x) = None) -> (forall x, w_exec w (cwd ++ name :: x) = false) ->
  exists states manage domain, start_provider cwd empty_skeleton name w = Some (states, Completed) /\
    holds (final w (states, Completed)) (cwd ++ [name]) (empty_provider manage) [[T "manage.py"]] /\
    (forall p, below (cwd ++ [name]) p = None -> w_fs (final w (states, Completed)) p = w_fs w p /\ w_exec (final w (states, Completed)) p = w_exec w p) /\
    calls_setup name (new_description name) domain manage /\ dots_and_colons name domain /\ literal name /\ literal (new_description name) /\ literal domain.
Proof.
  intros Q D N X. destruct (start_makes cwd empty_skeleton name w _ (or_introl Q) D N (make_empty name)) as (states & E & S).
  destruct (stage_holds cwd name w _ _ _ (or_introl Q) S X) as [H K]. exists states, (manage_py_of name), (domain_of name).
  split; [exact E|]. split; [exact H|]. split; [exact K|]. split; [now apply manage_py_calls|]. split; [apply domain_chars|]. now apply new_literals.
Qed.
Print Assumptions C67_empty_provider.

(** ** It is a provider *)

Lemma dots_domain name domain : dots_and_colons name domain -> domain = domain_of name.
Proof.
  intros H. induction H as [|c d n m [[[-> | ->] ->]|(A & B & ->)] _ IH]; [reflexivity| | |]; cbn [domain_of map]; fold (domain_of n); rewrite IH; try reflexivity.
  apply Ascii.eqb_neq in A, B. now rewrite A, B.
Qed.
Lemma domain_ok name : qualified name -> domain_valid (domain_of name) = true.
Proof.
  intros Q. apply domain_valid_spec. destruct (qualified_ne name Q) as [NE _]. destruct name as [|c r]; [congruence|]. exists (if Ascii.eqb c "." || Ascii.eqb c ":" then "_"%char else c), (domain_of r).
  split; [reflexivity|]. destruct (Ascii.eqb c "." || Ascii.eqb c ":") eqn:E; [tauto|]. apply orb_false_elim in E as [A B]. apply Ascii.eqb_neq in A, B.
  destruct (qualified_chars _ c Q (or_introl eq_refl)) as [[H|[H|H]]|[H|H]]; tauto.
Qed.
(** Its setup is one that manage.py accepts *)
Theorem C67_setup f location name domain : qualified name -> (exists r, location = SL :: r) -> f (comps location) = Some Dir -> dots_and_colons name domain ->
  exists g, setup f location (Some name) None (Some (T "1.0")) (Some (new_description name)) (Some domain) = Some g.
Proof.
  intros Q A D M. rewrite (dots_domain _ _ M). unfold setup. cbn [set_all_vars]. unfold set_var.
  unfold X_location. rewrite (proj2 (valid_dir (isdir f) "location" (VStr location))) by (right; exists location; split; [reflexivity|]; split; [exact A|]; unfold isdir; now rewrite D).
  destruct (qualified_name_valid name (or_introl Q)) as [NV NE].
  rewrite (proj2 (valid_name (given (Some name) VNone))) by (exists name; now split).
  rewrite (proj2 (valid_namespace (given None VUnset))) by (now left).
  rewrite (proj2 (valid_version (given (Some (T "1.0")) VNone))) by (exists (T "1.0"); split; [reflexivity|]; split; [vm_compute; reflexivity|discriminate]).
  rewrite (proj2 (valid_description (given (Some (new_description name)) VNone))) by (right; now eexists).
  rewrite (proj2 (valid_domain (given (Some (domain_of name)) VUnset))) by (right; exists (domain_of name); split; [reflexivity|now apply domain_ok]).
  eexists. reflexivity.
Qed.
Print Assumptions C67_setup.

Lemma tight_first t c r : t = c :: r -> isspace c = false -> starts_tight t.
Proof. intros -> E. exact E. Qed.
Lemma portable_chars t : t <> [] -> (forall c, In c t -> c <> NL /\ c <> PCT) -> (forall c r, t = c :: r -> isspace c = false) -> (forall c r, rev t = c :: r -> isspace c = false) -> portable t.
Proof.
  intros NE H A B. split; [apply writable_line|].
  - intros I. now destruct (H _ I).
  - destruct t; [congruence|]. eapply tight_first; [reflexivity|now eapply A].
  - destruct (rev t) as [|c r] eqn:E; [exact I|]. eapply tight_first; [reflexivity|now eapply B].
  - intros I. now destruct (H _ I).
Qed.
Lemma iqn_not_space c : iqn_char c -> isspace c = false.
Proof.
  intros C. assert (G : 45 <= nat_of_ascii c < 123) by (destruct C as [[H|[H|H]]|[H|H]]; subst; unfold is_small, ProvdefSpec.is_digit in *; cbn in *; lia).
  destruct c as [[] [] [] [] [] [] [] []]; try reflexivity; exfalso; cbn in G; lia.
Qed.
Lemma portable_iqn t : t <> [] -> (forall c, In c t -> iqn_char c) -> portable t.
Proof.
  intros NE H. apply portable_chars; [exact NE| | |].
  - intros c I. split; (apply iqn_char_not; [cbn; lia|now apply H]).
  - intros c r ->. apply iqn_not_space, H. now left.
  - intros c r E. apply iqn_not_space, H. apply in_rev. rewrite E. now left.
Qed.
Lemma portable_domain name : qualified name -> portable (domain_of name).
Proof.
  intros Q. destruct (qualified_ne name Q) as [NE _].
  assert (C : forall c, In c (domain_of name) -> iqn_char c \/ c = "_"%char).
  { intros c I. unfold domain_of in I. apply in_map_iff in I as (d & E & I). destruct (Ascii.eqb d "." || Ascii.eqb d ":"); [right; congruence|left; subst; now apply (qualified_chars name)]. }
  assert (SP : forall c, iqn_char c \/ c = "_"%char -> isspace c = false) by (intros c [K|K]; [now apply iqn_not_space|subst; reflexivity]).
  apply portable_chars.
  - destruct name; [congruence|discriminate].
  - intros c I. destruct (C c I) as [K|K]; [split; (apply iqn_char_not; [cbn; lia|exact K])|subst; split; discriminate].
  - intros c r E. apply SP, C. rewrite E. now left.
  - intros c r E. apply SP, C. apply in_rev. rewrite E. now left.
Qed.
Lemma portable_description name : qualified name -> portable (new_description name).
Proof.
  intros Q. apply portable_chars.
  - discriminate.
  - intros c I. unfold new_description in I. apply in_app_or in I as [I|I].
    + cbn in I. repeat (destruct I as [<-|I]; [split; discriminate|]). destruct I.
    + apply in_app_or in I as [I|I].
      * split; (apply iqn_char_not; [cbn; lia|now apply (qualified_chars name)]).
      * cbn in I. repeat (destruct I as [<-|I]; [split; discriminate|]). destruct I.
  - intros c r E. unfold new_description in E. injection E as <- _. reflexivity.
  - intros c r E. unfold new_description in E. rewrite !rev_app_distr in E. injection E as <- _. reflexivity.
Qed.

Lemma pjoin_not_nil a b : a <> [] -> component b -> pjoin a b <> [].
Proof.
  intros A [NE NS]. unfold pjoin. destruct b as [|c b]; [congruence|]. destruct (Ascii.eqb c SLASH); [discriminate|]. destruct a as [|x a]; [congruence|]. destruct (ends_slash (x :: a)); discriminate.
Qed.
(** A new provider, where it was started or wherever it is taken, can be installed:
    it has what installing needs (C65), with one program *)
Theorem C67_installable w location name manage domain : qualified name -> (exists r, location = SL :: r) -> portable location ->
  holds w (comps location) (new_provider manage) new_programs -> dots_and_colons name domain ->
  presentable (w_fs w) location name None (T "1.0") (new_description name) (Some domain) [pjoin (pjoin location (T "bin")) (T "custom-executable")] /\
  name <> T "locale".
Proof.
  intros Q A P (D & L & X) M. rewrite (dots_domain _ _ M). destruct (qualified_ne name Q) as [NE _]. split.
  - split; [intros _; exact Q|]. split; [|split; [exact P|split; [intros t; discriminate|split; [|split; [now apply portable_description|split]]]]].
    + split; [exact NE|]. split; [apply qualified_without; [cbn; lia|exact Q]|]. split; [apply qualified_without; [cbn; lia|exact Q]|]. apply portable_iqn; [exact NE|intros c; now apply qualified_chars].
    + apply portable_chars; [discriminate| | |].
      * intros c I. cbn in I. repeat (destruct I as [<-|I]; [split; discriminate|]). destruct I.
      * intros c r E. injection E as <- _. reflexivity.
      * intros c r E. cbn in E. injection E as <- _. reflexivity.
    + intros t E. injection E as <-. now apply portable_domain.
    + assert (AT : comps (pjoin (pjoin location (T "bin")) (T "custom-executable")) = comps location ++ [T "bin"; T "custom-executable"]).
      { assert (C1 : component (T "bin")) by (split; [discriminate|]; intros I; cbn in I; repeat (destruct I as [I|I]; [discriminate|]); destruct I).
        assert (C2 : component (T "custom-executable")) by (split; [discriminate|]; intros I; cbn in I; repeat (destruct I as [I|I]; [discriminate|]); destruct I).
        assert (LN : location <> []) by (destruct A as (r & ->); discriminate).
        rewrite pjoin_any; [|now apply pjoin_not_nil|exact C2]. rewrite pjoin_any; [|exact LN|exact C1]. now rewrite <- app_assoc. }
      split; [|split; [|split; [|split]]].
      * intros k K1 K2. destruct k; try congruence; rewrite L by discriminate; cbn; auto.
      * now rewrite L by discriminate.
      * now rewrite L by discriminate.
      * intros e [<-|[]]. rewrite AT, L by discriminate. now eexists.
      * constructor; [intros []|constructor].
  - intros ->. pose proof (qualified_colon _ (or_introl Q)) as I. cbn in I. repeat (destruct I as [I|I]; [discriminate|]). destruct I.
Qed.
Print Assumptions C67_installable.
