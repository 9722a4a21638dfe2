(** * C76: what building a provider should do *)
From Coq Require Import String Ascii List Bool Arith ZArith.
From Verif Require Import ScanModel PathModel IniModel ConfigModel ResumeSpec BuildModel.
Import ListNotations.
Local Open Scope nat_scope.
Local Open Scope list_scope.

(** The absolute name of something by the names on the way from the root *)
Definition at_ (names : list text) : text := slash :: join_slash names.
(** A directory whose names are proper ones *)
Definition proper (names : list text) : Prop := Forall component names.

(** What is in the source directory of the provider in the directory [ds] *)
Definition has_source (w : world) (ds : list text) (name : text) : Prop := w_isfile w (at_ (ds ++ [T "src"; name])) = true.
Definition has_go_source (w : world) (ds : list text) : Prop :=
  exists name, In (ds ++ [T "src"; name]) (w_paths w) /\ (exists stem, name = stem ++ T ".go") /\ (forall r, name <> "."%char :: r).
(** no name on the way has a character that means something in a pattern *)
Definition no_magic (ds : list text) : Prop := forall d c, In d ds -> In c d -> c <> "*"%char /\ c <> "?"%char /\ c <> "["%char.

(** The best build system: the last of those with the greatest score *)
Definition best (score : buildsystem -> Z) (l : list buildsystem) (b : buildsystem) : Prop :=
  exists before after, l = before ++ b :: after /\
    (forall x, In x before -> (score x <= score b)%Z) /\ (forall x, In x after -> (score x < score b)%Z).

(** The language of a file with translations: its name up to .po; a name that has only
    dots before that has no extension *)
Inductive language : text -> text -> Prop :=
| language_stem stem c : In c stem -> c <> "."%char -> language (stem ++ T ".po") stem
| language_dots stem : (forall c, In c stem -> c = "."%char) -> language (stem ++ T ".po") (stem ++ T ".po").
Inductive languages : list text -> list text -> Prop :=
| no_languages : languages [] []
| language_file f l r ls : language f l -> languages r ls -> languages (f :: r) (l :: ls)
| other_file f r ls : (forall l, ~ language f l) -> languages r ls -> languages (f :: r) ls.
(** A file of QML code *)
Definition is_qml (name : text) : Prop :=
  exists stem e c, name = stem ++ e /\ map lower e = T ".qml" /\ In c stem /\ c <> "."%char.

(** Effects that run something *)
Definition runs (e : effect) : Prop := match e with MakeDirs _ => False | _ => True end.

(** A relative name, used in the directory [cs], is the name of [target] *)
Definition leads (cs : list text) (a : text) (target : list text) : Prop :=
  isabs a = false /\ forall any, abs_components any (path_join (at_ cs) a) = target.
(** The QML files among what is in the data directory, with their absolute names *)
Inductive qml_files : list (list text * text * bool) -> list (list text) -> Prop :=
| no_qml : qml_files [] []
| qml_file d n r l : is_qml n -> qml_files r l -> qml_files ((d, n, true) :: r) ((d ++ [n]) :: l)
| not_a_file d n r l : qml_files r l -> qml_files ((d, n, false) :: r) l
| not_qml d n b r l : ~ is_qml n -> qml_files r l -> qml_files ((d, n, b) :: r) l.
(** What updates the template *)
Inductive template (ds : list text) (domain : text) : list (list text) -> list effect -> Prop :=
| template_jobs : template ds domain []
    [Run [T "intltool-update"; T "--gettext-package=" ++ domain; T "--pot"] (Some (at_ (ds ++ [T "po"])))]
| template_qml fs qs : fs <> [] -> Forall2 (fun f q => leads (ds ++ [T "po"]) q f) fs qs -> template ds domain fs
    [Run [T "intltool-update"; T "--gettext-package=" ++ domain; T "--pot"] (Some (at_ (ds ++ [T "po"])));
     Run ([T "xgettext"; T "-o"; domain ++ T ".pot"; T "--qt"; T "--c++"; T "--join-existing"; T "--keyword=tr"; T "--keyword=tr:1,2"; T "--from-code=UTF-8"] ++ qs)
       (Some (at_ (ds ++ [T "po"])))].
(** What merges the template into the translations of each language *)
Inductive merges (ds : list text) (domain : text) : list text -> list effect -> Prop :=
| merges_nil : merges ds domain [] []
| merges_cons l ls r : merges ds domain ls r -> merges ds domain (l :: ls)
    (MakeDirs (at_ (ds ++ [T "build"; T "mo"; l; T "LC_MESSAGES"])) ::
     Run [T "intltool-update"; T "--gettext-package=" ++ domain; T "--dist"; l] (Some (at_ (ds ++ [T "po"]))) :: r).
(** What makes the catalogue of each language, in the current directory [cs] *)
Inductive catalogues (cs ds : list text) (domain : text) : list text -> list effect -> Prop :=
| catalogues_nil : catalogues cs ds domain [] []
| catalogues_cons l ls r a b : leads cs a (ds ++ [T "po"; l ++ T ".po"]) ->
    leads cs b (ds ++ [T "build"; T "mo"; l; T "LC_MESSAGES"; domain ++ T ".mo"]) ->
    catalogues cs ds domain ls r -> catalogues cs ds domain (l :: ls)
    (MakeDirs (at_ (ds ++ [T "build"; T "mo"; l; T "LC_MESSAGES"])) :: Run [T "msgfmt"; a; T "-o"; b] None :: r).
