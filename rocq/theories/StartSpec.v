(** * Starting a provider: what is expected *)
From Coq Require Import String Ascii List Bool Arith.
From Verif Require Import ScanModel Rfc822Model IniModel ConfigModel PluginModel ProviderModel ProvdefModel ProvdefSpec InstallModel StartModel.
Import ListNotations.
Local Open Scope nat_scope.
Local Open Scope list_scope.

Definition path_eq : forall a b : list text, {a = b} + {a <> b} := list_eq_dec (list_eq_dec ascii_dec).
(** What a list of paths and nodes has at a path *)
Fixpoint listed (l : list (list text * node)) (p : list text) : option node :=
  match l with [] => None | (q, n) :: r => if path_eq q p then Some n else listed r p end.

(** A name that the command takes; also with a newline, since that is what $ in a
    regular expression means *)
Definition taken (name : text) : Prop := qualified name \/ exists n, name = n ++ [NL] /\ qualified n.

(** A Python program that calls setup with the name, version 1.0, a description
    and a translation domain *)
Definition calls_setup (name description domain t : text) : Prop :=
  exists comments, t = T "#!/usr/bin/env python3
from plainbox.provider_manager import setup, N_
" ++ comments ++ T "
setup(
    name='" ++ name ++ T "',
    version=""1.0"",
    description=N_(""" ++ description ++ T """),
    gettext_domain=""" ++ domain ++ T """,
)" /\
    Forall (fun line => line = [] \/ exists r, line = "#"%char :: r) (split_nl comments).
(** A text that means itself between quotes in Python *)
Definition literal (t : text) : Prop := forall c, In c t -> c <> "'"%char /\ c <> """"%char /\ c <> "\"%char /\ c <> NL.

(** The description and the domain that a new provider gets *)
Definition new_description (name : text) : text := T "The " ++ name ++ T " provider".
Definition dots_and_colons (name domain : text) : Prop :=
  Forall2 (fun c d => ((c = "."%char \/ c = ":"%char) /\ d = "_"%char) \/ (c <> "."%char /\ c <> ":"%char /\ d = c)) name domain.

(** What is in the directory of a new provider *)
Definition empty_provider (manage : text) : list (list text * node) := [([T "manage.py"], File manage)].
Definition new_provider (manage : text) : list (list text * node) :=
  [([T "manage.py"], File manage);
   ([T "units"], Dir); ([T "data"], Dir); ([T "bin"], Dir); ([T "po"], Dir);
   ([T "README.md"], File t_README_md);
   ([T "units"; T "examples-trivial.pxu"], File t_units_examples_trivial_pxu);
   ([T "units"; T "examples-normal.pxu"], File t_units_examples_normal_pxu);
   ([T "units"; T "examples-intermediate.pxu"], File t_units_examples_intermediate_pxu);
   ([T "po"; T "POTFILES.in"], File t_po_POTFILES_in);
   ([T "data"; T "README.md"], File t_data_README_md);
   ([T "data"; T "example.dat"], File (T "DATA"));
   ([T "bin"; T "README.md"], File t_bin_README_md);
   ([T "bin"; T "custom-executable"], File t_bin_custom_executable);
   ([T ".gitignore"], File t_gitignore); ([T ".bzrignore"], File t_bzrignore)].
(** The programs in it *)
Definition new_programs : list (list text) := [[T "manage.py"]; [T "bin"; T "custom-executable"]].

(** A directory of a new provider: that, and nothing else *)
Definition holds (w : world) (d : list text) (l : list (list text * node)) (programs : list (list text)) : Prop :=
  w_fs w d = Some Dir /\
  (forall x, x <> [] -> w_fs w (d ++ x) = listed l x) /\
  (forall x, w_exec w (d ++ x) = true <-> In x programs).

(** What kind of files there are in a new provider: a directory, a name, a role *)
Definition new_roles : list (string * string * role) :=
  [("", "manage.py", R_manage_py); ("", "README.md", R_docs); ("", ".gitignore", R_vcs); ("", ".bzrignore", R_vcs);
   ("/units", "examples-trivial.pxu", R_unit_source); ("/units", "examples-normal.pxu", R_unit_source);
   ("/units", "examples-intermediate.pxu", R_unit_source); ("/po", "POTFILES.in", R_src);
   ("/data", "README.md", R_data); ("/data", "example.dat", R_data);
   ("/bin", "README.md", R_docs); ("/bin", "custom-executable", R_script)]%string.

(** The units that a text defines: their types and identifiers *)
Definition field (k : string) (r : Rfc822Model.record) : string :=
  match tget (T k) (r_data r) with Some t => string_of_list_ascii t | None => "" end.
Definition defines_units (t : text) (us : list (string * string)) : Prop :=
  exists rs, load_stream t = inl rs /\ map (fun r => (field "unit" r, field "id" r)) rs = us.
(** Every job is in a category that the text defines *)
Definition categorised (t : text) : Prop :=
  exists rs, load_stream t = inl rs /\
    forall r, In r rs -> field "unit" r = "job"%string ->
      exists c, In c rs /\ field "unit" c = "category"%string /\ field "id" c = field "category_id" r.
