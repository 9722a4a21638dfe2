(** * manage.py: installing and developing providers

    /repo/plainbox/provider_manager.py 169-388 (install), 421-486 (sdist),
    514-560 (develop), 1054-1126 (validate), 1450-1498 (setup).

    Simplified: the file system has directories and files with texts, without
    links, permissions and modes; no component of a path is . or .. ; executables
    are those that the provider lists (ProviderModel.executable_list). *)
From Coq Require Import String Ascii List Bool Arith.
From Verif Require Import ScanModel Rfc822Model IniModel ConfigModel PluginModel ProviderModel ProvdefModel.
Import ListNotations.
Local Open Scope nat_scope.
Local Open Scope list_scope.

(** ** The file system *)

Inductive node := Dir | File (t : text).
(** What there is at a path, given by its components *)
Definition fs := list text -> option node.

(** The components of a path; empty ones do not matter *)
Fixpoint pieces (cur t : text) : list text :=
  match t with
  | [] => [rev cur]
  | c :: r => if Ascii.eqb c SL then rev cur :: pieces [] r else pieces (c :: cur) r
  end.
Definition comps (t : text) : list text := filter (fun c => match c with [] => false | _ => true end) (pieces [] t).

(** What is left of a path below a directory *)
Fixpoint below (d p : list text) : option (list text) :=
  match d, p with
  | [], _ => Some p
  | a :: d', b :: p' => if text_eqb a b then below d' p' else None
  | _ :: _, [] => None
  end.

Definition is_file (n : option node) : bool := match n with Some (File _) => true | _ => false end.
Definition is_dir (n : option node) : bool := match n with Some Dir => true | _ => false end.
Definition exists_ (n : option node) : bool := match n with Some _ => true | None => false end.
Definition isdir (f : fs) (t : text) : bool := is_dir (f (comps t)).

(** os.makedirs(d, exist_ok=True); None is OSError *)
Definition makedirs (d : list text) (f : fs) : option fs :=
  if existsb (fun k => is_file (f (firstn k d))) (seq 0 (S (length d))) then None
  else Some (fun p => match below p d with
                      | Some _ => match f p with Some n => Some n | None => Some Dir end
                      | None => f p
                      end).
(** try: os.makedirs(...) except IOError: pass *)
Definition try_makedirs (d : list text) (f : fs) : fs := match makedirs d f with Some f' => f' | None => f end.

(** open(p, 'wt') and writing; None is OSError *)
Definition put (p : list text) (n : option node) (f : fs) : fs :=
  fun q => match below p q with Some [] => n | _ => f q end.
Definition write_file (p : list text) (t : text) (f : fs) : option fs :=
  if is_dir (f (removelast p)) && negb (is_dir (f p)) && negb (match p with [] => true | _ => false end)
  then Some (put p (Some (File t)) f) else None.

(** shutil.copytree; copying a directory into itself does not end well *)
Definition copytree (src dst : list text) (f : fs) : option fs :=
  if is_dir (f src) && negb (exists_ (f dst)) && negb (match below src dst with Some _ => true | None => false end) then
    match makedirs dst f with
    | Some f' => Some (fun p => match below dst p with Some rest => f (src ++ rest) | None => f' p end)
    | None => None
    end
  else None.
(** shutil.copy(file, directory) *)
Definition copy_file (src dst : list text) (f : fs) : option fs :=
  match f src with
  | Some (File t) => if is_dir (f dst) then write_file (dst ++ [last src []]) t f else write_file dst t f
  | _ => None
  end.

(** ** setup, 1478-1490: None is SystemExit with a message *)
Definition given (o : option text) (otherwise : value) : value := match o with Some t => VStr t | None => otherwise end.
Definition setup (f : fs) (location : text) (name namespace version description domain : option text) : option config :=
  set_all_vars
    [(X_location (isdir f), VStr location); (X_name, given name VNone); (X_namespace, given namespace VUnset);
     (X_version, given version VNone); (X_description, given description VNone); (X_domain, given domain VUnset)] new_config.

(** ** install *)

Inductive layout := Unix | Flat | Relocatable.
(** The entries of a layout other than po, which is not installed *)
Inductive item := Bin | Mo | Data | Jobs | Units | Definition_.

(** Where they are in the source *)
Definition source (k : item) : list text :=
  match k with
  | Bin => [T "bin"] | Mo => [T "build"; T "mo"] | Data => [T "data"] | Jobs => [T "jobs"] | Units => [T "units"]
  | Definition_ => [T "provider"]
  end.
Definition PPP : text := T "plainbox-providers-1".
(** name_without_colon, v1.py 1249-1254 *)
Definition without_colon (name : text) : text := map (fun c => if Ascii.eqb c ":" then "."%char else c) name.
Definition file_name (name : text) : text := without_colon name ++ T ".provider".

(** 177-224, below the prefix *)
Definition dest (l : layout) (name : text) (k : item) : list text :=
  match l, k with
  | Unix, Bin => [T "lib"; name; T "bin"]
  | Unix, Mo => [T "share"; T "locale"]
  | Unix, Data => [T "share"; name; T "data"]
  | Unix, Jobs => [T "share"; name; T "jobs"]
  | Unix, Units => [T "share"; name; T "units"]
  | Unix, Definition_ => [T "share"; PPP; file_name name]
  | Flat, Bin => [T "lib"; PPP; name; T "bin"]
  | Flat, Mo => [T "lib"; PPP; name; T "locale"]
  | Flat, Data => [T "lib"; PPP; name; T "data"]
  | Flat, Jobs => [T "lib"; PPP; name; T "jobs"]
  | Flat, Units => [T "lib"; PPP; name; T "units"]
  | Flat, Definition_ => [T "share"; PPP; file_name name]
  | Relocatable, Bin => [T "bin"]
  | Relocatable, Mo => [T "locale"]
  | Relocatable, Data => [T "data"]
  | Relocatable, Jobs => [T "jobs"]
  | Relocatable, Units => [T "units"]
  | Relocatable, Definition_ => [file_name name]
  end.
(** template.format(prefix=..., provider=...) *)
Definition path (prefix : text) (cs : list text) : text := prefix ++ concat (map (cons SL) cs).

(** config_obj.remove_option *)
Definition remove_option (opt : text) (i : ini) : ini :=
  mk_ini (i_defaults i)
    (tset SECTION (tdel opt (match tget SECTION (i_sections i) with Some d => d | None => [] end)) (i_sections i)).
Fixpoint set_options (l : list (text * text)) (i : ini) : option ini :=
  match l with
  | [] => Some i
  | (k, v) :: r => match ini_set SECTION k v i with Some i => set_options r i | None => None end
  end.
(** 227-233 _DEF_MAP *)
Definition def_map : list (item * text) :=
  [(Bin, T "bin_dir"); (Mo, T "locale_dir"); (Data, T "data_dir"); (Jobs, T "jobs_dir"); (Units, T "units_dir")].

(** 344-379 _get_provider_config_obj; None is ValueError *)
Definition config_obj (l : layout) (prefix name : text) (loc : list text) (exes : list text) (f : fs) (g : config) : option ini :=
  match get_parser_obj (definition_class (isdir f)) g with
  | None => None
  | Some i =>
      match l with
      | Flat => set_options [(T "location", path prefix [T "lib"; PPP; name])] i
      | Relocatable => option_map (remove_option (T "location")) (set_options [(T "relocatable", T "True")] i)
      | Unix =>
          set_options
            (map (fun e => (snd e, path prefix (dest Unix name (fst e)))) (filter (fun e => exists_ (f (loc ++ source (fst e)))) def_map)
             ++ match exes with [] => [] | _ => [(T "bin_dir", path prefix (dest Unix name Bin))] end)
            (remove_option (T "location") i)
      end
  end.

(** 381-387 and 295-300: the file is opened before its contents are computed *)
Definition write_definition (root prefix : text) (l : layout) (name : text) (loc : list text) (exes : list text) (g : config) (f : fs) : fs * bool :=
  let p := comps (root ++ path prefix (dest l name Definition_)) in
  match write_file p [] (try_makedirs (removelast p) f) with
  | None => (try_makedirs (removelast p) f, false)
  | Some f1 =>
      match config_obj l prefix name loc exes f g with
      | None => (f1, false)
      | Some i => match write_file p (write_ini i) f1 with Some f2 => (f2, true) | None => (f1, false) end
      end
  end.

(** 302-313 _copy_all_executables *)
Fixpoint copy_files (exes : list text) (d : list text) (f : fs) : fs * bool :=
  match exes with
  | [] => (f, true)
  | e :: r => match copy_file (comps e) d f with Some f' => copy_files r d f' | None => (f, false) end
  end.
Definition copy_executables (root prefix : text) (l : layout) (name : text) (exes : list text) (f : fs) : fs * bool :=
  match exes with
  | [] => (f, true)
  | _ => let d := comps (root ++ path prefix (dest l name Bin)) in copy_files exes d (try_makedirs d f)
  end.

(** 315-332 _copy_all_data; [order] is the order of the dictionary *)
Definition is_bin (k : item) : bool := match k with Bin => true | _ => false end.
Fixpoint copy_data (root prefix : text) (l : layout) (name : text) (loc : list text) (order : list item) (f : fs) : fs * bool :=
  match order with
  | [] => (f, true)
  | k :: r =>
      if is_bin k then copy_data root prefix l name loc r f
      else
        let dst := comps (root ++ path prefix (dest l name k)) in
        if exists_ (f (loc ++ source k)) then
          match copytree (loc ++ source k) dst (try_makedirs (removelast dst) f) with
          | Some f' => copy_data root prefix l name loc r f'
          | None => (try_makedirs (removelast dst) f, false)
          end
        else copy_data root prefix l name loc r f
  end.

(** 276-293 invoked; false is an exception *)
Definition install (root prefix : text) (l : layout) (order : list item) (exes : list text) (g : config) (f : fs) : fs * bool :=
  let name := match as_text (get_var X_name g) with Some t => t | None => [] end in
  let loc := comps (match as_text (get_var (X_location (isdir f)) g) with Some t => t | None => [] end) in
  match write_definition root prefix l name loc exes g f with
  | (f, false) => (f, false)
  | (f, true) =>
      match copy_executables root prefix l name exes f with
      | (f, false) => (f, false)
      | (f, true) => copy_data root prefix l name loc order f
      end
  end.

(** ** develop, 541-560 *)
Inductive exit := Done | Exists | Raised.
Definition develop (uninstall force : bool) (directory : text) (g : config) (f : fs) : fs * exit :=
  let name := match as_text (get_var X_name g) with Some t => t | None => [] end in
  let p := comps (pjoin directory (file_name name)) in
  if uninstall then ((if is_file (f p) then put p None f else f), Done)
  else if is_file (f p) && negb force then (f, Exists)
  else
    match makedirs (removelast p) f with
    | None => (f, Raised)
    | Some f1 =>
        match write_file p [] f1 with
        | None => (f1, Raised)
        | Some f2 =>
            match write (definition_class (isdir f)) g with
            | None => (f2, Raised)
            | Some t => match write_file p t f2 with Some f3 => (f3, Done) | None => (f2, Raised) end
            end
        end
    end.

(** ** validate, 1054-1126 *)
Inductive severity := Error | Warning | Advice.
Definition not_advice (s : severity) : bool := match s with Advice => false | _ => true end.
Definition is_error (s : severity) : bool := match s with Error => true | _ => false end.
(** An issue: its severity and whether it is of the kind deprecated *)
Definition issue := (severity * bool)%type.
(** 1118-1126 get_early_issues, of errors: one loop in another *)
Definition early_issues (n : nat) : list issue := concat (repeat (repeat (Error, false) n) n).
(** 1082-1113: what is shown, how much is hidden, the exit code *)
Definition shown (strict deprecated : bool) (i : issue) : bool := not_advice (fst i) || (deprecated && snd i) || strict.
Definition failing (strict : bool) (i : issue) : bool :=
  is_error (fst i) || (strict && match fst i with Warning => true | _ => false end) || (strict && not_advice (fst i)).
Definition validate_command (strict deprecated : bool) (problems : nat) (issues : list issue) : list issue * nat * nat :=
  let all := early_issues problems ++ issues in
  (filter (shown strict deprecated) all,
   length (filter (fun i => negb (shown strict deprecated i)) all),
   if existsb (failing strict) all then 1 else 0).

(** ** sdist, 425, 471-481: the members of the archive, below its top directory *)
Definition included : list text := map T ["manage.py"; "README.md"; "units"; "jobs"; "COPYING"; "bin"; "src"; "data"; "po"]%string.
Definition archive (loc : list text) (f : fs) : fs :=
  fun p => match p with
           | x :: r => if tmem x included then f (loc ++ x :: r) else None
           | [] => Some Dir
           end.
(** 482-486: the text given to the shell *)
Definition sign_command (name version : text) : text :=
  T "gpg --armor --sign --detach-sig " ++ without_colon name ++ T "-" ++ version ++ T ".tar.gz".
