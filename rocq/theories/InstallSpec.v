(** * Installing providers: what is expected *)
From Coq Require Import String Ascii List Bool Arith.
From Verif Require Import ScanModel Rfc822Model IniModel ConfigModel ConfigSpec PluginModel ProviderModel ProvdefModel ProvdefSpec InstallModel.
Import ListNotations.
Local Open Scope nat_scope.
Local Open Scope list_scope.

(** A text that a definition file can carry *)
Definition portable (t : text) : Prop := writable t /\ ~ In PCT t.
Definition portable_if_given (o : option text) : Prop := forall t, o = Some t -> portable t.

(** The same files and directories, on another file system, elsewhere *)
Definition same_tree (f : fs) (here : text) (f' : fs) (there : text) : Prop :=
  forall x, f' (comps there ++ x) = f (comps here ++ x).
Definition carried (f : fs) (o : option text) (f' : fs) (o' : option text) : Prop :=
  match o, o' with
  | Some here, Some there => same_tree f here f' there
  | None, None => True
  | _, _ => False
  end.
(** The programs are all in one directory, under their own names *)
Definition programs_carried (f : fs) (exes : list text) (f' : fs) (o' : option text) : Prop :=
  match o' with
  | Some there => forall e, In e exes -> f' (comps there ++ [last (comps e) []]) = f (comps e)
  | None => exes = []
  end.

(** A provider found its way: the same data about it, the same contents *)
Definition arrived (f : fs) (exes : list text) (p : provider1) (f' : fs) (p' : provider1) : Prop :=
  q_name p' = q_name p /\ q_namespace p' = q_namespace p /\ q_version p' = q_version p /\
  q_description p' = q_description p /\ q_domain p' = q_domain p /\
  carried f (p_units (q_dirs p)) f' (p_units (q_dirs p')) /\
  carried f (p_jobs (q_dirs p)) f' (p_jobs (q_dirs p')) /\
  carried f (p_data (q_dirs p)) f' (p_data (q_dirs p')) /\
  carried f (p_locale (q_dirs p)) f' (p_locale (q_dirs p')) /\
  programs_carried f exes f' (p_bin (q_dirs p')).

(** Nothing is at a place or below it, and directories can be made up to it *)
Definition free (f : fs) (d : list text) : Prop :=
  (forall x, f (d ++ x) = None) /\ (forall k, is_file (f (firstn k d)) = false).
(** Two places of which neither is below the other *)
Definition apart (a b : list text) : Prop := below a b = None /\ below b a = None.

(** Where a part of a provider is installed *)
Definition place (root prefix : text) (l : layout) (name : text) (k : item) : list text := comps root ++ comps prefix ++ dest l name k.
(** Whether there is something to install there *)
Definition goes (f : fs) (loc : text) (exes : list text) (k : item) : Prop :=
  match k with
  | Definition_ => True
  | Bin => exes <> []
  | _ => f (comps loc ++ source k) <> None
  end.

(** A source directory: the parts that are there are directories; nothing in it
    is called provider and it has no ready-made locale; the programs are files with
    different names *)
Definition tidy (f : fs) (loc : text) (exes : list text) : Prop :=
  (forall k, k <> Bin -> k <> Definition_ -> f (comps loc ++ source k) = None \/ f (comps loc ++ source k) = Some Dir) /\
  f (comps loc ++ source Definition_) = None /\ is_dir (f (comps loc ++ [T "locale"])) = false /\
  (forall e, In e exes -> exists t, f (comps e) = Some (File t)) /\
  NoDup (map (fun e => last (comps e) []) exes).

(** Nothing is below a place yet *)
Definition vacant (f : fs) (d : list text) : Prop :=
  (forall x, x <> [] -> f (d ++ x) = None) /\ (forall k, is_file (f (firstn k d)) = false).
(** There is room: where the parts go nothing is yet, and that is not inside the
    parts of the source (or the other way around) *)
Definition room (f : fs) (root prefix : text) (l : layout) (name loc : text) (exes : list text) : Prop :=
  match l with
  | Unix => forall k, goes f loc exes k -> free f (place root prefix l name k)
  | Flat => vacant f (comps root ++ comps prefix ++ [T "lib"; PPP; name]) /\ free f (place root prefix l name Definition_)
  | Relocatable => vacant f (comps root ++ comps prefix)
  end /\
  forall k k', goes f loc exes k -> apart (comps loc ++ source k') (place root prefix l name k).

(** A name that can be that of a directory, in one line *)
Definition plain_name (name : text) : Prop := name <> [] /\ ~ In SL name /\ ~ In NL name /\ portable name.
(** An absolute path in one line *)
Definition plain_path (t : text) : Prop := (exists r, t = SL :: r) /\ ~ In NL t /\ ~ In PCT t.

(** A provider with a qualified name or a namespace, about which everything can be
    written down, in a tidy source directory *)
Definition presentable (f : fs) (location name : text) (namespace : option text) (version description : text) (domain : option text) (exes : list text) : Prop :=
  (namespace = None -> qualified name) /\ plain_name name /\ portable location /\ portable_if_given namespace /\ portable version /\
  portable description /\ portable_if_given domain /\ tidy f location exes.

(** A file system below some directory *)
Definition seen_from (f : fs) (d : list text) : fs := fun p => f (d ++ p).

(** All parts of a layout, in some order *)
Definition all_items (order : list item) : Prop := NoDup order /\ forall k, In k order.
