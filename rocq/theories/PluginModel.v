(** * Plug-in collections: /repo/plainbox/impl/secure/plugins.py

    Times are not modelled.  W is what wrappers are (plug-ins), P problems (exceptions
    that are kept), X exceptions that are not caught. *)
From Coq Require Import String Ascii List Bool Arith.
From Verif Require Import ScanModel Rfc822Model JsonModel IniModel ChecksumModel.
Import ListNotations.
Local Open Scope nat_scope.
Local Open Scope list_scope.

(** Loading and wrapping one thing. *)
Inductive loading (A P X : Type) := Done (a : A) | Problem (p : P) | Raise (x : X).
Arguments Done {A P X}. Arguments Problem {A P X}. Arguments Raise {A P X}.

Definition and_then {A B P X} (r : loading A P X) (f : A -> loading B P X) : loading B P X :=
  match r with Done a => f a | Problem p => Problem p | Raise x => Raise x end.

(** 285-307: the attributes of PlugInCollectionBase *)
Record coll (W P : Type) := mk_coll { c_loaded : bool; c_plugins : tdict W; c_problems : list P }.
Arguments mk_coll {W P}. Arguments c_loaded {W P}. Arguments c_plugins {W P}. Arguments c_problems {W P}.
Definition new_coll {W P} : coll W P := mk_coll false [] [].
Definition set_loaded {W P} (c : coll W P) : coll W P := mk_coll true (c_plugins c) (c_problems c).

(** 309-355 *)
Definition get_by_name {W P} (c : coll W P) (n : text) : option W := tget n (c_plugins c).
Definition get_all_names {W P} (c : coll W P) : list text := map fst (c_plugins c).
Definition get_all_plugins {W P} (c : coll W P) : list W := map snd (c_plugins c).

(** 393-422 wrap_and_add_plugin, with the exceptions of loading the object that are
    kept in the same way *)
Definition add_one {W P X} (n : text) (r : loading W P X) (c : coll W P) : coll W P * option X :=
  match r with
  | Done w => (mk_coll (c_loaded c) (tset n w (c_plugins c)) (c_problems c), None)
  | Problem p => (mk_coll (c_loaded c) (c_plugins c) (c_problems c ++ [p]), None)
  | Raise x => (c, Some x)
  end.
Fixpoint add_all {W P X} (l : list (text * loading W P X)) (c : coll W P) : coll W P * option X :=
  match l with
  | [] => (c, None)
  | (n, r) :: l' =>
      match add_one n r c with
      | (c', None) => add_all l' c'
      | (c', Some x) => (c', Some x)
      end
  end.

(** ** Sorting *)

Fixpoint insert_by {A} (key : A -> text) (x : A) (l : list A) : list A :=
  match l with
  | [] => [x]
  | y :: r => if text_leb (key x) (key y) then x :: l else y :: insert_by key x r
  end.
(** list.sort(key=...), which is stable *)
Fixpoint sort_by {A} (key : A -> text) (l : list A) : list A :=
  match l with [] => [] | x :: r => insert_by key x (sort_by key r) end.

(** ** PkgResourcesPlugInCollection, 478-507: an entry point is its name and what
    importing and wrapping it does *)
Definition pkg_load {W P X} (entry_points : list (text * loading W P X)) (c : coll W P) : coll W P * option X :=
  if c_loaded c then (c, None)
  else
    match add_all (sort_by fst entry_points) c with
    | (c', None) => (set_loaded c', None)
    | (c', Some x) => (c', Some x)
    end.

(** ** FsPlugInCollection *)

(** Directories: regular files (or links to them), other things that are not
    directories, directories, and links to directories, which os.walk does not follow. *)
Inductive node := NFile | NOther | NLink | NDir (d : list (text * node)).
Definition dir := list (text * node).

Definition SLASH : ascii := "/"%char.
(** posixpath.join of two *)
Fixpoint ends_slash (t : text) : bool :=
  match t with [] => false | [c] => Ascii.eqb c SLASH | _ :: r => ends_slash r end.
Definition pjoin (a b : text) : text :=
  match b with
  | c :: _ => if Ascii.eqb c SLASH then b else match a with [] => b | _ => if ends_slash a then a ++ b else a ++ SLASH :: b end
  | [] => match a with [] => b | _ => if ends_slash a then a else a ++ [SLASH] end
  end.

Definition is_file (n : node) : bool := match n with NFile => true | _ => false end.
Definition is_dir (n : node) : bool := match n with NDir _ | NLink => true | _ => false end.

(** os.walk with os.path.relpath, 601-606: paths relative to the top, files of a
    directory before its directories.  [prefix] is the path so far with a slash. *)
Fixpoint walk_node (prefix : text) (n : node) : list (text * node) :=
  match n with
  | NDir d =>
      map (fun e => (prefix ++ fst e, snd e)) (filter (fun e => negb (is_dir (snd e))) d) ++
      (fix go (l : list (text * node)) : list (text * node) :=
         match l with
         | [] => []
         | (name, n') :: r => walk_node (prefix ++ name ++ [SLASH]) n' ++ go r
         end) d
  | _ => []
  end.
Definition walk (d : dir) : list (text * node) := walk_node [] (NDir d).

(** ext: None, a text, or a sequence of texts *)
Inductive ext := ExtAny | ExtOne (e : text) | ExtMany (l : list text).
Definition ends_with (e t : text) : bool := tprefix (rev e) (rev t).
(** 616-624 *)
Definition ext_ok (x : ext) (entry : text) : bool :=
  match x with
  | ExtAny => true
  | ExtOne e => ends_with e entry
  | ExtMany l => existsb (fun e => ends_with e entry) l
  end.

(** 591-629 _get_plugin_files; [fs] is what is at a directory, None if it cannot be
    listed *)
Definition files_in (recursive : bool) (x : ext) (dirname : text) (d : option dir) : list text :=
  match d with
  | None => []
  | Some d =>
      map (fun e => pjoin dirname (fst e))
        (filter (fun e => ext_ok x (fst e) && is_file (snd e)) (if recursive then walk d else d))
  end.
Fixpoint plugin_files (fs : text -> option dir) (recursive : bool) (x : ext) (dirs : list text) : list text :=
  match dirs with
  | [] => []
  | d :: r => files_in recursive x d (fs d) ++ plugin_files fs recursive x r
  end.

(** 562-584 load; [read] opens and reads a file, [wrap] is the wrapper *)
Definition fs_load {O W P X} (fs : text -> option dir) (recursive : bool) (x : ext) (dirs : list text)
  (read : text -> loading O P X) (wrap : text -> O -> loading W P X) (c : coll W P) : coll W P * option X :=
  if c_loaded c then (c, None)
  else
    add_all (map (fun f => (f, and_then (read f) (wrap f))) (sort_by (fun f => f) (plugin_files fs recursive x dirs)))
      (set_loaded c).

(** ** LazyPlugInCollection, 688-820 *)

(** Importing may go differently each time: [imp] gets the number of imports made
    before.  The collection, its mapping, and the imports made so far (latest first). *)
Record lazy (W P : Type) := mk_lazy { l_coll : coll W P; l_mapping : list text; l_imports : list text }.
Arguments mk_lazy {W P}. Arguments l_coll {W P}. Arguments l_mapping {W P}. Arguments l_imports {W P}.

Section Lazy.
  Variables (W P X : Type).
  Variable imp : nat -> text -> loading W P X.

  (** 728-738 load_one *)
  Definition load_one (n : text) (s : lazy W P) : lazy W P * option X :=
    match add_one n (imp (length (l_imports s)) n) (l_coll s) with
    | (c, x) => (mk_lazy c (l_mapping s) (n :: l_imports s), x)
    end.
  Fixpoint load_rest (names : list text) (s : lazy W P) : lazy W P * option X :=
    match names with
    | [] => (s, None)
    | n :: r =>
        match get_by_name (l_coll s) n with
        | Some _ => load_rest r s
        | None => match load_one n s with (s', None) => load_rest r s' | (s', Some x) => (s', Some x) end
        end
    end.
  (** 711-720 load *)
  Definition lazy_load (s : lazy W P) : lazy W P * option X :=
    if c_loaded (l_coll s) then (s, None)
    else load_rest (l_mapping s) (mk_lazy (set_loaded (l_coll s)) (l_mapping s) (l_imports s)).

  (** 764-775 get_all_names *)
  Definition lazy_names (s : lazy W P) : list text :=
    if c_loaded (l_coll s) then get_all_names (l_coll s) else l_mapping s.

  (** What a call does *)
  Inductive answer := ANone | APlugin (w : W) | AKeyError | ANames (l : list text) | ARaise (x : X).
  (** 777-794 get_by_name *)
  Definition lazy_get (n : text) (s : lazy W P) : lazy W P * answer :=
    if c_loaded (l_coll s) then
      (s, match get_by_name (l_coll s) n with Some w => APlugin w | None => AKeyError end)
    else
      match get_by_name (l_coll s) n with
      | Some w => (s, APlugin w)
      | None =>
          if tmem n (l_mapping s) then
            match load_one n s with
            | (s', None) => (s', match get_by_name (l_coll s') n with Some w => APlugin w | None => AKeyError end)
            | (s', Some x) => (s', ARaise x)
            end
          else (s, AKeyError)
      end.

  (** Calls; [CFake] is a with statement with fake_plugins and the calls in it.  A call
      that raises is taken to be caught there; the restoring is in finally clauses. *)
  Inductive lcall := CLoad | CGet (n : text) | CNames | CFake (plugins : list (text * W)) (problems : list P) (body : list lcall).

  (** OrderedDict of pairs *)
  Fixpoint dict_of (l : list (text * W)) (d : tdict W) : tdict W :=
    match l with [] => d | (n, w) :: r => dict_of r (tset n w d) end.

  (** 361-391, 811-820 fake_plugins *)
  Fixpoint call (c : lcall) (s : lazy W P) : lazy W P * list answer :=
    match c with
    | CLoad => match lazy_load s with (s', None) => (s', [ANone]) | (s', Some x) => (s', [ARaise x]) end
    | CGet n => match lazy_get n s with (s', a) => (s', [a]) end
    | CNames => (s, [ANames (lazy_names s)])
    | CFake plugins problems body =>
        match
          (fix calls (l : list lcall) (s : lazy W P) : lazy W P * list answer :=
             match l with
             | [] => (s, [])
             | c :: r => match call c s with (s', a) => match calls r s' with (s'', b) => (s'', a ++ b) end end
             end) body (mk_lazy (mk_coll true (dict_of plugins []) problems) [] (l_imports s))
        with (s', a) => (mk_lazy (l_coll s) (l_mapping s) (l_imports s'), a) end
    end.
  Fixpoint calls (l : list lcall) (s : lazy W P) : lazy W P * list answer :=
    match l with
    | [] => (s, [])
    | c :: r => match call c s with (s', a) => match calls r s' with (s'', b) => (s'', a ++ b) end end
    end.
End Lazy.
Arguments ANone {W X}. Arguments APlugin {W X}. Arguments AKeyError {W X}. Arguments ANames {W X}. Arguments ARaise {W X}.
Arguments CLoad {W P}. Arguments CGet {W P}. Arguments CNames {W P}. Arguments CFake {W P}.
Definition new_lazy {W P} (mapping : list text) : lazy W P := mk_lazy new_coll mapping [].
