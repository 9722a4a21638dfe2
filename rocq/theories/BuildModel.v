(** * Building a provider: the commands build, clean and i18n of manage.py,
    /repo/plainbox/provider_manager.py 593-815 and 1186-1300, and
    /repo/plainbox/impl/buildsystems.py

    What is in the file system, and what commands return, is given.  The build command
    is asked for twice (701 and 711), between which only build/bin is made; the model
    asks once, as no built-in build system looks there. *)
From Coq Require Import String Ascii List Bool Arith ZArith.
From Verif Require Import ScanModel PathModel IniModel RestartModel ConfigModel ExportModel.
Import ListNotations.
Local Open Scope nat_scope.
Local Open Scope list_scope.

(** ** glob.glob of the standard library (glob.py, fnmatch.py): patterns for names *)
Inductive item := Star | AnyOne | OneOf (positive : bool) (l : list (ascii * ascii)) | Lit (c : ascii).
(** what is between brackets: characters and ranges.  Simplification: ranges with bounds
    in the wrong order, for which re raises an exception, are empty. *)
Fixpoint ranges (t : text) : list (ascii * ascii) :=
  match t with
  | [] => []
  | a :: r => match r with
              | "-"%char :: b :: r' => (a, b) :: ranges r'
              | _ => (a, a) :: ranges r
              end
  end.
(** fnmatch.translate; a bracket that is not closed is an ordinary character.  The fuel is
    the length of the pattern. *)
Fixpoint close_bracket (t : text) : option (text * text) :=
  match t with
  | [] => None
  | c :: r => if Ascii.eqb c "]" then Some ([], r)
              else match close_bracket r with Some (a, b) => Some (c :: a, b) | None => None end
  end.
Definition bracket (r : text) : option (bool * text * text) :=
  let neg := match r with "!"%char :: _ => true | _ => false end in
  let r1 := if neg then tl r else r in
  match r1 with
  | [] => None
  | c :: r2 => (* a closing bracket at the start is an ordinary character *)
      if Ascii.eqb c "]" then match close_bracket r2 with Some (a, b) => Some (negb neg, c :: a, b) | None => None end
      else match close_bracket r1 with Some (a, b) => Some (negb neg, a, b) | None => None end
  end.
Fixpoint translate (fuel : nat) (t : text) : list item :=
  match fuel with
  | O => []
  | S n =>
      match t with
      | [] => []
      | c :: r =>
          if Ascii.eqb c "*" then Star :: translate n r
          else if Ascii.eqb c "?" then AnyOne :: translate n r
          else if Ascii.eqb c "[" then
            match bracket r with
            | Some (b, a, r') => OneOf b (ranges a) :: translate n r'
            | None => Lit c :: translate n r
            end
          else Lit c :: translate n r
      end
  end.
Definition in_range (c : ascii) (r : ascii * ascii) : bool :=
  (Nat.leb (nat_of_ascii (fst r)) (nat_of_ascii c) && Nat.leb (nat_of_ascii c) (nat_of_ascii (snd r)))%bool.
Fixpoint fits (l : list item) (t : text) : bool :=
  match l with
  | [] => match t with [] => true | _ => false end
  | Star :: l' => (fix some (t : text) : bool := fits l' t || match t with [] => false | _ :: t' => some t' end) t
  | AnyOne :: l' => match t with [] => false | _ :: t' => fits l' t' end
  | OneOf b rs :: l' => match t with [] => false | c :: t' => Bool.eqb b (existsb (in_range c) rs) && fits l' t' end
  | Lit x :: l' => match t with [] => false | c :: t' => Ascii.eqb c x && fits l' t' end
  end.
(** glob.has_magic *)
Definition has_magic (t : text) : bool := existsb (fun c => existsb (Ascii.eqb c) (T "*?[")) t.
Definition hidden (t : text) : bool := match t with c :: _ => Ascii.eqb c "."%char | [] => false end.
(** glob.glob0 and glob1 for one component *)
Definition name_fits (pat name : text) : bool :=
  if has_magic pat then fits (translate (length pat) pat) name && (hidden pat || negb (hidden name)) else text_eqb pat name.
Fixpoint path_fits (pats names : list text) : bool :=
  match pats, names with
  | [], [] => true
  | p :: pats', n :: names' => name_fits p n && path_fits pats' names'
  | _, _ => false
  end.

(** What there is: every file and directory by the names on the way to it from the root,
    os.path.isfile and os.path.isdir *)
Record world := mk_world { w_paths : list (list text); w_isfile : text -> bool; w_isdir : text -> bool }.
(** glob.glob(pattern) != [] for an absolute pattern *)
Definition glob_finds (w : world) (pattern : text) : bool :=
  existsb (path_fits (tl (split_slash pattern))) (w_paths w).

(** ** buildsystems.py *)
Record buildsystem := mk_buildsystem { b_probe : world -> text -> Z; b_command : text -> text -> text }.
Section Build.
  (** the directory where manage.py runs *)
  Variable cwd : text.

  (** 32-53 *)
  Definition makefile : buildsystem :=
    mk_buildsystem
      (fun w src => if w_isfile w (path_join src (T "configure")) then 0%Z
                    else if w_isfile w (path_join src (T "Makefile")) then 90%Z else 0%Z)
      (fun src build => T "VPATH=" ++ quote (relpath cwd src build) ++ T " make -f " ++
                        quote (relpath cwd (path_join src (T "Makefile")) build)).
  (** 56-68 *)
  Definition autotools : buildsystem :=
    mk_buildsystem
      (fun w src => if w_isfile w (path_join src (T "configure")) then 90%Z else 0%Z)
      (fun src build => quote (relpath cwd src build) ++ T "/configure && make").
  (** 71-82 *)
  Definition golang : buildsystem :=
    mk_buildsystem
      (fun w src => if glob_finds w (src ++ T "/*.go") then 50%Z else 0%Z)
      (fun src build => T "go build " ++ relpath cwd src build ++ T "/*.go").

  (** ** provider_manager.py, build *)
  Inductive effect :=
  | MakeDirs (p : text)
  | Shell (command dir src_dir : text)               (* shell command, where, $PLAINBOX_SRC_DIR *)
  | Run (argv : list text) (dir : option text).      (* a command with its arguments *)
  Inductive outcome := Exit (code : option Z) | IndexError | TypeError.

  (** 657-669 *)
  Definition src_dir (loc : text) : text := path_join loc (T "src").
  Definition build_bin_dir (loc : text) : text := path_join (path_join loc (T "build")) (T "bin").
  (** list.sort(key=score): stable, increasing *)
  Fixpoint insert_score (x : buildsystem * Z) (l : list (buildsystem * Z)) : list (buildsystem * Z) :=
    match l with
    | [] => [x]
    | y :: l' => if Z.leb (snd x) (snd y) then x :: l else y :: insert_score x l'
    end.
  Definition sort_scores (l : list (buildsystem * Z)) : list (buildsystem * Z) := fold_right insert_score [] l.
  (** 626-654; None: IndexError *)
  Definition guess (w : world) (systems : list buildsystem) (loc : text) : option (option text) :=
    match rev (sort_scores (map (fun b => (b, b_probe b w (src_dir loc))) systems)) with
    | [] => None
    | (b, score) :: _ => if Z.eqb score 0 then Some None else Some (Some (b_command b (src_dir loc) (build_bin_dir loc)))
    end.
  (** 616-624, 684-715; [keyword] is that of setup(), [code] what a command returns *)
  Definition build (w : world) (systems : list buildsystem) (keyword : option text) (code : text -> Z) (loc : text) : list effect * outcome :=
    match (match keyword with Some c => Some (Some c) | None => guess w systems loc end) with
    | None => ([], IndexError)
    | Some None => ([], Exit (Some 0%Z))
    | Some (Some c) =>
        ((if w_isdir w (build_bin_dir loc) then [] else [MakeDirs (build_bin_dir loc)]) ++
         [Shell c (build_bin_dir loc) (relpath cwd (src_dir loc) (build_bin_dir loc))], Exit (Some (code c)))
    end.
  (** 767-815; [Some None]: setup(clean_cmd=None) *)
  Definition clean (keyword : option (option text)) (code : text -> Z) (loc : text) : list effect * outcome :=
    match (match keyword with Some k => k | None => Some (T "rm -rf build/bin") end) with
    | Some c => ([Shell c loc (relpath cwd (src_dir loc) loc)], Exit (Some (code c)))
    | None => ([], TypeError)
    end.

  (** ** i18n *)
  Record flags := mk_flags { f_dry : bool; f_no_pot : bool; f_no_merge : bool; f_no_mo : bool }.
  (** 1287-1297; what the commands return is not used *)
  Definition cmd (argv : list text) (dir : option text) (dry : bool) : list effect := if dry then [] else [Run argv dir].
  Definition po_dir (loc : text) : text := path_join loc (T "po").
  Definition mo_dir (loc lang : text) : text :=
    path_join (path_join (path_join (path_join loc (T "build")) (T "mo")) lang) (T "LC_MESSAGES").
  (** os.path.splitext(name)[1] of a name without slashes *)
  Definition splitext_ext (n : text) : text := skipn (length (splitext_root n)) n.
  (** 1243-1268; [data] is what os.walk gives for the data directory, if there is one:
      directory, name, and whether it is a file *)
  Definition update_pot (domain loc : text) (data : option (list (text * text * bool))) (dry : bool) : list effect :=
    cmd [T "intltool-update"; T "--gettext-package=" ++ domain; T "--pot"] (Some (po_dir loc)) dry ++
    match data with
    | None => []
    | Some l =>
        let qml := map (fun x => relpath cwd (path_join (fst (fst x)) (snd (fst x))) (po_dir loc))
          (filter (fun x => (text_eqb (map lower (splitext_ext (snd (fst x)))) (T ".qml") && snd x)%bool) l) in
        match qml with
        | [] => []
        | _ => cmd ([T "xgettext"; T "-o"; domain ++ T ".pot"; T "--qt"; T "--c++"; T "--join-existing";
                     T "--keyword=tr"; T "--keyword=tr:1,2"; T "--from-code=UTF-8"] ++ qml) (Some (po_dir loc)) dry
        end
    end.
  Definition ends_with_po (t : text) : bool :=
    (Nat.leb 3 (length t) && text_eqb (skipn (length t - 3) t) (T ".po"))%bool.
  (** 1270-1281 *)
  Definition merge_po (domain loc : text) (listing : list text) (dry : bool) : list effect :=
    flat_map (fun i =>
      if ends_with_po i then
        let lang := splitext_root i in
        MakeDirs (mo_dir loc lang) :: cmd [T "intltool-update"; T "--gettext-package=" ++ domain; T "--dist"; lang] (Some (po_dir loc)) dry
      else []) listing.
  (** 1283-1296 *)
  Definition build_mo (domain loc : text) (listing : list text) (dry : bool) : list effect :=
    flat_map (fun i =>
      if ends_with_po i then
        let lang := splitext_root i in
        MakeDirs (mo_dir loc lang) ::
        cmd [T "msgfmt"; relpath cwd (po_dir loc) cwd ++ T "/" ++ lang ++ T ".po"; T "-o";
             relpath cwd (mo_dir loc lang ++ T "/" ++ domain ++ T ".mo") cwd] None dry
      else []) listing.
  (** 1219-1236; [exists_po]: os.path.exists(po_dir); the two listings of it are the same *)
  Definition i18n (f : flags) (domain : option text) (exists_po : bool) (data : option (list (text * text * bool)))
      (listing : list text) (loc : text) : list effect * outcome :=
    match domain with
    | None => ([], Exit (Some 1%Z))
    | Some d =>
        ((if exists_po then [] else [MakeDirs (po_dir loc)]) ++
         (if f_no_pot f then [] else update_pot d loc data (f_dry f)) ++
         (if f_no_merge f then [] else merge_po d loc listing (f_dry f)) ++
         (if f_no_mo f then [] else build_mo d loc listing (f_dry f)), Exit None)
    end.
End Build.
