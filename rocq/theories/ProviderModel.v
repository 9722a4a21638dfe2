(** * Contents of providers: /repo/plainbox/impl/secure/providers/v1.py 60-606, 960-1010

    Exceptions of the operating system while looking at a file are values of a type X. *)
From Coq Require Import String Ascii List Bool Arith.
From Verif Require Import ScanModel Rfc822Model JsonModel IniModel ChecksumModel CacheModel ExportModel PluginModel.
Import ListNotations.
Local Open Scope nat_scope.
Local Open Scope list_scope.

Definition SL : ascii := "/"%char.

(** posixpath.dirname: up to the last slash, without the slashes at the end unless there
    is nothing else *)
Fixpoint drop_slashes (t : text) : text :=
  match t with c :: r => if Ascii.eqb c SL then drop_slashes r else t | [] => [] end.
Fixpoint after_slash (rt : text) : text :=      (* of the reversed text: from the last slash on *)
  match rt with [] => [] | c :: r => if Ascii.eqb c SL then rt else after_slash r end.
Definition pdirname (p : text) : text :=
  let rhead := after_slash (rev p) in
  match drop_slashes rhead with [] => rev rhead | h => rev h end.
(** posixpath.splitext(p)[1] *)
Definition extension (p : text) : text :=
  let b := basename p in skipn (length (splitext_root b)) b.

(** /repo/plainbox/impl/unit/file.py 43-63 *)
Inductive role := R_unit_source | R_script | R_binary | R_data | R_i18n | R_manage_py | R_legal | R_docs
  | R_unknown | R_build | R_vcs | R_src.
(** plugin_cls *)
Inductive plugin_class := UnitFile | ContentFile | NoPlugin.

(** 669-672, 836-921: the directories of a provider *)
Record provider := mk_provider {
  p_units : option text; p_jobs : option text; p_data : option text; p_bin : option text;
  p_locale : option text; p_base : option text }.
Definition sub (p : provider) (parts : list text) : option text :=
  match p_base p with Some b => Some (fold_left pjoin parts b) | None => None end.
Definition build_dir p := sub p [T "build"].
Definition build_bin_dir p := sub p [T "build"; T "bin"].
Definition build_mo_dir p := sub p [T "build"; T "mo"].
Definition src_dir p := sub p [T "src"].
Definition po_dir p := sub p [T "po"].
(** if provider.x_dir: *)
Definition present (d : option text) : list text := match d with Some (c :: t) => [c :: t] | _ => [] end.

(** 262-287: the directories that are searched *)
Definition content_dirs (p : provider) : list text :=
  match present (p_base p) with
  | b :: _ => b :: present (src_dir p) ++ present (build_bin_dir p) ++ present (build_mo_dir p)
  | [] => present (p_units p) ++ present (p_jobs p) ++ present (p_data p) ++ present (p_bin p) ++ present (p_locale p)
  end.

(** What the file system says about a file: whether it can be executed, and whether it
    begins with #! or cannot be opened; EXECUTABLES is the set of 425-442. *)
Inductive magic (X : Type) := Script | Binary | CannotOpen (x : X).
Arguments Script {X}. Arguments Binary {X}. Arguments CannotOpen {X}.

Section Classify.
  Variable X : Type.
  Variable p : provider.
  Variable executable : text -> bool.
  Variable magic_of : text -> magic X.
  Variable EXECUTABLES : list text.

  (** What a classification function returns: nothing, a result, or an exception; the
      last one is a loop that does not end. *)
  Inductive classified := Skip | Is (r : role) (base : option text) (c : plugin_class) | Fails (x : X) | Hangs.

  Definition starts (d : option text) (f : text) : bool :=
    match d with Some d => tprefix d f | None => false end.
  (** 444-459 *)
  Definition pxu_jobs (f : text) : classified :=
    if starts (p_jobs p) f && tmem (extension f) [T ".txt"; T ".in"; T ".pxu"]
    then Is R_unit_source (p_jobs p) UnitFile else Skip.
  Definition pxu_units (f : text) : classified :=
    if starts (p_units p) f && tmem (extension f) [T ".txt"; T ".txt.in"; T ".pxu"]
    then Is R_unit_source (p_units p) UnitFile else Skip.
  (** 461-465 *)
  Definition data (f : text) : classified := if starts (p_data p) f then Is R_data (p_data p) ContentFile else Skip.
  (** 467-485 *)
  Definition by_magic (f : text) (base : option text) : classified :=
    match magic_of f with
    | Script => Is R_script base ContentFile
    | Binary => Is R_binary base ContentFile
    | CannotOpen x => Fails x
    end.
  Definition exec (f : text) : classified :=
    if starts (p_bin p) f && executable f then by_magic f (p_bin p) else Skip.
  Definition built_exec (f : text) : classified :=
    if starts (build_bin_dir p) f && executable f && tmem (basename f) EXECUTABLES
    then by_magic f (build_bin_dir p) else Skip.
  (** 487-497 *)
  Definition built_i18n (f : text) : classified :=
    if starts (build_mo_dir p) f && text_eqb (extension f) (T ".mo")
    then Is R_i18n (build_bin_dir p) ContentFile else Skip.
  Definition build (f : text) : classified := if starts (build_dir p) f then Is R_build (build_dir p) NoPlugin else Skip.
  (** 499-514 *)
  Definition legal (f : text) : classified :=
    if tmem (basename f) [T "COPYING"; T "COPYING.LESSER"; T "LICENSE"] then Is R_legal (p_base p) ContentFile else Skip.
  Definition docs (f : text) : classified :=
    if tmem (basename f) [T "README"; T "README.md"; T "README.rst"; T "README.txt"] then Is R_docs (p_base p) ContentFile else Skip.
  Definition manage_py (f : text) : classified :=
    match p_base p with
    | Some b => if text_eqb (pjoin b (T "manage.py")) f then Is R_manage_py (p_base p) NoPlugin else Skip
    | None => Skip
    end.
  (** 516-524 *)
  Definition po (f : text) : classified :=
    if match po_dir p with Some d => text_eqb (pdirname f) d | None => false end &&
       (tmem (extension f) [T ".po"; T ".pot"] || text_eqb (basename f) (T "POTFILES.in"))
    then Is R_src (p_base p) NoPlugin else Skip.
  Definition src (f : text) : classified := if starts (src_dir p) f then Is R_src (p_base p) NoPlugin else Skip.
  (** 526-536; os.path.split is dirname and basename *)
  Fixpoint vcs_loop (fuel : nat) (head : text) : classified :=
    match fuel with
    | 0 => Hangs
    | S n =>
        if match p_base p with Some b => text_eqb head b | None => false end || text_eqb head [] || text_eqb head [SL] then Skip
        else if tmem (basename head) [T ".git"; T ".bzr"] then Is R_vcs (p_base p) NoPlugin
        else vcs_loop n (pdirname head)
    end.
  Definition vcs (f : text) : classified :=
    if tmem (basename f) [T ".gitignore"; T ".bzrignore"] then Is R_vcs (p_base p) NoPlugin
    else vcs_loop (S (length f)) f.
  (** 538-540 *)
  Definition unknown (f : text) : classified := Is R_unknown (p_base p) NoPlugin.

  Definition if_present (d : option text) (l : list (text -> classified)) : list (text -> classified) :=
    match present d with [] => [] | _ => l end.
  (** 376-423 *)
  Definition classify_fns : list (text -> classified) :=
    if_present (p_jobs p) [pxu_jobs] ++ if_present (p_units p) [pxu_units] ++ if_present (p_data p) [data] ++
    if_present (p_bin p) [exec] ++ if_present (build_bin_dir p) [built_exec] ++ if_present (build_mo_dir p) [built_i18n] ++
    if_present (build_dir p) [build] ++ if_present (po_dir p) [po] ++ if_present (src_dir p) [src] ++
    if_present (p_base p) [legal; docs; manage_py; vcs] ++ [unknown].
  (** 340-367 *)
  Fixpoint first_of (l : list (text -> classified)) (f : text) : classified :=
    match l with
    | [] => Skip                     (* ValueError *)
    | fn :: r => match fn f with Skip => first_of r f | c => c end
    end.
  Definition classify (f : text) : classified := first_of classify_fns f.
End Classify.
Arguments Skip {X}. Arguments Is {X}. Arguments Fails {X}. Arguments Hangs {X}.

(** ** Loading *)

(** Units: their type, identifier and path, if they have such fields, and whatever else
    they are. *)
Record unit_ := mk_unit { u_type : text; u_id : option text; u_path : option text; u_role : option role; u_rest : text }.

Section Load.
  Variables (X Pr : Type).                      (* exceptions, problems *)
  Variable classify : text -> classified X.
  (** What load_rfc822_records does with the file, 141-147 *)
  Variable records : text -> list (list (text * text)) + Pr.
  (** 150-160: the class of units of a name and from_rfc822_record *)
  Variable unit_class : text -> bool.
  Variable unknown_type : text -> Pr.
  Variable from_record : list (text * text) -> unit_ + Pr.
  (** 161-172: the issues that unit.check finds, each with whether it is an error, and what
      validate raises *)
  Variable issues : unit_ -> list (bool * Pr).
  Variable invalid : unit_ -> option Pr.
  Variables (check validate : bool).

  Fixpoint first_error (l : list (bool * Pr)) : option Pr :=
    match l with [] => None | (true, i) :: _ => Some i | (false, _) :: r => first_error r end.
  (** 148-175 *)
  Definition load_record (r : list (text * text)) : unit_ + Pr :=
    let name := match tget (T "unit") r with Some n => n | None => T "job" end in
    if unit_class name then
      match from_record r with
      | inr e => inr e
      | inl u =>
          match (if check then first_error (issues u) else None) with
          | Some e => inr e
          | None => match (if validate then invalid u else None) with Some e => inr e | None => inl u end
          end
      end
    else inr (unknown_type name).
  Fixpoint load_records (l : list (list (text * text))) : list unit_ + Pr :=
    match l with
    | [] => inl []
    | r :: l' =>
        match load_record r with
        | inr e => inr e
        | inl u => match load_records l' with inr e => inr e | inl us => inl (u :: us) end
        end
    end.

  (** 109-121 make_file_unit *)
  Definition file_unit (f : text) (r : role) (base : option text) : unit_ :=
    mk_unit (T "file") None (Some f) (Some r) (match base with Some b => b | None => [] end).
  (** The plug-in of a file: 60-107, 177-183 *)
  Definition plugin_units (f : text) (r : role) (base : option text) (c : plugin_class) : list unit_ + Pr :=
    match c with
    | NoPlugin => inl []
    | ContentFile => inl [file_unit f r base]
    | UnitFile =>
        match records f with
        | inr e => inr e
        | inl l => match load_records l with inr e => inr e | inl us => inl (us ++ [file_unit f r base]) end
        end
    end.

  (** 572-578 *)
  Record loader := mk_loader {
    d_loaded : bool; d_units : list unit_; d_problems : list Pr;
    d_paths : tdict (list unit_); d_ids : tdict (list unit_) }.
  Definition new_loader : loader := mk_loader false [] [] [] [].
  (** map[key].append(unit) of a defaultdict *)
  Definition append_to (k : text) (u : unit_) (d : tdict (list unit_)) : tdict (list unit_) :=
    tset k (match tget k d with Some l => l | None => [] end ++ [u]) d.
  Fixpoint index (key : unit_ -> option text) (us : list unit_) (d : tdict (list unit_)) : tdict (list unit_) :=
    match us with
    | [] => d
    | u :: r => index key r (match key u with Some k => append_to k u d | None => d end)
    end.

  (** 590-606 _load_file; the second component is an exception; a unit without id has the
      id None, under which it is also recorded: not modelled *)
  Definition load_file (f : text) (d : loader) : loader * option X :=
    match classify f with
    | Fails x => (d, Some x)
    | Skip | Hangs => (d, None)
    | Is r base c =>
        match plugin_units f r base c with
        | inr e => (mk_loader (d_loaded d) (d_units d) (d_problems d ++ [e]) (d_paths d) (d_ids d), None)
        | inl us =>
            (mk_loader (d_loaded d) (d_units d ++ us) (d_problems d) (index u_path us (d_paths d)) (index u_id us (d_ids d)), None)
        end
    end.
  Fixpoint load_files (l : list text) (d : loader) : loader * option X :=
    match l with
    | [] => (d, None)
    | f :: r => match load_file f d with (d', None) => load_files r d' | (d', Some x) => (d', Some x) end
    end.
  (** 580-588 load; [files] and [problems] are those of the content collection *)
  Definition load (files : list text) (problems : list Pr) (d : loader) : loader * option X :=
    match load_files files d with
    | (d', None) => (mk_loader true (d_units d') (d_problems d' ++ problems) (d_paths d') (d_ids d'), None)
    | (d', Some x) => (d', Some x)
    end.
  (** 691-693 _ensure_loaded *)
  Definition ensure_loaded (files : list text) (problems : list Pr) (d : loader) : loader * option X :=
    if d_loaded d then (d, None) else load files problems d.
End Load.
Arguments mk_loader {Pr}. Arguments d_loaded {Pr}. Arguments d_units {Pr}. Arguments d_problems {Pr}.
Arguments d_paths {Pr}. Arguments d_ids {Pr}. Arguments new_loader {Pr}.

(** 983-1001: job_list and executable_list *)
Definition id_key (u : unit_) : text := match u_id u with Some i => i | None => [] end.
Definition job_list (us : list unit_) : list unit_ := sort_by id_key (filter (fun u => text_eqb (u_type u) (T "job")) us).
Definition path_key (u : unit_) : text := match u_path u with Some i => i | None => [] end.
Definition runs (r : option role) : bool := match r with Some R_script | Some R_binary => true | _ => false end.
Definition executable_list (us : list unit_) : list text :=
  sort_by (fun f => f) (map path_key (filter (fun u => text_eqb (u_type u) (T "file") && runs (u_role u)) us)).
