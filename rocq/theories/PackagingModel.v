(** * Packaging meta-data and what is known about the operating system

    /repo/plainbox/impl/unit/packaging.py 131-470 (all drivers),
    /repo/plainbox/impl/device.py 41-200 (os-release, discovery of the local
    device) and /repo/plainbox/provider_manager.py 1318-1334 (the command
    manage.py packaging).

    Simplified: fields of units are looked up in a dictionary (FieldsModel
    models parameters and templates); the paragraphs of debian/control are
    given (parsing them is python-debian's); reading the provider works; texts
    are lists of characters below 256 (as in ScanModel). *)
From Coq Require Import String Ascii List Bool Arith.
From Verif Require Import ScanModel Rfc822Model IniModel RestartModel.
Import ListNotations.
Local Open Scope char_scope.
Local Open Scope nat_scope.
Local Open Scope list_scope.

Inductive fault := Os_error | Value_error | Attribute_error.

(** ** /etc/os-release *)

Definition EQUAL : ascii := "=".
Definition COMMA_CHAR : ascii := ",".

(** entry.split('=', 1), unpacked into two: device.py 52-54 *)
Fixpoint split_equal (t : text) : option (text * text) :=
  match t with
  | [] => None
  | c :: r =>
      if Ascii.eqb c EQUAL then Some ([], r)
      else match split_equal r with Some (k, v) => Some (c :: k, v) | None => None end
  end.

(** The dictionary comprehension of device.py 51-55; None is ValueError *)
Fixpoint entries (d : tdict text) (ws : list text) : option (tdict text) :=
  match ws with
  | [] => Some d
  | w :: r => match split_equal w with Some (k, v) => entries (tset k v d) r | None => None end
  end.

(** device.py 41-55 get_os_release; [contents] is None when the file cannot be read *)
Definition get_os_release (contents : option text) : tdict text + fault :=
  match contents with
  | None => inr Os_error
  | Some t =>
      match shlex_split t with
      | None => inr Value_error
      | Some ws => match entries [] ws with Some d => inl d | None => inr Value_error end
      end
  end.

(** ** Units *)

(** A unit: Meta.name of its class and its fields *)
Record punit := mk_punit { p_name : text; p_fields : tdict text }.

(** packaging.py 142-150 *)
Definition os_id (u : punit) : option text := tget (T "os-id") (p_fields u).
Definition os_version_id (u : punit) : option text := tget (T "os-version-id") (p_fields u).

(** x == os_release[key], with key in os_release tested before *)
Definition says (d : tdict text) (key : text) (x : option text) : bool :=
  match tget key d, x with
  | Some v, Some w => text_eqb w v
  | _, _ => false
  end.

Definition is_none {A} (x : option A) : bool := match x with None => true | Some _ => false end.

(** packaging.py 288-296 _strategy_id_version *)
Definition strategy_id_version (u : punit) (d : tdict text) : bool :=
  says d (T "ID") (os_id u) && says d (T "VERSION_ID") (os_version_id u).
(** packaging.py 299-306 _strategy_id *)
Definition strategy_id (u : punit) (d : tdict text) : bool :=
  says d (T "ID") (os_id u) && is_none (os_version_id u).
(** packaging.py 309-316 _strategy_id_like *)
Definition strategy_id_like (u : punit) (d : tdict text) : bool :=
  says d (T "ID_LIKE") (os_id u) && is_none (os_version_id u).

(** packaging.py 326-336 PackagingDriverBase.is_applicable *)
Definition is_applicable (d : tdict text) (u : punit) : bool :=
  if negb (text_eqb (p_name u) (T "packaging meta-data")) then false
  else if negb (strategy_id_version u d) && negb (strategy_id u d) && negb (strategy_id_like u d) then false
  else true.

(** ** The Debian driver *)

(** packaging.py 382-387 *)
Record debian := mk_debian {
  d_release : tdict text;
  d_depends : list text;
  d_suggests : list text;
  d_recommends : list text;
  d_packages : list text
}.
Definition new_debian (d : tdict text) : debian := mk_debian d [] [] [] [].

(** re.split(', *', t): [skipping] after a comma *)
Fixpoint split_relations (skipping : bool) (acc : text) (t : text) : list text :=
  match t with
  | [] => [rev acc]
  | c :: r =>
      if skipping && Ascii.eqb c " " then split_relations true acc r
      else if Ascii.eqb c COMMA_CHAR then rev acc :: split_relations true [] r
      else split_relations false (c :: acc) r
  end.

(** packaging.py 404-410 rel_list *)
Definition rel_list (u : punit) (field : text) : list text :=
  let value := match tget field (p_fields u) with Some v => v | None => [] end in
  let relations := map (fun c => if Ascii.eqb c NL then " "%char else c) value in
  map strip (filter (fun rel => match strip rel with [] => false | _ => true end)
    (split_relations false [] relations)).

(** packaging.py 403-413 collect *)
Definition collect (u : punit) (s : debian) : debian :=
  mk_debian (d_release s)
    (d_depends s ++ rel_list u (T "Depends"))
    (d_suggests s ++ rel_list u (T "Suggests"))
    (d_recommends s ++ rel_list u (T "Recommends"))
    (d_packages s).

(** packaging.py 338-341 inspect_provider *)
Fixpoint inspect_provider (us : list punit) (s : debian) : debian :=
  match us with
  | [] => s
  | u :: r => inspect_provider r (if is_applicable (d_release s) u then collect u s else s)
  end.

(** debian/control: not there, not readable, or these paragraphs *)
Inductive control := Missing | Unreadable | Paragraphs (ps : list (text -> option text)).
Inductive driver_error := No_packaging_detected | No_applicable_binary_packages.

(** packaging.py 431-450 _gen_provider_packages *)
Fixpoint gen_provider_packages (ps : list (text -> option text)) : list text :=
  match ps with
  | [] => []
  | para :: r =>
      match para (T "Package"), para (T "X-Plainbox-Provider") with
      | Some pkg, Some v =>
          if text_eqb v (T "yes") then pkg :: gen_provider_packages r else gen_provider_packages r
      | _, _ => gen_provider_packages r
      end
  end.

(** packaging.py 389-396 inspect_packaging; other problems with debian/control
    than its absence are passed over (447-450) *)
Definition inspect_packaging (c : control) (s : debian) : debian + driver_error :=
  match c with
  | Missing => inr No_packaging_detected
  | _ =>
      let found := match c with Paragraphs ps => gen_provider_packages ps | _ => [] end in
      match d_packages s ++ found with
      | [] => inr No_applicable_binary_packages
      | pkgs => inl (mk_debian (d_release s) (d_depends s) (d_suggests s) (d_recommends s) pkgs)
      end
  end.

(** ', '.join(relations) *)
Fixpoint join_relations (rs : list text) : text :=
  match rs with
  | [] => []
  | [r] => r
  | r :: rest => r ++ COMMA_CHAR :: " "%char :: join_relations rest
  end.

(** One of the three prints of packaging.py 420-428 *)
Definition substvar (name : text) (rs : list text) : text :=
  match rs with
  | [] => []
  | _ => T "plainbox:" ++ name ++ EQUAL :: join_relations rs ++ [NL]
  end.

Definition substvars_file (pkg : text) : text := T "debian/" ++ pkg ++ T ".substvars".

(** packaging.py 415-429 _write_pkg_substvars: the text that is appended *)
Definition pkg_substvars (s : debian) : text :=
  substvar (T "Depends") (d_depends s) ++ substvar (T "Suggests") (d_suggests s) ++
  substvar (T "Recommends") (d_recommends s).

Definition append_to (name t : text) (files : tdict text) : tdict text :=
  tset name (match tget name files with Some old => old ++ t | None => t end) files.

(** packaging.py 398-400 modify_packaging_tree; [can] tells which files can be
    opened for appending *)
Fixpoint write_all (can : text -> bool) (s : debian) (pkgs : list text) (files : tdict text)
  : tdict text * option fault :=
  match pkgs with
  | [] => (files, None)
  | pkg :: r =>
      if can (substvars_file pkg) then
        write_all can s r (append_to (substvars_file pkg) (pkg_substvars s) files)
      else (files, Some Os_error)
  end.
Definition modify_packaging_tree (can : text -> bool) (s : debian) (files : tdict text) :=
  write_all can s (d_packages s) files.

(** packaging.py 458-470 get_packaging_driver: None is the driver that does nothing *)
Definition get_packaging_driver (platform : text) (contents : option text) : option debian + fault :=
  if tprefix (T "linux") platform then
    match get_os_release contents with
    | inr f => inr f
    | inl d =>
        if says d (T "ID") (Some (T "debian")) || says d (T "ID_LIKE") (Some (T "debian"))
        then inl (Some (new_debian d))
        else inl None
    end
  else inl None.

(** How the command ends: with a code or with an exception *)
Inductive ending := Exit (code : nat) | Raised (f : fault).

(** provider_manager.py 1323-1334 PackagingCommand.invoked (returning None is
    the exit code 0) *)
Definition packaging (platform : text) (contents : option text) (c : control) (us : list punit)
  (can : text -> bool) (files : tdict text) : tdict text * ending :=
  match get_packaging_driver platform contents with
  | inr f => (files, Raised f)
  | inl None => (files, Exit 0)
  | inl (Some s) =>
      match inspect_packaging c s with
      | inr _ => (files, Exit 1)
      | inl s =>
          match modify_packaging_tree can (inspect_provider us s) files with
          | (files, None) => (files, Exit 0)
          | (files, Some f) => (files, Raised f)
          end
      end
  end.

(** ** The local device *)

(** device.py 137-157 _cookie_linux_common *)
Definition cookie_linux (d : tdict text) (arch : text) : text :=
  T "local://localhost/?os=linux&id=" ++ match tget (T "ID") d with Some v => v | None => T "Linux" end ++
  T "&version_id=" ++ match tget (T "VERSION_ID") d with Some v => v | None => [] end ++
  T "&arch=" ++ arch.

(** device.py 97-130 _discover_linux; [dpkg] and [rpm] are what these commands
    print, None when they cannot be run or fail.  When both fail the method
    called is arch_linux_uname (128), which does not exist: it is called
    _arch_linux_uname (193). *)
Definition discover_linux (contents dpkg rpm : option text) : list text + fault :=
  match get_os_release contents with
  | inr _ => inl []
  | inl d =>
      match dpkg, rpm with
      | Some a, _ => inl [cookie_linux d (strip a)]
      | None, Some a => inl [cookie_linux d (strip a)]
      | None, None => inr Attribute_error
      end
  end.

(** device.py 75-95 discover: the cookies of the devices *)
Definition discover (platform : text) (contents dpkg rpm : option text) : list text + fault :=
  if text_eqb platform (T "linux") || text_eqb platform (T "linux2") then discover_linux contents dpkg rpm
  else if text_eqb platform (T "win32") then inl [T "local://localhost/?os=win32"]
  else inl [].
