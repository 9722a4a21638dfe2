(** * Stored sessions

    /repo/plainbox/impl/session/storage.py 45-254, impl/commands/inv_session.py 66-84,
    196-201, impl/commands/inv_run.py 427-478, 495-524, impl/session/assistant.py
    486-541, 592-594, 651-689.

    Simplified: names are texts of 8-bit characters without slashes; the repository is
    one directory, whose path is left out in front of the names in it; what the user is asked is asked in the order of the program, so an
    answer can be given as a function of the session that the question is about. *)
From Coq Require Import DecimalString String Ascii List Bool Arith.
From Verif Require Import ScanModel Rfc822Model IniModel RegexModel ExportModel CacheModel RunnerModel PluginModel.
Import ListNotations.
Local Open Scope nat_scope.
Local Open Scope list_scope.

(** ** The repository *)

Inductive errno := ENOENT | EOTHER.
(** Something in a directory: its name, whether lstat says that it is a directory, and
    what stat (which follows links) says: an error or the time of modification *)
Record entry := mk_entry { e_name : text; e_dir : bool; e_stat : errno + nat }.

(** sorted(..., key=mtime, reverse=True): the youngest first, otherwise as they come *)
Definition mtime (e : entry) : nat := match e_stat e with inr t => t | inl _ => 0 end.
Fixpoint insert (e : entry) (l : list entry) : list entry :=
  match l with
  | [] => [e]
  | x :: r => if Nat.leb (mtime x) (mtime e) then e :: l else x :: insert e r
  end.
Definition sort_entries (l : list entry) : list entry := fold_right insert [] l.
(** os.stat of each of them, in order: the first error *)
Fixpoint first_error (l : list entry) : option errno :=
  match l with
  | [] => None
  | e :: r => match e_stat e with inl x => Some x | inr _ => first_error r end
  end.

(** 104-106 *)
Definition SUFFIX : text := T ".session".
Definition is_session (e : entry) : bool := negb (starts_with "."%char (e_name e)) && ends_with SUFFIX (e_name e) && e_dir e.
(** 74-111 get_storage_list: the names; [listing] is os.listdir *)
Definition get_storage_list (listing : errno + list entry) : errno + list text :=
  match listing with
  | inl ENOENT => inr []
  | inl x => inl x
  | inr l =>
      match first_error l with
      | Some ENOENT => inr []
      | Some x => inl x
      | None => inr (map e_name (filter is_session (sort_entries l)))
      end
  end.

(** 204-209 SessionStorage.id *)
Definition storage_id (location : text) : text := splitext_root (basename location).

(** 119-160 get_default_location; [abspath], [home], [exists_], [isdir], [writable],
    [temporary] are os.path.abspath, expanduser, exists, isdir, os.access, mkdtemp *)
Definition default_location (variable cache : option text) (abspath : text -> text) (home : text)
    (exists_ isdir writable : text -> bool) (temporary : text) : text :=
  let wanted :=
    match variable with
    | Some d => abspath d
    | None => pjoin (pjoin (match cache with Some (c :: t) => c :: t | _ => pjoin home (T ".cache") end) (T "plainbox")) (T "sessions")
    end in
  if exists_ wanted && negb (isdir wanted) then temporary
  else if exists_ wanted && negb (writable wanted) then temporary
  else wanted.

(** ** New sessions, 218-254 *)

Definition decimal (n : nat) : text := T (NilZero.string_of_uint (Nat.to_uint n)).
(** The names that are tried *)
Definition candidate_name (prefix timestamp : text) (k : nat) : text :=
  slugify prefix ++ timestamp ++ match k with 0 => [] | S _ => T "_(" ++ decimal k ++ T ")" end ++ SUFFIX.
(** os.path.exists *)
Definition visible (n : text) (l : list entry) : bool :=
  existsb (fun e => text_eqb (e_name e) n && match e_stat e with inr _ => true | inl _ => false end) l.
Definition present (n : text) (l : list entry) : bool := existsb (fun e => text_eqb (e_name e) n) l.
Inductive created := Created (n : text) (l : list entry) | File_exists (n : text) | Out_of_fuel.
Fixpoint create_from (fuel k : nat) (prefix timestamp : text) (now : nat) (l : list entry) : created :=
  match fuel with
  | 0 => Out_of_fuel
  | S fuel =>
      let n := candidate_name prefix timestamp k in
      if visible n l then create_from fuel (S k) prefix timestamp now l
      else if present n l then File_exists n                                 (* os.mkdir *)
      else Created n (l ++ [mk_entry n true (inr now)])
  end.
Definition create (fuel : nat) : text -> text -> nat -> list entry -> created := create_from fuel 0.

(** ** Several at the same time *)

(** A program that makes a session: about to look at a name, about to make that
    directory, with a directory, whose session was removed since, or stopped by
    FileExistsError *)
Inductive creator := Looking (k : nat) | Making (k : nat) | Has (k : nat) | Removed (k : nat) | Stopped (k : nat).
Record world := mk_world { w_dir : list entry; w_who : nat -> creator }.
Definition set_who (i : nat) (c : creator) (w : nat -> creator) : nat -> creator := fun j => if Nat.eqb j i then c else w j.
Section Together.
  (** What each of them calls its sessions *)
  Variable calls : nat -> nat -> text.
  Inductive step : world -> world -> Prop :=
  | Look_again i k w : w_who w i = Looking k -> visible (calls i k) (w_dir w) = true ->
      step w (mk_world (w_dir w) (set_who i (Looking (S k)) (w_who w)))
  | Look i k w : w_who w i = Looking k -> visible (calls i k) (w_dir w) = false ->
      step w (mk_world (w_dir w) (set_who i (Making k) (w_who w)))
  | Make i k w t : w_who w i = Making k -> present (calls i k) (w_dir w) = false ->
      step w (mk_world (w_dir w ++ [mk_entry (calls i k) true (inr t)]) (set_who i (Has k) (w_who w)))
  | Fail i k w : w_who w i = Making k -> present (calls i k) (w_dir w) = true ->
      step w (mk_world (w_dir w) (set_who i (Stopped k) (w_who w)))
  (** Someone removes a session (or anything else) *)
  | Remove n w who : (forall i, who i = match w_who w i with Has k => if text_eqb (calls i k) n then Removed k else Has k | c => c end) ->
      step w (mk_world (filter (fun e => negb (text_eqb (e_name e) n)) (w_dir w)) who).
  Inductive steps : world -> world -> Prop :=
  | Stay w : steps w w
  | Go w w' w'' : steps w w' -> step w' w'' -> steps w w''.
End Together.

(** ** Looking up and removing sessions *)

(** inv_session.py 196-201 _lookup_storage *)
Definition lookup_storage (id : text) (l : list text) : option text := find (fun n => text_eqb (storage_id n) id) l.
(** storage.py 256-263: shutil.rmtree reports what cannot be removed to a function that
    only logs; [removable] says whether all of it could *)
Definition remove_storage (removable : text -> bool) (n : text) (l : list entry) : list entry :=
  if removable n then filter (fun e => negb (text_eqb (e_name e) n)) l else l.
(** inv_session.py 76-84 remove_session: the repository and what is printed *)
Inductive line := No_such_session (id : text) | Session_removed (id : text).
Fixpoint remove_session (removable : text -> bool) (ids : list text) (l : list entry) : list entry * list line * option errno :=
  match ids with
  | [] => (l, [], None)
  | id :: r =>
      match get_storage_list (inr l) with
      | inl x => (l, [], Some x)
      | inr names =>
          let '(l, o) :=
            match lookup_storage id names with
            | None => (l, No_such_session id)
            | Some n => (remove_storage removable n l, Session_removed id)
            end in
          let '(l, out, x) := remove_session removable r l in (l, o :: out, x)
      end
  end.
(** assistant.py 522-541 delete_sessions *)
Definition remove_all (removable : text -> bool) (ns : list text) (l : list entry) : list entry := fold_left (fun l n => remove_storage removable n l) ns l.
Definition delete_sessions (removable : text -> bool) (ids : list text) (l : list entry) : list entry * option errno :=
  match get_storage_list (inr l) with
  | inl x => (l, Some x)
  | inr names => (remove_all removable (filter (fun n => tmem (storage_id n) ids) names) l, None)
  end.

(** ** Sessions worth resuming *)

Record metadata := mk_metadata { m_app : option text; m_title : option text; m_flags : list text }.
Definition INCOMPLETE : text := T "incomplete".
Definition SUBMITTED : text := T "submitted".
Definition BOOTSTRAPPING : text := T "bootstrapping".
Definition same_text (a b : option text) : bool :=
  match a, b with Some x, Some y => text_eqb x y | None, None => true | _, _ => false end.
Section Stored.
  (** storage.load_checkpoint and SessionPeekHelper.peek; None is SessionResumeError *)
  Variable load : text -> errno + text.
  Variable peek : text -> option metadata.
  (** The sessions that a loop over them keeps, and the error that ends it *)
  Fixpoint keep (wanted : metadata -> bool) (l : list text) : list (text * metadata) * option errno :=
    match l with
    | [] => ([], None)
    | n :: r =>
        match load n with
        | inl x => ([], Some x)
        | inr [] => keep wanted r
        | inr data =>
            match peek data with
            | None => keep wanted r
            | Some m =>
                if wanted m then let '(k, x) := keep wanted r in ((n, m) :: k, x) else keep wanted r
            end
        end
    end.
  (** inv_run.py 495-514 get_resume_candidates *)
  Definition resume_candidates (title : text) (l : list text) : list text * option errno :=
    let '(k, x) := keep (fun m => same_text (m_app m) (Some (T "plainbox")) && same_text (m_title m) (Some title) && tmem INCOMPLETE (m_flags m)) l in
    (map fst k, x).
  (** assistant.py 670-689 get_resumable_sessions: what is yielded *)
  Definition resumable_sessions (app : option text) (l : list text) : list (text * metadata) * option errno :=
    let '(k, x) := keep (fun m => same_text (m_app m) app && tmem INCOMPLETE (m_flags m)) l in
    (map (fun e => (storage_id (fst e), snd e)) k, x).
  (** assistant.py 506-519 get_old_sessions *)
  Definition old_sessions (app : option text) (flags : list text) (allow_not_flagged : bool) (l : list text) : list (text * list text) * option errno :=
    let '(k, x) := keep (fun m => same_text (m_app m) app &&
                                  ((allow_not_flagged && match m_flags m with [] => true | _ => false end) || existsb (fun f => tmem f flags) (m_flags m))) l in
    (map (fun e => (storage_id (fst e), m_flags (snd e))) k, x).
  (** 592-594: self._resume_candidates[session_id][0]; None is KeyError.  The last
      session with that identifier wins *)
  Definition resume_choice (app : option text) (session_id : text) (l : list text) : option text :=
    find (fun n => text_eqb (storage_id n) session_id)
      (rev (map fst (fst (keep (fun m => same_text (m_app m) app && tmem INCOMPLETE (m_flags m)) l)))).
End Stored.
(** ** The dialogue: inv_run.py 427-478 maybe_resume_session *)

Inductive choice := Resume | Next | New.
Inductive ending := Resumed (n : text) | Fresh | Not_resumed.
Section Dialogue.
  (** The answers (None at the end of the input), and whether create_manager succeeds *)
  Variable pick : text -> option choice.
  Variable loads : text -> bool.
  Variable erase : text -> option bool.
  Variable fresh : option bool.
  (** None: the loop was not left with break *)
  Fixpoint ask (l : list text) : list text * option ending :=
    match l with
    | [] => ([], None)
    | s :: r =>
        match pick s with
        | Some Next => ask r
        | Some New | None => ([], Some Fresh)
        | Some Resume =>
            if loads s then ([], Some (Resumed s))
            else
              let '(erased, e) := ask r in
              (match erase s with Some true => s :: erased | _ => erased end, e)
        end
    end.
  Definition maybe_resume_session (l : list text) : list text * ending :=
    let '(erased, e) := ask l in
    (erased,
     match e with
     | Some e => e
     | None =>
         match l, fresh with
         | [], _ => Fresh
         | _, Some true => Fresh
         | _, _ => Not_resumed
         end
     end).
End Dialogue.
