(** * Where the command of a job runs: /repo/plainbox/impl/ctrl.py 357-545 and 883-995,
    /repo/plainbox/impl/runner.py 683-760 and 888-910

    What the operating system, the command and the listeners do is given in advance (an
    [env]); what plainbox does is the sequence of effects and the result.  The command line
    and the environment are those of C31, C44 and C48.  Not modelled: Windows; symlink
    failing for another reason than an existing name; exceptions while the command line is
    made. *)
From Coq Require Import String Ascii List Bool Arith ZArith.
From Verif Require Import ScanModel Rfc822Model JsonModel IniModel ChecksumModel CacheModel.
Import ListNotations.
Local Open Scope nat_scope.
Local Open Scope list_scope.

Definition slash : ascii := "/"%char.
Definition join (a b : text) : text := a ++ slash :: b.

(** What a command leaves in its directory: things that are not directories, links to
    directories, and directories, which may be unreadable. *)
Inductive node := File | LinkToDir | Dir (readable : bool) (l : list (text * node)).
Definition is_file (n : node) : bool := match n with File => true | _ => false end.

(** 527-545 _find_leftovers: os.walk goes from the top, does not follow links and leaves
    out directories it cannot list *)
Fixpoint walk (top : bool) (path : text) (n : node) : list text :=
  match n with
  | Dir true l =>
      (if top then [] else [path]) ++
      map (fun e => join path (fst e)) (filter (fun e => is_file (snd e)) l) ++
      (fix go (l : list (text * node)) : list text :=
         match l with
         | [] => []
         | (name, n') :: r => walk false (join path name) n' ++ go r
         end) l
  | _ => []
  end.
Definition find_leftovers (cwd : text) (tree : node) : list text := walk true cwd tree.

Inductive exn := PermissionErr | FileExistsErr | UnboundLocalErr | TypeErr | OtherErr (n : nat).
Inductive effect :=
| MakeData
| MakeDir (p : text)
| Link (target dest : text)
| Start (cwd : option text)
| Halt
| Leftovers (l : list text)
| RemoveDir (p : text).
(** None is Python's None *)
Inductive res (V : Type) := Ret (v : option V) | Exn (e : exn).
Arguments Ret {V}. Arguments Exn {V}.

Record env (V : Type) := mk_env {
  e_data : option (option exn);  (** None: the directory for data exists; else makedirs *)
  e_nest : text + exn;           (** mkdtemp *)
  e_cwd : text + exn;
  e_run : V + exn;               (** what calling the command gives *)
  e_left : node;                 (** what is then in the directory *)
  e_listener : option exn;       (** of on_leftover_files *)
  e_rm_cwd : option exn;         (** removing the directories *)
  e_rm_nest : option exn;
}.
Arguments mk_env {V}. Arguments e_data {V}. Arguments e_nest {V}. Arguments e_cwd {V}. Arguments e_run {V}.
Arguments e_left {V}. Arguments e_listener {V}. Arguments e_rm_cwd {V}. Arguments e_rm_nest {V}.

(** a provider: its namespace and its executable_list *)
Record provider := mk_provider { p_namespace : text; p_executables : list text }.

(** 365-393: [seen] are the names in the nest *)
Fixpoint link_all (nest : text) (seen : list text) (files : list text) : list effect * option exn :=
  match files with
  | [] => ([], None)
  | f :: r =>
      if tmem (basename f) seen then ([], Some FileExistsErr)
      else let rest := link_all nest (basename f :: seen) r in
           (Link f (join nest (basename f)) :: fst rest, snd rest)
  end.
(** 487-490 *)
Definition nest_files (namespace : text) (providers : list provider) : list text :=
  concat (map (fun p => if text_eqb namespace (p_namespace p) then p_executables p else []) providers).

Section Execute.
  Context {V : Type}.
  (** an exception while another one is handled replaces it *)
  Definition replaced (r : res V) (x : option exn) : res V :=
    match x with Some e => Exn e | None => r end.
  Definition remove (p : text) (x : option exn) : list effect :=
    match x with None => [RemoveDir p] | Some _ => [] end.
  (** 492-525: a with statement whose body is [body]; the variable cwd_dir is not bound
      when the directory cannot be made *)
  Definition temporary_cwd (e : env V) (body : text -> list effect * res V) : list effect * res V :=
    match e_cwd e with
    | inr PermissionErr => ([], Exn UnboundLocalErr)
    | inr x => ([], Exn x)
    | inl cwd =>
        let b := body cwd in
        let left := find_leftovers cwd (e_left e) in
        let told := match left with [] => ([], None) | _ => ([Leftovers left], e_listener e) end in
        let final := replaced (replaced (snd b) (snd told)) (e_rm_cwd e) in
        (MakeDir cwd :: fst b ++ fst told ++ remove cwd (e_rm_cwd e),
         match final with
         | Exn PermissionErr => match snd b with Ret v => Ret v | Exn _ => Ret None end
         | _ => final
         end)
    end.
  (** 464-490 *)
  Definition configured_filesystem (e : env V) (files : list text) (body : text -> list effect * res V) : list effect * res V :=
    match e_nest e with
    | inr x => ([], Exn x)
    | inl nest =>
        let links := link_all nest [] files in
        let b := match snd links with None => body nest | Some x => ([], Exn x) end in
        (MakeDir nest :: fst links ++ fst b ++ remove nest (e_rm_nest e), replaced (snd b) (e_rm_nest e))
    end.
  (** 446-462 (the same in 1547-1587 with preserve_cwd false): [preserve] is the flag
      preserve-cwd or the variable SNAP *)
  Definition execute (e : env V) (namespace : text) (providers : list provider) (preserve noreturn : bool) : list effect * res V :=
    match e_data e with
    | Some (Some x) => ([], Exn x)
    | d =>
        let b := configured_filesystem e (nest_files namespace providers) (fun nest =>
          temporary_cwd e (fun cwd =>
            (Start (if preserve then None else Some cwd) ::
               match e_run e with inl _ => if noreturn then [Halt] else [] | inr _ => [] end,
             match e_run e with inl v => Ret (Some v) | inr x => Exn x end))) in
        ((match d with Some _ => [MakeData] | None => [] end) ++ fst b, snd b)
    end.
End Execute.

(** runner.py 891-902: the return code *)
Definition run_command (e : env Z) (namespace : text) (providers : list provider) (preserve noreturn : bool) : list effect * (Z + exn) :=
  let r := execute e namespace providers preserve noreturn in
  (fst r, match snd r with
          | Ret (Some c) => inl c
          | Ret None => inl (-1)%Z
          | Exn x => inr x
          end).

(** ** QML jobs: 930-968; two pipes with room for [room] bytes each *)
(** what the shell does: it writes bytes and ends; what it reads does not matter here *)
Record shell := mk_shell { s_writes : list text; s_code : Z }.
Inductive answer := NotJson | NoOutcome | Outcome (o : text).
(** what lines 936-957 come to, None: they never end; [popen] is what starting the
    shell raises *)
Fixpoint pipe_writes (room : nat) (pipe : text) (l : list text) : option text :=
  match l with
  | [] => Some pipe
  | s :: r => if length pipe + length s <=? room then pipe_writes room (pipe ++ s) r else None
  end.
Definition talk (room : nat) (question : text) (popen : option exn) (sh : shell) : option ((Z * text) + exn) :=
  if length question <=? room then
    match popen with
    | Some x => Some (inr x)
    | None =>
        match pipe_writes room [] (s_writes sh) with
        | Some got => Some (inl (s_code sh, got))
        | None => None
        end
    end
  else None.
(** runner.py 736-760, given what execute_job_with_result returned: the outcome, or an
    exception; [parse] is json.loads *)
Definition qml_outcome (parse : text -> answer) (r : res (Z * text)) : (text * Z) + exn :=
  match r with
  | Exn x => inr x
  | Ret None => inr TypeErr
  | Ret (Some (c, s)) =>
      match parse s with
      | NotJson => inl (T "fail", c)
      | Outcome o => if (c =? 0)%Z then inl (o, c) else inl (T "fail", c)
      | NoOutcome => if (c =? 0)%Z then inr (OtherErr 0) else inl (T "fail", c)
      end
  end.
Definition is_start (x : effect) : bool := match x with Start _ => true | _ => false end.
Definition with_run {V} (e : env V) (r : V + exn) : env V :=
  mk_env (e_data e) (e_nest e) (e_cwd e) r (e_left e) (e_listener e) (e_rm_cwd e) (e_rm_nest e).
(** None: it never ends; the e_run of [e] is not used *)
Definition run_qml (room : nat) (parse : text -> answer) (question : text) (popen : option exn) (sh : shell) (e : env (Z * text))
    (namespace : text) (providers : list provider) (noreturn : bool) : option (list effect * ((text * Z) + exn)) :=
  match talk room question popen sh with
  | None =>
      let r := execute e namespace providers false noreturn in
      if existsb is_start (fst r) then None else Some (fst r, qml_outcome parse (snd r))
  | Some v =>
      let r := execute (with_run e v) namespace providers false noreturn in
      Some (fst r, qml_outcome parse (snd r))
  end.
