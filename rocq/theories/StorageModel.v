(** Session storage: plainbox/impl/session/storage.py:219-450 and
    plainbox/impl/session/manager.py:335-354.

    Python code that talks to the file system is modelled as a tree of system
    calls; what the operating system may answer, and what it may forget when the
    machine stops, is the relation [sysstep] and the relation [power_loss]. *)
From Coq Require Import Ascii List Bool Arith.
Import ListNotations.
Open Scope list_scope.

Definition bytes := list ascii.

(** * Programs *)

(** Errors of system calls: the two that the code tells apart, and all others
    (EIO, ENOSPC, EACCES, ...). *)
Inductive errno := ENOENT | EEXIST | EOTHER.

(** The system calls made by the storage code, all relative to the session
    directory.  "current" is the file _SESSION_FILE (storage.py:166), "next" is
    _SESSION_FILE_NEXT (storage.py:168). *)
Inductive sys :=
| OpenDir                          (* os.open(location, O_DIRECTORY) *)
| CloseDir                         (* os.close(location_fd) *)
| OpenNext                         (* os.open(next, O_WRONLY|O_CREAT|O_EXCL) *)
| Write (fd : nat) (data : bytes)  (* os.write(fd, data) *)
| Fsync (fd : nat)                 (* os.fsync(fd) of a file *)
| CloseFile (fd : nat)             (* os.close(fd) *)
| UnlinkNext                       (* os.unlink(next) *)
| Rename                           (* os.rename(next, current) *)
| FsyncDir                         (* os.fsync(location_fd) *)
| OpenCurrent                      (* os.open(current, O_RDONLY) *)
| Fstat (fd : nat)                 (* os.fstat(fd).st_size *)
| Read (fd : nat) (n : nat).       (* os.read(fd, n) *)

Inductive answer :=
| ADone
| AFd (fd : nat)
| ANum (n : nat)
| AData (d : bytes)
| AErr (e : errno).

(** Exceptions: OSError with an errno, the explicit IOError of a partial read
    or write, LockedStorageError. *)
Inductive exn := EOs (e : errno) | EPartial | ELocked | EImpossible.

Inductive prog (A : Type) :=
| Ret (a : A)
| Raise (e : exn)
| Call (c : sys) (k : answer -> prog A).
Arguments Ret {A} a.
Arguments Raise {A} e.
Arguments Call {A} c k.

(** [try: p / except: err / else: ok] *)
Fixpoint try_ {A B} (p : prog A) (ok : A -> prog B) (err : exn -> prog B) : prog B :=
  match p with
  | Ret a => ok a
  | Raise e => err e
  | Call c k => Call c (fun a => try_ (k a) ok err)
  end.

(** Sequence. *)
Definition bind {A B} (p : prog A) (f : A -> prog B) : prog B := try_ p f Raise.

(** [try: p / finally: q] *)
Definition finally {A B} (p : prog A) (q : prog B) : prog A :=
  try_ p (fun a => bind q (fun _ => Ret a)) (fun e => bind q (fun _ => Raise e)).

(** One system call; an error answer is raised as OSError. *)
Definition call (c : sys) : prog answer :=
  Call c (fun a => match a with AErr e => Raise (EOs e) | _ => Ret a end).

(** storage.py:376-407: write the data to the file that was opened; on failure
    unlink it, otherwise flush it; close it in any case *)
Definition write_next (fd : nat) (data : bytes) : prog unit :=
  finally
    (try_ (bind (call (Write fd data)) (fun a =>
             match a with
             | ANum n => if Nat.eqb n (length data) then Ret tt else Raise EPartial
             | _ => Raise EImpossible
             end))
       (fun _ => try_ (call (Fsync fd)) (fun _ => Ret tt) (fun _ => Ret tt))
       (fun _ => bind (call UnlinkNext) (fun _ => Ret tt)))
    (call (CloseFile fd)).

(** storage.py:408-425: rename; on failure unlink the next file *)
Definition rename_next : prog unit :=
  try_ (call Rename) (fun _ => Ret tt) (fun _ => bind (call UnlinkNext) (fun _ => Ret tt)).

(** storage.py:302-436 save_checkpoint, given that [data] is a bytes object *)
Definition save_checkpoint (data : bytes) : prog unit :=
  bind (call OpenDir) (fun _ =>
    finally
      (bind (try_ (call OpenNext) Ret (fun e =>
               match e with EOs EEXIST => Raise ELocked | _ => Raise e end)) (fun a =>
         match a with
         | AFd fd =>
             bind (write_next fd data) (fun _ =>
             bind rename_next (fun _ =>
             try_ (call FsyncDir) (fun _ => Ret tt) (fun _ => Ret tt)))
         | _ => Raise EImpossible
         end))
      (call CloseDir)).

(** storage.py:438-450 break_lock *)
Definition break_lock : prog unit := bind (call UnlinkNext) (fun _ => Ret tt).

(** storage.py:264-300 load_checkpoint *)
Definition load_checkpoint : prog bytes :=
  bind (call OpenDir) (fun _ =>
    finally
      (try_
        (bind (call OpenCurrent) (fun a =>
           match a with
           | AFd fd =>
               bind (call (Fstat fd)) (fun a =>
               match a with
               | ANum size =>
                   finally
                     (bind (call (Read fd size)) (fun a =>
                        match a with
                        | AData d => if Nat.eqb (length d) size then Ret d else Raise EPartial
                        | _ => Raise EImpossible
                        end))
                     (call (CloseFile fd))
               | _ => Raise EImpossible
               end)
           | _ => Raise EImpossible
           end))
        Ret
        (fun e => match e with EOs ENOENT => Ret [] | _ => Raise e end))
      (call CloseDir)).

(** plainbox/impl/session/manager.py:335-354 checkpoint, from the point where
    the data to save is known *)
Definition checkpoint (data : bytes) : prog unit :=
  try_ (save_checkpoint data) Ret (fun e =>
    match e with
    | ELocked => bind break_lock (fun _ => save_checkpoint data)
    | _ => Raise e
    end).

(** * The file system

    A file has its contents and a mark saying whether they are safely on disk.
    The session directory binds the two names to files; for each name we also
    keep every binding it may have after a power failure. *)
Record fs := mk_fs {
  content : nat -> bytes;
  synced : nat -> bool;
  fresh : nat;                    (* files are numbered below this *)
  current : option nat;
  next : option nat;
  current_hist : list (option nat);
  next_hist : list (option nat)
}.

(** A session directory that was just created (storage.py:219-254). *)
Definition new_fs : fs :=
  mk_fs (fun _ => []) (fun _ => true) 0 None None [None] [None].

Definition upd {A} (f : nat -> A) (i : nat) (v : A) : nat -> A :=
  fun j => if Nat.eqb j i then v else f j.

Definition create_next (s : fs) : fs :=
  mk_fs (upd (content s) (fresh s) []) (upd (synced s) (fresh s) false) (S (fresh s))
    (current s) (Some (fresh s)) (current_hist s) (Some (fresh s) :: next_hist s).

Definition append_file (fd : nat) (d : bytes) (s : fs) : fs :=
  mk_fs (upd (content s) fd (content s fd ++ d)) (upd (synced s) fd false) (fresh s)
    (current s) (next s) (current_hist s) (next_hist s).

Definition sync_file (fd : nat) (s : fs) : fs :=
  mk_fs (content s) (upd (synced s) fd true) (fresh s)
    (current s) (next s) (current_hist s) (next_hist s).

Definition unlink_next (s : fs) : fs :=
  mk_fs (content s) (synced s) (fresh s) (current s) None
    (current_hist s) (None :: next_hist s).

Definition rename_files (i : nat) (s : fs) : fs :=
  mk_fs (content s) (synced s) (fresh s) (Some i) None
    (Some i :: current_hist s) (None :: next_hist s).

Definition sync_dir (s : fs) : fs :=
  mk_fs (content s) (synced s) (fresh s) (current s) (next s) [current s] [next s].

(** What a system call may do.  Every call may fail with an error other than
    ENOENT and EEXIST, and then changes nothing, except that a failing or
    partial write may have written any prefix.  ENOENT and EEXIST are
    answered exactly when they are true. *)
Inductive sysstep : fs -> sys -> answer -> fs -> Prop :=
| st_fault s c : (forall fd d, c <> Write fd d) -> sysstep s c (AErr EOTHER) s
| st_opendir s : sysstep s OpenDir ADone s
| st_closedir s : sysstep s CloseDir ADone s
| st_opennext s : next s = None -> sysstep s OpenNext (AFd (fresh s)) (create_next s)
| st_opennext_exists s i : next s = Some i -> sysstep s OpenNext (AErr EEXIST) s
| st_write s fd d n : n <= length d ->
    sysstep s (Write fd d) (ANum n) (append_file fd (firstn n d) s)
| st_write_fault s fd d n : n <= length d ->
    sysstep s (Write fd d) (AErr EOTHER) (append_file fd (firstn n d) s)
| st_fsync s fd : sysstep s (Fsync fd) ADone (sync_file fd s)
| st_close s fd : sysstep s (CloseFile fd) ADone s
| st_unlink s i : next s = Some i -> sysstep s UnlinkNext ADone (unlink_next s)
| st_unlink_missing s : next s = None -> sysstep s UnlinkNext (AErr ENOENT) s
| st_rename s i : next s = Some i -> sysstep s Rename ADone (rename_files i s)
| st_rename_missing s : next s = None -> sysstep s Rename (AErr ENOENT) s
| st_fsyncdir s : sysstep s FsyncDir ADone (sync_dir s)
| st_opencur s i : current s = Some i -> sysstep s OpenCurrent (AFd i) s
| st_opencur_missing s : current s = None -> sysstep s OpenCurrent (AErr ENOENT) s
| st_fstat s fd : sysstep s (Fstat fd) (ANum (length (content s fd))) s
| st_read s fd n m : m <= n -> sysstep s (Read fd n) (AData (firstn m (content s fd))) s.

Definition trace := list (sys * answer).

(** [runs p s tr p' s']: started in [s], the program [p] can make the calls
    [tr]; what remains of it is [p'], and the file system is [s'].  A process
    can be killed in any such state. *)
Inductive runs {A} : prog A -> fs -> trace -> prog A -> fs -> Prop :=
| runs_stop p s : runs p s [] p s
| runs_call c k s a s1 tr p' s' :
    sysstep s c a s1 -> runs (k a) s1 tr p' s' ->
    runs (Call c k) s ((c, a) :: tr) p' s'.

(** What the disk may hold after the machine stopped: each name is bound to one
    of the files it was bound to since the directory was last flushed, and
    files that were not flushed may contain anything. *)
Definition power_loss (s s' : fs) : Prop :=
  In (current s') (current_hist s) /\ In (next s') (next_hist s) /\
  current_hist s' = [current s'] /\ next_hist s' = [next s'] /\
  fresh s' = fresh s /\
  (forall i, synced s i = true -> content s' i = content s i) /\
  (forall i, synced s' i = true).
