(** What users expect from the cache of resource job results. *)
From Coq Require Import String Ascii List Bool Arith.
From Verif Require Import ScanModel Rfc822Model JsonModel IniModel CacheModel.
Import ListNotations.
Local Open Scope nat_scope.
Local Open Scope list_scope.

Definition no_slash (k : text) : Prop := k <> [] /\ ~ In SLASH k.

(** A program that uses the cache, restarted at will: the file system, the cache
    of the running process if there is one, and everything that was computed so
    far: for which job, with which result, with which log. *)
Record world := mk_world {
  w_fs : fs;
  w_mem : option cache;
  w_done : list (text * result * text)
}.

(** Nothing in the cache directory changes. *)
Definition outside (root : path) (f f' : fs) : Prop :=
  forall p, p = root \/ below root p = true -> f' p = f p.

(** What a job can give: a dictionary that json can write, with a log that is
    not called result.json. *)
Definition sane (r : result) : Prop :=
  NoDup (map fst r) /\ (forall k v, In (k, v) r -> good v) /\
  forall p, log_of r = Some p -> basename p <> RESULT.

(** The log of a result. *)
Definition log_content (f : fs) (r : result) : option text :=
  match log_of r with
  | Some p => match f p with Some (NFile c) => Some c | _ => None end
  | None => None
  end.
Definition note (k : text) (r : result) (f : fs) (l : list (text * result * text)) :=
  match log_content f r with Some c => (k, r, c) :: l | None => l end.

Inductive step (root : path) : world -> world -> Prop :=
(** files elsewhere change *)
| s_outside f f' m l : outside root f f' -> step root (mk_world f m l) (mk_world f' m l)
(** the process goes away *)
| s_quit f m l : step root (mk_world f m l) (mk_world f None l)
(** a new process loads the cache; there is none if that raises *)
| s_load f l dirs c ok : walks f root dirs -> load f dirs [] = (c, ok) ->
    step root (mk_world f None l) (mk_world f (if ok then Some c else None) l)
(** a job that is not cached is run, and its result stored *)
| s_get f c l k r f1 f2 e : no_slash k -> cached k c = None -> sane r -> outside root f f1 ->
    exec (store root k r) f1 f2 e ->
    step root (mk_world f (Some c) l)
      (mk_world f2 (match e with Returned s => Some (remember k s c) | Killed => None end) (note k r f1 l))
(** the cache is cleared *)
| s_clear f m l dirs f' e : (forall d, In d dirs -> exists k, no_slash k /\ d = join root k) ->
    exec (clear dirs) f f' e -> step root (mk_world f m l) (mk_world f' m l).

(** From an empty cache directory. *)
Inductive reachable (root : path) : world -> Prop :=
| r_start f : (forall p, below root p = true -> f p = None) -> reachable root (mk_world f None [])
| r_step w w' : reachable root w -> step root w w' -> reachable root w'.

(** A cached result is what was computed, with a copy of the log. *)
Definition genuine (root : path) (w : world) (k : text) (v : result) : Prop :=
  exists r content copy, In (k, r, content) (w_done w) /\
    (forall key, key <> LOG -> tget key v = tget key r) /\
    log_of v = Some copy /\ below root copy = true /\
    (w_fs w copy = None \/ w_fs w copy = Some (NFile content)).

(** An entry that loading understands. *)
Definition understood (f : fs) (d : path) : Prop :=
  exists data entry p, f (join d RESULT) = Some (NFile data) /\ loads data = Some (JObj entry) /\ log_of entry = Some p.

(** A history without crashes and errors: every result that is computed is stored
    and clearing removes what it tries to remove. *)
Inductive smooth (root : path) : world -> Prop :=
| sm_start f : (forall p, below root p = true -> f p = None) -> smooth root (mk_world f None [])
| sm_outside f f' m l : smooth root (mk_world f m l) -> outside root f f' -> smooth root (mk_world f' m l)
| sm_quit f m l : smooth root (mk_world f m l) -> smooth root (mk_world f None l)
| sm_load f l dirs c ok : smooth root (mk_world f None l) -> walks f root dirs -> load f dirs [] = (c, ok) ->
    smooth root (mk_world f (if ok then Some c else None) l)
| sm_get f c l k r f1 f2 r' : smooth root (mk_world f (Some c) l) -> no_slash k -> cached k c = None -> sane r ->
    outside root f f1 -> exec (store root k r) f1 f2 (Returned (Kept r')) ->
    smooth root (mk_world f2 (Some (remember k (Kept r') c)) (note k r f1 l))
| sm_clear f m l dirs f' : smooth root (mk_world f m l) ->
    (forall d, In d dirs -> exists k, no_slash k /\ d = join root k) ->
    exec (clear dirs) f f' (Returned tt) -> (forall d p, In d dirs -> within d p = true -> f' p = None) ->
    smooth root (mk_world f' m l).
