(** * The job runner (/repo/plainbox/impl/runner.py)

    What a command does when it is executed is an argument: whether the process
    was started, its output (each line, or chunk, with the delay the runner
    measured and the name of the stream), and how the execution controller
    returned.  How a controller is scored is another model (CtrlModel); here the
    scores of the available controllers for the job are an argument.  Threads,
    time stamps, logging, leftover files and the deprecated command_io_delegate
    are not modelled. *)
From Coq Require Import String Ascii List Bool Arith ZArith.
From Verif Require Import ScanModel Rfc822Model JsonModel IologModel IniModel CacheModel.
Import ListNotations.
Local Open Scope nat_scope.
Local Open Scope list_scope.

Record job := mk_job {
  j_id : text;
  j_plugin : text;
  j_command : bool;     (** job.command is not None *)
  j_chunked : bool;     (** 'use-chunked-io' in get_flag_set() *)
  j_cachable : bool     (** 'cachable' in get_flag_set() *)
}.

(** 54-58 slugify *)
Definition is_letter (c : ascii) : bool :=
  let n := nat_of_ascii c in
  Nat.leb 65 n && Nat.leb n 90 || Nat.leb 97 n && Nat.leb n 122.
Definition is_digit (c : ascii) : bool :=
  let n := nat_of_ascii c in Nat.leb 48 n && Nat.leb n 57.
Definition valid_char (c : ascii) : bool :=
  Ascii.eqb c "-"%char || Ascii.eqb c "_"%char || Ascii.eqb c "."%char || is_letter c || is_digit c.
Definition slugify (t : text) : text := map (fun c => if valid_char c then c else "_"%char) t.

(** How the execution controller (ctrl.execute_job, ctrl.execute_job_with_result)
    ends: with a return code (None when a PermissionError was swallowed) and, for
    qml, the object the shell sent (None if there is none, [Some None] if it has
    no outcome); or with an exception. *)
Inductive ctrl_end :=
| Code (c : option Z) (qml : option (option text))
| Fails.
Record execution := mk_execution {
  x_started : bool;                          (** on_begin was called *)
  x_output : list (json * text * bytes);     (** on_line or on_chunk: delay, stream, data *)
  x_end : ctrl_end
}.

(** What the ui object is told, 205-260. *)
Inductive ui_event :=
| UBegin
| UOutput (stream : text) (data : bytes)
| UEnd (code : Z).

(** Files: the text that is in them (the record file is gzipped text, 900-905). *)
Definition files := path -> option text.
Definition put (p : path) (t : text) (f : files) : files := fun q => if text_eqb q p then Some t else f q.

Definition STDOUT := T "stdout".
Definition STDERR := T "stderr".

(** 837-842, 897-899, 766-768: the files of a job *)
Definition stdout_path (dir : path) (id : text) : path := join dir (slugify id ++ T ".stdout").
Definition stderr_path (dir : path) (id : text) : path := join dir (slugify id ++ T ".stderr").
Definition record_path (dir : path) (id : text) : path := join dir (slugify id ++ T ".record.gz").

(** 77-92 IOLogRecordGenerator.on_line, connected to IOLogRecordWriter.write_record;
    it has no on_chunk *)
Definition records (chunked : bool) (o : list (json * text * bytes)) : list iorecord :=
  if chunked then [] else map (fun e => match e with (d, s, b) => mk_iorecord d (JStr s) b end) o.
(** 143-153 CommandOutputWriter.on_line, for one of the streams *)
Fixpoint stream_data (s : text) (o : list (json * text * bytes)) : bytes :=
  match o with
  | [] => []
  | (_, s', b) :: r => (if text_eqb s' s then b else []) ++ stream_data s r
  end.
Definition output_file (chunked : bool) (s : text) (o : list (json * text * bytes)) : text :=
  if chunked then [] else stream_data s o.

(** What executing the command leaves in the files (869-918, 707-745 for qml, which
    never asks for chunks). *)
Definition run_files (dir : path) (id : text) (chunked : bool) (x : execution) (f : files) : files :=
  let out := if x_started x then x_output x else [] in
  let f1 := put (record_path dir id) (write_log (records chunked out)) f in
  if x_started x then
    put (stderr_path dir id) (output_file chunked STDERR out)
      (put (stdout_path dir id) (output_file chunked STDOUT out) f1)
  else f1.

(** The events for the ui; a signal ends with its negated number, 229-238. *)
Definition run_ui (x : execution) : list ui_event :=
  if x_started x then
    UBegin :: map (fun e => match e with (_, s, b) => UOutput s b end) (x_output x) ++
    match x_end x with Code (Some c) _ => [UEnd c] | _ => [] end
  else [].

(** ** Results *)

Inductive outcome :=
| O_pass | O_fail | O_crash | O_skip | O_undecided | O_not_supported | O_not_implemented
| O_other (t : text).         (** whatever the qml shell says *)

Record jresult := mk_jresult {
  r_outcome : outcome;
  r_code : option Z;
  r_log : option path
}.

(** How run_job ends. *)
Inductive finish :=
| Done (r : jresult)
| Value_error        (** bad plugin value, no command *)
| Index_error        (** there are no controllers *)
| Key_error          (** the qml object has no outcome *)
| Type_error         (** the return code of a qml job is None *)
| Ctrl_error.        (** the exception of the controller *)

(** 793-801 *)
Definition code_outcome (c : Z) : outcome :=
  if Z.eqb c 0 then O_pass else if Z.ltb c 0 then O_crash else O_fail.

(** 928-957 _get_ctrl_for_job: the best score; LookupError when it is negative *)
Inductive choice := Chosen | No_ctrl | Empty_list.
Fixpoint best (l : list Z) : option Z :=
  match l with
  | [] => None
  | x :: r => match best r with Some y => Some (Z.max x y) | None => Some x end
  end.
Definition choose (scores : list Z) : choice :=
  match best scores with
  | None => Empty_list
  | Some s => if Z.ltb s 0 then No_ctrl else Chosen
  end.

(** Everything that running a job does: how it ended, the files, what the ui saw. *)
Definition effect := (finish * files * list ui_event)%type.

(** 778-806 _just_run_command and 869-918 _run_command *)
Definition just_run (dir : path) (scores : list Z) (j : job) (x : execution) (f : files)
    (k : jresult -> jresult) : effect :=
  match choose scores with
  | Empty_list => (Index_error, f, [])
  | No_ctrl => (Done (k (mk_jresult O_not_supported None None)), f, [])
  | Chosen =>
      if j_command j then
        let f' := run_files dir (j_id j) (j_chunked j) x f in
        match x_end x with
        | Fails => (Ctrl_error, f', run_ui x)
        | Code c _ =>
            let c := match c with Some c => c | None => (-1)%Z end in
            (Done (k (mk_jresult (code_outcome c) (Some c) (Some (record_path dir (j_id j))))), f', run_ui x)
        end
      else (Value_error, f, [])
  end.

(** 681-762 run_qml_job *)
Definition run_qml (dir : path) (scores : list Z) (j : job) (x : execution) (f : files) : effect :=
  match choose scores with
  | Empty_list => (Index_error, f, [])
  | No_ctrl => (Done (mk_jresult O_not_supported None None), f, [])
  | Chosen =>
      let f' := run_files dir (j_id j) false x f in
      match x_end x with
      | Fails => (Ctrl_error, f', run_ui x)
      | Code None _ => (Type_error, f', run_ui x)
      | Code (Some c) q =>
          match (if Z.eqb c 0 then q else None) with
          | None => (Done (mk_jresult O_fail (Some c) (Some (record_path dir (j_id j)))), f', run_ui x)
          | Some None => (Key_error, f', run_ui x)
          | Some (Some o) => (Done (mk_jresult (O_other o) (Some c) (Some (record_path dir (j_id j)))), f', run_ui x)
          end
      end
  end.

Definition undecided (r : jresult) : jresult := mk_jresult O_undecided (r_code r) (r_log r).

(** The methods run_..._job, 441-762, by the part of their name. *)
Inductive method := M_shell | M_attachment | M_resource | M_manual | M_user_interact | M_user_verify | M_user_interact_verify | M_qml.
Definition methods : list (text * (method * text)) :=
  [(T "shell", (M_shell, T "shell")); (T "attachment", (M_attachment, T "attachment"));
   (T "resource", (M_resource, T "resource")); (T "manual", (M_manual, T "manual"));
   (T "user_interact", (M_user_interact, T "user-interact")); (T "user_verify", (M_user_verify, T "user-verify"));
   (T "user_interact_verify", (M_user_interact_verify, T "user-interact-verify")); (T "qml", (M_qml, T "qml"))].

(** job.plugin.replace('-', '_'), 423 *)
Definition underscored (t : text) : text := map (fun c => if Ascii.eqb c "-"%char then "_"%char else c) t.

(** 396-439 run_job.  [hit] is the result the resource cache has for the checksum
    of the job (ResourceJobCache.get, 511-515; storing a computed result is in
    CacheModel). *)
Definition run_job (dry : bool) (dir : path) (scores : list Z) (hit : option jresult)
    (j : job) (x : execution) (f : files) : effect :=
  match tget (underscored (j_plugin j)) methods with
  | None => (Done (mk_jresult O_not_implemented None None), f, [])
  | Some (m, name) =>
      if dry && negb (text_eqb (j_plugin j) (T "resource") || text_eqb (j_plugin j) (T "attachment")) then
        (Done (mk_jresult O_skip None None), f, [])
      else if text_eqb (j_plugin j) name then
        match m with
        | M_shell | M_attachment | M_user_interact => just_run dir scores j x f (fun r => r)
        | M_resource =>
            if j_cachable j then
              match hit with
              | Some r => (Done r, f, [])
              | None => just_run dir scores j x f (fun r => r)
              end
            else just_run dir scores j x f (fun r => r)
        | M_manual => (Done (mk_jresult O_undecided None None), f, [])
        | M_user_verify | M_user_interact_verify => just_run dir scores j x f undecided
        | M_qml => run_qml dir scores j x f
        end
      else (Value_error, f, [])
  end.

(** Several jobs, one after the other; each may have its own controllers and
    cached result. *)
Record request := mk_request { q_scores : list Z; q_hit : option jresult; q_job : job; q_exec : execution }.
Fixpoint run_jobs (dry : bool) (dir : path) (l : list request) (f : files) : list finish * files :=
  match l with
  | [] => ([], f)
  | q :: r =>
      match run_job dry dir (q_scores q) (q_hit q) (q_job q) (q_exec q) f with
      | (e, f', _) => let (es, f2) := run_jobs dry dir r f' in (e :: es, f2)
      end
  end.
