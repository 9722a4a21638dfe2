(** * Exporting sessions (/repo/plainbox/impl/exporter/__init__.py, tar.py)

    Translations are not modelled (texts are given), nor what jinja2 and the
    spreadsheet exporter make of the data. *)
From Coq Require Import String Ascii List Bool Arith.
From Verif Require Import ScanModel Rfc822Model JsonModel IologModel IniModel CacheModel.
Import ListNotations.
Local Open Scope nat_scope.
Local Open Scope list_scope.

(** ** Options *)

Inductive optval := OTrue | OText (t : text).
Definition options := tdict optval.

(** 110-121 and 127-138: one option string; None is the ValueError *)
Definition add_option (supported : list text) (o : text) (d : options) : option options :=
  match split_equals o with
  | (name, value) =>
      if tmem name supported then
        Some (tset name (match value with Some v => OText v | None => OTrue end) d)
      else None
  end.
Fixpoint add_options (supported : list text) (l : list text) (d : options) : option options :=
  match l with
  | [] => Some d
  | o :: r => match add_option supported o d with Some d' => add_options supported r d' | None => None end
  end.
(** 102-138 __init__: the options of the caller, then those of the exporter unit *)
Definition make_options (supported l unit_options : list text) : option options :=
  match add_options supported l [] with
  | Some d => add_options supported unit_options d
  | None => None
  end.
(** 150-159 _option_list: is the option in it *)
Definition truthy (v : optval) : bool := match v with OTrue => true | OText [] => false | OText _ => true end.
Definition enabled (d : options) (o : text) : bool :=
  match tget o d with Some v => truthy v | None => false end.
(** 171-175 get_option_value; None is False *)
Definition get_option_value (d : options) (o : text) : option optval := tget o d.
(** /repo/plainbox/impl/session/manager.py 502-509 create_exporter *)
Definition create_exporter (strict : bool) (supported l unit_options : list text) : option options :=
  make_options supported (if strict then l else filter (fun o => tmem o supported) l) unit_options.

(** 73-85 *)
Definition WITH_IO_LOG := T "with-io-log".
Definition SQUASH_IO_LOG := T "squash-io-log".
Definition FLATTEN_IO_LOG := T "flatten-io-log".
Definition WITH_RUN_LIST := T "with-run-list".
Definition WITH_JOB_LIST := T "with-job-list".
Definition WITH_DESIRED_JOB_LIST := T "with-job-list".
Definition WITH_RESOURCE_MAP := T "with-resource-map".
Definition WITH_JOB_DEFS := T "with-job-defs".
Definition WITH_ATTACHMENTS := T "with-attachments".
Definition WITH_COMMENTS := T "with-comments".
Definition WITH_JOB_HASH := T "with-job-hash".
Definition WITH_CATEGORY_MAP := T "with-category-map".
Definition WITH_CERTIFICATION_STATUS := T "with-certification-status".

(** ** Sessions *)

(** io_log_filename of the result: MemoryJobResult has no such attribute *)
Inductive logname := NoAttribute | NoName | Named (p : path).

Record jstate := mk_jstate {
  s_id : text;
  s_plugin : text;
  s_summary : text;
  s_category : text;              (** effective_category_id *)
  s_certification : text;         (** effective_certification_status *)
  s_checksum : text;
  s_requires : text;              (** empty for None, as for the next three *)
  s_depends : text;
  s_command : text;
  s_description : text;
  s_outcome : option text;        (** of the result; None is OUTCOME_NONE *)
  s_duration : option text;       (** None for None and for zero *)
  s_comments : option text;
  s_log : list iorecord;          (** get_io_log() *)
  s_logname : logname
}.
Record session := mk_session {
  v_job_list : list text;
  v_run_list : list text;
  v_desired : list text;
  v_resources : tdict (list json);
  v_categories : list (text * text);     (** the category units: id and tr_name() *)
  v_states : list jstate                 (** job_state_map.values() *)
}.

(** ** Data *)

(** 346-352 _squash_io_log *)
Definition squash_io_log (l : list iorecord) : json := JList (map (fun r => JStr (b64encode (io_data r))) l).
(** 354-360 _flatten_io_log *)
Definition flatten_io_log (l : list iorecord) : json := JStr (b64encode (concat (map io_data l))).
(** 362-367 _io_log *)
Definition raw_io_log (l : list iorecord) : json :=
  JList (map (fun r => JList [io_delay r; io_stream r; JStr (b64encode (io_data r))]) l).

(** 289-296 *)
Fixpoint add_defs (l : list (text * text)) (e : tdict json) : tdict json :=
  match l with
  | [] => e
  | (_, []) :: r => add_defs r e
  | (p, v) :: r => add_defs r (tset p (JStr v) e)
  end.
Definition job_defs (s : jstate) : list (text * text) :=
  [(T "plugin", s_plugin s); (T "requires", s_requires s); (T "depends", s_depends s);
   (T "command", s_command s); (T "description", s_description s)].

(** 263-324: the entry of a job in the result map *)
Definition entry (d : options) (s : jstate) (outcome : text) : tdict json :=
  let e := [(T "summary", JStr (s_summary s))] in
  let e := tset (T "category_id") (JStr (s_category s)) e in
  let e := tset (T "outcome") (JStr outcome) e in
  let e := match s_duration s with Some t => tset (T "execution_duration") (JNum t) e | None => e end in
  let e := if enabled d WITH_COMMENTS then
             tset (T "comments") (match s_comments s with Some c => JStr c | None => JNull end) e else e in
  let e := if enabled d WITH_JOB_HASH then tset (T "hash") (JStr (s_checksum s)) e else e in
  let e := if enabled d WITH_JOB_DEFS then add_defs (job_defs s) e else e in
  if text_eqb (s_plugin s) (T "attachment") then e
  else
    let e := if enabled d WITH_IO_LOG then
               tset (T "io_log")
                 (if enabled d SQUASH_IO_LOG then squash_io_log (s_log s)
                  else if enabled d FLATTEN_IO_LOG then flatten_io_log (s_log s)
                  else raw_io_log (s_log s)) e
             else e in
    if enabled d WITH_CERTIFICATION_STATUS then
      tset (T "certification_status") (JStr (s_certification s)) e else e.

(** 337-344 _build_attachment_map *)
Definition is_stdout (r : iorecord) : bool :=
  match io_stream r with JStr t => text_eqb t (T "stdout") | _ => false end.
Definition attachment (s : jstate) : text :=
  b64encode (concat (map io_data (filter is_stdout (s_log s)))).

(** The dictionary that is returned; a key that is not there is None. *)
Record edata := mk_edata {
  d_results : tdict (tdict json);
  d_job_list : option (list text);
  d_run_list : option (list text);
  d_desired : option (list text);
  d_resources : option (tdict (list json));
  d_attachments : option (tdict text);
  d_categories : option (tdict text)
}.

Fixpoint export_results (d : options) (l : list jstate) (m : tdict (tdict json)) : tdict (tdict json) :=
  match l with
  | [] => m
  | s :: r =>
      match s_outcome s with
      | None => export_results d r m
      | Some o => export_results d r (tset (s_id s) (entry d s o) m)
      end
  end.
Fixpoint export_attachments (l : list jstate) (m : tdict text) : tdict text :=
  match l with
  | [] => m
  | s :: r =>
      match s_outcome s with
      | None => export_attachments r m
      | Some _ =>
          if text_eqb (s_plugin s) (T "attachment") then export_attachments r (tset (s_id s) (attachment s) m)
          else export_attachments r m
      end
  end.
Definition UNCATEGORISED := T "com.canonical.plainbox::uncategorised".
Definition TR_UNCATEGORISED := T "Uncategorised".
(** 241-257 *)
Fixpoint add_categories (wanted : list text) (l : list (text * text)) (m : tdict text) : tdict text :=
  match l with
  | [] => m
  | (i, n) :: r => add_categories wanted r (if tmem i wanted then tset i n m else m)
  end.
Definition category_map (v : session) : tdict text :=
  let wanted := map s_category (v_states v) in
  let m := add_categories wanted (v_categories v) [] in
  if tmem UNCATEGORISED wanted then tset UNCATEGORISED TR_UNCATEGORISED m else m.

(** 202-335 get_session_data_subset *)
Definition get_data (d : options) (v : session) : edata :=
  mk_edata
    (export_results d (v_states v) [])
    (if enabled d WITH_JOB_LIST then Some (v_job_list v) else None)
    (if enabled d WITH_RUN_LIST then Some (v_run_list v) else None)
    (if enabled d WITH_DESIRED_JOB_LIST then Some (v_desired v) else None)
    (if enabled d WITH_RESOURCE_MAP then Some (v_resources v) else None)
    (if enabled d WITH_ATTACHMENTS then Some (export_attachments (v_states v) []) else None)
    (if enabled d WITH_CATEGORY_MAP then Some (category_map v) else None).

(** ** The archive, tar.py 107-129 *)

(** str.replace, left to right without overlaps ([pat] is not empty) *)
Fixpoint replace_from (pat new : text) (skip : nat) (t : text) : text :=
  match t with
  | [] => []
  | c :: r =>
      match skip with
      | S n => replace_from pat new n r
      | 0 => if tprefix pat t then new ++ replace_from pat new (length pat - 1) r else c :: replace_from pat new 0 r
      end
  end.
Definition replace_all (pat new t : text) : text := replace_from pat new 0 t.

(** os.path.splitext(name)[0] of a name without slashes: up to the last dot, unless
    there are only dots before it *)
Fixpoint last_dot (t : text) : option text :=
  match t with
  | [] => None
  | c :: r =>
      match last_dot r with
      | Some b => Some (c :: b)
      | None => if Ascii.eqb c "."%char then Some [] else None
      end
  end.
Definition splitext_root (n : text) : text :=
  match last_dot n with
  | Some b => if existsb (fun c => negb (Ascii.eqb c "."%char)) b then b else n
  | None => n
  end.

Definition folder (s : jstate) : text :=
  if text_eqb (s_plugin s) (T "attachment") then T "attachment_files" else T "test_output".
(** A member for one of the streams, if the file exists and is not empty. *)
Definition tar_member (f : path -> option text) (s : jstate) (record std : text) : list (path * text) :=
  let filename := replace_all (T "record.gz") std record in
  match f filename with
  | Some (c :: t) =>
      let name := basename filename in
      let arcname := if text_eqb std (T "stdout") then splitext_root name else name in
      [(join (folder s) arcname, c :: t)]
  | _ => []
  end.
(** The members after the three reports; None is the AttributeError for a disk
    result without file name. *)
Fixpoint tar_jobs (f : path -> option text) (l : list jstate) : option (list (path * text)) :=
  match l with
  | [] => Some []
  | s :: r =>
      match s_logname s, tar_jobs f r with
      | _, None => None
      | NoAttribute, rest => rest
      | NoName, _ => None
      | Named p, Some rest => Some (tar_member f s p (T "stdout") ++ tar_member f s p (T "stderr") ++ rest)
      end
  end.
