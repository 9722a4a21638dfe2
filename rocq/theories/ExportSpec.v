(** What users expect of exported data. *)
From Coq Require Import String Ascii List Bool Arith.
From Verif Require Import ScanModel Rfc822Model JsonModel IologModel IniModel CacheModel ExportModel.
Import ListNotations.
Local Open Scope nat_scope.
Local Open Scope list_scope.

(** What an option string says: its name and the value, if it has one. *)
Inductive says : text -> text -> option text -> Prop :=
| says_plain n : ~ In "="%char n -> says n n None
| says_value n v : ~ In "="%char n -> says (n ++ "="%char :: v) n (Some v).

(** The last mention of an option in a list of option strings. *)
Definition last_said (l : list text) (n : text) (v : option text) : Prop :=
  exists l1 o l2, l = l1 ++ o :: l2 /\ says o n v /\ forall o' v', In o' l2 -> ~ says o' n v'.

(** The text decodes to the data. *)
Definition decodes (t : text) (data : bytes) : Prop := b64decode t = Some data.

(** The fields of the entry of a job, given the options that are on. *)
Inductive exported (on : text -> Prop) (s : jstate) : text -> json -> Prop :=
| x_summary : exported on s (T "summary") (JStr (s_summary s))
| x_category : exported on s (T "category_id") (JStr (s_category s))
| x_outcome o : s_outcome s = Some o -> exported on s (T "outcome") (JStr o)
| x_duration d : s_duration s = Some d -> exported on s (T "execution_duration") (JNum d)
| x_comment c : on (T "with-comments") -> s_comments s = Some c -> exported on s (T "comments") (JStr c)
| x_no_comment : on (T "with-comments") -> s_comments s = None -> exported on s (T "comments") JNull
| x_hash : on (T "with-job-hash") -> exported on s (T "hash") (JStr (s_checksum s))
| x_plugin : on (T "with-job-defs") -> s_plugin s <> [] -> exported on s (T "plugin") (JStr (s_plugin s))
| x_requires : on (T "with-job-defs") -> s_requires s <> [] -> exported on s (T "requires") (JStr (s_requires s))
| x_depends : on (T "with-job-defs") -> s_depends s <> [] -> exported on s (T "depends") (JStr (s_depends s))
| x_command : on (T "with-job-defs") -> s_command s <> [] -> exported on s (T "command") (JStr (s_command s))
| x_description : on (T "with-job-defs") -> s_description s <> [] -> exported on s (T "description") (JStr (s_description s))
| x_certification : on (T "with-certification-status") -> s_plugin s <> T "attachment" ->
    exported on s (T "certification_status") (JStr (s_certification s))
| x_squashed ts : on (T "with-io-log") -> s_plugin s <> T "attachment" -> on (T "squash-io-log") ->
    Forall2 (fun t r => decodes t (io_data r)) ts (s_log s) -> exported on s (T "io_log") (JList (map JStr ts))
| x_flat t : on (T "with-io-log") -> s_plugin s <> T "attachment" -> ~ on (T "squash-io-log") -> on (T "flatten-io-log") ->
    decodes t (concat (map io_data (s_log s))) -> exported on s (T "io_log") (JStr t)
| x_raw vs : on (T "with-io-log") -> s_plugin s <> T "attachment" -> ~ on (T "squash-io-log") -> ~ on (T "flatten-io-log") ->
    Forall2 (fun v r => exists t, v = JList [io_delay r; io_stream r; JStr t] /\ decodes t (io_data r)) vs (s_log s) ->
    exported on s (T "io_log") (JList vs).

(** An entry with exactly these fields. *)
Definition shows (on : text -> Prop) (s : jstate) (e : list (text * json)) : Prop :=
  (forall k v, tget k e = Some v -> exported on s k v) /\
  (forall k v, exported on s k v -> tget k e <> None).

(** What the job wrote to its standard output. *)
Fixpoint stdout_of (l : list iorecord) : bytes :=
  match l with
  | [] => []
  | r :: l' => match io_stream r with
               | JStr t => if list_eq_dec ascii_dec t (T "stdout") then io_data r ++ stdout_of l' else stdout_of l'
               | _ => stdout_of l'
               end
  end.

(** [pat] occurs in [t]. *)
Definition occurs (pat t : text) : Prop := exists a b, t = a ++ pat ++ b.

(** The option strings turn an option on: the last one about it does not set it to
    the empty text. *)
Definition chosen (l : list text) (n : text) : Prop := exists v, last_said l n v /\ v <> Some [].

(** Where the output of a job is in the archive. *)
Inductive archived (s : jstate) : text -> text -> path -> Prop :=
| a_stdout slug : s_plugin s <> T "attachment" -> archived s slug (T "stdout") (T "test_output/" ++ slug)
| a_stderr slug : s_plugin s <> T "attachment" -> archived s slug (T "stderr") (T "test_output/" ++ slug ++ T ".stderr")
| a_att_stdout slug : s_plugin s = T "attachment" -> archived s slug (T "stdout") (T "attachment_files/" ++ slug)
| a_att_stderr slug : s_plugin s = T "attachment" -> archived s slug (T "stderr") (T "attachment_files/" ++ slug ++ T ".stderr").
