(** * Suspending and resuming a session

    /repo/plainbox/impl/session/suspend.py (SessionSuspendHelper6) and
    /repo/plainbox/impl/session/resume.py (SessionResumeHelper1 to 6).

    What is modelled is the translation of a session to a JSON value and back.
    The envelope around it (json.dumps, UTF-8, gzip; suspend.py:131-140 and
    resume.py:134-157) is not: see JsonModel.v for the text format.  The order of
    the keys of an object is that of the code, not the sorted order of the text:
    no reader depends on it.  The early callback (resume.py:652-658) is not
    modelled. *)

From Coq Require Import Ascii String List Bool NArith ZArith DecimalString.
From Verif Require Import ScanModel JsonModel IologModel PathModel Base JobModel
  SolverModel SessionModel.
Import ListNotations.
Local Open Scope nat_scope.
Local Open Scope list_scope.

(** Texts: the JSON model uses lists of characters, the session model strings. *)
Definition to_text (s : string) : text := list_ascii_of_string s.
Definition of_text (t : text) : string := string_of_list_ascii t.

(** ** Meta-data *)

(** SessionMetaData, plainbox/impl/session/state.py:46-185.  The set of flags is
    a list in which order and repetitions do not matter. *)
Record meta := mk_meta {
  m_title : option string;
  m_flags : list string;
  m_running : option string;
  m_blob : option string;
  m_app : option string
}.

(** SessionMetaData(): state.py:77-86 *)
Definition new_meta : meta := mk_meta None [] None None None.

(** A session with its meta-data. *)
Record session := mk_session { se_state : state; se_meta : meta }.

(** ** Comments *)

(** The classes of ANSI_ESCAPE_SEQ_RE_STR, plainbox/impl/result.py:61-65 *)
Definition in_range (lo hi : nat) (c : ascii) : bool :=
  Nat.leb lo (nat_of_ascii c) && Nat.leb (nat_of_ascii c) hi.

Fixpoint drop_while (p : ascii -> bool) (t : text) : text :=
  match t with
  | c :: t' => if p c then drop_while p t' else t
  | [] => []
  end.

(** What follows the introducer of an escape sequence: byte 9B, or 1B and an
    opening bracket. *)
Definition ansi_start (t : text) : option text :=
  match t with
  | c :: t' =>
      if Nat.eqb (nat_of_ascii c) 155 then Some t'
      else if Nat.eqb (nat_of_ascii c) 27 then
        match t' with
        | d :: t'' => if Nat.eqb (nat_of_ascii d) 91 then Some t'' else None
        | [] => None
        end
      else None
  | [] => None
  end.

(** A match of the regular expression at the start of the text: what follows
    it.  The three classes are disjoint, so there is no backtracking. *)
Definition ansi_match (t : text) : option text :=
  match ansi_start t with
  | Some r =>
      match drop_while (in_range 32 47) (drop_while (in_range 48 63) r) with
      | c :: r' => if in_range 64 126 c then Some r' else None
      | [] => None
      end
  | None => None
  end.

(** ANSI_ESCAPE_SEQ_RE_STR.sub("", text); the fuel is the length of the text. *)
Fixpoint ansi_sub (fuel : nat) (t : text) : text :=
  match fuel with
  | O => t
  | S fuel' =>
      match t with
      | [] => []
      | c :: t' =>
          match ansi_match t with
          | Some r => ansi_sub fuel' r
          | None => c :: ansi_sub fuel' t'
          end
      end
  end.

(** The comments property, plainbox/impl/result.py:346-357 *)
Definition clean_comments (s : string) : string :=
  of_text (ansi_sub (String.length s) (to_text s)).

(** ** Representation *)

Definition field (k : string) (v : json) : text * json := (to_text k, v).
Definition jstring (s : string) : json := JStr (to_text s).
Definition jopt (o : option string) : json :=
  match o with Some s => jstring s | None => JNull end.

(** plainbox/abc.py:195-219 *)
Definition outcome_text (o : outcome) : string :=
  match o with
  | OPass => "pass"
  | OFail => "fail"
  | OSkip => "skip"
  | OCrash => "crash"
  | ONotImplemented => "not-implemented"
  | ONotSupported => "not-supported"
  | OUndecided => "undecided"
  end%string.

(** The decimal notation of an integer. *)
Definition int_text (z : Z) : text := to_text (NilZero.string_of_int (Z.to_int z)).

(** _repr_IOLogRecord, suspend.py:336-354 *)
Definition repr_iorec (r : iorec) : json :=
  JList [JNum (to_text (l_delay r)); jstring (l_stream r);
         JStr (b64encode (to_text (l_data r)))].

(** _repr_JobResultBase (257-289), _repr_MemoryJobResult (291-312) and
    _repr_DiskJobResult (314-334, 552-572).  [dir] is the session directory. *)
Definition repr_result (cwd : text) (dir : option string) (r : result) : json :=
  let d := r_data r in
  JObj
    [field "outcome" (jopt (option_map outcome_text (r_outcome r)));
     field "execution_duration"
       (match d_duration d with Some t => JNum (to_text t) | None => JNull end);
     field "comments" (jopt (option_map clean_comments (d_comments d)));
     field "return_code"
       (match d_code d with Some z => JNum (int_text z) | None => JNull end);
     match d_log d with
     | MemLog l => field "io_log" (JList (map repr_iorec l))
     | DiskLog f =>
         field "io_log_filename"
           (match dir with
            | Some dir => JStr (relpath cwd (to_text f) (to_text dir))
            | None => jstring f
            end)
     end].

(** _repr_SessionMetaData, 217-245, 371-407 and 424-459 *)
Definition repr_meta (m : meta) : json :=
  JObj
    [field "title" (jopt (m_title m));
     field "flags" (JList (map jstring (sorted_set (m_flags m))));
     field "running_job_name" (jopt (m_running m));
     field "app_blob"
       (match m_blob m with Some b => JStr (b64encode (to_text b)) | None => JNull end);
     field "app_id" (jopt (m_app m))].

(** _repr_SessionState, 589-651, and _json_repr, 142-164 *)
Definition repr_session (cwd : text) (dir : option string) (se : session) : json :=
  let s := se_state se in
  let run_ids := map j_id (st_run s) in
  let states := map snd (st_map s) in
  JObj
    [field "version" (JNum (int_text 6));
     field "session"
       (JObj
          [field "jobs"
             (JObj (map (fun js => field (j_id (js_job js)) (jstring (j_sum (js_job js))))
                (filter (fun js => negb (is_hollow (js_result js)) ||
                                   smem (j_id (js_job js)) run_ids) states)));
           field "results"
             (JObj (map (fun js => field (j_id (js_job js))
                                     (JList (map (repr_result cwd dir) (js_history js))))
                (filter (fun js => negb (Nat.eqb (length (js_history js)) 0)) states)));
           field "desired_job_list" (JList (map (fun j => jstring (j_id j)) (st_desired s)));
           field "mandatory_job_list" (JList (map (fun j => jstring (j_id j)) (st_mandatory s)));
           field "metadata" (repr_meta (se_meta se))])].

(** ** Validation *)

(** Exceptions.  The first four are subclasses of SessionResumeError
    (resume.py:70-121), the others are not. *)
Inductive rexn :=
| RCorrupted                 (* CorruptedSessionError *)
| RIncompatible              (* IncompatibleSessionError *)
| RJob (k : name)            (* IncompatibleJobError *)
| RBroken (f : string)       (* BrokenReferenceToExternalFile *)
| RTypeError
| RValueError
| ROSError
| RRegex                     (* re.error *)
| RDependency (e : dep_error)
| RSession (x : exn)
| RFuel.                     (* the model ran out of fuel *)

Definition rbind {A B} (x : rexn + A) (f : A -> rexn + B) : rexn + B :=
  match x with inl e => inl e | inr a => f a end.
Notation "'let*' x := a 'in' b" := (rbind a (fun x => b))
  (at level 200, x pattern, a at level 100, b at level 200).

(** A list comprehension whose body may raise. *)
Fixpoint rmap {A B} (f : A -> rexn + B) (l : list A) : rexn + list B :=
  match l with
  | [] => inr []
  | x :: l' => let* y := f x in let* ys := rmap f l' in inr (y :: ys)
  end.

(** Indexing a dictionary that json.loads made: of equal keys the last counts. *)
Fixpoint jget (k : string) (o : list (text * json)) : option json :=
  match o with
  | [] => None
  | (k', v) :: o' =>
      match jget k o' with
      | Some w => Some w
      | None => if text_eqb (to_text k) k' then Some v else None
      end
  end.

(** The parts of _validate, resume.py:1124-1165.  [vkey]: obj[key] for a string
    key, where the TypeError of other types and the KeyError become
    CorruptedSessionError. *)
Definition vkey (v : json) (k : string) : rexn + json :=
  match v with
  | JObj o => match jget k o with Some x => inr x | None => inl RCorrupted end
  | _ => inl RCorrupted
  end.

(** obj[n] for a list *)
Definition vnth (l : list json) (n : nat) : rexn + json :=
  match nth_error l n with Some v => inr v | None => inl RCorrupted end.

(** not None *)
Definition vsome (v : json) : rexn + json :=
  match v with JNull => inl RCorrupted | _ => inr v end.

Definition vdict (v : json) : rexn + list (text * json) :=
  match v with JObj o => inr o | _ => inl RCorrupted end.

Definition vlist (v : json) : rexn + list json :=
  match v with JList l => inr l | _ => inl RCorrupted end.

Definition vstr (v : json) : rexn + string :=
  match v with JStr t => inr (of_text t) | _ => inl RCorrupted end.

(** value_none=True *)
Definition vopt {A} (f : json -> rexn + A) (v : json) : rexn + option A :=
  match v with JNull => inr None | _ => let* x := f v in inr (Some x) end.

(** json.loads makes a float of a number with a fraction or an exponent. *)
Definition float_token (t : text) : bool :=
  existsb (fun c => Ascii.eqb c "." || Ascii.eqb c "e" || Ascii.eqb c "E")%char t.

Definition vfloat (v : json) : rexn + string :=
  match v with
  | JNum t => if float_token t then inr (of_text t) else inl RCorrupted
  | _ => inl RCorrupted
  end.

(** The value of an integer token. *)
Definition int_value (t : text) : option Z :=
  option_map Z.of_int (NilZero.int_of_string (of_text t)).

(** bool is a subclass of int; True is 1 and False is 0 in every respect that
    matters here.  A number token that json.loads does not produce counts as
    corrupted. *)
Definition vint (v : json) : rexn + Z :=
  match v with
  | JNum t =>
      if float_token t then inl RCorrupted
      else match int_value t with Some z => inr z | None => inl RCorrupted end
  | JBool true => inr 1%Z
  | JBool false => inr 0%Z
  | _ => inl RCorrupted
  end.

(** *** The value of a number *)

Definition is_digit (c : ascii) : bool := in_range 48 57 c.
Definition digit (c : ascii) : Z := Z.of_nat (nat_of_ascii c - 48).

(** The digits as a number, other characters skipped. *)
Definition digits (t : text) : Z :=
  fold_left (fun n c => if is_digit c then (n * 10 + digit c)%Z else n) t 0%Z.

(** The text before and after the first of some characters. *)
Fixpoint cut (p : ascii -> bool) (t : text) : text * text :=
  match t with
  | [] => ([], [])
  | c :: t' => if p c then ([], t') else let (a, b) := cut p t' in (c :: a, b)
  end.

Definition signed (t : text) : Z :=
  match t with
  | c :: _ => if Ascii.eqb c "-" then (- digits t)%Z else digits t
  | [] => 0%Z
  end.

(** The value of a number token is [fst * 10 ^ snd] (the rounding of floats is
    not modelled). *)
Definition number_value (t : text) : Z * Z :=
  let (mant, ex) := cut (fun c => Ascii.eqb c "e" || Ascii.eqb c "E")%char t in
  let (_, frac) := cut (Ascii.eqb ".") mant in
  (signed mant, (signed ex - Z.of_nat (length frac))%Z).

(** number == n *)
Definition number_is (t : text) (n : Z) : bool :=
  let (m, e) := number_value t in
  if Z.leb 0 e then Z.eqb (m * 10 ^ e) n else Z.eqb m (n * 10 ^ (- e)).

(** number < 0 *)
Definition number_negative (t : text) : bool := Z.ltb (fst (number_value t)) 0.

(** Python's [value == n] *)
Definition equals_int (v : json) (n : Z) : bool :=
  match v with
  | JNum t => number_is t n
  | JBool true => Z.eqb n 1
  | JBool false => Z.eqb n 0
  | _ => false
  end.

(** ** Building results *)

(** value_choice of the outcome, resume.py:893-899 *)
Definition text_outcome (s : string) : rexn + outcome :=
  match find (fun o => String.eqb (outcome_text o) s)
          [OPass; OFail; OSkip; OCrash; ONotImplemented; ONotSupported; OUndecided] with
  | Some o => inr o
  | None => inl RCorrupted
  end.

(** Decoding a base64 text, resume.py:411-420 and 964-974 *)
Definition vbase64 (s : string) : rexn + string :=
  match encode_ascii (to_text s) with
  | None => inl RCorrupted
  | Some b =>
      match b64decode b with
      | Some d => inr (of_text d)
      | None => inl RCorrupted
      end
  end.

(** _build_IOLogRecord, resume.py:950-975 *)
Definition build_iorec (v : json) : rexn + iorec :=
  let* l := vlist v in
  let* d := vnth l 0 in
  let* delay := vfloat d in
  if number_negative (to_text delay) then inl RCorrupted
  else
    let* s := vnth l 1 in
    let* stream := vstr s in
    if smem stream ["stdout"; "stderr"]%string then
      let* b := vnth l 2 in
      let* b := vstr b in
      let* data := vbase64 b in
      inr (mk_iorec delay stream data)
    else inl RCorrupted.

(** The flags of SessionResumeHelper1, resume.py:570-590 and 616-623 *)
Record rflags := mk_rflags { f_checks : bool; f_rewrite : bool; f_ignore : bool }.

Section Resume.
  (** The parameters of the session model. *)
  Variable deps_of : job -> list (dep_type * name).
  Variable eval_expr : expr -> list (list resource) -> bool.
  Variable records_of : result -> list resource.
  (** Whether the IO log of a result can be read (it is in memory, or the file is
      there and intact). *)
  Variable readable : result -> bool.
  (** The further jobs that adding a job to a session creates (state.py:1111-1181). *)
  Variable siblings : job -> list jtree.
  (** The jobs that the templates of the session instantiate to when a resource
      job has the given result (ctrl.py:292-324).  New jobs that are made again
      on resume are the same as those made before. *)
  Variable instantiate : job -> result -> list jtree.
  (** os.path.isfile *)
  Variable isfile : string -> bool.
  (** _rewrite_pathname, resume.py:945-948: the location and the name; None is the
      exception for a location that is not a valid replacement. *)
  Variable rewrite : string -> string -> option string.

  Variable supplied : list job.
  Variable flags : rflags.
  Variable location : option string.

  (** _load_io_log_filename, resume.py:941-943 and 1058-1065 *)
  Definition load_filename (version : nat) (v : json) : rexn + string :=
    let* f := vkey v "io_log_filename" in
    let* f := vstr f in
    if Nat.ltb version 5 then inr f
    else if isabs (to_text f) then inr f
    else match location with
         | None => inl RValueError
         | Some dir => inr (of_text (path_join (to_text dir) (to_text f)))
         end.

  (** The file checks of resume.py:910-924 *)
  Definition check_file (f : string) : rexn + string :=
    if f_checks flags then
      let* f :=
        (if negb (isfile f) && f_rewrite flags then
           match location with
           | None => inl RTypeError
           | Some dir => match rewrite dir f with Some g => inr g | None => inl RRegex end
           end
         else inr f) in
      if isfile f then inr f else inl (RBroken f)
    else inr f.

  (** _build_JobResult, resume.py:883-939 *)
  Definition build_result (version : nat) (v : json) : rexn + result :=
    let* o := vkey v "outcome" in
    let* o := vopt vstr o in
    let* o := (match o with
               | None => inr None
               | Some t => let* x := text_outcome t in inr (Some x)
               end) in
    let* c := vkey v "comments" in
    let* comments := vopt vstr c in
    let* rc := vkey v "return_code" in
    let* code := vopt vint rc in
    let* d := vkey v "execution_duration" in
    let* duration := vopt vfloat d in
    match vkey v "io_log_filename" with
    | inr _ =>
        let* f := load_filename version v in
        let* f := check_file f in
        inr (mk_result o (mk_rdata duration comments code (DiskLog f)))
    | inl _ =>
        let* l := vkey v "io_log" in
        let* l := vlist l in
        let* log := rmap build_iorec l in
        inr (mk_result o (mk_rdata duration comments code (MemLog log)))
    end.

  (** ** Jobs and results *)

  (** What became of a job: processed, KeyError, another exception. *)
  Inductive pout := PDone | PKey | PErr (e : rexn).

  (** The loop of resume.py:782-785, with the exceptions of update_job_result.
      Reading the log of a resource job that has an outcome is part of it
      (ctrl.py:269-290). *)
  Fixpoint replay (j : job) (rs : list result) (s : state) : state * pout :=
    match rs with
    | [] => (s, PDone)
    | r :: rs' =>
        if String.eqb (j_plugin j) "resource" &&
           (match r_outcome r with Some _ => true | None => false end) &&
           negb (readable r)
        then (s, PErr ROSError)
        else
          match update_job_result eval_expr records_of j r (instantiate j r) s with
          | (s', None) => replay j rs' s'
          | (s', Some (XKeyError _)) => (s', PKey)
          | (s', Some x) => (s', PErr (RSession x))
          end
    end.

  (** The results of a job: resume.py:769-781.  The value may be null, iterating
      over which is a TypeError. *)
  Definition build_results (version : nat) (v : json) : rexn + list result :=
    match v with
    | JNull => inl RTypeError
    | _ =>
        let* l := vlist v in
        rmap (fun x => let* _ := vdict x in build_result version x) l
    end.

  (** _process_job, resume.py:734-785 *)
  Definition process_job (version : nat) (jobs results : list (text * json))
      (k : name) (s : state) : state * pout :=
    match (let* c := vkey (JObj jobs) k in vstr c) with
    | inl e => (s, PErr e)
    | inr checksum =>
        match dget k (st_map s) with
        | None => (s, PKey)
        | Some js =>
            let j := js_job js in
            if negb (String.eqb (j_sum j) checksum) && negb (f_ignore flags)
            then (s, PErr (RJob k))
            else
              match jget (j_id j) results with
              | None => (s, PDone)
              | Some _ =>
                  match (let* v := vkey (JObj results) k in build_results version v) with
                  | inl e => (s, PErr e)
                  | inr rs => replay j rs s
                  end
              end
        end
    end.

  (** One pass over some ids: the ids for which KeyError was raised, in order
      (resume.py:700-704 and 714-724). *)
  Fixpoint pass (version : nat) (jobs results : list (text * json)) (ks : list name)
      (s : state) : rexn + (state * list name) :=
    match ks with
    | [] => inr (s, [])
    | k :: ks' =>
        match process_job version jobs results k s with
        | (s', PDone) => pass version jobs results ks' s'
        | (s', PKey) =>
            let* (s2, rest) := pass version jobs results ks' s' in
            inr (s2, k :: rest)
        | (_, PErr e) => inl e
        end
    end.

  (** The loop over the leftover jobs, resume.py:708-732.  Progress means that a
      pass leaves fewer ids. *)
  Fixpoint leftovers (fuel : nat) (version : nat) (jobs results : list (text * json))
      (ks : list name) (s : state) : rexn + state :=
    match ks with
    | [] => inr s
    | _ :: _ =>
        match fuel with
        | O => inl RFuel
        | S fuel' =>
            let* (s2, rest) := pass version jobs results ks s in
            if Nat.eqb (length rest) (length ks) then inl RCorrupted
            else leftovers fuel' version jobs results rest s2
        end
    end.

  (** [session.add_unit(u) for u in self.job_list if u.Meta.name == "job"] *)
  Fixpoint add_supplied (l : list job) (s : state) : rexn + state :=
    match l with
    | [] => inr s
    | j :: l' =>
        match add_tree eval_expr true (JTree j (siblings j)) s with
        | (s', None) => add_supplied l' s'
        | (_, Some x) => inl (RSession x)
        end
    end.

  (** _restore_SessionState_jobs_and_results, resume.py:675-732 *)
  Definition restore_jobs (version : nat) (repr : json) (s : state) : rexn + state :=
    let* j := vkey repr "jobs" in
    let* jobs := vdict j in
    let* r := vkey repr "results" in
    let* results := vdict r in
    let* s := add_supplied supplied s in
    let ids := sorted_set (map (fun kv => of_text (fst kv)) jobs ++
                           map (fun kv => of_text (fst kv)) results) in
    let* (s, rest) := pass version jobs results ids s in
    leftovers (S (length rest)) version jobs results rest s.

  (** _restore_SessionState_metadata, resume.py:366-387, 395-420 and 428-441 *)
  Definition restore_meta (version : nat) (repr : json) : rexn + meta :=
    let* m := vkey repr "metadata" in
    let* _ := vdict m in
    let* t := vkey m "title" in
    let* title := vopt vstr t in
    let* f := vkey m "flags" in
    let* f := vlist f in
    let* flags := rmap vstr f in
    let* r := vkey m "running_job_name" in
    let* running := vopt vstr r in
    let* blob :=
      (if Nat.ltb version 2 then inr None
       else
         let* b := vkey m "app_blob" in
         let* b := vopt vstr b in
         match b with
         | None => inr None
         | Some t => let* d := vbase64 t in inr (Some d)
         end) in
    let* app :=
      (if Nat.ltb version 3 then inr None
       else let* a := vkey m "app_id" in vopt vstr a) in
    inr (mk_meta title flags running blob app).

  (** A list of ids looked up in the session, resume.py:800-813 and 831-845.  The
      KeyError of an unknown id becomes CorruptedSessionError, after all the ids
      were checked to be strings. *)
  Definition job_list_of (v : json) (s : state) : rexn + list job :=
    let* l := vlist v in
    let* ids := rmap vstr l in
    rmap (fun k => match dget k (st_map s) with
                   | Some js => inr (js_job js)
                   | None => inl RCorrupted
                   end) ids.

  (** _restore_SessionState_mandatory_job_list, resume.py:820-847 *)
  Definition restore_mandatory (repr : json) (s : state) : rexn + state :=
    let* v := vkey repr "mandatory_job_list" in
    let* l := job_list_of v s in
    inr (update_mandatory_job_list l s).

  (** _restore_SessionState_desired_job_list, resume.py:789-818: a KeyError raised
      by update_desired_job_list itself also becomes CorruptedSessionError. *)
  Definition restore_desired (repr : json) (s : state) : rexn + state :=
    let* v := vkey repr "desired_job_list" in
    let* l := job_list_of v s in
    match update_desired_job_list deps_of eval_expr l true s with
    | Some (s', inr _) => inr s'
    | Some (_, inl (XKeyError _)) => inl RCorrupted
    | Some (_, inl x) => inl (RSession x)
    | None => inl RFuel
    end.

  (** _restore_SessionState_job_list, resume.py:849-881, with
      ResumeDiscardQualifier (337-358) *)
  Definition restore_job_list (repr : json) (s : state) : rexn + state :=
    let* j := vkey repr "jobs" in
    let* jobs := vdict j in
    let retain := map j_id (st_run s) ++ map (fun kv => of_text (fst kv)) jobs in
    match trim_job_list (fun j => negb (smem (j_id j) retain)) s with
    | (s', false) => inr s'
    | (_, true) => inl RValueError
    end.

  (** _build_SessionState, resume.py:639-673 and 1085-1121 *)
  Definition build_session (version : nat) (repr : json) : rexn + session :=
    match init_session supplied with
    | SErr e => inl (RDependency e)
    | SFuel => inl RFuel
    | SOk s =>
        let* s := restore_jobs version repr s in
        let* m := restore_meta version repr in
        let* s := (if Nat.ltb version 6 then inr s else restore_mandatory repr s) in
        let* s := restore_desired repr s in
        let* s := restore_job_list repr s in
        inr (mk_session s m)
    end.

  (** The version of the format, resume.py:312-331: the first of 1..6 that the
      value equals. *)
  Definition find_version (v : json) : option nat :=
    find (fun n => equals_int v (Z.of_nat n)) [1; 2; 3; 4; 5; 6].

  (** _resume_json, resume.py:301-334, and resume_json, 627-637 *)
  Definition resume (doc : json) : rexn + session :=
    let* _ := vdict doc in
    let* v := vkey doc "version" in
    let* v := vsome v in
    match find_version v with
    | None => inl RIncompatible
    | Some n =>
        let* repr := vkey doc "session" in
        let* _ := vdict repr in
        build_session n repr
    end.

  (** SessionPeekHelper._peek_json, resume.py:179-206, and peek_json, 457-469 *)
  Definition peek (doc : json) : rexn + meta :=
    let* _ := vdict doc in
    let* v := vkey doc "version" in
    let* v := vsome v in
    match find_version v with
    | None => inl RIncompatible
    | Some n =>
        let* repr := vkey doc "session" in
        let* _ := vdict repr in
        restore_meta n repr
    end.
End Resume.

(** The exceptions a caller is told to expect: the subclasses of
    SessionResumeError, resume.py:70-121. *)
Definition is_resume_error (e : rexn) : bool :=
  match e with
  | RCorrupted | RIncompatible | RJob _ | RBroken _ => true
  | _ => false
  end.
