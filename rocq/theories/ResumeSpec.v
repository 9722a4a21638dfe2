(** What users expect from suspending and resuming a session. *)

From Coq Require Import Ascii String List Bool NArith ZArith.
From Verif Require Import ScanModel Base JobModel SolverModel SolverSpec SessionModel
  SessionSpec JsonModel PathModel ResumeModel.
Import ListNotations.
Local Open Scope nat_scope.
Local Open Scope list_scope.

(** ** Results that can be saved *)

(** The decimal notation of a float has a point or an exponent. *)
Definition float_notation (t : string) : Prop :=
  exists c, In c (to_text t) /\ (c = "."%char \/ c = "e"%char \/ c = "E"%char).

(** Terminal escape sequences start with byte 1B or 9B. *)
Definition no_escapes (t : string) : Prop :=
  forall c, In c (to_text t) -> nat_of_ascii c <> 27 /\ nat_of_ascii c <> 155.

(** A proper component of a file name. *)
Definition component (w : text) : Prop :=
  w <> [] /\ ~ In slash w /\ w <> dot /\ w <> dotdot.

(** [dir] is a normalised absolute name other than the root, and [f] is the name
    of something below it. *)
Definition inside (dir f : string) : Prop :=
  exists ds fs, ds <> [] /\ fs <> [] /\ Forall component ds /\ Forall component fs /\
    to_text dir = slash :: join_slash ds /\
    to_text f = slash :: join_slash (ds ++ fs).

Definition storable_iorec (r : iorec) : Prop :=
  float_notation (l_delay r) /\ hd_error (to_text (l_delay r)) <> Some "-"%char /\
  (l_stream r = "stdout" \/ l_stream r = "stderr")%string.

(** A result with data as plainbox itself makes them: float durations and delays,
    known streams, comments without escape sequences, log files inside the
    session directory. *)
Definition storable (dir : string) (r : result) : Prop :=
  (forall t, d_duration (r_data r) = Some t -> float_notation t) /\
  (forall t, d_comments (r_data r) = Some t -> no_escapes t) /\
  match d_log (r_data r) with
  | MemLog l => Forall storable_iorec l
  | DiskLog f => inside dir f
  end.

(** ** What is kept *)

(** The job is worth saving: it has a result, or it is on the run list. *)
Definition recorded (s : state) (k : name) : Prop :=
  exists js, dget k (st_map s) = Some js /\
    (js_result js <> empty_result \/ In k (map j_id (st_run s))).

(** Same job, same current result, same history of results. *)
Definition same_job_state (s R : state) (k : name) : Prop :=
  exists js js', dget k (st_map s) = Some js /\ dget k (st_map R) = Some js' /\
    js_job js' = js_job js /\ js_result js' = js_result js /\ js_history js' = js_history js.

Definition same_meta (m m' : meta) : Prop :=
  m_title m' = m_title m /\ m_running m' = m_running m /\ m_blob m' = m_blob m /\
  m_app m' = m_app m /\ forall f, In f (m_flags m') <-> In f (m_flags m).

(** [R] is what resuming the saved session [s] (with meta-data [m]) should give:
    exactly the recorded jobs, in their states and with their resources; the same selection, except that
    the mandatory jobs are put in front of the desired list (again). *)
Definition restored (s : state) (m : meta) (R : session) : Prop :=
  (forall k, recorded s k -> same_job_state s (se_state R) k) /\
  (forall k, ~ recorded s k -> dget k (st_map (se_state R)) = None) /\
  (forall k, recorded s k ->
     dget k (st_resources (se_state R)) = dget k (st_resources s)) /\
  st_run (se_state R) = st_run s /\
  st_mandatory (se_state R) = st_mandatory s /\
  st_desired (se_state R) = st_mandatory s ++ st_desired s /\
  same_meta m (se_meta R).

(** ** Sessions that can be restored *)

(** The history tells the whole story: no hollow result in it, no result twice in
    a row, and the current result is the last one. *)
Definition settled (js : jstate) : Prop :=
  ~ In empty_result (js_history js) /\
  (forall h1 a b h2, js_history js = h1 ++ a :: b :: h2 -> a <> b) /\
  js_result js = last (js_history js) empty_result.

(** [j] is one of the jobs of a tree. *)
Inductive in_tree (j : job) : jtree -> Prop :=
| in_root cs : in_tree j (JTree j cs)
| in_child i cs c : In c cs -> in_tree j c -> in_tree j (JTree i cs).

Section Sources.
  Variable siblings : job -> list jtree.
  Variable instantiate : job -> result -> list jtree.
  Variable supplied : list job.
  Variable s : state.

  (** [r] is a result of the resource job [p] that makes templates produce jobs. *)
  Definition fruitful (p : job) (r : result) : Prop :=
    exists js, dget (j_id p) (st_map s) = Some js /\ js_job js = p /\
      In r (js_history js) /\ r_outcome r <> None /\ j_plugin p = "resource"%string.

  (** Jobs that come with the supplied ones or from the results of resource jobs
      of the session. *)
  Definition producible (j : job) : Prop :=
    (exists i, In i supplied /\ in_tree j (JTree i (siblings i))) \/
    (exists p r t, fruitful p r /\ In t (instantiate p r) /\ in_tree j t).

  (** The same, where each resource job must itself be obtainable. *)
  Inductive obtainable : job -> Prop :=
  | ob_supplied i j : In i supplied -> in_tree j (JTree i (siblings i)) -> obtainable j
  | ob_generated p r t j : obtainable p -> fruitful p r -> In t (instantiate p r) ->
      in_tree j t -> obtainable j.

  (** No identifier stands for two different jobs. *)
  Definition unambiguous : Prop :=
    forall a b, producible a -> producible b -> j_id a = j_id b -> a = b.
End Sources.

(** A session that was used in the ordinary way, and jobs to resume it with that
    do not contradict each other. *)
Record saved
    (deps_of : job -> list (dep_type * name))
    (eval_expr : expr -> list (list resource) -> bool)
    (records_of : result -> list resource)
    (readable : result -> bool)
    (siblings : job -> list jtree)
    (instantiate : job -> result -> list jtree)
    (isfile : string -> bool)
    (supplied : list job) (flags : rflags) (dir : string) (s : state) : Prop := {
  (** the state is one a session can get into *)
  rs_reachable : reachable deps_of eval_expr records_of s;
  rs_settled : forall k js, dget k (st_map s) = Some js -> settled js;
  (** the results can be saved, and the log files are still there *)
  rs_storable : forall k js r, dget k (st_map s) = Some js -> In r (js_history js) ->
    storable dir r;
  rs_files : forall k js r f, dget k (st_map s) = Some js -> In r (js_history js) ->
    d_log (r_data r) = DiskLog f -> f_checks flags = true -> isfile f = true;
  rs_readable : forall p r, fruitful s p r -> readable r = true;
  (** the jobs supplied for resuming are not contradictory *)
  rs_unambiguous : unambiguous siblings instantiate supplied s;
  (** the run list is what the selection of existing jobs asks for, and the
      requirements of the jobs on it can be parsed *)
  rs_selected : incl (st_mandatory s ++ st_desired s) (st_jobs s);
  rs_run : resolve deps_of (st_jobs s) (Some (st_mandatory s ++ st_desired s)) = SOk (st_run s);
  rs_requirements : forall j, In j (st_run s) -> j_prog j <> BadProg
}.

(** The job recorded under [k] can be obtained again, as it was; the job that can
    be obtained under [k] has another checksum; there is no job [k]. *)
Definition available siblings instantiate supplied (s : state) (k : name) : Prop :=
  exists js, dget k (st_map s) = Some js /\
    obtainable siblings instantiate supplied s (js_job js).

Definition changed siblings instantiate supplied (s : state) (k : name) : Prop :=
  exists js j, dget k (st_map s) = Some js /\
    obtainable siblings instantiate supplied s j /\ j_id j = k /\ j_sum j <> j_sum (js_job js).

Definition gone siblings instantiate supplied (s : state) (k : name) : Prop :=
  forall j, producible siblings instantiate supplied s j -> j_id j <> k.

(** ** Any document *)

(** The jobs that can get into a session resumed with the supplied jobs, whatever
    the document says. *)
Inductive made (siblings : job -> list jtree) (instantiate : job -> result -> list jtree)
    (supplied : list job) : job -> Prop :=
| made_supplied i j : In i supplied -> in_tree j (JTree i (siblings i)) ->
    made siblings instantiate supplied j
| made_generated p r t j : made siblings instantiate supplied p ->
    j_plugin p = "resource"%string -> r_outcome r <> None ->
    In t (instantiate p r) -> in_tree j t ->
    made siblings instantiate supplied j.

(** The value found by following keys from a document. *)
Fixpoint at_path (path : list string) (v : json) : option json :=
  match path with
  | [] => Some v
  | k :: path' =>
      match v with
      | JObj o => match jget k o with Some w => at_path path' w | None => None end
      | _ => None
      end
  end.

(** The document mentions the job: it has a checksum or results. *)
Definition mentioned (doc : json) (k : name) : Prop :=
  at_path ["session"; "jobs"; k]%string doc <> None \/
  at_path ["session"; "results"; k]%string doc <> None.

(** The surroundings do not get in the way: a session directory is given and is a
    valid replacement text, IO logs can be read, no two different jobs can get
    the same identifier, checksum or identity, requirements can be parsed. *)
Record benign (readable : result -> bool) (siblings : job -> list jtree)
    (instantiate : job -> result -> list jtree)
    (rewrite : string -> string -> option string)
    (supplied : list job) (location : option string) : Prop := {
  bn_location : exists dir, location = Some dir /\ forall f, rewrite dir f <> None;
  bn_readable : forall r, readable r = true;
  bn_ids : forall a b, made siblings instantiate supplied a ->
    made siblings instantiate supplied b -> j_id a = j_id b -> a = b;
  bn_equality : forall a b, made siblings instantiate supplied a ->
    made siblings instantiate supplied b -> j_sum a = j_sum b \/ j_obj a = j_obj b -> a = b;
  bn_requirements : forall j, made siblings instantiate supplied j -> j_prog j <> BadProg
}.

(** No job has null instead of a list of results. *)
Definition results_not_null (doc : json) : Prop :=
  forall k, at_path ["session"; "results"; k]%string doc <> Some JNull.

(** ** Ordinary use *)

(** What applications do with a session: it is made of some of the supplied jobs,
    the others are added; jobs get results with something in them; existing jobs
    are selected, all without a problem; jobs without results are trimmed. *)
Inductive used
    (deps_of : job -> list (dep_type * name))
    (eval_expr : expr -> list (list resource) -> bool)
    (records_of : result -> list resource)
    (siblings : job -> list jtree)
    (instantiate : job -> result -> list jtree)
    (supplied : list job) (dir : string) : state -> Prop :=
| use_start units s : incl units supplied -> init_session units = SOk s ->
    used deps_of eval_expr records_of siblings instantiate supplied dir s
| use_add s i s' : used deps_of eval_expr records_of siblings instantiate supplied dir s ->
    In i supplied -> add_tree eval_expr true (JTree i (siblings i)) s = (s', None) ->
    used deps_of eval_expr records_of siblings instantiate supplied dir s'
| use_result s j r s' : used deps_of eval_expr records_of siblings instantiate supplied dir s ->
    In j (st_jobs s) -> r <> empty_result -> storable dir r ->
    update_job_result eval_expr records_of j r (instantiate j r) s = (s', None) ->
    used deps_of eval_expr records_of siblings instantiate supplied dir s'
| use_select s l1 l2 s' : used deps_of eval_expr records_of siblings instantiate supplied dir s ->
    incl (l1 ++ l2) (st_jobs s) ->
    update_desired_job_list deps_of eval_expr l2 true (update_mandatory_job_list l1 s) =
      Some (s', inr []) ->
    used deps_of eval_expr records_of siblings instantiate supplied dir s'
| use_trim s q s' : used deps_of eval_expr records_of siblings instantiate supplied dir s ->
    (forall k js, dget k (st_map s) = Some js -> q (js_job js) = true -> js_history js = []) ->
    trim_job_list q s = (s', false) ->
    used deps_of eval_expr records_of siblings instantiate supplied dir s'.
