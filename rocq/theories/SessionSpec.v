(** What users expect from a session, stated without the model's helpers.
    Only the state record and the dependency vocabulary are used. *)
From Coq Require Import String List Relations ZArith.
From Verif Require Import Base JobModel SolverModel SolverSpec SessionModel.
Import ListNotations.
Open Scope list_scope.

(** The job list has unique identifiers and the state map holds, in the same
    order, exactly one entry per listed job: that job's own. *)
Definition in_step (s : state) : Prop :=
  unique_ids (st_jobs s) /\
  map (fun kv => (fst kv, js_job (snd kv))) (st_map s) =
  map (fun j => (j_id j, j)) (st_jobs s).

(** A job that can be scheduled: everything it needs exists and nothing it
    needs depends on itself. *)
Definition healthy (deps_of : job -> list (dep_type * name)) (jobs : list job)
    (j : job) : Prop :=
  complete deps_of jobs [j] /\ acyclic deps_of jobs [j].

(** The recorded outcome of the job with the given identifier: [None] if there
    is no such job, [Some None] if it did not run yet. *)
Definition outcome_of (s : state) (k : name) : option (option outcome) :=
  option_map (fun js => r_outcome (js_result js)) (dget k (st_map s)).

(** Every direct dependency passed. *)
Definition direct_ok (s : state) (j : job) : Prop :=
  forall d, In d (j_direct j) -> outcome_of s d = Some (Some OPass).

(** Every "after" dependency ran, with whatever outcome. *)
Definition after_ok (s : state) (j : job) : Prop :=
  forall d, In d (j_after j) -> exists o, outcome_of s d = Some (Some o).

(** The job's requirements hold: each expression has all its resources and is
    true of them.  [holds e ls] says that expression [e] is true for some choice
    of one resource from each list of [ls]. *)
Definition requirements_ok (holds : expr -> list (list resource) -> bool)
    (s : state) (j : job) : Prop :=
  j_prog j = NoProg \/
  exists es, j_prog j = Prog es /\
    forall e, In e es ->
      exists ls, map Some ls = map (fun r => dget r (st_resources s)) (e_ids e) /\
        holds e ls = true.

(** Some mentioned resource is not available although every resource job of
    that expression passed: the situation the code overlooks.  [e] is the first
    expression that lacks a resource. *)
Definition overlooked (s : state) (j : job) : Prop :=
  exists es1 e es2, j_prog j = Prog (es1 ++ e :: es2) /\
    (forall e' r, In e' es1 -> In r (e_ids e') -> dget r (st_resources s) <> None) /\
    (exists r, In r (e_ids e) /\ dget r (st_resources s) = None) /\
    (forall r, In r (e_ids e) -> outcome_of s r = Some (Some OPass)).

(** The inhibitor describes a real obstacle for [j]. *)
Definition real_obstacle (holds : expr -> list (list resource) -> bool)
    (s : state) (j : job) (i : inhibitor) : Prop :=
  match i with
  | Undesired => False
  | PendingDep d =>
      exists k js, (In k (j_direct j) \/ In k (j_after j)) /\
        dget k (st_map s) = Some js /\ js_job js = d /\
        r_outcome (js_result js) = None
  | FailedDep d =>
      exists k js o, In k (j_direct j) /\ dget k (st_map s) = Some js /\
        js_job js = d /\ r_outcome (js_result js) = Some o /\ o <> OPass
  | PendingResource d e =>
      exists es k js, j_prog j = Prog es /\ In e es /\ In k (e_ids e) /\
        dget k (st_map s) = Some js /\ js_job js = d /\
        r_outcome (js_result js) <> Some OPass /\
        (exists r, In r (e_ids e) /\ dget r (st_resources s) = None)
  | FailedResource d e =>
      exists es k js ls, j_prog j = Prog es /\ In e es /\ In k (e_ids e) /\
        dget k (st_map s) = Some js /\ js_job js = d /\
        map Some ls = map (fun r => dget r (st_resources s)) (e_ids e) /\
        holds e ls = false
  end.

(** Two states that differ at most in readiness. *)
Definition same_but_readiness (s s' : state) : Prop :=
  st_jobs s' = st_jobs s /\ st_units s' = st_units s /\
  st_desired s' = st_desired s /\ st_mandatory s' = st_mandatory s /\
  st_run s' = st_run s /\ st_resources s' = st_resources s /\
  map fst (st_map s') = map fst (st_map s) /\
  forall k js', dget k (st_map s') = Some js' ->
    exists js, dget k (st_map s) = Some js /\
      js_job js' = js_job js /\ js_result js' = js_result js /\
      js_history js' = js_history js /\ js_via js' = js_via js /\
      js_attempts js' = js_attempts js.

(** Arguments that make sense: the job given with a result is the session's own
    job of that identifier (if it has one), and a job given for removal is not
    confused with a job of another identifier by Python's [==]. *)
Definition sensible (s : state) (o : op) : Prop :=
  match o with
  | OpResult j _ _ => forall x, In x (st_jobs s) -> j_id x = j_id j -> x = j
  | OpRemove j _ => forall x, In x (st_jobs s) -> j_sum x = j_sum j -> j_id x = j_id j
  | _ => True
  end.

(** The states a session can reach from its construction by operations with
    sensible arguments, whether or not they raise. *)
Inductive reachable (deps_of : job -> list (dep_type * name))
    (holds : expr -> list (list resource) -> bool)
    (records_of : result -> list resource) : state -> Prop :=
| reach_init : forall units s, init_session units = SOk s ->
    reachable deps_of holds records_of s
| reach_op : forall s o, reachable deps_of holds records_of s -> sensible s o ->
    reachable deps_of holds records_of (fst (exec_op deps_of holds records_of o s)).

(** Operations that bring readiness up to date. *)
Definition refreshes (o : op) : Prop :=
  match o with
  | OpAdd _ b | OpRemove _ b => b = true
  | OpTrim _ | OpMandatory _ => False
  | OpDesired _ _ | OpResult _ _ _ => True
  end.

(** The job may start now. *)
Definition ready (holds : expr -> list (list resource) -> bool) (s : state) (j : job)
    : Prop :=
  In j (st_run s) /\ direct_ok s j /\ after_ok s j /\ requirements_ok holds s j.

(** Expressions of a job mention at least one resource. *)
Definition requirements_wf (j : job) : Prop :=
  forall es e, j_prog j = Prog es -> In e es -> e_ids e <> [].
