(** * What an application expects of the lists of jobs that the assistant gives it *)
From Coq Require Import String List Bool ZArith.
From Verif Require Import Base JobModel SolverModel SolverSpec SessionModel SessionSpec SessrunSpec.
Import ListNotations.
Open Scope list_scope.

(** A session whose list of jobs to run makes sense: C05 and C08 show that every session
    is like this, C36 that equal jobs are the same job *)
Record listed (deps_of : job -> list (dep_type * name)) (s : state) : Prop := {
  l_in_step : in_step s;
  l_unique : unique_ids (st_run s);
  l_ordered : dependency_ordered deps_of (st_run s);
  l_known : incl (st_run s) (st_jobs s);
  l_mandatory : incl (st_mandatory s) (st_jobs s);
  l_faithful : faithful_equality (st_jobs s)
}.
(** The mandatory jobs that can run are on the list *)
Definition mandatory_listed (deps_of : job -> list (dep_type * name)) (s : state) : Prop :=
  forall j, In j (st_mandatory s) -> healthy deps_of (st_jobs s) j -> In j (st_run s).
(** Nothing but one job has a different result, no job is gone or another one, and new
    jobs have no result *)
Definition only_result (k : name) (r : result) (s s' : state) : Prop :=
  has_result s' k r /\
  (forall k' js, dget k' (st_map s) = Some js -> exists js', dget k' (st_map s') = Some js' /\ js_job js' = js_job js /\
     (k' <> k -> js_result js' = js_result js /\ js_history js' = js_history js)) /\
  (forall k' js', dget k' (st_map s') = Some js' -> dget k' (st_map s) = None -> js_result js' = empty_result /\ js_history js' = []) /\
  (exists new, st_jobs s' = st_jobs s ++ new) /\
  st_run s' = st_run s /\ st_desired s' = st_desired s /\ st_mandatory s' = st_mandatory s.
(** That many jobs *)
Definition so_many (n : nat) (p : name -> Prop) : Prop := exists l, NoDup l /\ length l = n /\ forall k, In k l <-> p k.
