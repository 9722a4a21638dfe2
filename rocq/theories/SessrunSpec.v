(** * What running a session means *)
From Coq Require Import String List Bool ZArith.
From Verif Require Import Base JobModel SolverModel SolverSpec SessionModel SessionSpec SessrunModel.
Import ListNotations.
Open Scope list_scope.

(** The job with this name has an outcome. *)
Definition decided (s : state) (k : name) : Prop := exists o, outcome_of s k = Some (Some o).
(** The result of the job with this name. *)
Definition has_result (s : state) (k : name) (r : result) : Prop :=
  exists js, dget k (st_map s) = Some js /\ js_result js = r.

(** The checkpoint that is on the disk after some events. *)
Fixpoint on_disk (l : list event) : option (state * option name * bool * bool) :=
  match l with
  | [] => None
  | e :: l' =>
      match on_disk l' with
      | Some c => Some c
      | None => match e with Saved s r i b => Some (s, r, i, b) | _ => None end
      end
  end.
(** The job that is running after some events. *)
Definition running_now (l : list event) : option job :=
  fold_left (fun o e => match e with Started j _ => Some j | Ended _ _ => None | _ => o end) l None.
(** The names of the jobs that were started, in order. *)
Fixpoint started (l : list event) : list name :=
  match l with [] => [] | Started j _ :: l' => j_id j :: started l' | _ :: l' => started l' end.

(** The names of the jobs that were taken up, in order. *)
Fixpoint handled (l : list event) : list name :=
  match l with [] => [] | Considered j _ :: l' => j_id j :: handled l' | _ :: l' => handled l' end.

(** A session in good order, with jobs selected: this is what selecting jobs makes of a
    session that is in step (C05, C08), and what resuming restores (C14). *)
Record in_order (deps_of : job -> list (dep_type * name)) (holds : expr -> list (list resource) -> bool) (s : state) : Prop := {
  o_in_step : in_step s;
  o_run_unique : unique_ids (st_run s);
  o_run_ordered : dependency_ordered deps_of (st_run s);
  o_run_known : incl (st_run s) (st_jobs s);
  o_mandatory : incl (st_mandatory s) (st_jobs s);
  (** resource jobs with an outcome have stored their resources *)
  o_resources : forall k js, dget k (st_map s) = Some js ->
    j_plugin (js_job js) = "resource"%string -> r_outcome (js_result js) <> None ->
    dget k (st_resources s) <> None;
  o_resource_keys : NoDup (dkeys (st_resources s));
  (** readiness is up to date: recomputing it changes nothing *)
  o_fresh : recompute holds s = (s, None)
}.

(** Answers of the runner: every result has an outcome (C37). *)
Definition proper (script : list reply) : Prop :=
  forall r, In (Finished r) script -> r_outcome r <> None.

(** The names of the jobs in a tree. *)
Fixpoint tree_ids (t : jtree) : list name :=
  match t with JTree j l => j_id j :: flat_map tree_ids l end.

(** The outcome of a job that cannot start because of the given inhibitors. *)
Definition fails_on_resource (flag : bool) (l : list inhibitor) : Prop :=
  flag = true /\ exists d e, In (FailedResource d e) l.
Definition skipped_dependency (s : state) (l : list inhibitor) : Prop :=
  exists d, In (FailedDep d) l /\ outcome_of s (j_id d) = Some (Some OSkip).
Definition outcome_when_blocked (flag : bool) (s : state) (l : list inhibitor) (o : outcome) : Prop :=
  (fails_on_resource flag l /\ o = OFail) \/
  (~ fails_on_resource flag l /\ skipped_dependency s l /\ o = OSkip) \/
  (~ fails_on_resource flag l /\ ~ skipped_dependency s l /\ o = ONotSupported).
