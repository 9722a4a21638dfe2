(** Job definitions as seen by the dependency solver and the session. *)
From Coq Require Import String List Bool NArith.
From Verif Require Import Base.
Import ListNotations.
Open Scope string_scope.
Open Scope list_scope.

(** plainbox/impl/depmgr.py:166-168 (DEP_TYPE_RESOURCE, DEP_TYPE_DIRECT,
    DEP_TYPE_ORDERING). *)
Inductive dep_type := DepResource | DepDirect | DepOrdering.

(** A requirement expression: its text and the fully qualified identifiers of
    the resource jobs it mentions (plainbox/impl/resource.py:466-555,
    ResourceExpression.text and .resource_id_list).  The compiled function is
    not part of the record: evaluation is an explicit argument wherever it is
    needed. *)
Record expr := mk_expr { e_text : string; e_ids : list name }.

(** What JobDefinition.get_resource_program() gives
    (plainbox/impl/unit/job.py:591-614): None, a ResourceProgramError, or a
    program, i.e. a list of expressions. *)
Inductive prog := NoProg | BadProg | Prog (es : list expr).

(** plainbox/impl/unit/job.py, JobDefinition.  Only the attributes used by
    the modelled code are kept.  [j_sum] is the checksum: Python's [==] on jobs
    compares checksums (plainbox/impl/unit/unit.py, Unit.__eq__).  [j_obj] is
    the identity of the Python object, the thing [is] compares.  [j_direct] and
    [j_after] are the already parsed and qualified results of
    get_direct_dependencies (616-636) and get_after_dependencies (638-666). *)
Record job := mk_job {
  j_id : name;
  j_sum : string;
  j_obj : N;
  j_plugin : string;
  j_direct : list name;
  j_after : list name;
  j_prog : prog
}.

(** Python [a == b] on jobs. *)
Definition job_eqb (a b : job) : bool := String.eqb (j_sum a) (j_sum b).

(** Python [a is b] on jobs. *)
Definition job_is (a b : job) : bool := N.eqb (j_obj a) (j_obj b).

(** plainbox/impl/unit/job.py:668-676 get_resource_dependencies, with
    plainbox/impl/resource.py:223-232 required_resources inlined; [None] is the
    ResourceProgramError raised by get_resource_program. *)
Definition get_resource_dependencies (j : job) : option (list name) :=
  match j_prog j with
  | NoProg => Some []
  | BadProg => None
  | Prog es => Some (flat_map e_ids es)
  end.

(** plainbox/impl/ctrl.py:110-137 get_dependency_set.  The Python value is a
    set; this is one enumeration of it (with possible repetitions).  Users of
    the set take an enumeration function as an argument, see [enumerates]. *)
Definition get_dependency_set (j : job) : list (dep_type * name) :=
  let resource_deps :=
    match get_resource_dependencies j with
    | Some l => l
    | None => []
    end in
  map (pair DepDirect) (j_direct j)
  ++ map (pair DepResource) resource_deps
  ++ map (pair DepOrdering) (j_after j).

(** [enumerates deps_of]: [deps_of] lists each job's dependency set, in some
    order, as iterating over the Python set would. *)
Definition enumerates (deps_of : job -> list (dep_type * name)) : Prop :=
  forall j, NoDup (deps_of j) /\
    forall d, In d (deps_of j) <-> In d (get_dependency_set j).
