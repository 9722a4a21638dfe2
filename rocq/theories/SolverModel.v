(** The dependency solver, plainbox/impl/depmgr.py. *)
From Coq Require Import String List Bool NArith.
From Verif Require Import Base JobModel.
Import ListNotations.
Open Scope list_scope.

(** plainbox/impl/depmgr.py:257-273 Color *)
Inductive color := White | Gray | Black.

(** The exceptions: plainbox/impl/depmgr.py:63-254.  [DepAssert] is an
    AssertionError (from lines 129-130) and [DepType] the TypeError that
    subscripting a [None] trail (line 398) would give; the theorems say when
    they cannot occur. *)
Inductive dep_error :=
| DepDuplicate (j dup : job)
| DepUnknown (j : job)
| DepMissing (j : job) (missing : name) (ty : dep_type)
| DepCycle (l : list job)
| DepAssert
| DepTypeError.

(** [SFuel] means that the model ran out of fuel: it is not a Python outcome
    and is proved unreachable. *)
Inductive sres (A : Type) := SOk (a : A) | SErr (e : dep_error) | SFuel.
Arguments SOk {A} a.
Arguments SErr {A} e.
Arguments SFuel {A}.

(** plainbox/impl/depmgr.py:406-420 _get_job_map *)
Fixpoint get_job_map_from (m : dict job) (l : list job) : sres (dict job) :=
  match l with
  | [] => SOk m
  | j :: l' =>
      match dget (j_id j) m with
      | Some j0 => SErr (DepDuplicate j0 j)
      | None => get_job_map_from (dset (j_id j) j m) l'
      end
  end.

Definition get_job_map (l : list job) : sres (dict job) := get_job_map_from [] l.

(** [trail[trail.index(job):]], plainbox/impl/depmgr.py:398.  [index] finds the
    first element equal (by checksum) to [job]; it always exists in the calls
    made, an empty result stands for the ValueError otherwise raised. *)
Fixpoint suffix_from (j : job) (l : list job) : list job :=
  match l with
  | [] => []
  | x :: l' => if job_eqb x j then l else suffix_from j l'
  end.

(** plainbox/impl/depmgr.py:118-131 DependencyCycleError.__init__: the error is
    only constructed if both assertions hold, otherwise the AssertionError
    propagates instead. *)
Definition mk_cycle_error (l : list job) : dep_error :=
  match l with
  | first :: _ :: _ =>
      if job_is first (last l first) then DepCycle l else DepAssert
  | _ => DepAssert
  end.

Section Solver.
  (** The order in which each dependency set is enumerated. *)
  Variable deps_of : job -> list (dep_type * name).

  (** Mutable fields of the solver: _job_color_map and _solution. *)
  Definition sstate := (dict color * list job)%type.

  (** plainbox/impl/depmgr.py:348-404 _visit.  [jm] is _job_map.  The trail is
      passed by value; Python appends before and pops after each recursive
      call, which is the same unless an exception propagates, in which case the
      trail is not used again. *)
  Fixpoint visit (fuel : nat) (jm : dict job) (st : sstate) (j : job)
      (trail : option (list job)) : sres sstate :=
    match fuel with
    | O => SFuel
    | S fuel' =>
        match dget (j_id j) (fst st) with
        | None => SErr (DepUnknown j)
        | Some White =>
            let trail := match trail with None => [j] | Some t => t end in
            let fix visit_deps (deps : list (dep_type * name)) (st : sstate)
                : sres sstate :=
              match deps with
              | [] => SOk st
              | (ty, d) :: deps' =>
                  match dget d jm with
                  | None => SErr (DepMissing j d ty)
                  | Some next =>
                      match visit fuel' jm st next (Some (trail ++ [next])) with
                      | SOk st' => visit_deps deps' st'
                      | SErr e => SErr e
                      | SFuel => SFuel
                      end
                  end
              end in
            match visit_deps (deps_of j)
                             (dset (j_id j) Gray (fst st), snd st) with
            | SOk st' => SOk (dset (j_id j) Black (fst st'), snd st' ++ [j])
            | SErr e => SErr e
            | SFuel => SFuel
            end
        | Some Gray =>
            match trail with
            | None => SErr DepTypeError
            | Some t => SErr (mk_cycle_error (suffix_from j t))
            end
        | Some Black => SOk st
        end
    end.

  (** plainbox/impl/depmgr.py:342-343, the loop of _solve *)
  Fixpoint visit_all (fuel : nat) (jm : dict job) (st : sstate) (l : list job)
      : sres sstate :=
    match l with
    | [] => SOk st
    | j :: l' =>
        match visit fuel jm st j None with
        | SOk st' => visit_all fuel jm st' l'
        | SErr e => SErr e
        | SFuel => SFuel
        end
    end.

  (** plainbox/impl/depmgr.py:289-346 resolve_dependencies, __init__ and
      _solve.  [visit_list = None] means the whole job list. *)
  Definition resolve (job_list : list job) (visit_list : option (list job))
      : sres (list job) :=
    match get_job_map job_list with
    | SOk jm =>
        let colors := map (fun j => (j_id j, White)) job_list in
        let vl := match visit_list with None => job_list | Some l => l end in
        match visit_all (S (S (length job_list))) jm (colors, []) vl with
        | SOk st => SOk (snd st)
        | SErr e => SErr e
        | SFuel => SFuel
        end
    | SErr e => SErr e
    | SFuel => SFuel
    end.
End Solver.

(** The affected_job properties: plainbox/impl/depmgr.py:78-85 (unknown),
    133-140 (cycle), 175-182 (missing), 228-235 (duplicate).  [None] for the
    two errors that are not DependencyError. *)
Definition affected_job (e : dep_error) : option job :=
  match e with
  | DepDuplicate j _ => Some j
  | DepUnknown j => Some j
  | DepMissing j _ _ => Some j
  | DepCycle l => hd_error l
  | DepAssert => None
  | DepTypeError => None
  end.
