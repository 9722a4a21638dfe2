(** Job selection: plainbox/impl/secure/qualifiers.py. *)
From Coq Require Import String List Bool Arith.
From Verif Require Import Base.
Import ListNotations.
Open Scope list_scope.

Section Qualifiers.
  (** Jobs, and their identifiers. *)
  Variable job : Type.
  Variable job_id : job -> name.

  (** plainbox/abc.py IJobQualifier.VOTE_EXCLUDE, VOTE_INCLUDE and VOTE_IGNORE,
      which are the integers 0, 1 and 2 *)
  Inductive vote := EXCLUDE | INCLUDE | IGNORE.
  Definition vote_num (v : vote) : nat :=
    match v with EXCLUDE => 0 | INCLUDE => 1 | IGNORE => 2 end.

  (** What a primitive qualifier matches.  [MId v] is a FieldQualifier of the
      field 'id' with OperatorMatcher(operator.eq, v) (qualifiers.py:316-365 and
      231-260), the one that select_jobs treats specially; [MPred f] is any
      other primitive qualifier (RegExpJobQualifier, JobIdQualifier, other
      FieldQualifiers), for which all that matters is which jobs it matches. *)
  Inductive matcher := MId (value : name) | MPred (f : job -> bool).

  (** SimpleQualifier (48-130) and CompositeQualifier (367-412); Python objects
      cannot contain themselves here. *)
  Inductive qualifier :=
  | Simple (m : matcher) (inclusive : bool)
  | Composite (l : list qualifier).

  (** get_simple_match: 199-206, 351-359, 259-260 *)
  Definition get_simple_match (m : matcher) (j : job) : bool :=
    match m with MId v => String.eqb v (job_id j) | MPred f => f j end.

  (** 84-107 SimpleQualifier.get_vote *)
  Definition simple_vote (m : matcher) (inclusive : bool) (j : job) : vote :=
    if get_simple_match m j then if inclusive then INCLUDE else EXCLUDE else IGNORE.

  (** min() of the numeric votes *)
  Definition vote_min (a b : vote) : vote := if Nat.leb (vote_num a) (vote_num b) then a else b.

  (** 382-402 CompositeQualifier.get_vote and 84-107 *)
  Fixpoint get_vote (q : qualifier) (j : job) : vote :=
    match q with
    | Simple m i => simple_vote m i j
    | Composite [] => IGNORE
    | Composite (q0 :: l) => fold_left (fun a q' => vote_min a (get_vote q' j)) l (get_vote q0 j)
    end.

  (** 73-74 and 379-380 designates *)
  Definition designates (q : qualifier) (j : job) : bool :=
    match get_vote q j with INCLUDE => true | _ => false end.

  (** 109-120 and 404-405 get_primitive_qualifiers, 422-425
      get_flat_primitive_qualifier_list *)
  Fixpoint get_primitive_qualifiers (q : qualifier) : list (matcher * bool) :=
    match q with
    | Simple m i => [(m, i)]
    | Composite l => flat_map get_primitive_qualifiers l
    end.
  Definition flat_list (l : list qualifier) : list (matcher * bool) :=
    flat_map get_primitive_qualifiers l.

  (** 484: {job.id: index}; the last index of each id *)
  Definition id_to_index_map (jobs : list job) : dict nat :=
    fold_left (fun m p => dset (job_id (snd p)) (fst p) m)
      (combine (seq 0 (length jobs)) jobs) [].

  Definition nmem (i : nat) (l : list nat) : bool := existsb (Nat.eqb i) l.

  (** 504-511 and 516-523: the effect of one vote on (included_list,
      excluded_set); included_set holds the members of included_list *)
  Definition record_vote (acc : list nat * list nat) (i : nat) (v : vote) : list nat * list nat :=
    let (inc, exc) := acc in
    match v with
    | INCLUDE => if nmem i inc then acc else (inc ++ [i], exc)
    | EXCLUDE => (inc, i :: exc)
    | IGNORE => acc
    end.

  (** 487-523: one qualifier *)
  Definition process (jobs : list job) (ids : dict nat) (acc : list nat * list nat)
      (q : matcher * bool) : list nat * list nat :=
    match fst q with
    | MId v =>
        match dget v ids with
        | None => acc
        | Some i =>
            match nth_error jobs i with
            | Some j => record_vote acc i (simple_vote (fst q) (snd q) j)
            | None => acc
            end
        end
    | MPred _ =>
        fold_left (fun acc p => record_vote acc (fst p) (simple_vote (fst q) (snd q) (snd p)))
          (combine (seq 0 (length jobs)) jobs) acc
    end.

  (** 428-525 select_jobs *)
  Definition select_jobs (jobs : list job) (quals : list qualifier) : list job :=
    match flat_list quals with
    | [] => []
    | flat =>
        let (inc, exc) := fold_left (process jobs (id_to_index_map jobs)) flat ([], []) in
        flat_map (fun i => match nth_error jobs i with Some j => [j] | None => [] end)
          (filter (fun i => negb (nmem i exc)) inc)
    end.
End Qualifiers.

Arguments MId {job} value.
Arguments MPred {job} f.
Arguments Simple {job} m inclusive.
Arguments Composite {job} l.
