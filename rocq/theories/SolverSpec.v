(** What users expect from dependency resolution, stated without reference to
    how the solver works.  [deps_of j] lists the dependencies of [j]. *)
From Coq Require Import String List Relations.
From Verif Require Import Base JobModel.
Import ListNotations.

Section Spec.
  Variable deps_of : job -> list (dep_type * name).

  (** [a] depends on the identifier [d]. *)
  Definition depends_on_id (a : job) (d : name) : Prop :=
    exists ty, In (ty, d) (deps_of a).

  (** [a] depends on the listed job [b]. *)
  Definition depends (jobs : list job) (a b : job) : Prop :=
    In b jobs /\ depends_on_id a (j_id b).

  (** No two entries of the list have the same identifier. *)
  Definition unique_ids (l : list job) : Prop := NoDup (map j_id l).

  (** Every job comes after (something with the identifier of) each of its
      dependencies. *)
  Definition dependency_ordered (l : list job) : Prop :=
    forall before j after, l = before ++ j :: after ->
      forall d, depends_on_id j d -> In d (map j_id before).

  (** The jobs needed to run [wanted]: those and, transitively, what they
      depend on. *)
  Inductive needed (jobs wanted : list job) : job -> Prop :=
  | needed_wanted j : In j wanted -> needed jobs wanted j
  | needed_dep a b : needed jobs wanted a -> depends jobs a b ->
      needed jobs wanted b.

  (** Everything needed is there. *)
  Definition complete (jobs wanted : list job) : Prop :=
    forall a d, needed jobs wanted a -> depends_on_id a d ->
      exists b, In b jobs /\ j_id b = d.

  (** Nothing needed depends, directly or not, on itself. *)
  Definition acyclic (jobs wanted : list job) : Prop :=
    forall a, needed jobs wanted a -> ~ clos_trans job (depends jobs) a a.

  (** [path l]: each element depends on the next one. *)
  Fixpoint path (jobs : list job) (l : list job) : Prop :=
    match l with
    | a :: ((b :: _) as l') => depends jobs a b /\ path jobs l'
    | _ => True
    end.

  (** A list describing a dependency cycle: at least two entries, the first
      and the last are the same, each depends on the next. *)
  Definition dependency_cycle (jobs : list job) (l : list job) : Prop :=
    exists first middle, l = first :: middle ++ [first] /\ path jobs l.
End Spec.

(** The jobs asked for: by default all of them. *)
Definition wanted (jobs : list job) (visit_list : option (list job)) : list job :=
  match visit_list with None => jobs | Some l => l end.

(** The only way for two listed jobs to compare equal, or to be the same
    object, is to be the same entry: no checksum collisions between different
    jobs, and object identity tells objects apart. *)
Definition faithful_equality (jobs : list job) : Prop :=
  forall a b, In a jobs -> In b jobs ->
    (j_sum a = j_sum b \/ j_obj a = j_obj b) -> a = b.
