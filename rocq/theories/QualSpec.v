(** What job selection should do. *)
From Coq Require Import String List Bool Arith.
From Verif Require Import Base QualModel.
Import ListNotations.

Section Spec.
  Variable job : Type.
  Variable job_id : job -> name.

  (** [primitive q m inclusive]: the primitive qualifier [(m, inclusive)] occurs
      somewhere in [q]. *)
  Inductive primitive : qualifier job -> matcher job -> bool -> Prop :=
  | prim_here m i : primitive (Simple m i) m i
  | prim_in q l m i : In q l -> primitive q m i -> primitive (Composite l) m i.

  (** The job is one of those described by the matcher. *)
  Definition matches (m : matcher job) (j : job) : Prop :=
    match m with MId v => v = job_id j | MPred f => f j = true end.

  (** Some primitive part of [q] includes (excludes) the job. *)
  Definition includes (q : qualifier job) (j : job) : Prop :=
    exists m, primitive q m true /\ matches m j.
  Definition excludes (q : qualifier job) (j : job) : Prop :=
    exists m, primitive q m false /\ matches m j.

  (** Should the job be selected? *)
  Definition wanted (ql : list (qualifier job)) (j : job) : Prop :=
    (exists q, In q ql /\ includes q j) /\ (forall q, In q ql -> ~ excludes q j).

  (** The primitive qualifiers from left to right. *)
  Inductive leaves : qualifier job -> list (matcher job * bool) -> Prop :=
  | leaves_simple m i : leaves (Simple m i) [(m, i)]
  | leaves_composite l ls : Forall2 leaves l ls -> leaves (Composite l) (concat ls).

  (** [first_at fl j n]: the [n]th primitive qualifier is the first to include
      the job. *)
  Definition first_at (fl : list (matcher job * bool)) (j : job) (n : nat) : Prop :=
    (exists m, nth_error fl n = Some (m, true) /\ matches m j) /\
    forall k m, k < n -> nth_error fl k = Some (m, true) -> ~ matches m j.
End Spec.
