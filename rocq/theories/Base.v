(** Shared data structures of the models.

    Python dictionaries with string keys are modelled as association lists in
    insertion order: assigning to an existing key keeps its position, assigning
    to a new key appends it (the order CPython keeps, and on which no theorem
    relies unless it says so). *)
From Coq Require Import String Ascii List Bool.
Import ListNotations.
Open Scope string_scope.
Open Scope list_scope.

(** Identifiers and other texts that the code only compares, never inspects. *)
Definition name := string.

Definition dict (A : Type) := list (name * A).

(** [d.get(k)] *)
Fixpoint dget {A} (k : name) (d : dict A) : option A :=
  match d with
  | [] => None
  | (k', v) :: d' => if String.eqb k k' then Some v else dget k d'
  end.

(** [k in d] *)
Definition dmem {A} (k : name) (d : dict A) : bool :=
  match dget k d with Some _ => true | None => false end.

(** [d[k] = v] *)
Fixpoint dset {A} (k : name) (v : A) (d : dict A) : dict A :=
  match d with
  | [] => [(k, v)]
  | (k', v') :: d' =>
      if String.eqb k k' then (k', v) :: d' else (k', v') :: dset k v d'
  end.

(** [del d[k]] (no effect if the key is absent; callers model the KeyError) *)
Fixpoint ddel {A} (k : name) (d : dict A) : dict A :=
  match d with
  | [] => []
  | (k', v') :: d' => if String.eqb k k' then d' else (k', v') :: ddel k d'
  end.

Definition dkeys {A} (d : dict A) : list name := map fst d.

(** [s in collection] for strings *)
Fixpoint smem (s : name) (l : list name) : bool :=
  match l with
  | [] => false
  | x :: l' => String.eqb s x || smem s l'
  end.

(** Insertion into a strictly increasing list of strings. *)
Fixpoint sinsert (s : name) (l : list name) : list name :=
  match l with
  | [] => [s]
  | x :: l' =>
      match String.compare s x with
      | Lt => s :: l
      | Eq => l
      | Gt => x :: sinsert s l'
      end
  end.

(** [sorted(set(l))]: ascending order, duplicates removed.  Python compares
    code points; byte-wise comparison of UTF-8 text is the same order. *)
Definition sorted_set (l : list name) : list name := fold_right sinsert [] l.
