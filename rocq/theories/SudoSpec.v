(** What a user expects of the output and of the end of a command. *)
From Coq Require Import String Ascii List Bool Arith ZArith.
From Verif Require Import ExtcmdModel ExtcmdSpec SudoModel.
Import ListNotations.
Local Open Scope nat_scope.
Local Open Scope list_scope.

(** In the same order, with gaps. *)
Inductive part_of : bytes -> bytes -> Prop :=
| po_nil : part_of [] []
| po_keep c a b : part_of a b -> part_of (c :: a) (c :: b)
| po_skip c a b : part_of a b -> part_of a (c :: b).

(** The first turn in which asking for the password is not interrupted. *)
Inductive answered : list turn -> nat -> turn -> list turn -> Prop :=
| a_now x r : x <> AskInterrupted -> answered (x :: r) 0 x r
| a_later r n x r' : answered r n x r' -> answered (AskInterrupted :: r) (S n) x r'.
