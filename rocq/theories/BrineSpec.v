(** What a user expects of values sent as bytes. *)
From Coq Require Import String Ascii List Bool Arith NArith ZArith Permutation.
From Verif Require Import ScanModel IologModel Utf8Model Utf8Spec ConfigModel BrineModel.
Import ListNotations.
Local Open Scope N_scope.
Local Open Scope list_scope.

(** [w] is the value [v] or a part of it. *)
Inductive inside (w : val) : val -> Prop :=
| in_self : inside w w
| in_tuple l x : In x l -> inside w x -> inside w (VTuple l)
| in_fset l x : In x l -> inside w x -> inside w (VFset l)
| in_slice a b c x : In x [a; b; c] -> inside w x -> inside w (VSlice a b c).

(** Values made of the listed types only *)
Definition plain (v : val) : Prop := forall n, ~ inside (VOther n) v.

(** What is equal to what: everything in place, but for the order of frozensets *)
Inductive atom : val -> Prop :=
| at_none : atom VNone | at_ni : atom VNotImplemented | at_ell : atom VEllipsis
| at_bool b : atom (VBool b) | at_int z : atom (VInt z) | at_float x : atom (VFloat x)
| at_complex x y : atom (VComplex x y) | at_bytes s : atom (VBytes s) | at_str t : atom (VStr t).
Inductive same : val -> val -> Prop :=
| same_atom v : atom v -> same v v
| same_tuple l m : sames l m -> same (VTuple l) (VTuple m)
| same_fset l m m' : sames l m -> Permutation m m' -> same (VFset l) (VFset m')
| same_slice a b c a' b' c' : same a a' -> same b b' -> same c c' -> same (VSlice a b c) (VSlice a' b' c')
with sames : list val -> list val -> Prop :=
| sames_nil : sames [] []
| sames_cons x y l m : same x y -> sames l m -> sames (x :: l) (y :: m).

Section Spec.
  (** what counts as one element of a set, and whether slices can be elements *)
  Variable same_element : val -> val -> bool.
  Variable slices_hash : bool.

  (** A value Python can have: floats are 64 bits wide, texts are made of code points,
      sets have no element twice and no element that has no hash. *)
  Definition proper (v : val) : Prop := forall w, inside w v ->
    match w with
    | VFloat x => x < 2 ^ 64
    | VComplex x y => x < 2 ^ 64 /\ y < 2 ^ 64
    | VStr t => Forall (fun c => c < 1114112) t
    | VFset l =>
        ForallOrdPairs (fun x y => same_element x y = false) l /\
        (slices_hash = true \/ forall x a b c, In x l -> ~ inside (VSlice a b c) x)
    | _ => True
    end.
End Spec.

(** Texts without lone surrogates and nothing of 4 GiB or more *)
Definition sendable (v : val) : Prop := forall w, inside w v ->
  match w with
  | VInt z => N.of_nat (length (int_str z)) < 2 ^ 32
  | VBytes s => N.of_nat (length s) < 2 ^ 32
  | VStr t => Forall scalar t /\ N.of_nat (length (utf8_text t)) < 2 ^ 32
  | VTuple l | VFset l => N.of_nat (length l) < 2 ^ 32
  | _ => True
  end.
