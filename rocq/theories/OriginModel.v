(** * Where things come from: plainbox/impl/secure/origin.py

    Comparing is modelled with the rules of Python: a method may answer, decline
    (NotImplemented) or raise TypeError; an operator asks the other operand when the first
    declines, and the other one first if its class derives from that of the first.  functools
    gives the missing methods (total_ordering, as of Python 3.4).  Translated texts, str and repr
    are not modelled, and neither is get_caller_origin. *)
From Coq Require Import String Ascii List Bool Arith ZArith.
From Verif Require Import ScanModel Rfc822Model.
Import ListNotations.
Local Open Scope list_scope.

Inductive ans := Says (b : bool) | Declines | Type_error.

(** ** Texts and numbers *)

Fixpoint text_gt (a b : text) : bool :=
  match a, b with
  | [], _ => false
  | _ :: _, [] => true
  | x :: a', y :: b' => if Ascii.eqb x y then text_gt a' b' else Nat.ltb (nat_of_ascii y) (nat_of_ascii x)
  end.
(** None or a number, None or a text: None cannot be compared *)
Definition line_eqb (a b : option Z) : bool :=
  match a, b with Some x, Some y => Z.eqb x y | None, None => true | _, _ => false end.
Definition line_gt (a b : option Z) : ans := match a, b with Some x, Some y => Says (Z.gtb x y) | _, _ => Type_error end.
Definition name_eqb (a b : option text) : bool :=
  match a, b with Some x, Some y => text_eqb x y | None, None => true | _, _ => false end.
Definition name_gt (a b : option text) : ans := match a, b with Some x, Some y => Says (text_gt x y) | _, _ => Type_error end.

(** ** functools.total_ordering for classes that define __gt__ *)

Section Total.
  Variable A : Type.
  Variable gt : A -> A -> ans.        (* the method __gt__ *)
  Variable op_eq : A -> A -> bool.    (* the operators; they do not raise here *)
  Variable op_ne : A -> A -> bool.
  Definition lt_from_gt (a b : A) : ans :=
    match gt a b with Says r => Says (negb r && op_ne a b) | x => x end.
  Definition ge_from_gt (a b : A) : ans :=
    match gt a b with Says r => Says (r || op_eq a b) | x => x end.
  Definition le_from_gt (a b : A) : ans :=
    match gt a b with Says r => Says (negb r) | x => x end.
End Total.

(** ** Sources *)

(** 202-373; a job is compared by its checksum (unit.py 451-457) and has no order *)
Inductive source :=
| Unknown
| From_file (python : bool) (name : text)
| From_job (checksum : text)
| From_arg (name : option text) (value : text).

(** The class of the second derives from that of the first *)
Definition derived (a b : source) : bool :=
  match a, b with From_file false _, From_file true _ => true | _, _ => false end.

(** 221-225, 256-260, 317-320, 357-361 *)
Definition source_eq (a b : source) : ans :=
  match a, b with
  | Unknown, Unknown => Says true
  | Unknown, _ => Says false
  | From_file _ n, From_file _ m => Says (text_eqb n m)
  | From_file _ _, _ => Says false
  | From_job c, From_job d => Says (text_eqb c d)
  | From_job _, _ => Declines
  | From_arg n v, From_arg m w => Says (name_eqb n m && text_eqb v w)
  | From_arg _ _, _ => Declines
  end.
(** 227-231, 262-266, 322-325, 363-370 *)
Definition source_gt (a b : source) : ans :=
  match a, b with
  | Unknown, Unknown => Says false
  | From_file _ n, From_file _ m => Says (text_gt n m)
  | From_job _, From_job _ => Type_error
  | From_arg n v, From_arg m w =>
      match name_gt n m with
      | Says true => Says true
      | Says false => Says (text_gt v w)
      | x => x
      end
  | _, _ => Declines
  end.
(** The operators.  Objects of different classes are not identical. *)
Definition ask (first second : ans) : ans := match first with Declines => second | x => x end.
Definition operator (direct reflected : source -> source -> ans) (a b : source) : ans :=
  if derived a b then ask (reflected b a) (direct a b) else ask (direct a b) (reflected b a).
Definition op_source_eq (a b : source) : bool :=
  match operator source_eq source_eq a b with Says r => r | _ => false end.
(** The default __ne__ is the opposite of __eq__ *)
Definition source_ne (a b : source) : ans := match source_eq a b with Says r => Says (negb r) | x => x end.
Definition op_source_ne (a b : source) : bool :=
  match operator source_ne source_ne a b with Says r => r | _ => true end.
Definition source_lt : source -> source -> ans := lt_from_gt source source_gt op_source_ne.
Definition source_ge : source -> source -> ans := ge_from_gt source source_gt op_source_eq.
Definition source_le : source -> source -> ans := le_from_gt source source_gt.
Definition final (x : ans) : ans := match x with Declines => Type_error | x => x end.
Definition op_source_gt (a b : source) : ans := final (operator source_gt source_lt a b).

(** ** Origins *)

Record origin := mk_origin { o_source : source; o_start : option Z; o_end : option Z }.

(** 167-179 and the comparison of tuples: the first items that are not equal decide *)
Definition origin_eq (a b : origin) : bool :=
  op_source_eq (o_source a) (o_source b) && line_eqb (o_start a) (o_start b) && line_eqb (o_end a) (o_end b).
Definition origin_gt (a b : origin) : ans :=
  if op_source_eq (o_source a) (o_source b) then
    if line_eqb (o_start a) (o_start b) then
      if line_eqb (o_end a) (o_end b) then Says false else line_gt (o_end a) (o_end b)
    else line_gt (o_start a) (o_start b)
  else op_source_gt (o_source a) (o_source b).
Definition origin_lt : origin -> origin -> ans := lt_from_gt origin origin_gt (fun a b => negb (origin_eq a b)).
Definition origin_ge : origin -> origin -> ans := ge_from_gt origin origin_gt origin_eq.
Definition origin_le : origin -> origin -> ans := le_from_gt origin origin_gt.

(** 74-91 mode *)
Inductive mode := Whole_file | Single_line | Line_range.
Definition mode_of (o : origin) : mode :=
  match o_start o, o_end o with
  | None, None => Whole_file
  | s, e => if line_eqb s e then Single_line else Line_range
  end.
(** 130-146 with_offset; None is TypeError *)
Definition with_offset (n : Z) (o : origin) : option origin :=
  match mode_of o with
  | Whole_file => Some o
  | _ =>
      match o_start o, o_end o with
      | Some s, Some e => Some (mk_origin (o_source o) (Some (s + n)%Z) (Some (e + n)%Z))
      | _, _ => None
      end
  end.
(** 148-165 just_line and just_file *)
Definition just_line (o : origin) : origin := mk_origin (o_source o) (o_start o) (o_start o).
Definition just_file (o : origin) : origin := mk_origin (o_source o) None None.
(** 110-128 relative_to, with 233-234, 268-278, 327-328 and 372-373; [relpath] is that of os.path for the directory *)
Definition source_relative (relpath : text -> text) (s : source) : source :=
  match s with From_file p n => From_file p (relpath n) | _ => s end.
Definition relative_to (relpath : text -> text) (o : origin) : origin :=
  mk_origin (source_relative relpath (o_source o)) (o_start o) (o_end o).
