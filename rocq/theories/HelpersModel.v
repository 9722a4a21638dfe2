(** * Reading the other side's iterators in chunks, and restricted views: plainbox/vendor/rpyc/utils/helpers.py 12-85 with
      plainbox/vendor/rpyc/core/protocol.py 641-651 *)
From Coq Require Import List Bool Arith.
Import ListNotations.

(** An iterator of the other side: what it still gives, and how it ends *)
Inductive ending := Stops | Raises (x : nat).
(** protocol.py 641-651 _handle_buffiter: left is the exception that comes back instead of the items *)
Fixpoint fetch (count : nat) (rem : list nat) (e : ending) : (nat + list nat) * list nat :=
  match count with
  | O => (inr [], rem)
  | S c => match rem with
           | [] => (match e with Stops => inr [] | Raises x => inl x end, [])
           | v :: r => let '(res, r') := fetch c r e in
                       (match res with inl x => inl x | inr l => inr (v :: l) end, r')
           end
  end.
(** helpers.py 38-46: the elements given, the exception at the end if any, and the sizes asked for. The fuel bounds the
    rounds of the loop; None: it did not suffice. *)
Fixpoint rounds (fuel count max_chunk factor : nat) (rem : list nat) (e : ending) : option (list nat * option nat * list nat) :=
  match fuel with
  | O => None
  | S f => match fetch count rem e with
           | (inl x, _) => Some ([], Some x, [count])
           | (inr [], _) => Some ([], None, [count])
           | (inr l, r) => match rounds f (Nat.min (count * factor) max_chunk) max_chunk factor r e with
                           | None => None
                           | Some (l', x, asked) => Some (l ++ l', x, count :: asked)
                           end
           end
  end.
(** helpers.py 12-46 buffiter; left: the ValueError of 36-37 *)
Definition buffiter (fuel chunk max_chunk factor : nat) (rem : list nat) (e : ending)
    : unit + option (list nat * option nat * list nat) :=
  if Nat.ltb factor 1 then inl tt else inr (rounds fuel chunk max_chunk factor rem e).

(** helpers.py 48-85 restricted: a view of an object whose attributes are numbered. The other side reads and writes through
    _rpyc_getattr and _rpyc_setattr, protocol.py 588-596. Not modelled: deleting, which the view has no method for. *)
Inductive access := Read (n : nat) | Write (n v : nat).
Inductive answer := Value (v : nat) | Done | NoAttribute.
Definition mem (n : nat) (l : list nat) : bool := existsb (Nat.eqb n) l.
Definition through (attrs : list nat) (wattrs : option (list nat)) (a : access) (obj : nat -> option nat)
    : (nat -> option nat) * answer :=
  let w := match wattrs with None => attrs | Some l => l end in        (* 72-73 *)
  match a with
  | Read n => (obj, if mem n attrs then match obj n with Some v => Value v | None => NoAttribute end else NoAttribute)
  | Write n v => if mem n w then (fun m => if Nat.eqb m n then Some v else obj m, Done) else (obj, NoAttribute)
  end.
Fixpoint through_all (attrs : list nat) (wattrs : option (list nat)) (l : list access) (obj : nat -> option nat)
    : (nat -> option nat) * list answer :=
  match l with
  | [] => (obj, [])
  | a :: r => let '(o1, x) := through attrs wattrs a obj in
              let '(o2, xs) := through_all attrs wattrs r o1 in (o2, x :: xs)
  end.
