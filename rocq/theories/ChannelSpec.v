(** What a user expects of streams and channels. *)
From Coq Require Import String Ascii List Bool Arith NArith.
From Verif Require Import ScanModel IologModel BrineModel ChannelModel.
Import ListNotations.
Local Open Scope nat_scope.
Local Open Scope list_scope.

Definition starts_with {A} (l p : list A) : Prop := exists r, l = p ++ r.

(** The connection did not break: the reader ran into neither end nor error, and waiting
    was no error either where it is none. *)
Definition unbroken (patient : bool) (es : list revent) : Prop :=
  forall e, In e es -> match e with Data _ => True | Timeout | Again => patient = true | Closed | Failed => False end.
(** how often bytes came *)
Definition arrivals (es : list revent) : nat := length (filter (fun e => match e with Data _ => true | _ => false end) es).
(** no write failed *)
Definition accepting (es : list wevent) : Prop := ~ In Refused es.
