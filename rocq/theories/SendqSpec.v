(** What a user expects of sending from many threads. *)
From Coq Require Import List Bool Arith.
From Verif Require Import SendqModel.
Import ListNotations.
Local Open Scope nat_scope.
Local Open Scope list_scope.

(** the messages in the order in which they were handed in, and those given to the
    channel, in that order, sent or lost in a failure *)
Definition handed_in {M} (t : list (label M)) : list M := flat_map (fun x => match x with Queued m => [m] | _ => [] end) t.
Definition on_the_wire {M} (t : list (label M)) : list M := flat_map (fun x => match x with Wrote m => [m] | _ => [] end) t.
Definition tried {M} (t : list (label M)) : list M := flat_map (fun x => match x with Wrote m | Lost m => [m] | _ => [] end) t.
Definition no_failure {M} (t : list (label M)) : Prop := forall m, ~ In (Lost m) t.
Definition starts_with {A} (l p : list A) : Prop := exists r, l = p ++ r.

Definition ended {M} (p : pc M) : Prop := p = Returned \/ p = Raised.
Definition all_ended {M} (s : state M) : Prop := forall m p, In (m, p) (calls s) -> ended p.
(** the call is inside channel.send *)
Definition sending {M} (p : pc M) : Prop := exists d, p = Sending d.
