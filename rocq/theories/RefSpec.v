(** What a user expects of objects shared between two processes. *)
From Coq Require Import List Bool Arith.
From Verif Require Import RefModel.
Import ListNotations.
Local Open Scope nat_scope.
Local Open Scope list_scope.

(** the owner has the object for the peer *)
Definition available (s : state) : Prop := exists n, held s = Some n.
(** nothing is under way and the peer has no proxy *)
Definition at_rest (s : state) : Prop := down s = 0 /\ proxy s = None /\ up s = [] /\ looking s = [].
(** how often a reference arrived while the peer had a proxy already *)
Definition arrived_again (t : list event) : nat := length (filter (fun e => match e with Same_proxy => true | _ => false end) t).
(** no asynchronous call whose arguments need a request of the owner *)
Definition no_nested (t : list event) : Prop := ~ In (Used Async_nested) t.
