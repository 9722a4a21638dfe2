(** * Objects shared between two processes: /repo/plainbox/vendor/rpyc

    One object of one process (the owner) and the proxy for it in the other (the peer).
    Objects are handled independently of each other; the collection keeps the object
    alive, so its id is not used for another one meanwhile.  The proxy cache gives the
    proxy as long as it lives; that a proxy ends is one step with the message its
    destructor sends.  Messages of each direction arrive in the order they were sent. *)
From Coq Require Import List Bool Arith.
Import ListNotations.
Local Open Scope nat_scope.
Local Open Scope list_scope.

(** the entry of the object in the collection: its counter (lib/colls.py 56-86) *)
Definition slot := option nat.
(** RefCountingColl.add, lib/colls.py 64-72 *)
Definition coll_add (s : slot) : slot := match s with None => Some 0 | Some n => Some (n + 1) end.
(** RefCountingColl.decref, lib/colls.py 76-83; None is KeyError *)
Definition coll_decref (s : slot) (count : nat) : option slot :=
  match s with
  | None => None
  | Some n => if n <? count then Some None else Some (Some (n - count))
  end.
(** RefCountingColl.__getitem__, lib/colls.py 84-86: whether it is there *)
Definition coll_get (s : slot) : bool := match s with Some _ => true | None => false end.

(** A use of the object by the peer, core/netref.py 57-91.  Sync: the caller waits for
    the answer and holds the proxy meanwhile (syncreq, 57-74).  Async: it does not
    (asyncreq, 76-91).  Async_nested: it does not, and recreating the arguments takes the
    owner a request of its own, in which other messages are handled (core/protocol.py 335,
    411-426). *)
Inductive use := Sync | Async | Async_nested.
Inductive up_message := Use (u : use) | Del (count : nat).

Record state := {
  held : slot;              (* the owner's entry *)
  down : nat;               (* references on the way to the peer *)
  proxy : option nat;       (* the peer's proxy, with its ____refcount__ *)
  up : list up_message;     (* on the way to the owner *)
  looking : list use;       (* requests begun, whose object was not looked up yet *)
  failed : bool             (* an object was not found: KeyError *)
}.
Definition initial : state := {| held := None; down := 0; proxy := None; up := []; looking := []; failed := false |}.

(** a request of the peer that it still waits for *)
Definition waits (s : state) : bool :=
  existsb (fun m => match m with Use Sync => true | _ => false end) (up s) || existsb (fun u => match u with Sync => true | _ => false end) (looking s).

Inductive event := Sent_reference | New_proxy | Same_proxy | Proxy_ended | Used (u : use) | Del_handled | Use_begun | Looked_up.

Inductive step : state -> event -> state -> Prop :=
(* _box, core/protocol.py 284-302, the last branch *)
| s_box h d p u l f : step (Build_state h d p u l f) Sent_reference (Build_state (coll_add h) (S d) p u l f)
(* _unbox, core/protocol.py 315-325: from the cache or a new one, core/netref.py 121-124 *)
| s_unbox_new h d u l f : step (Build_state h (S d) None u l f) New_proxy (Build_state h d (Some 1) u l f)
| s_unbox_same h d r u l f : step (Build_state h (S d) (Some r) u l f) Same_proxy (Build_state h d (Some (r + 1)) u l f)
(* BaseNetref.__del__, core/netref.py 126-132: only when nobody uses the proxy *)
| s_drop h d r u l f : waits (Build_state h d (Some r) u l f) = false ->
    step (Build_state h d (Some r) u l f) Proxy_ended (Build_state h d None (u ++ [Del r]) l f)
| s_use h d r u l f k : step (Build_state h d (Some r) u l f) (Used k) (Build_state h d (Some r) (u ++ [Use k]) l f)
(* _handle_del, core/protocol.py 607-608: the count that was sent is not used *)
| s_del h d p c u l f : step (Build_state h d p (Del c :: u) l f) Del_handled
    (match coll_decref h 1 with Some h' => Build_state h' d p u l f | None => Build_state h d p u l true end)
(* _dispatch_request, core/protocol.py 343-347: the arguments, then the handler *)
| s_begin h d p k u l f : k = Async_nested \/ k = Sync -> step (Build_state h d p (Use k :: u) l f) Use_begun (Build_state h d p u (k :: l) f)
| s_begin_now h d p u l f : step (Build_state h d p (Use Async :: u) l f) Looked_up (Build_state h d p u l (f || negb (coll_get h)))
| s_look h d p k u a b f : step (Build_state h d p u (a ++ k :: b) f) Looked_up (Build_state h d p u (a ++ b) (f || negb (coll_get h))).

Inductive steps : state -> list event -> state -> Prop :=
| ss_nil s : steps s [] s
| ss_step s x s' t s'' : steps s t s' -> step s' x s'' -> steps s (t ++ [x]) s''.
