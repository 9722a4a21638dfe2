(** * Sending from many threads: /repo/plainbox/vendor/rpyc/core/protocol.py 239-268

    Any number of calls of Connection._send run at the same time, one step of one of them
    at a time: threads, and calls made by destructors while a thread is inside another
    call.  A step is one operation on the queue, the lock or the channel; list operations
    are atomic, as the code says it relies on. *)
From Coq Require Import List Bool Arith.
Import ListNotations.
Local Open Scope nat_scope.
Local Open Scope list_scope.

Section Send.
  (** the data of a message, after brine.dump *)
  Variable msg : Type.

  (** where a call is *)
  Inductive pc :=
  | Start                  (* before self._send_queue.append(data), 250 *)
  | Check                  (* at while self._send_queue, 252 *)
  | Acquire                (* at self._sendlock.acquire(False), 253 *)
  | Recheck                (* inside try, at if not self._send_queue, 260 *)
  | Pop                    (* at self._send_queue.pop(0), 265 *)
  | Sending (d : msg)      (* in self._channel.send(data), 266 *)
  | Release                (* at finally, 268, going on with the loop *)
  | Release_raising        (* at finally, 268, with an exception from the channel *)
  | Returned | Raised.

  (** the queue, whether the lock is held, and the calls with their messages *)
  Record state := { queue : list msg; locked : bool; calls : list (msg * pc) }.
  Inductive label := Queued (m : msg) | Wrote (m : msg) | Lost (m : msg) | Quiet.

  (** what a call can do next: the label, its new place, the queue and the lock *)
  Inductive act (q : list msg) (l : bool) (m : msg) : pc -> label -> pc -> list msg -> bool -> Prop :=
  | a_append : act q l m Start (Queued m) Check (q ++ [m]) l
  | a_check_empty : q = [] -> act q l m Check Quiet Returned q l
  | a_check : q <> [] -> act q l m Check Quiet Acquire q l
  | a_busy : l = true -> act q l m Acquire Quiet Returned q l
  | a_acquire : l = false -> act q l m Acquire Quiet Recheck q true
  | a_recheck_empty : q = [] -> act q l m Recheck Quiet Release q l
  | a_recheck : q <> [] -> act q l m Recheck Quiet Pop q l
  | a_pop d r : q = d :: r -> act q l m Pop Quiet (Sending d) r l
  | a_pop_empty : q = [] -> act q l m Pop Quiet Release_raising q l
  | a_send d : act q l m (Sending d) (Wrote d) Release q l
  | a_send_fails d : act q l m (Sending d) (Lost d) Release_raising q l
  | a_release : act q l m Release Quiet Check q false
  | a_release_raising : act q l m Release_raising Quiet Raised q false.

  Inductive step : state -> label -> state -> Prop :=
  | st a b m p x p' q l q' l' : act q l m p x p' q' l' ->
      step {| queue := q; locked := l; calls := a ++ (m, p) :: b |} x
           {| queue := q'; locked := l'; calls := a ++ (m, p') :: b |}.
  Inductive steps : state -> list label -> state -> Prop :=
  | ss_nil s : steps s [] s
  | ss_step s x s' t s'' : steps s t s' -> step s' x s'' -> steps s (t ++ [x]) s''.

  (** __init__, 146, 156: an empty queue and a free lock; calls that have not started *)
  Definition initial (ms : list msg) : state := {| queue := []; locked := false; calls := map (fun m => (m, Start)) ms |}.
End Send.
Arguments Start {msg}. Arguments Check {msg}. Arguments Acquire {msg}. Arguments Recheck {msg}. Arguments Pop {msg}.
Arguments Sending {msg}. Arguments Release {msg}. Arguments Release_raising {msg}. Arguments Returned {msg}. Arguments Raised {msg}.
Arguments queue {msg}. Arguments locked {msg}. Arguments calls {msg}. Arguments Build_state {msg}.
Arguments Queued {msg}. Arguments Wrote {msg}. Arguments Lost {msg}. Arguments Quiet {msg}.
Arguments act {msg}. Arguments step {msg}. Arguments steps {msg}. Arguments initial {msg}.
