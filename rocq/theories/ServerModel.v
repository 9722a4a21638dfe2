(** * A server with a thread for each client: plainbox/vendor/rpyc/utils/server.py 24-265 (Server) and 279-289
      (ThreadedServer)

    The accepting thread, the threads of the clients and whoever closes the server take turns in any order. Sockets are
    numbered as they are accepted. Not modelled: what serving a client does (C102), registering in the background, the
    other ways to start serving, and authenticators that give back another socket than they were given. *)
From Coq Require Import List Bool Arith.
Import ListNotations.

(** The accepting thread, 133-155: waiting for a client, having got a socket, having seen that the server is active,
    having added the socket to the clients *)
Inductive accepting := Waiting | Got (k : nat) | Checked (k : nat) | Listed (k : nat).
(** The thread of a client, 164-189: before authentication, serving, and in the final block *)
Inductive stage := Arriving | Serving | Ending.
(** close(), 103-127: not begun, past the test and the closing of the listener, in the loop over the copy, done *)
Inductive closing := NotClosed | Flagged | Looping (rest : list nat) | Finished.
Record server := mk_server {
  active : bool; next : nat; acc : accepting; clients : list nat; threads : list (nat * stage);
  open : list nat;                  (* accepted sockets that are not closed *)
  served : list nat;                (* sockets handed to the service, 179 *)
  unregistered : nat;               (* calls of registrar.unregister, 112 *)
  close_calls : nat; phase : closing }.
Definition gone (k : nat) (l : list nat) : list nat := filter (fun x => negb (Nat.eqb k x)) l.
Fixpoint stage_of (k : nat) (l : list (nat * stage)) : option stage :=
  match l with [] => None | (x, s) :: r => if Nat.eqb k x then Some s else stage_of k r end.
Definition ended (k : nat) (l : list (nat * stage)) : list (nat * stage) := filter (fun x => negb (Nat.eqb k (fst x))) l.

Inductive event :=
  | Arrives                         (* 137: the listener gives a socket *)
  | Look                            (* 149: is the server still active? *)
  | List_                           (* 154: self.clients.add *)
  | Spawn                           (* 286-289 *)
  | Auth (k : nat) (ok : bool)      (* 166-177: the authenticator accepts or raises; without one the client is let in *)
  | Leaves (k : nat)                (* _serve_client returns or raises *)
  | Final (k : nat)                 (* 183-189 *)
  | Close                           (* 106-119, by any thread *)
  | Copy                            (* 121: set(self.clients) *)
  | CloseOne                        (* 121-126 *)
  | Clear.                          (* 127 *)

Section Steps.
  Variables authenticator auto_register : bool.
  (** None: the event cannot happen in this state *)
  Definition step (e : event) (s : server) : option server :=
    match e, s with
    | Arrives, mk_server a n Waiting cs ts op sv un cc ph =>
        match ph with                                                            (* the listener is closed in 119 *)
        | NotClosed | Flagged => Some (mk_server a (S n) (Got n) cs ts (n :: op) sv un cc ph)
        | _ => None
        end
    | Look, mk_server a n (Got k) cs ts op sv un cc ph =>
        if a then Some (mk_server a n (Checked k) cs ts op sv un cc ph)
        else Some (mk_server a n Waiting cs ts (gone k op) sv un cc ph)          (* the socket is garbage, hence closed *)
    | List_, mk_server a n (Checked k) cs ts op sv un cc ph => Some (mk_server a n (Listed k) (k :: cs) ts op sv un cc ph)
    | Spawn, mk_server a n (Listed k) cs ts op sv un cc ph =>
        Some (mk_server a n Waiting cs ((k, Arriving) :: ts) op sv un cc ph)
    | Auth k ok, mk_server a n ac cs ts op sv un cc ph =>
        match stage_of k ts with
        | Some Arriving =>
            if ok || negb authenticator
            then Some (mk_server a n ac cs ((k, Serving) :: ended k ts) op (k :: sv) un cc ph)
            else Some (mk_server a n ac cs ((k, Ending) :: ended k ts) op sv un cc ph)
        | _ => None
        end
    | Leaves k, mk_server a n ac cs ts op sv un cc ph =>
        match stage_of k ts with
        | Some Serving => Some (mk_server a n ac cs ((k, Ending) :: ended k ts) op sv un cc ph)
        | _ => None
        end
    | Final k, mk_server a n ac cs ts op sv un cc ph =>
        match stage_of k ts with
        | Some Ending => Some (mk_server a n ac (gone k cs) (ended k ts) (gone k op) sv un cc ph)
        | _ => None
        end
    | Close, mk_server a n ac cs ts op sv un cc ph =>
        match ph with
        | NotClosed => Some (mk_server false n ac cs ts op sv (if auto_register then S un else un) (S cc) Flagged)
        | _ => Some (mk_server a n ac cs ts op sv un (S cc) ph)                  (* 106-107 *)
        end
    | Copy, mk_server a n ac cs ts op sv un cc Flagged => Some (mk_server a n ac cs ts op sv un cc (Looping cs))
    | CloseOne, mk_server a n ac cs ts op sv un cc (Looping (k :: r)) =>
        Some (mk_server a n ac cs ts (gone k op) sv un cc (Looping r))
    | Clear, mk_server a n ac cs ts op sv un cc (Looping []) => Some (mk_server a n ac [] ts op sv un cc Finished)
    | _, _ => None
    end.
  Fixpoint run (l : list event) (s : server) : option server :=
    match l with [] => Some s | e :: r => match step e s with None => None | Some s' => run r s' end end.
End Steps.
(** 49-101 and 249: a server that has been started *)
Definition started : server := mk_server true 0 Waiting [] [] [] [] 0 0 NotClosed.
