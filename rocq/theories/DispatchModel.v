(** * Requests and their answers on one connection: plainbox/vendor/rpyc/core/protocol.py 140-209, 236-237, 343-378, 508-535 *)
From Coq Require Import List Bool Arith.
Import ListNotations.

Definition val := nat.
(** What came back: a value, or an exception *)
Definition answer := (bool * val)%type.        (* isexc, obj *)

(** The caller's side. Threads are modelled by the order of the events: each event happens under the interpreter's
    lock as far as the dictionaries are concerned. *)
Record side := {
  next : nat;                                  (* 144 _seqcounter *)
  replies : list (nat * answer);               (* 147 _sync_replies: the first entry of a number counts *)
  callbacks : list nat;                        (* 150 _async_callbacks: the numbers that have one *)
  waiting : list nat;                          (* sync_request calls in their loop, 518-519 *)
  called : list (nat * answer);                (* callbacks that were called, by number, in order *)
  returned : list (nat * answer)               (* sync_request calls that came back, in order *)
}.
Definition fresh : side :=
  {| next := 0; replies := []; callbacks := []; waiting := []; called := []; returned := [] |}.
Fixpoint find_reply (n : nat) (l : list (nat * answer)) : option answer :=
  match l with [] => None | (k, a) :: r => if Nat.eqb n k then Some a else find_reply n r end.
Definition drop_reply (n : nat) (l : list (nat * answer)) := filter (fun ka => negb (Nat.eqb n (fst ka))) l.
Definition drop_num (n : nat) (l : list nat) := filter (fun k => negb (Nat.eqb n k)) l.
Definition mem (n : nat) (l : list nat) := existsb (Nat.eqb n) l.

Inductive event :=
| Sync (sent : bool)                 (* 508-515: a thread starts a sync_request; sending may fail *)
| Async (sent : bool)                (* 527-535: _async_request; no answer arrives while its sending fails *)
| Answer (n : nat) (a : answer)      (* 363-378: a reply or an exception has been decoded and is dispatched *)
| Pick (n : nat)                     (* 518, 521-525: the thread waiting for n looks *)
| Cleanup.                           (* 179-192 *)

Definition step (s : side) (e : event) : side :=
  match e with
  | Sync sent =>
      {| next := S (next s); replies := replies s; callbacks := callbacks s;
         waiting := if sent then next s :: waiting s else waiting s; called := called s; returned := returned s |}
  | Async sent =>
      {| next := S (next s); replies := replies s;
         callbacks := if sent then next s :: callbacks s else callbacks s;       (* 529, taken back at 533-534 *)
         waiting := waiting s; called := called s; returned := returned s |}
  | Answer n a =>
      if mem n (callbacks s)
      then {| next := next s; replies := replies s; callbacks := drop_num n (callbacks s); waiting := waiting s;
              called := called s ++ [(n, a)]; returned := returned s |}          (* 365-366, 375-376 *)
      else {| next := next s; replies := (n, a) :: drop_reply n (replies s); callbacks := callbacks s;
              waiting := waiting s; called := called s; returned := returned s |} (* 368, 378 *)
  | Pick n =>
      if mem n (waiting s)
      then match find_reply n (replies s) with
           | Some a => {| next := next s; replies := drop_reply n (replies s); callbacks := callbacks s;
                          waiting := drop_num n (waiting s); called := called s; returned := returned s ++ [(n, a)] |}
           | None => s
           end
      else s
  | Cleanup => {| next := next s; replies := []; callbacks := []; waiting := waiting s; called := called s;
                  returned := returned s |}
  end.
Definition run (l : list event) : side := fold_left step l fresh.

(** The other side, 343-361 _dispatch_request: what is sent back for a request, by how its handler ended *)
Inductive ending := Gave (v : val) | Failed (v : val) | Exits | Interrupted.
Record settings := { exit_here : bool; interrupt_here : bool }.      (* propagate_..._locally *)
(** 51-52 of DEFAULT_CONFIG *)
Definition default_settings := {| exit_here := false; interrupt_here := true |}.
(** The numbers 0 and 1 stand for the exceptions SystemExit and KeyboardInterrupt on the wire *)
Definition respond (c : settings) (n : nat) (e : ending) : list (nat * answer) :=
  match e with
  | Gave v => [(n, (false, v))]
  | Failed v => [(n, (true, v))]
  | Exits => if exit_here c then [] else [(n, (true, 0))]
  | Interrupted => if interrupt_here c then [] else [(n, (true, 1))]
  end.

(** Closing, 179-209: a connection counts as closed, its channel, and how often its service was told *)
Record line := { closed : bool; root : bool; told : nat; asked_to_close : nat }.
Definition line0 := {| closed := false; root := true; told := 0; asked_to_close := 0 |}.
Inductive send_result := SendOk | SendEOF | SendFails.
Inductive ending2 := Quiet | RaisesSend | RaisesNone.      (* returned; the error of sending; AttributeError of None *)
(** 179-192 _cleanup(_anyway=True); service.on_disconnect does not raise here *)
Definition cleanup (l : line) : line * ending2 :=
  if root l then ({| closed := true; root := false; told := S (told l); asked_to_close := asked_to_close l |}, Quiet)
  else ({| closed := true; root := false; told := told l; asked_to_close := asked_to_close l |}, RaisesNone).
(** 196-209 close *)
Definition close (catchall : bool) (r : send_result) (l : line) : line * ending2 :=
  if closed l then (l, Quiet)
  else let (l', x) := cleanup {| closed := true; root := root l; told := told l; asked_to_close := S (asked_to_close l) |} in
       (l', match x with
            | Quiet => match r with SendFails => if catchall then Quiet else RaisesSend | _ => Quiet end
            | _ => x
            end).
(** 603-604 _handle_close *)
Inductive hangup := Close (catchall : bool) (r : send_result) | OtherCloses.
Definition hang (l : line) (h : hangup) : line * ending2 :=
  match h with Close c r => close c r l | OtherCloses => cleanup l end.
Fixpoint hangs (l : line) (hs : list hangup) : line * list ending2 :=
  match hs with [] => (l, []) | h :: r => let (l', x) := hang l h in let (l'', xs) := hangs l' r in (l'', x :: xs) end.
