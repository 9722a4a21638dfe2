(** * The registry of services: plainbox/vendor/rpyc/utils/registry.py 30-142 (RegistryServer) *)
From Coq Require Import String Ascii List Bool Arith.
From Verif Require Import ScanModel Rfc822Model AccessModel.
Import ListNotations.
Local Open Scope list_scope.

(** An address: a host and a port. Times are whole numbers. *)
Definition addr := (nat * nat)%type.
Definition addr_eqb (a b : addr) : bool := Nat.eqb (fst a) (fst b) && Nat.eqb (snd a) (snd b).
(** self.services: for each name the servers and when each was last heard of; both in order of insertion *)
Definition servers := list (addr * nat).
Definition table := list (text * servers).
(** Calls of on_service_added and on_service_removed; what these raise is caught, 63-66 and 73-76 *)
Inductive notice := Added (n : text) (a : addr) | Removed (n : text) (a : addr).
Record registry := { services : table; notices : list notice }.
Definition empty : registry := {| services := []; notices := [] |}.

Fixpoint find_name (n : text) (t : table) : option servers :=
  match t with [] => None | (k, s) :: r => if text_eqb n k then Some s else find_name n r end.
Fixpoint find_addr (a : addr) (s : servers) : option nat :=
  match s with [] => None | (k, t) :: r => if addr_eqb a k then Some t else find_addr a r end.
(** d[k] = v on dictionaries that keep the order of insertion *)
Fixpoint put_name (n : text) (s : servers) (t : table) : table :=
  match t with [] => [(n, s)] | (k, x) :: r => if text_eqb n k then (k, s) :: r else (k, x) :: put_name n s r end.
Fixpoint put_addr (a : addr) (now : nat) (s : servers) : servers :=
  match s with [] => [(a, now)] | (k, t) :: r => if addr_eqb a k then (k, now) :: r else (k, t) :: put_addr a now r end.
Definition del_name (n : text) (t : table) : table := filter (fun kv => negb (text_eqb n (fst kv))) t.
Definition del_addr (a : addr) (s : servers) : servers := filter (fun kv => negb (addr_eqb a (fst kv))) s.

(** 56-66 _add_service *)
Definition add_service (n : text) (a : addr) (now : nat) (r : registry) : registry :=
  let s := match find_name n (services r) with Some s => s | None => [] end in
  {| services := put_name n (put_addr a now s) (services r);
     notices := match find_addr a s with Some _ => notices r | None => notices r ++ [Added n a] end |}.
(** 68-76 _remove_service; None is the KeyError of a name that is not there *)
Definition remove_service (n : text) (a : addr) (r : registry) : option registry :=
  match find_name n (services r) with
  | None => None
  | Some s =>
    match del_addr a s with
    | [] => Some {| services := del_name n (services r); notices := notices r ++ [Removed n a] |}
    | s' => Some {| services := put_name n s' (services r); notices := notices r |}
    end
  end.
(** 87: sorted by time, stable *)
Fixpoint insert_time (x : addr * nat) (l : servers) : servers :=
  match l with [] => [x] | y :: r => if Nat.leb (snd x) (snd y) then x :: l else y :: insert_time x r end.
Definition by_time (l : servers) : servers := fold_right insert_time [] l.
(** 89-94: the loop *)
Fixpoint sift (n : text) (timeout now : nat) (l : servers) (r : registry) : option (registry * list addr) :=
  match l with
  | [] => Some (r, [])
  | (a, t) :: l' =>
    if Nat.ltb (t + timeout) now                      (* t < time.time() - pruning_timeout *)
    then match remove_service n a r with None => None | Some r' => sift n timeout now l' r' end
    else match sift n timeout now l' r with None => None | Some (r', x) => Some (r', a :: x) end
  end.
(** 78-97 cmd_query *)
Definition query (timeout now : nat) (name : text) (r : registry) : option (registry * list addr) :=
  let n := upper name in
  match find_name n (services r) with
  | None => Some (r, [])
  | Some s => sift n timeout now (by_time s) r
  end.
(** 99-104 cmd_register; the host is that of the sender *)
Definition register (now : nat) (names : list text) (a : addr) (r : registry) : registry :=
  fold_left (fun r n => add_service (upper n) a now r) names r.
(** 106-111 cmd_unregister, over the names there were at the start *)
Fixpoint unregister_all (names : list text) (a : addr) (r : registry) : option registry :=
  match names with
  | [] => Some r
  | n :: l => match remove_service n a r with None => None | Some r' => unregister_all l a r' end
  end.
Definition unregister (a : addr) (r : registry) : option registry := unregister_all (map fst (services r)) a r.

(** 119-142: one command after the other; an exception leaves the table as far as it got and sends no reply, here None *)
Inductive command := Register (names : list text) (a : addr) | Unregister (a : addr) | Query (name : text).
Definition execute (timeout : nat) (c : nat * command) (r : registry) : option registry :=
  match snd c with
  | Register names a => Some (register (fst c) names a r)
  | Unregister a => unregister a r
  | Query n => option_map fst (query timeout (fst c) n r)
  end.
Fixpoint executes (timeout : nat) (l : list (nat * command)) (r : registry) : option registry :=
  match l with [] => Some r | c :: l' => match execute timeout c r with None => None | Some r' => executes timeout l' r' end end.
