(** * Asynchronous wrappers of objects of the other side and their cache: plainbox/vendor/rpyc/utils/helpers.py 87-145, with
      WeakValueDict of plainbox/vendor/rpyc/lib/colls.py 5-54.

      Addresses, what id() gives, are used again once an object is gone. *)
From Coq Require Import List Bool Arith.
Import ListNotations.

(** An object: usable says that it is a callable Netref; a wrapper holds its proxy (92-94) *)
Inductive kind := Plain (usable : bool) | Wrapper (proxy : nat).
Record obj := mk_obj { serial : nat; addr : nat; what : kind }.
(** held: the objects the program has references to; cache: _async_proxies_cache, from addresses to wrappers *)
Record memory := mk_memory { next : nat; live : list obj; held : list nat; cache : nat -> option nat }.
Definition nothing : memory := mk_memory 0 [] [] (fun _ => None).

Inductive answer := Given (w : nat) | Type_error | No_answer.
Inductive event :=
  | New (a : nat) (usable : bool)      (* an object appears, at an address that is free *)
  | Wrap (s a : nat)                   (* async(s); a is the address of the wrapper if one is made *)
  | Drop (s : nat).                    (* the last reference of the program to s goes *)

Definition mem (n : nat) (l : list nat) : bool := existsb (Nat.eqb n) l.
Definition used (a : nat) (l : list obj) : bool := existsb (fun o => Nat.eqb (addr o) a) l.
Definition find_obj (s : nat) (l : list obj) : option obj := find (fun o => Nat.eqb (serial o) s) l.
(** colls.py 33-36 __setitem__ *)
Definition set (k w : nat) (c : nat -> option nat) : nat -> option nat := fun j => if Nat.eqb j k then Some w else c j.
(** colls.py 34-35: the remover takes the entries of wrappers that are gone *)
Definition removed (alive : nat -> bool) (c : nat -> option nat) : nat -> option nat :=
  fun k => match c k with Some w => if alive w then Some w else None | None => None end.
(** Reference counting: wrappers nobody holds go, with their entries, then the objects that neither the program nor a wrapper
    holds *)
Definition collect (m : memory) : memory :=
  let l1 := filter (fun o => match what o with Wrapper _ => mem (serial o) (held m) | Plain _ => true end) (live m) in
  let l2 := filter (fun o => match what o with
                             | Plain _ => mem (serial o) (held m) ||
                                 existsb (fun w => match what w with Wrapper p => Nat.eqb p (serial o) | Plain _ => false end) l1
                             | Wrapper _ => true
                             end) l1 in
  mk_memory (next m) l2 (held m) (removed (fun w => existsb (fun o => Nat.eqb (serial o) w) l1) (cache m)).
(** None: the event cannot happen *)
Definition step (e : event) (m : memory) : option (memory * answer) :=
  match e with
  | New a u =>
      if used a (live m) then None
      else Some (mk_memory (S (next m)) (mk_obj (next m) a (Plain u) :: live m) (next m :: held m) (cache m), No_answer)
  | Wrap s a =>
      if mem s (held m) then
        match find_obj s (live m) with
        | None => None
        | Some o =>
            match cache m (addr o) with
            | Some w => Some (mk_memory (next m) (live m) (w :: held m) (cache m), Given w)        (* 134-136 *)
            | None =>
                match what o with
                | Plain true =>                                                                     (* 141-143 *)
                    if used a (live m) then None
                    else Some (mk_memory (S (next m)) (mk_obj (next m) a (Wrapper s) :: live m) (next m :: held m)
                                 (set (addr o) (next m) (set a (next m) (cache m))), Given (next m))
                | _ => Some (m, Type_error)                                                         (* 137-140 *)
                end
            end
        end
      else None
  | Drop s => Some (collect (mk_memory (next m) (live m) (filter (fun x => negb (Nat.eqb x s)) (held m)) (cache m)), No_answer)
  end.
Fixpoint run (l : list event) (m : memory) : option memory :=
  match l with [] => Some m | e :: r => match step e m with Some (m', _) => run r m' | None => None end end.
