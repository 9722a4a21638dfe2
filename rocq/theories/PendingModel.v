(** * Results that come later: plainbox/vendor/rpyc/core/async.py *)
From Coq Require Import List Bool ZArith.
Import ListNotations.
Local Open Scope list_scope.

Section Result.
  Variable object : Type.
  Variable raises : nat -> bool.                        (* whether a callback raises *)

  (** 14-20: what an AsyncResult keeps; callbacks are numbers, and times are whole *)
  Record result := Result { is_ready : bool; is_exc : bool; obj : option object; callbacks : list nat; ttl : option Z }.
  Definition new : result := Result false false None [] None.
  (** 97-103 expired *)
  Definition expired (now : Z) (s : result) : bool :=
    if is_ready s then false else match ttl s with None => false | Some d => (d <? now)%Z end.
  (** 38-39: calling them one after the other until one raises; those that were called *)
  Fixpoint call_all (l : list nat) : list nat * bool :=
    match l with
    | [] => ([], false)
    | f :: r => if raises f then ([f], true) else let (c, b) := call_all r in (f :: c, b)
    end.
  (** 32-40 __call__; a callback does not use the result while it is being called *)
  Definition arrives (now : Z) (exc : bool) (o : object) (s : result) : result * list nat :=
    if expired now s then (s, [])
    else
      let (called, raised) := call_all (callbacks s) in
      (Result true exc (Some o) (if raised then callbacks s else []) (ttl s), called).
  (** 68-71 add_callback *)
  Definition add_callback (f : nat) (s : result) : result * list nat :=
    if is_ready s then (s, [f]) else (Result (is_ready s) (is_exc s) (obj s) (callbacks s ++ [f]) (ttl s), []).
  (** 78-81 set_expiry *)
  Definition set_expiry (now : Z) (timeout : option Z) (s : result) : result :=
    Result (is_ready s) (is_exc s) (obj s) (callbacks s) (match timeout with None => None | Some t => Some (now + t)%Z end).

  (** What happens to a result *)
  Inductive event := Arrives (now : Z) (exc : bool) (o : object) | Add (f : nat) | Expiry (now : Z) (timeout : option Z).
  Definition step (s : result) (e : event) : result * list nat :=
    match e with
    | Arrives now exc o => arrives now exc o s
    | Add f => add_callback f s
    | Expiry now t => (set_expiry now t s, [])
    end.
  (** The state after a history, and the callbacks that were called, in order *)
  Fixpoint run (s : result) (l : list event) : result * list nat :=
    match l with
    | [] => (s, [])
    | e :: r => let (s1, c1) := step s e in let (s2, c2) := run s1 r in (s2, c1 ++ c2)
    end.

  (** ** Waiting *)

  Inductive outcome := Value (o : object) | Error (o : object) | Timed_out | Waiting.
  (** A round of waiting: the time when it begins, and the reply that comes while it polls, if any *)
  Definition round := (Z * option (Z * bool * object))%type.
  Definition poll (r : option (Z * bool * object)) (s : result) : result :=
    match r with Some (now, exc, o) => fst (arrives now exc o s) | None => s end.
  (** 115-118 value, of a result that is ready *)
  Definition value_ready (s : result) : outcome :=
    match obj s with Some o => if is_exc s then Error o else Value o | None => Waiting end.
  (** 46-58 wait and 114-118 value; Waiting when the rounds are over *)
  Fixpoint value (rounds : list round) (s : result) : outcome :=
    if is_ready s then value_ready s
    else
      match rounds with
      | [] => Waiting
      | (now, reply) :: r =>
          match ttl s with
          | None => value r (poll reply s)
          | Some d =>
              let timeout := (d - now)%Z in
              let s1 := poll reply s in
              if is_ready s1 then value_ready s1
              else if (timeout <=? 0)%Z then Timed_out else value r s1
          end
      end.
  (** 83-90 ready and 91-96 error; the replies that come while it polls *)
  Definition ready (now : Z) (replies : list (Z * bool * object)) (s : result) : bool * result :=
    if expired now s then (false, s)
    else let s1 := if is_ready s then s else fold_left (fun s r => poll (Some r) s) replies s in (is_ready s1, s1).
  Definition error (now : Z) (replies : list (Z * bool * object)) (s : result) : bool :=
    let (b, s1) := ready now replies s in if b then is_exc s1 else false.
End Result.
