(** * Methods and properties that remember what they gave: plainbox/impl/decorators.py 30-65 *)
From Coq Require Import List Bool Arith.
Import ListNotations.

(** One implementation of a method in a class: whether it calls that of the class above first, and what it comes to then
    (left: an exception) in a given state of the world, with the given arguments and what the one above gave. Arguments,
    values and exceptions are numbers; arguments are equal when functools.lru_cache takes them for equal. *)
Record impl := mk_impl { above : bool; body : nat -> nat -> option nat -> nat + nat }.

(** ** 52-65 cached_property; the state is the entry of that name in instance.__dict__, where it is found first *)
(** 61-65 __get__, from the most special class on; super() does not look into the instance *)
Fixpoint compute (w : nat) (classes : list impl) (st : option nat) : option nat * (nat + nat) :=
  match classes with
  | [] => (st, inl 0)                                   (* AttributeError *)
  | f :: rest =>
      let '(st1, below) := if above f then let '(s, r) := compute w rest st in (s, match r with inl x => inl x | inr v => inr (Some v) end)
                           else (st, inr None) in
      match below with
      | inl x => (st1, inl x)
      | inr b => match body f w 0 b with inl x => (st1, inl x) | inr v => (Some v, inr v) end
      end
  end.
Definition read (classes : list impl) (w : nat) (st : option nat) : option nat * (nat + nat) :=
  match st with Some v => (st, inr v) | None => compute w classes st end.
Fixpoint reads (classes : list impl) (l : list nat) (st : option nat) : list (nat + nat) :=
  match l with [] => [] | w :: l' => let '(st', r) := read classes w st in r :: reads classes l' st' end.

(** ** 30-49 instance_method_lru_cache with no limit on its size *)
(** The caches made for one instance, each with the classes from the one whose method it is for on; and which of them
    the instance has under the name of the method, 43 *)
Record inst := mk_inst { heap : list (list impl * list (nat * nat)); current : option nat }.
Fixpoint assoc (a : nat) (l : list (nat * nat)) : option nat :=
  match l with [] => None | (k, v) :: r => if Nat.eqb a k then Some v else assoc a r end.
Fixpoint remember (i a v : nat) (h : list (list impl * list (nat * nat))) : list (list impl * list (nat * nat)) :=
  match h, i with
  | [], _ => []
  | (c, l) :: r, O => (c, (a, v) :: l) :: r
  | x :: r, S i' => x :: remember i' a v r
  end.
(** 38-47 cache_factory: a new cache, set on the instance and called. functools.lru_cache keeps what was returned and
    nothing when an exception is raised. *)
Fixpoint factory (w a : nat) (classes : list impl) (st : inst) : inst * (nat + nat) :=
  match classes with
  | [] => (st, inl 0)
  | f :: rest =>
      let i := length (heap st) in
      let st0 := mk_inst (heap st ++ [(classes, [])]) (Some i) in
      let '(st1, below) := if above f then let '(s, r) := factory w a rest st0 in (s, match r with inl x => inl x | inr v => inr (Some v) end)
                           else (st0, inr None) in
      match below with
      | inl x => (st1, inl x)
      | inr b => match body f w a b with
                 | inl x => (st1, inl x)
                 | inr v => (mk_inst (remember i a v (heap st1)) (current st1), inr v)
                 end
      end
  end.
(** Calling the method: the cache the instance has, if any *)
Definition call (classes : list impl) (wa : nat * nat) (st : inst) : inst * (nat + nat) :=
  let '(w, a) := wa in
  match current st with
  | None => factory w a classes st
  | Some i =>
      match nth_error (heap st) i with
      | None => (st, inl 0)
      | Some (cs, known) =>
          match assoc a known with
          | Some v => (st, inr v)
          | None =>
              match cs with
              | [] => (st, inl 0)
              | f :: rest =>
                  let '(st1, below) := if above f then let '(s, r) := factory w a rest st in (s, match r with inl x => inl x | inr v => inr (Some v) end)
                                       else (st, inr None) in
                  match below with
                  | inl x => (st1, inl x)
                  | inr b => match body f w a b with
                             | inl x => (st1, inl x)
                             | inr v => (mk_inst (remember i a v (heap st1)) (current st1), inr v)
                             end
                  end
              end
          end
      end
  end.
Fixpoint calls (classes : list impl) (l : list (nat * nat)) (st : inst) : list (nat + nat) :=
  match l with [] => [] | x :: l' => let '(st', r) := call classes x st in r :: calls classes l' st' end.
Definition fresh : inst := mk_inst [] None.
(** Many instances, each with its own entries *)
Fixpoint calls_on (classes : nat -> list impl) (l : list (nat * (nat * nat))) (sts : nat -> inst) : list (nat * (nat + nat)) :=
  match l with
  | [] => []
  | (o, x) :: l' => let '(st', r) := call (classes o) x (sts o) in
                    (o, r) :: calls_on classes l' (fun p => if Nat.eqb p o then st' else sts p)
  end.
