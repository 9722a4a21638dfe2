(** Signals: plainbox/vendor/morris/__init__.py:426-735 and 865-873. *)
From Coq Require Import List Bool Arith.
Import ListNotations.
Open Scope list_scope.

(** Signal objects, objects with methods, and names of functions or methods. *)
Definition sig := nat.
Definition obj := nat.

(** A listener: a plain callable, or the method [n] of the object [o]
    (inspect.ismethod). *)
Inductive listener := LFun (n : nat) | LMeth (o : obj) (n : nat).

(** listenerinfo, 423 *)
Definition info := (listener * bool)%type.

Definition listener_dec (a b : listener) : {a = b} + {a <> b}.
Proof. decide equality; apply Nat.eq_dec. Defined.
Definition info_dec (a b : info) : {a = b} + {a <> b}.
Proof. decide equality; [apply bool_dec|apply listener_dec]. Defined.

(** [_listeners] of every signal, and [__listeners__] of every object (None if
    the object does not have it), a dictionary from methods to signals. *)
Record world := mk_world {
  w_sig : sig -> list info;
  w_track : obj -> option (list (nat * list sig))
}.

Definition upd {A} (f : nat -> A) (i : nat) (v : A) : nat -> A :=
  fun j => if Nat.eqb j i then v else f j.

(** list.remove: the first equal element *)
Fixpoint remove_first {A} (dec : forall a b : A, {a = b} + {a <> b}) (x : A) (l : list A) : list A :=
  match l with
  | [] => []
  | y :: r => if dec x y then r else y :: remove_first dec x r
  end.

(** Dictionaries from method names to lists of signals. *)
Fixpoint tget (n : nat) (d : list (nat * list sig)) : option (list sig) :=
  match d with
  | [] => None
  | (m, l) :: r => if Nat.eqb n m then Some l else tget n r
  end.
Fixpoint tset (n : nat) (v : list sig) (d : list (nat * list sig)) : list (nat * list sig) :=
  match d with
  | [] => [(n, v)]
  | (m, l) :: r => if Nat.eqb n m then (m, v) :: r else (m, l) :: tset n v r
  end.
Fixpoint tdel (n : nat) (d : list (nat * list sig)) : list (nat * list sig) :=
  match d with
  | [] => []
  | (m, l) :: r => if Nat.eqb n m then r else (m, l) :: tdel n r
  end.

(** [__listeners__[listener]] of a defaultdict(list) *)
Definition tget0 (n : nat) (d : list (nat * list sig)) : list sig :=
  match tget n d with Some l => l | None => [] end.

(** 632-661 connect *)
Definition connect (w : world) (s : sig) (i : info) : world :=
  let sigs := upd (w_sig w) s (w_sig w s ++ [i]) in
  match fst i with
  | LFun _ => mk_world sigs (w_track w)
  | LMeth o n =>
      let d := match w_track w o with Some d => d | None => [] end in
      mk_world sigs (upd (w_track w) o (Some (tset n (tget0 n d ++ [s]) d)))
  end.

(** 663-693 disconnect; false when ValueError is raised *)
Definition disconnect (w : world) (s : sig) (i : info) : world * bool :=
  if in_dec info_dec i (w_sig w s) then
    let sigs := upd (w_sig w) s (remove_first info_dec i (w_sig w s)) in
    match fst i with
    | LFun _ => (mk_world sigs (w_track w), true)
    | LMeth o n =>
        match w_track w o with
        | None => (mk_world sigs (w_track w), true)
        | Some d =>
            let l := tget0 n d in
            if in_dec Nat.eq_dec s l then
              let l' := remove_first Nat.eq_dec s l in
              let d' := match l' with [] => tdel n d | _ => tset n l' d end in
              (mk_world sigs (upd (w_track w) o (Some d')), true)
            else (mk_world sigs (upd (w_track w) o (Some (tset n l d))), false)
        end
    end
  else (w, false).

(** What code may do with signals.  [Raise]: an exception of the listener
    itself.  [Caught o]: doing [o] and catching its exceptions. *)
Inductive op :=
| Connect (s : sig) (i : info)
| Disconnect (s : sig) (i : info)
| Fire (s : sig)
| Raise
| Caught (o : op).

(** Changes of the connections, in the order in which they happened. *)
Inductive change := Connected (s : sig) (i : info) | Disconnected (s : sig) (i : info).

Section Exec.
  (** What a listener may do when it is called. *)
  Variable behaviour : info -> list op -> Prop.

  (** [exec o w called tr w' ok]: doing [o] in [w] calls the listeners [called]
      (those that the calls in turn caused are not in this list), changes
      connections as in [tr] (all of them), ends in [w']; [ok] is false if an
      exception is raised.  For firing, 695-708: the loop goes over a copy of
      the list of listeners. *)
  Inductive exec : op -> world -> list info -> list change -> world -> bool -> Prop :=
  | x_connect s i w : exec (Connect s i) w [] [Connected s i] (connect w s i) true
  | x_disconnect s i w w' : disconnect w s i = (w', true) ->
      exec (Disconnect s i) w [] [Disconnected s i] w' true
  | x_disconnect_error s i w w' : disconnect w s i = (w', false) ->
      exec (Disconnect s i) w [] [] w' false
  | x_fire s w called tr w' ok :
      calls (w_sig w s) w called tr w' ok -> exec (Fire s) w called tr w' ok
  | x_raise w : exec Raise w [] [] w false
  | x_caught o w called tr w' ok : exec o w called tr w' ok -> exec (Caught o) w called tr w' true
  with calls : list info -> world -> list info -> list change -> world -> bool -> Prop :=
  | c_nil w : calls [] w [] [] w true
  | c_cons i rest w ops tr1 w1 called tr2 w2 ok :
      behaviour i ops -> execs ops w tr1 w1 true -> calls rest w1 called tr2 w2 ok ->
      calls (i :: rest) w (i :: called) (tr1 ++ tr2) w2 ok
  | c_exn i rest w ops tr1 w1 :
      behaviour i ops -> execs ops w tr1 w1 false ->
      calls (i :: rest) w [i] tr1 w1 false
  with execs : list op -> world -> list change -> world -> bool -> Prop :=
  | e_nil w : execs [] w [] w true
  | e_cons o ops w called tr1 w1 tr2 w2 ok :
      exec o w called tr1 w1 true -> execs ops w1 tr2 w2 ok ->
      execs (o :: ops) w (tr1 ++ tr2) w2 ok
  | e_exn o ops w called tr1 w1 :
      exec o w called tr1 w1 false -> execs (o :: ops) w tr1 w1 false.
End Exec.

(** 865-873, the inner loop: Python iterates over the live list, by index *)
Fixpoint remove_loop (fuel : nat) (w : world) (o : obj) (n : nat) (idx : nat) : world * bool :=
  match fuel with
  | 0 => (w, true)
  | S fuel =>
      match nth_error (match w_track w o with Some d => tget0 n d | None => [] end) idx with
      | None => (w, true)
      | Some s =>
          match disconnect w s (LMeth o n, false) with
          | (w', false) => (w', false)
          | (w', true) => remove_loop fuel w' o n (S idx)
          end
      end
  end.

(** the outer loop, over the methods that were listening when it started *)
Fixpoint remove_all (w : world) (o : obj) (methods : list nat) : world * bool :=
  match methods with
  | [] => (w, true)
  | n :: r =>
      match remove_loop (match w_track w o with Some d => length (tget0 n d) | None => 0 end) w o n 0 with
      | (w', false) => (w', false)
      | (w', true) => remove_all w' o r
      end
  end.

(** 865-873 remove_signals_listeners *)
Definition remove_signals_listeners (w : world) (o : obj) : world * bool :=
  match w_track w o with
  | None => (w, true)
  | Some d => remove_all w o (map fst d)
  end.
