(** * Symbols: plainbox/impl/symbol.py

    Threads may make symbols at the same time; a lookup in the table and a store into it are one
    step each.  In a block of definitions, symbols are told apart by name: blocks are run when
    modules are imported, one at a time. *)
From Coq Require Import String Ascii List Bool Arith.
From Verif Require Import ScanModel Rfc822Model OriginModel.
Import ListNotations.
Local Open Scope nat_scope.
Local Open Scope list_scope.

(** ** Making symbols, 49-70 *)

Definition obj := nat.
(** What a thread has yet to ask for, whether it is between the failed lookup and the store, and
    what it was given *)
Record thread := mk_thread { t_todo : list text; t_creating : bool; t_done : list (text * obj) }.
Record state := mk_state {
  st_table : list (text * obj);        (* __symbols *)
  st_names : list (obj * text);        (* _name of each symbol *)
  st_next : obj;                       (* the next object *)
  st_threads : list thread
}.
Definition given (t : thread) (n : text) (r : list text) (o : obj) : thread := mk_thread r false (t_done t ++ [(n, o)]).
(** 51-64 __new__ and 66-70 __init__ *)
Definition thread_step (s : state) (t : thread) : option (list (text * obj) * list (obj * text) * obj * thread) :=
  match t_todo t, t_creating t with
  | [], _ => None
  | n :: r, false =>
      match tget n (st_table s) with
      | Some o => Some (st_table s, st_names s, st_next s, given t n r o)
      | None => Some (st_table s, st_names s, st_next s, mk_thread (n :: r) true (t_done t))
      end
  | n :: r, true =>
      Some (tset n (st_next s) (st_table s), (st_next s, n) :: st_names s, S (st_next s), given t n r (st_next s))
  end.
Fixpoint set_nth {A} (i : nat) (x : A) (l : list A) : list A :=
  match l, i with
  | [], _ => []
  | _ :: r, 0 => x :: r
  | y :: r, S j => y :: set_nth j x r
  end.
Inductive step : state -> state -> Prop :=
| step_thread s i t tb nm nx t' : nth_error (st_threads s) i = Some t -> thread_step s t = Some (tb, nm, nx, t') ->
    step s (mk_state tb nm nx (set_nth i t' (st_threads s))).
Inductive steps : state -> state -> Prop :=
| steps_none s : steps s s
| steps_more s1 s2 s3 : steps s1 s2 -> step s2 s3 -> steps s1 s3.
Definition start (reqs : list (list text)) : state := mk_state [] [] 0 (map (fun r => mk_thread r false []) reqs).
Fixpoint name_of (o : obj) (l : list (obj * text)) : option text :=
  match l with [] => None | (p, n) :: r => if Nat.eqb o p then Some n else name_of o r end.

(** ** Comparing, 91-117: symbols, texts and others *)

Inductive operand := Symbol_ (o : obj) (name : text) | Text (t : text) | Other_object.
(** 91-100, 102-111 *)
Definition sym_eq (o : obj) (n : text) (x : operand) : ans :=
  match x with Symbol_ p _ => Says (Nat.eqb o p) | Text t => Says (text_eqb n t) | Other_object => Declines end.
Definition text_lt (a b : text) : bool := text_gt b a.
Definition sym_lt (n : text) (x : operand) : ans :=
  match x with Symbol_ _ m => Says (text_lt n m) | Text t => Says (text_lt n t) | Other_object => Declines end.
(** total_ordering with __lt__: __gt__ is neither less nor equal *)
Definition sym_gt (o : obj) (n : text) (x : operand) : ans :=
  match sym_lt n x, sym_eq o n x with Says l, Says e => Says (negb l && negb e) | _, _ => Declines end.
Definition sym_le (o : obj) (n : text) (x : operand) : ans :=
  match sym_lt n x, sym_eq o n x with Says l, Says e => Says (l || e) | _, _ => Declines end.
Definition sym_ge (n : text) (x : operand) : ans :=
  match sym_lt n x with Says l => Says (negb l) | y => y end.
(** The operators, when one side is a symbol; texts and other objects decline symbols *)
Definition op_eq (x y : operand) : bool :=
  match x, y with
  | Symbol_ o n, _ => match sym_eq o n y with Says b => b | _ => false end
  | _, Symbol_ o n => match sym_eq o n x with Says b => b | _ => false end
  | Text a, Text b => text_eqb a b
  | _, _ => false
  end.
Definition op_lt (x y : operand) : ans :=
  match x, y with
  | Symbol_ _ n, _ => final (sym_lt n y)
  | _, Symbol_ o n => final (sym_gt o n x)
  | Text a, Text b => Says (text_lt a b)
  | _, _ => Type_error
  end.
Definition op_le (x y : operand) : ans :=
  match x, y with
  | Symbol_ o n, _ => final (sym_le o n y)
  | _, Symbol_ _ n => final (sym_ge n x)
  | Text a, Text b => Says (negb (text_gt a b))
  | _, _ => Type_error
  end.
(** 113-117: the hash is that of this text *)
Definition hashed (x : operand) : option text :=
  match x with Symbol_ _ n => Some n | Text t => Some t | Other_object => None end.

(** ** Blocks of definitions, 120-194 *)

Definition T (s : string) : text := list_ascii_of_string s.
Arguments T s%string_scope.
Definition passthru : list text := [T "__name__"; T "__qualname__"; T "__doc__"; T "__module__"].
Definition w_Symbol : text := T "Symbol".
Definition w_all : text := T "get_all_symbols".
Inductive value := VStr (t : text) | VSym (n : text) | VClass | VOther.
Definition tmem (t : text) (l : list text) : bool := existsb (text_eqb t) l.

(** 135-143 __setitem__; None is ValueError *)
Definition set_item (n : text) (v : value) (d : list (text * value)) : option (list (text * value)) :=
  if tmem n passthru then Some (tset n v d)
  else match v with
       | VSym _ => Some (tset n v d)
       | VStr t => Some (tset n (VSym t) d)
       | _ => None
       end.
(** 145-157 __getitem__; no value is KeyError *)
Definition get_item (outer : option (list text)) (n : text) (d : list (text * value)) : list (text * value) * option value :=
  if tmem n passthru then (d, tget n d)
  else if match outer with Some l => tmem n l | None => false end then (d, None)
  else match tget n d with
       | Some v => (d, Some v)
       | None => if text_eqb n w_Symbol then (d, Some VClass) else (tset n (VSym n) d, Some (VSym n))
       end.
(** The statements of a block: a name alone, or an assignment of a text, of a name or of something
    else.  [globals] is what names mean outside of the block. *)
Inductive expr := EText (t : text) | EName (m : text) | EElse.
Inductive stmt := Use (m : text) | Assign (n : text) (e : expr).
Inductive outcome := Block (d : list (text * value)) | Value_error | Name_error.
Section Block_.
  Variable outer : option (list text).
  Variable globals : text -> option value.
  Definition read (m : text) (d : list (text * value)) : list (text * value) * option value :=
    match get_item outer m d with
    | (d', Some v) => (d', Some v)
    | (d', None) => (d', globals m)
    end.
  Fixpoint run (b : list stmt) (d : list (text * value)) : outcome :=
    match b with
    | [] => Block d
    | Use m :: r => match read m d with (d', Some _) => run r d' | (_, None) => Name_error end
    | Assign n e :: r =>
        match match e with EText t => (d, Some (VStr t)) | EName m => read m d | EElse => (d, Some VOther) end with
        | (d', Some v) => match set_item n v d' with Some d'' => run r d'' | None => Value_error end
        | (_, None) => Name_error
        end
    end.
End Block_.
(** 172-175: the attributes of the class; the method takes the place of a symbol of its name *)
Definition attribute (d : list (text * value)) (n : text) : option value :=
  if text_eqb n w_all then Some VOther else tget n d.
(** 182-194: the symbols among the attributes, in some order *)
Definition all_symbols (d : list (text * value)) : list text :=
  flat_map (fun kv => match attribute d (fst kv) with Some (VSym s) => [s] | _ => [] end) d.
