(** Model of plainbox/impl/pod.py: fields with assign filters and change
    notification, the initializer and the construction of classes.

    Simplifications.
    - Python values are the type [pyv]: the ones the built-in filters inspect, plus
      opaque objects.  Values are not mutated in place.
    - Instances are only written through their fields, never through the
      underscore-prefixed attributes behind them.
    - Assign filters written by users are arbitrary functions of the stored values,
      the old and the new value; they do not themselves assign.
    - What the listeners of a change notification do is given with each assignment:
      further assignments (whose exceptions they may swallow), then perhaps an
      exception of their own. *)
From Coq Require Import String Ascii List Bool ZArith.
From Verif Require Import Base.
Import ListNotations.
Local Open Scope string_scope.
Local Open Scope list_scope.

Inductive pytype :=
| TNone | TBool | TInt | TStr | TTuple | TList | TObject | TUser (c : nat).

(** [VUnset] is the special object UNSET (plainbox/impl/pod.py:102-116). [VObj c i] is
    the i-th object of the user class c, equal only to itself. *)
Inductive pyv :=
| VUnset | VNone | VBool (b : bool) | VInt (z : Z) | VStr (s : string)
| VTuple (l : list pyv) | VList (l : list pyv) | VObj (c i : nat).

(** Python's isinstance (bool is a subclass of int). *)
Definition isinstance (v : pyv) (t : pytype) : bool :=
  match t, v with
  | TObject, _ => true
  | TNone, VNone | TBool, VBool _ | TInt, VInt _ | TInt, VBool _ | TStr, VStr _
  | TTuple, VTuple _ | TList, VList _ => true
  | TUser c, VObj c' _ => Nat.eqb c c'
  | _, _ => false
  end.

Definition z_of_bool (b : bool) : Z := if b then 1%Z else 0%Z.

(** Python's == on these values: True == 1, sequences of the same kind are compared
    item by item. *)
Fixpoint pyeq (a b : pyv) {struct a} : bool :=
  let fix seq (l m : list pyv) : bool :=
    match l, m with
    | [], [] => true
    | x :: l', y :: m' => pyeq x y && seq l' m'
    | _, _ => false
    end in
  match a, b with
  | VUnset, VUnset | VNone, VNone => true
  | VBool x, VBool y => Bool.eqb x y
  | VBool x, VInt y => Z.eqb (z_of_bool x) y
  | VInt x, VBool y => Z.eqb x (z_of_bool y)
  | VInt x, VInt y => Z.eqb x y
  | VStr x, VStr y => String.eqb x y
  | VTuple l, VTuple m | VList l, VList m => seq l m
  | VObj c i, VObj c' i' => Nat.eqb c c' && Nat.eqb i i'
  | _, _ => false
  end.

Fixpoint hashable (v : pyv) : bool :=
  match v with
  | VList _ => false
  | VTuple l => forallb hashable l
  | _ => true
  end.

(** What [for item in v] visits; None when v is not iterable. *)
Definition items (v : pyv) : option (list pyv) :=
  match v with
  | VTuple l | VList l => Some l
  | VStr s => Some (map (fun c => VStr (String c EmptyString)) (list_ascii_of_string s))
  | _ => None
  end.

Inductive exn := TypeError | AttributeError | ValueError | UserError (n : nat).
Definition result (A : Type) := (exn + A)%type.

Definition store := dict pyv.

(** The assign filters that come with the module, and those of users. *)
Inductive filter :=
| FConst                      (* const / read_only_assign_filter *)
| FConvert                    (* type_convert_assign_filter *)
| FTyped                      (* typed / type_check_assign_filter *)
| FUnsetTyped                 (* unset_or_typed *)
| FSeq (t : pytype)           (* typed.sequence(t) *)
| FUnsetSeq (t : pytype)      (* unset_or_typed.sequence(t) *)
| FUnique                     (* unique *)
| FUser (fn : store -> pyv -> pyv -> result pyv).

(** The field: its name, type, initial value (None is MANDATORY; for fields with
    initial_fn it is what the function returns at this construction), whether it
    sends notifications, and its filters (None and the empty list do the same).
    plainbox/impl/pod.py:204-226 [Field.__init__] *)
Record field := mk_field {
  f_name : name;
  f_type : pytype;
  f_initial : option pyv;
  f_notify : bool;
  f_filters : list filter;
  f_counter : nat
}.

Section Pod.
(** [field.type(new)]: calling a type to convert a value; may raise. *)
Variable convert : pytype -> pyv -> result pyv.

(** plainbox/impl/pod.py:742-764 [type_check_assign_filter] *)
Definition type_check (t : pytype) (new : pyv) : result pyv :=
  if isinstance new t then inr new else inl TypeError.

(** plainbox/impl/pod.py:827-853 [sequence_type_check_assign_filter.__call__] *)
Definition seq_check (t : pytype) (new : pyv) : result pyv :=
  match items new with
  | None => inl TypeError
  | Some l => if forallb (fun i => isinstance i t) l then inr new else inl TypeError
  end.

(** plainbox/impl/pod.py:926-931: the loop of [unique_elements_assign_filter].  It
    looks for [new], not for [item], among the items seen: line 928. *)
Fixpoint unique_loop (new : pyv) (seen l : list pyv) : result pyv :=
  match l with
  | [] => inr new
  | i :: l' =>
      if negb (hashable new) then inl TypeError
      else if existsb (pyeq new) seen then inl ValueError
      else if negb (hashable i) then inl TypeError
      else unique_loop new (seen ++ [i]) l'
  end.

(** One filter of a field, given the stored values of the instance, the old value of
    the field and the new one.
    plainbox/impl/pod.py:684-707 (const), 717-737 (convert), 742-764 (typed),
    773-797 (unset_or_typed), 827-853, 876-901 (sequences), 908-931 (unique) *)
Definition run_filter (fd : field) (st : store) (old new : pyv) (f : filter) : result pyv :=
  match f with
  | FConst => match old with VUnset => inr new | _ => inl AttributeError end
  | FConvert => convert (f_type fd) new
  | FTyped => type_check (f_type fd) new
  | FUnsetTyped => match new with VUnset => inr new | _ => type_check (f_type fd) new end
  | FSeq t => seq_check t new
  | FUnsetSeq t => match new with VUnset => inr new | _ => seq_check t new end
  | FUnique =>
      match items new with None => inl TypeError | Some l => unique_loop new [] l end
  | FUser fn => fn st old new
  end.

(** plainbox/impl/pod.py:333-336: the filters are run in order, each is shown the
    value the previous one returned. *)
Fixpoint run_filters (fd : field) (st : store) (old new : pyv) (fs : list filter)
  : result pyv :=
  match fs with
  | [] => inr new
  | f :: fs' =>
      match run_filter fd st old new f with
      | inl e => inl e
      | inr new' => run_filters fd st old new' fs'
      end
  end.

(** A change notification: on_{field}_changed(old, new). *)
Record event := mk_event { e_field : name; e_old : pyv; e_new : pyv }.

(** The instance: the attributes behind its fields, and (a ghost) the notifications
    sent so far in the order in which the signals were fired. *)
Record pod := mk_pod { p_store : store; p_log : list event }.

Definition cls := list field.

Definition find_field (c : cls) (n : name) : option field :=
  find (fun fd => String.eqb n (f_name fd)) c.

(** An assignment [pod.field = value], with what the listeners do if it is announced. *)
Inductive act := Act (fld : name) (value : pyv) (reacts : list act) (raises : option exn).

(** The getattr with the default UNSET of line 332. *)
Definition old_of (p : pod) (n : name) : pyv :=
  match dget n (p_store p) with Some v => v | None => VUnset end.

(** plainbox/impl/pod.py:318-346 [Field.__set__].  Assigning to an attribute that is
    not a field is of no interest here.  The exception is the one that reaches the
    caller, if any. *)
Fixpoint assign (c : cls) (p : pod) (a : act) {struct a} : pod * option exn :=
  let fix run_acts (p : pod) (l : list act) : pod :=
    match l with
    | [] => p
    | a' :: l' => run_acts (fst (assign c p a')) l'
    end in
  match a with
  | Act n v reacts raises =>
      match find_field c n with
      | None => (p, None)
      | Some fd =>
          let old := old_of p n in
          match run_filters fd (p_store p) old v (f_filters fd) with
          | inl e => (p, Some e)
          | inr w =>
              if f_notify fd && dmem n (p_store p) then
                if negb (pyeq w old) then
                  (run_acts (mk_pod (dset n w (p_store p))
                                    (p_log p ++ [mk_event n old w])) reacts, raises)
                else (p, None)
              else (mk_pod (dset n w (p_store p)) (p_log p), None)
          end
      end
  end.

(** Assignments one after another, whether they raise or not. *)
Fixpoint run_acts (c : cls) (p : pod) (l : list act) : pod :=
  match l with
  | [] => p
  | a :: l' => run_acts c (fst (assign c p a)) l'
  end.

(** A value given to the initializer, with what listeners do when it is announced. *)
Definition arg := (pyv * list act * option exn)%type.
Definition arg_act (n : name) (a : arg) : act := Act n (fst (fst a)) (snd (fst a)) (snd a).

(** plainbox/impl/pod.py:398-400: positional arguments. *)
Fixpoint init_args (c : cls) (p : pod) (fl : list field) (args : list arg)
  : pod * option exn :=
  match fl, args with
  | fd :: fl', a :: args' =>
      match assign c p (arg_act (f_name fd) a) with
      | (p', None) => init_args c p' fl' args'
      | r => r
      end
  | _, _ => (p, None)
  end.

Definition is_unset (v : pyv) : bool := match v with VUnset => true | _ => false end.

(** plainbox/impl/pod.py:401-409: keyword arguments. *)
Fixpoint init_kwargs (c : cls) (p : pod) (kw : list (name * arg)) : pod * option exn :=
  match kw with
  | [] => (p, None)
  | (n, a) :: kw' =>
      match find_field c n with
      | None => (p, Some TypeError)
      | Some fd =>
          if negb (is_unset (old_of p n)) then (p, Some TypeError)
          else match assign c p (arg_act n a) with
               | (p', None) => init_kwargs c p' kw'
               | r => r
               end
      end
  end.

(** plainbox/impl/pod.py:410-421: the initial values of the remaining fields. *)
Fixpoint init_rest (c : cls) (react : name -> list act * option exn) (p : pod)
    (fl : list field) : pod * option exn :=
  match fl with
  | [] => (p, None)
  | fd :: fl' =>
      if negb (is_unset (old_of p (f_name fd))) then init_rest c react p fl'
      else match f_initial fd with
           | None => (p, Some TypeError)
           | Some v =>
               let (rs, ex) := react (f_name fd) in
               match assign c p (Act (f_name fd) v rs ex) with
               | (p', None) => init_rest c react p' fl'
               | r => r
               end
           end
  end.

(** plainbox/impl/pod.py:371-421 [PODBase.__init__] *)
Definition init (c : cls) (args : list arg) (kw : list (name * arg))
    (react : name -> list act * option exn) : pod * option exn :=
  let p0 := mk_pod (map (fun fd => (f_name fd, VUnset)) c) [] in
  if Nat.ltb (length c) (length args) then (p0, Some TypeError)
  else match init_args c p0 c args with
       | (p1, None) =>
           match init_kwargs c p1 kw with
           | (p2, None) => init_rest c react p2 c
           | r => r
           end
       | r => r
       end.

(** plainbox/impl/pod.py:453-463 [PODBase.as_tuple] *)
Definition as_tuple (c : cls) (p : pod) : list pyv := map (fun fd => old_of p (f_name fd)) c.

(** plainbox/impl/pod.py:465-476 [PODBase.as_dict] *)
Definition as_dict (c : cls) (p : pod) : dict pyv :=
  List.filter (fun kv => negb (is_unset (snd kv)))
    (map (fun fd => (f_name fd, old_of p (f_name fd))) c).

(** plainbox/impl/pod.py:554-572 [_FieldCollection.add_field] *)
Fixpoint add_fields (acc : list field) (new : list field) : result (list field) :=
  match new with
  | [] => inr acc
  | fd :: new' =>
      if existsb (fun g => String.eqb (f_name fd) (f_name g)) acc then inl TypeError
      else add_fields (acc ++ [fd]) new'
  end.

Fixpoint insert_counter (fd : field) (l : list field) : list field :=
  match l with
  | [] => [fd]
  | g :: l' => if Nat.leb (f_counter fd) (f_counter g) then fd :: l
               else g :: insert_counter fd l'
  end.

(** plainbox/impl/pod.py:505-541 [inspect_base_classes], [inspect_namespace] and
    585-594 [PODMeta.__new__]: the fields of the base classes in order, then those
    of the class itself in the order in which they were created. *)
Definition make_cls (bases : list (list field)) (own : list field) : result cls :=
  match add_fields [] (concat bases) with
  | inl e => inl e
  | inr fl => add_fields fl (fold_right insert_counter [] own)
  end.
End Pod.
