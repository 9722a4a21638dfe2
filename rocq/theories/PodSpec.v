(** What the statements about POD classes mean, without the functions that
    implement assignment. *)
From Coq Require Import String List Bool ZArith.
From Verif Require Import Base PodModel.
Import ListNotations.

(** [x] went through the whole list of filters and [w] came out. *)
Inductive passes (convert : pytype -> pyv -> result pyv) (fd : field) (st : store)
    (old : pyv) : list filter -> pyv -> pyv -> Prop :=
| passes_nil : forall v, passes convert fd st old [] v v
| passes_cons : forall f fs v v' w,
    run_filter convert fd st old v f = inr v' ->
    passes convert fd st old fs v' w -> passes convert fd st old (f :: fs) v w.

(** Some filter of the list raised. *)
Inductive raises (convert : pytype -> pyv -> result pyv) (fd : field) (st : store)
    (old : pyv) : list filter -> pyv -> exn -> Prop :=
| raises_here : forall f fs v e,
    run_filter convert fd st old v f = inl e ->
    raises convert fd st old (f :: fs) v e
| raises_later : forall f fs v v' e,
    run_filter convert fd st old v f = inr v' ->
    raises convert fd st old fs v' e -> raises convert fd st old (f :: fs) v e.

(** The value [v] is assigned to the field [n] by the assignment, or by a listener
    reacting to it. *)
Inductive offers : act -> name -> pyv -> Prop :=
| offers_itself : forall n v rs ex, offers (Act n v rs ex) n v
| offers_reaction : forall n v rs ex a m x,
    In a rs -> offers a m x -> offers (Act n v rs ex) m x.

(** The assignments an initializer makes at most: its positional arguments bind to
    the fields in order, its keyword arguments to the fields they name, and the
    initial values. *)
Definition initial_offers (c : cls) (args : list arg) (kw : list (name * arg))
    (react : name -> list act * option exn) (n : name) (v : pyv) : Prop :=
  (exists i fd a, nth_error c i = Some fd /\ nth_error args i = Some a /\
     offers (Act (f_name fd) (fst (fst a)) (snd (fst a)) (snd a)) n v) \/
  (exists m a, In (m, a) kw /\ offers (Act m (fst (fst a)) (snd (fst a)) (snd a)) n v) \/
  (exists fd x, In fd c /\ f_initial fd = Some x /\
     offers (Act (f_name fd) x (fst (react (f_name fd))) (snd (react (f_name fd)))) n v).

(** The field [n] of the class, and the value an instance holds in it. *)
Definition declares (c : cls) (n : name) (fd : field) : Prop := In fd c /\ f_name fd = n.
Definition holds (p : pod) (n : name) (v : pyv) : Prop := dget n (p_store p) = Some v.

(** The notifications about one field. *)
Definition about (n : name) (l : list event) : list event :=
  List.filter (fun e => String.eqb n (e_field e)) l.

(** Notifications that account for every change from [v] to [w]: each reports as the
    old value what the previous one reported as the new one, and a different new one. *)
Inductive accounts : pyv -> list event -> pyv -> Prop :=
| accounts_nil : forall v, accounts v [] v
| accounts_cons : forall n v x es w,
    pyeq x v = false -> accounts x es w ->
    accounts v (mk_event n v x :: es) w.

(** Filters that look at the new value but do not replace it. *)
Definition only_checks (f : filter) : Prop :=
  match f with FConvert | FUser _ => False | _ => True end.
