(** What resource programs should mean. *)
From Coq Require Import String List Bool.
From Verif Require Import ResourceModel.
Import ListNotations.
Open Scope string_scope.
Open Scope list_scope.

(** [inside n m]: m is a node of the tree n. *)
Inductive inside : node -> node -> Prop :=
| in_self n : inside n n
| in_child c l x m : In x l -> inside x m -> inside (Node c l) m
| in_func f args m : inside f m -> inside (Call f args) m
| in_arg f args x m : In x args -> inside x m -> inside (Call f args) m.

(** [visible n m]: m is a node of the tree n that is not a part of a call. *)
Inductive visible : node -> node -> Prop :=
| vis_self n : visible n n
| vis_child c l x m : In x l -> visible x m -> visible (Node c l) m.

(** Nodes of the white list, and calls of the four functions. *)
Definition whitelisted (n : node) : Prop :=
  match n with
  | Name _ => True
  | Call (Name f) _ => In f ["len"; "bool"; "int"; "float"]
  | Call _ _ => False
  | Node (Other _) _ => False
  | Node _ _ => True
  end.

(** Trees in which, everywhere, only white-listed nodes and only the given names
    occur. *)
Inductive safe (ids : list string) : node -> Prop :=
| safe_name id : In id ids -> safe ids (Name id)
| safe_call f args : In f ["len"; "bool"; "int"; "float"] -> (forall x, In x args -> safe ids x) ->
    safe ids (Call (Name f) args)
| safe_node c l : (forall name, c <> Other name) -> (forall x, In x l -> safe ids x) -> safe ids (Node c l).

Section Meaning.
  Variable value : Type.
  Variable truth : value -> bool.
  Variable constant : cls -> option value.
  Variable attribute : value -> string -> option value.
  Variable compare : string -> value -> value -> option value.
  Variable sequence : cls -> list value -> option value.
  Variable call : string -> list value -> option value.
  Variable global : string -> option value.
  Notation ev := (eval value truth constant attribute compare sequence call global).

  (** Some choice of one record for each alias makes the expression true. *)
  Definition satisfied (m : rmap value) (e : expression) : Prop :=
    exists records body result,
      Forall2 (fun id r => exists l, lookup value m id = Some l /\ In r l) (e_ids e) records /\
      e_body e = Some body /\
      ev (combine (e_aliases e) records) body = Some result /\ truth result = true.

  Definition available (m : rmap value) (e : expression) : Prop :=
    forall id, In id (e_ids e) -> lookup value m id <> None.
End Meaning.
