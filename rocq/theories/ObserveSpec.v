(** What the output of a resource job should become *)
From Coq Require Import String Ascii List Bool Arith.
From Verif Require Import ScanModel Rfc822Model Rfc822Spec IniModel JsonModel IologModel ResourceModel.
Import ListNotations.
Local Open Scope nat_scope.
Local Open Scope list_scope.

(** The records of a printed text, up to the first block of lines that is not one *)
Fixpoint good_prefix {A} (l : list (option A)) : list A :=
  match l with Some x :: r => x :: good_prefix r | _ => [] end.
Definition believed (lines : list text) : list (list (text * text)) :=
  good_prefix (map parse_block (blocks (filter (fun l => negb (comment l)) lines))).
(** A text of ASCII characters *)
Definition ascii_text (t : text) : Prop := forall c, In c t -> nat_of_ascii c < 128.
(** A decoder leaves it as it is *)
Definition utf8_like (decode : list ascii -> text) : Prop := forall t, ascii_text t -> decode t = t.
(** Names of fields that are not names that python uses *)
Definition ordinary (a : string) : Prop := String.prefix "__" a = false.
Definition pythonic {V} (own : string -> option V) : Prop := forall a, ordinary a -> a <> "_data"%string -> own a = None.

(** [r.a == 'v'], [r.a != 'v'] and [r.a in ('v1', 'v2', ...)] *)
Definition field_of (r a : string) : node := Node (Attribute a) [Name r; Node Load []].
Definition equals (r a v : string) : source := Source [Node Expr [Node Compare [field_of r a; Node (Cmpop "Eq") []; Node (Str v) []]]] false.
Definition differs (r a v : string) : source := Source [Node Expr [Node Compare [field_of r a; Node (Cmpop "NotEq") []; Node (Str v) []]]] false.
Definition one_of (r a : string) (vs : list string) : source :=
  Source [Node Expr [Node Compare [field_of r a; Node (Cmpop "In") []; Node Tuple (map (fun v => Node (Str v) []) vs ++ [Node Load []])]]] false.
