(** * What symbols are for *)
From Coq Require Import String Ascii List Bool Arith.
From Verif Require Import ScanModel Rfc822Model OriginModel OriginSpec SymbolModel.
Import ListNotations.
Local Open Scope nat_scope.
Local Open Scope list_scope.

(** What threads were given, so far *)
Definition was_given (s : state) (n : text) (o : obj) : Prop := exists t, In t (st_threads s) /\ In (n, o) (t_done t).
(** The i-th thread is about to make a symbol of that name: it found none *)
Definition making (s : state) (i : nat) (n : text) : Prop :=
  exists t r, nth_error (st_threads s) i = Some t /\ t_creating t = true /\ t_todo t = n :: r.
(** No two threads make a symbol of one name at a time *)
Definition turns (s : state) : Prop := forall i j n, making s i n -> making s j n -> i = j.
Inductive taking_turns : state -> state -> Prop :=
| tt_none s : taking_turns s s
| tt_more s1 s2 s3 : taking_turns s1 s2 -> turns s2 -> step s2 s3 -> taking_turns s1 s3.

(** Symbols and texts as texts *)
Definition reads (name : obj -> text) (x : operand) (t : text) : Prop :=
  match x with Symbol_ o n => n = name o /\ t = n | Text u => t = u | Other_object => False end.

(** Blocks of definitions *)
Definition assigned (b : list stmt) (n : text) : Prop := exists e, In (Assign n e) b.
Definition mentioned (b : list stmt) (n : text) : Prop := In (Use n) b \/ exists m, In (Assign m (EName n)) b.
Definition special (n : text) : Prop :=
  In n (map list_ascii_of_string ["__name__"; "__qualname__"; "__doc__"; "__module__"]%string).
Definition from_outside (outer : option (list text)) (n : text) : Prop := exists l, outer = Some l /\ In n l.
Definition plain_name (outer : option (list text)) (n : text) : Prop :=
  ~ special n /\ ~ from_outside outer n /\ n <> list_ascii_of_string "Symbol".
