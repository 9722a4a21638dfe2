(** * What is earlier

    Independent of the rules of comparing. *)
From Coq Require Import Ascii List Arith ZArith.
From Verif Require Import ScanModel Rfc822Model OriginModel.
Import ListNotations.
Local Open Scope list_scope.

(** The order of texts: of the characters where they first differ, or the shorter is first *)
Definition before (a b : text) : Prop :=
  (exists c r, b = a ++ c :: r) \/
  exists p x y r s, a = p ++ x :: r /\ b = p ++ y :: s /\ nat_of_ascii x < nat_of_ascii y.

(** The same source: whether a file is known to be Python does not matter *)
Definition same_source (a b : source) : Prop :=
  match a, b with
  | From_file _ n, From_file _ m => n = m
  | _, _ => a = b
  end.
Definition same (a b : origin) : Prop :=
  same_source (o_source a) (o_source b) /\ o_start a = o_start b /\ o_end a = o_end b.

(** Lines of files *)
Definition lines_of (o : origin) (f : text) (s e : Z) : Prop :=
  exists py, o = mk_origin (From_file py f) (Some s) (Some e).
Definition in_file (o : origin) : Prop := exists f s e, lines_of o f s e.
Definition earlier (a b : origin) : Prop :=
  exists f s e f' s' e', lines_of a f s e /\ lines_of b f' s' e' /\
    (before f f' \/ f = f' /\ (s < s')%Z \/ f = f' /\ s = s' /\ (e < e')%Z).

(** When comparing two places makes sense to the program *)
Definition given {A} (a b : option A) : Prop := a <> None /\ b <> None.
Definition comparable (a b : origin) : Prop :=
  (same_source (o_source a) (o_source b) /\
     (o_start a <> o_start b /\ given (o_start a) (o_start b) \/
      o_start a = o_start b /\ (o_end a = o_end b \/ given (o_end a) (o_end b)))) \/
  (~ same_source (o_source a) (o_source b) /\
     match o_source a, o_source b with
     | From_file _ _, From_file _ _ => True
     | From_arg n _, From_arg m _ => given n m
     | _, _ => False
     end).
