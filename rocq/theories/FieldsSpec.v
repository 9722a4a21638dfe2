(** * What the fields of units and jobs mean *)
From Coq Require Import Ascii List Bool Arith.
From Verif Require Import ScanModel ScanSpec Rfc822Model.
Import ListNotations.
Open Scope char_scope.
Local Open Scope nat_scope.
Open Scope list_scope.

(** The written value of a field: the one marked for translation, else the plain one, else
    the default *)
Definition written_value (data : list (text * text)) (name : text) (default : option text) (v : text) : Prop :=
  In ("_" :: name, v) data
  \/ ~ In ("_" :: name) (map fst data) /\ In (name, v) data
  \/ ~ In ("_" :: name) (map fst data) /\ ~ In name (map fst data) /\ default = Some v.
Definition no_written_value (data : list (text * text)) (name : text) (default : option text) : Prop :=
  ~ In ("_" :: name) (map fst data) /\ ~ In name (map fst data) /\ default = None.

(** A word of a list: it contains no separator and is bounded by separators or the ends *)
Definition separates (c : ascii) : Prop := isspace c = true \/ c = ",".
Definition chunk (t w : text) : Prop :=
  exists before after, t = before ++ w ++ after /\ Forall (fun c => ~ separates c) w /\
    (before = [] \/ exists b c, before = b ++ [c] /\ separates c) /\
    (after = [] \/ exists c a, after = c :: a /\ separates c).

(** An identifier that names its namespace *)
Definition qualified (i : text) : Prop := exists a b, i = a ++ ":" :: ":" :: b.

(** The words of a list with quotes and comments (as in C20) *)
Definition word_in (i : item) : list text := match i with IWord w | IQuoted w => [w] | _ => [] end.
