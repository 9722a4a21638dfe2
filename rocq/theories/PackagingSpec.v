(** * Packaging meta-data: what is expected, without the program *)
From Coq Require Import String Ascii List Bool Arith.
From Verif Require Import ScanModel Rfc822Model IniModel RestartSpec.
Import ListNotations.
Local Open Scope list_scope.

(** A unit with this os-id and this os-version-id is meant for the system
    that [release] describes: the system itself, in this version if the unit
    names one, or the system it is like, if the unit names no version. *)
Definition meant_for (release : text -> option text) (os_id os_version : option text) : Prop :=
  exists i, os_id = Some i /\
    ((release (T "ID") = Some i /\ os_version = None) \/
     (release (T "ID") = Some i /\ exists v, os_version = Some v /\ release (T "VERSION_ID") = Some v) \/
     (release (T "ID_LIKE") = Some i /\ os_version = None)).

Definition white (t : text) : Prop := Forall (fun c => isspace c = true) t.

(** A text that neither begins nor ends with white space and is not empty *)
Definition solid (t : text) : Prop :=
  (exists c r, t = c :: r /\ isspace c = false) /\ (exists r c, t = r ++ [c] /\ isspace c = false).

(** What one piece between commas holds: nothing or one relation *)
Inductive piece : text -> list text -> Prop :=
| piece_blank p : white p -> piece p []
| piece_one a r b : white a -> solid r -> white b -> piece (a ++ r ++ b) [r].

(** [relations v rs]: the relations written in [v], separated by commas *)
Inductive relations : text -> list text -> Prop :=
| relations_last p rs : ~ In ","%char p -> piece p rs -> relations p rs
| relations_more p rs t rs' : ~ In ","%char p -> piece p rs -> relations t rs' ->
    relations (p ++ ","%char :: t) (rs ++ rs').

(** A value on many lines, as one line *)
Definition one_lined (v : text) : text := map (fun c => if ascii_dec c NL then " "%char else c) v.

(** The lines a package needs for these relations: none for no relations, and
    otherwise one line that holds them *)
Inductive variable (name : text) : list text -> text -> Prop :=
| variable_none : variable name [] []
| variable_some rs v : rs <> [] -> relations v rs -> ~ In NL v ->
    variable name rs (T "plainbox:" ++ name ++ T "=" ++ v ++ [NL]).

(** The files of os-release(5) without comments: lines that are empty or
    assign, in the shell's syntax, a value to a name *)
Inductive release_file : text -> list (text * text) -> Prop :=
| release_end : release_file [] []
| release_empty t kvs : release_file t kvs -> release_file (NL :: t) kvs
| release_set k w v t kvs : k <> [] -> (forall c, In c k -> harmless c /\ c <> "="%char) -> sh_word w v ->
    release_file t kvs -> release_file (k ++ "="%char :: w ++ NL :: t) ((k, v) :: kvs).

(** The last value given to a name *)
Fixpoint last_value (k : text) (kvs : list (text * text)) : option text :=
  match kvs with
  | [] => None
  | (k', v) :: r =>
      match last_value k r with
      | Some w => Some w
      | None => if list_eq_dec ascii_dec k k' then Some v else None
      end
  end.
