(** What it means that a message points at the right place, without the code that
    computes the place. *)
From Coq Require Import Ascii List Bool Arith.
From Verif Require Import ScanModel Rfc822Model Rfc822Spec IssueModel.
Import ListNotations.
Local Open Scope char_scope.
Local Open Scope nat_scope.
Local Open Scope list_scope.

(** An origin that is one line of a file. *)
Definition one_line (source : text) (n : nat) : origin := mk_origin source (Some n) (Some n).

(** Line [i] of the file is the line [key: first]. *)
Definition key_line (lines : list text) (i : nat) (key first : text) : Prop :=
  1 <= i /\ comment (line_at lines i) = false /\ continues (line_at lines i) = false /\
  exists written, split_colon (line_at lines i) = Some (written, first) /\ strip written = key.

(** A line of a value as a person wrote it: what follows the colon, or a
    continuation line. *)
Definition written_line (lines : list text) (i : nat) (first : text) (n : nat) : text :=
  if Nat.eqb n i then first else line_at lines n.

(** Two lines say the same: only the white space around them differs, or one is
    empty and the other is a single dot, which stands for an empty line. *)
Definition says (written shown : text) : Prop :=
  strip written = strip shown \/ strip written = [DOT] /\ blank shown = true.

(** A shell program, as far as quoting goes: every quote is closed and no
    backslash is the last character.  Within double quotes a backslash takes the
    next character with it; within single quotes it does not; a hash starts a
    comment up to the end of the line. *)
Definition special (c : ascii) : bool :=
  (Ascii.eqb c SQ || Ascii.eqb c DQ || Ascii.eqb c BACKSLASH || Ascii.eqb c HASH)%bool.

Inductive in_double : text -> Prop :=
| dq_nil : in_double []
| dq_char c t : c <> DQ -> c <> BACKSLASH -> in_double t -> in_double (c :: t)
| dq_escape c t : in_double t -> in_double (BACKSLASH :: c :: t).

Inductive closed : text -> Prop :=
| cl_nil : closed []
| cl_char c t : special c = false -> closed t -> closed (c :: t)
| cl_escape c t : closed t -> closed (BACKSLASH :: c :: t)
| cl_single s t : ~ In SQ s -> closed t -> closed (SQ :: s ++ SQ :: t)
| cl_double s t : in_double s -> closed t -> closed (DQ :: s ++ DQ :: t)
| cl_comment s t : ~ In NL s -> closed t -> closed (HASH :: s ++ NL :: t)
| cl_last_comment s : ~ In NL s -> closed (HASH :: s).

(** The text has a here document operator. *)
Definition heredoc (t : text) : Prop := exists a b, t = a ++ [LT; LT] ++ b.
