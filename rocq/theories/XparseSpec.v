(** The syntax of override and include statements. *)
From Coq Require Import Ascii List Bool.
From Verif Require Import ScanModel ScanSpec XparseModel.
Import ListNotations.
Open Scope char_scope.
Open Scope list_scope.

(** What counts in a line: words (bare or quoted), commas and equals signs. *)
Inductive symbol := W (w : text) | Comma | Equals.

Definition symbol_of (i : item) : list symbol :=
  match i with
  | IWord w | IQuoted w => [W w]
  | IComma => [Comma]
  | IEquals => [Equals]
  | ISpace _ | IComment _ | ILastComment _ => []
  end.

(** [reads t l]: every quote in the line [t] is closed, and its symbols are [l];
    [broken t l]: the same up to a quote that is never closed. *)
Definition reads (t : text) (l : list symbol) : Prop :=
  exists items, pieces t items [] /\ flat_map symbol_of items = l.
Definition broken (t : text) (l : list symbol) : Prop :=
  exists items r, pieces t items (DQ :: r) /\ flat_map symbol_of items = l.

(** apply VALUE to PATTERN *)
Definition override_line (t : text) (value pattern : text) : Prop :=
  reads t [W ["a"; "p"; "p"; "l"; "y"]; W value; W ["t"; "o"]; W pattern].

(** FIELD = VALUE, ... *)
Fixpoint pairs_of (l : list (text * text)) : list symbol :=
  match l with
  | [] => []
  | [(f, v)] => [W f; Equals; W v]
  | (f, v) :: r => W f :: Equals :: W v :: Comma :: pairs_of r
  end.

(** PATTERN FIELD = VALUE, ... *)
Definition include_line (t : text) (pattern : text) (overrides : list (text * text)) : Prop :=
  reads t (W pattern :: pairs_of overrides).

(** Nothing but white space and comments. *)
Definition empty_line (t : text) : Prop := reads t [].

(** A line that opens with a quote which is never closed: the scanner fails. *)
Definition bad_start (t : text) : Prop := exists r, t = DQ :: r /\ ~ In DQ r.
