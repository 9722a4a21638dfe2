(** Where a validation message points: plainbox/impl/secure/origin.py lines
    46-194, the positions that plainbox/impl/unit/unit.py lines 172-245 and
    plainbox/impl/unit/testplan.py lines 413-425 compute, and the shell program
    validator of plainbox/impl/unit/validators.py lines 502-535. *)
From Coq Require Import Ascii List Bool Arith.
From Verif Require Import ScanModel Rfc822Model.
Import ListNotations.
Local Open Scope char_scope.
Local Open Scope nat_scope.
Local Open Scope list_scope.

(** * Origins *)

(** origin.py 46-75: the source is its str(), both line numbers may be None. *)
Record origin := mk_origin { o_source : text; o_start : option nat; o_end : option nat }.

(** 31-43 *)
Inductive omode := whole_file | single_line | line_range.

Definition same_line (a b : option nat) : bool :=
  match a, b with
  | Some x, Some y => Nat.eqb x y
  | None, None => true
  | _, _ => false
  end.

(** 77-96 mode *)
Definition mode (o : origin) : omode :=
  match o_start o, o_end o with
  | None, None => whole_file
  | a, b => if same_line a b then single_line else line_range
  end.

(** 142-160 with_offset; None is the TypeError of adding to None.  Simplified:
    the offset is not negative (no caller passes a negative one). *)
Definition with_offset (n : nat) (o : origin) : option origin :=
  match mode o with
  | whole_file => Some o
  | _ => match o_start o, o_end o with
         | Some a, Some b => Some (mk_origin (o_source o) (Some (a + n)) (Some (b + n)))
         | _, _ => None
         end
  end.

(** 162-170 just_line *)
Definition just_line (o : origin) : origin := mk_origin (o_source o) (o_start o) (o_start o).

(** 172-179 just_file *)
Definition just_file (o : origin) : origin := mk_origin (o_source o) None None.

(** * The position of an issue *)

Definition UNDER : ascii := "_".

(** The part of a unit that matters: unit.origin and unit.field_offset_map. *)
Record unit_pos := mk_unit_pos { u_origin : origin; u_offsets : list (text * nat) }.

(** unit.py 417-424 and 593-606 from_rfc822_record: both are those of the record
    (and template.py 383-388 hands them on to instantiated units); rfc822.py
    286-300: the source is that of the stream. *)
Definition unit_of_record (source : text) (r : record) : unit_pos :=
  mk_unit_pos (mk_origin source (r_start r) (r_end r)) (r_offsets r).

(** unit.py 228-242: origin.with_offset(...).just_line(), for the field as it is
    written and, when the field is only known with an underscore in front, the
    branch that asks whether the origin is None although it has just been set.
    None is an exception. *)
Definition issue_origin (u : unit_pos) (field : text) (offset : nat) (given : option origin) : option origin :=
  match given with
  | Some o => Some o
  | None =>
      match tget field (u_offsets u) with
      | Some n => option_map just_line (with_offset (n + offset) (u_origin u))
      | None =>
          match tget (UNDER :: field) (u_offsets u) with
          | Some _ => Some (u_origin u)
          | None => Some (u_origin u)
          end
      end
  end.

(** unit.py 214-226: the same for a list of units; None for the IndexError of an
    empty list. *)
Definition issue_origin_list (us : list unit_pos) (field : text) (offset : nat) (given : option origin) : option origin :=
  match us with
  | [] => None
  | u :: _ => issue_origin u field offset given
  end.

(** testplan.py 415-425 (and 761-768): the origin of the qualifier that comes from
    line [lineno_offset] of a field; None is a KeyError or a TypeError. *)
Definition qualifier_origin (u : unit_pos) (field : text) (lineno_offset : nat) : option origin :=
  match tget field (u_offsets u) with
  | None => None
  | Some n =>
      match with_offset n (just_line (u_origin u)) with
      | Some o => with_offset lineno_offset o
      | None => None
      end
  end.

(** * shlex.shlex in its POSIX mode (Python's library, Lib/shlex.py) *)

Definition BACKSLASH : ascii := "092".
Definition SQ : ascii := "039".

(** shlex.whitespace: space, tab, CR and NL *)
Definition lex_space (c : ascii) : bool :=
  (Ascii.eqb c SP || Ascii.eqb c TAB || Ascii.eqb c CR || Ascii.eqb c NL)%bool.
Definition is_quote (c : ascii) : bool := (Ascii.eqb c SQ || Ascii.eqb c DQ)%bool.

(** lexer.state: a space, the letter a, a quote character or the escape character
    together with escapedstate (the letter a or the quote).  LComment is the rest
    of a line that instream.readline() takes away. *)
Inductive lstate := LSpace | LWord | LQuote (q : ascii) | LEscape (back : option ascii) | LComment.

(** lexer.state, lexer.token, the local variable quoted, lexer.pushback,
    lexer.lineno and the tokens that came out (newest first). *)
Record lexer := mk_lexer {
  l_state : lstate; l_token : text; l_quoted : bool; l_pushed : list text;
  l_lineno : nat; l_out : list text }.

Inductive lex_problem := NoClosingQuotation | NoEscapedCharacter.
Inductive lex_result :=
| LexDone (tokens : list text)
| LexError (p : lex_problem) (tokens : list text) (lineno : nat).

Definition has_token (l : lexer) : bool :=
  (match l_token l with [] => false | _ => true end || l_quoted l)%bool.

(** break with a token: read_token returns it, and what was pushed back comes out
    before the lexer reads on *)
Definition emit (l : lexer) : lexer :=
  mk_lexer (l_state l) [] false [] (l_lineno l) (rev (l_pushed l) ++ l_token l :: l_out l).
Definition emit_if_token (l : lexer) : lexer := if has_token l then emit l else l.

Definition to (s : lstate) (l : lexer) : lexer :=
  mk_lexer s (l_token l) (l_quoted l) (l_pushed l) (l_lineno l) (l_out l).
Definition put (c : ascii) (l : lexer) : lexer :=
  mk_lexer (l_state l) (l_token l ++ [c]) (l_quoted l) (l_pushed l) (l_lineno l) (l_out l).
Definition quote (l : lexer) : lexer :=
  mk_lexer (l_state l) (l_token l) true (l_pushed l) (l_lineno l) (l_out l).
Definition next_line (l : lexer) : lexer :=
  mk_lexer (l_state l) (l_token l) (l_quoted l) (l_pushed l) (S (l_lineno l)) (l_out l).
Definition push (t : text) (l : lexer) : lexer :=
  mk_lexer (l_state l) (l_token l) (l_quoted l) (l_pushed l ++ [t]) (l_lineno l) (l_out l).

Section Lex.
  (** lexer.wordchars: letters, digits, the underscore and accented letters *)
  Variable wordchar : ascii -> bool.

  (** read_token, one character that is not in a comment *)
  Definition lex_char (c : ascii) (l : lexer) : lexer :=
    let l := if Ascii.eqb c NL then next_line l else l in
    match l_state l with
    | LSpace =>
        if lex_space c then emit_if_token l
        else if Ascii.eqb c HASH then next_line (to LComment l)
        else if Ascii.eqb c BACKSLASH then to (LEscape None) l
        else if wordchar c then to LWord (put c l)
        else if is_quote c then to (LQuote c) l
        else emit (put c l)
    | LQuote q =>
        let l := quote l in
        if Ascii.eqb c q then to LWord l
        else if (Ascii.eqb c BACKSLASH && Ascii.eqb q DQ)%bool then to (LEscape (Some q)) l
        else put c l
    | LEscape None => to LWord (put c l)
    | LEscape (Some q) =>
        let l := if (negb (Ascii.eqb c BACKSLASH) && negb (Ascii.eqb c q))%bool then put BACKSLASH l else l in
        to (LQuote q) (put c l)
    | LWord =>
        if lex_space c then emit_if_token (to LSpace l)
        else if Ascii.eqb c HASH then emit_if_token (next_line (to LComment l))
        else if is_quote c then to (LQuote c) l
        else if Ascii.eqb c BACKSLASH then to (LEscape None) l
        else if wordchar c then put c l
        else emit_if_token (push [c] (to LSpace l))
    | LComment => l
    end.

  (** read_token, the end of the text, and then all further calls *)
  Definition lex_end (l : lexer) : lex_result :=
    match l_state l with
    | LQuote _ => LexError NoClosingQuotation (rev (l_out l)) (l_lineno l)
    | LEscape _ => LexError NoEscapedCharacter (rev (l_out l)) (l_lineno l)
    | _ => LexDone (rev (l_out (emit_if_token l)))
    end.

  Fixpoint lex_from (l : lexer) (t : text) : lex_result :=
    match t with
    | [] => lex_end l
    | c :: r =>
        match l_state l with
        | LComment => lex_from (if Ascii.eqb c NL then to LSpace l else l) r
        | _ => lex_from (lex_char c l) r
        end
    end.

  (** for token in shlex.shlex(value, posix=True) *)
  Definition lex (t : text) : lex_result := lex_from (mk_lexer LSpace [] false [] 1 []) t.

  (** validators.py 511-535 ShellProgramValidator.check: the problem, the token to
      mention and the offset of the issue, if there is one *)
  Definition LT : ascii := "<".
  Fixpoint has_heredoc (t : text) : bool :=
    match t with
    | a :: ((b :: _) as r) => ((Ascii.eqb a LT && Ascii.eqb b LT) || has_heredoc r)%bool
    | _ => false
    end.
  Definition shell_check (value : option text) : option (lex_problem * option text * nat) :=
    match value with
    | None => None
    | Some t =>
        if has_heredoc t then None
        else match lex t with
             | LexDone _ => None
             | LexError p tokens lineno => Some (p, nth_error (rev tokens) 0, lineno - 1)
             end
    end.
End Lex.
