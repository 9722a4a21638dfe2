(** Override and include statements of test plans:
    plainbox/impl/xparsers.py:295-575.

    Nodes lose their column, which is always the one passed in; the pattern node
    of Re.parse (188-238) is kept as its text.  Exceptions of the scanner are
    those of ScanModel. *)
From Coq Require Import Ascii List Bool Arith.
From Verif Require Import ScanModel Rfc822Model.
Import ListNotations.
Open Scope char_scope.
Local Open Scope nat_scope.
Open Scope list_scope.

(** The words that the override syntax uses, 358 and 369 *)
Definition kw_apply : text := ["a"; "p"; "p"; "l"; "y"].
Definition kw_to : text := ["t"; "o"].

(** The messages of the Error nodes (360, 364, 371, 376, 382 and 492, 504, 508,
    512, 526) with the lexeme that they quote *)
Inductive problem :=
| ExpectedApply (near : option text)
| ExpectedOverrideValue
| ExpectedTo (near : option text)
| ExpectedOverridePattern
| Garbage (junk : option text)
| ExpectedPattern
| ExpectedOverrideField
| ExpectedEquals
| ExpectedComma.

(** A call of scanner.get_token(): the scanner object is the text and a position *)
Definition next (t : text) (pos : nat) : outcome (token * option text * nat) :=
  get_token (S (length t)) t pos.

(** Sequencing of calls *)
Definition obind {A B} (x : outcome A) (f : A -> outcome B) : outcome B :=
  match x with
  | Done a => f a
  | AssertionFailed => AssertionFailed
  | OutOfFuel => OutOfFuel
  end.

(** token == WORD: the word (a WORD token always has a lexeme) *)
Definition word_of (tok : token) (lexeme : option text) : option text :=
  match tok with WORD => lexeme | _ => None end.

(** 301-383 FieldOverride.parse: the value and the pattern *)
Definition parse_override (t : text) : outcome ((text * text) + problem) :=
  obind (next t 0) (fun '(tok, lexeme, p1) =>
  match word_of tok lexeme with
  | Some w =>
      if text_eqb w kw_apply then
        obind (next t p1) (fun '(tok, lexeme, p2) =>
        match word_of tok lexeme with
        | None => Done (inr ExpectedOverrideValue)
        | Some value =>
            obind (next t p2) (fun '(tok, lexeme, p3) =>
            match word_of tok lexeme with
            | Some w' =>
                if text_eqb w' kw_to then
                  obind (next t p3) (fun '(tok, lexeme, p4) =>
                  match word_of tok lexeme with
                  | None => Done (inr ExpectedOverridePattern)
                  | Some pattern =>
                      obind (next t p4) (fun '(tok, lexeme, _) =>
                      match tok with
                      | EOF => Done (inl (value, pattern))
                      | _ => Done (inr (Garbage lexeme))
                      end)
                  end)
                else Done (inr (ExpectedTo lexeme))
            | None => Done (inr (ExpectedTo lexeme))
            end)
        end)
      else Done (inr (ExpectedApply lexeme))
  | None => Done (inr (ExpectedApply lexeme))
  end).

(** str.splitlines(): the lines without their ends, which are the only line
    breaks in them *)
Definition lines_of (t : text) : list text :=
  map (filter (fun c => negb (is_break c))) (splitlines t).

(** enumerate(..., lineno), keeping the first failure *)
Fixpoint each_line {A} (f : text -> outcome (list A)) (lineno : nat) (ls : list text)
    : outcome (list (nat * A)) :=
  match ls with
  | [] => Done []
  | l :: r =>
      obind (f l) (fun a =>
      obind (each_line f (S lineno) r) (fun b =>
      Done (map (pair lineno) a ++ b)))
  end.

(** 393-402 OverrideFieldList.parse *)
Definition parse_override_list (t : text) (lineno : nat)
    : outcome (list (nat * ((text * text) + problem))) :=
  each_line (fun l => obind (parse_override l) (fun x => Done [x])) lineno (lines_of t).

(** 495-527, the loop of IncludeStmt.parse; [first] is i == 0 *)
Fixpoint parse_pairs (fuel : nat) (first : bool) (t : text) (pos : nat)
    : outcome (list (text * text) + problem) :=
  match fuel with
  | 0 => OutOfFuel
  | S fuel =>
      obind (next t pos) (fun '(tok, lexeme, p1) =>
      match tok, first with
      | EOF, true => Done (inl [])
      | _, _ =>
          match word_of tok lexeme with
          | None => Done (inr ExpectedOverrideField)
          | Some field =>
              obind (next t p1) (fun '(tok, _, p2) =>
              match tok with
              | EQUALS =>
                  obind (next t p2) (fun '(tok, lexeme, p3) =>
                  match word_of tok lexeme with
                  | None => Done (inr ExpectedOverrideValue)
                  | Some value =>
                      obind (next t p3) (fun '(tok, _, p4) =>
                      match tok with
                      | COMMA =>
                          obind (parse_pairs fuel false t p4) (fun r =>
                          match r with
                          | inl l => Done (inl ((field, value) :: l))
                          | inr e => Done (inr e)
                          end)
                      | EOF => Done (inl [(field, value)])
                      | _ => Done (inr ExpectedComma)
                      end)
                  end)
              | _ => Done (inr ExpectedEquals)
              end)
          end
      end)
  end.

(** 427-528 IncludeStmt.parse: the pattern and the overrides *)
Definition parse_include (t : text) : outcome ((text * list (text * text)) + problem) :=
  obind (next t 0) (fun '(tok, lexeme, p1) =>
  match word_of tok lexeme with
  | None => Done (inr ExpectedPattern)
  | Some pattern =>
      obind (parse_pairs (S (length t)) true t p1) (fun r =>
      match r with
      | inl l => Done (inl (pattern, l))
      | inr e => Done (inr e)
      end)
  end).

(** 539-575 IncludeStmtList.parse *)
Definition parse_include_list (t : text) (lineno : nat)
    : outcome (list (nat * ((text * list (text * text)) + problem))) :=
  each_line
    (fun l =>
       obind (next l 0) (fun '(tok, _, _) =>
       match tok with
       | EOF => Done []
       | _ => obind (parse_include l) (fun x => Done [x])
       end))
    lineno (lines_of t).
