(** The word scanner and word lists: plainbox/impl/xscanners.py and
    plainbox/impl/xparsers.py:578-636.

    Characters are the code points below 256. *)
From Coq Require Import Ascii List Bool Arith.
Import ListNotations.
Open Scope char_scope.
Open Scope list_scope.

Definition text := list ascii.
Definition NUL : ascii := "000".
Definition NL : ascii := "010".
Definition DQ : ascii := "034".

(** str.isspace of one character (below 256) *)
Definition isspace (c : ascii) : bool :=
  let n := nat_of_ascii c in
  (Nat.leb 9 n && Nat.leb n 13 || Nat.leb 28 n && Nat.leb n 32 || Nat.eqb n 133 || Nat.eqb n 160)%bool.

(** xscanners.py:84-97 WordScannerToken *)
Inductive token := INVALID | EOF | WORD | SPACE | COMMENT | COMMA | EQUALS.

(** xscanners.py:95-97 is_irrelevant *)
Definition is_irrelevant (t : token) : bool :=
  match t with SPACE | COMMENT => true | _ => false end.

(** xscanners.py:100-114 WordScannerState *)
Inductive state :=
| S_BAD | S_START | S_EOF | S_ERROR | S_BARE_WORD | S_QUOTED_WORD_INNER | S_QUOTED_WORD_END
| S_SPACE | S_COMMENT_INNER | S_COMMENT_END | S_COMMA | S_EQUALS.

(** xscanners.py:116-118 and 132-138 is_accepting *)
Definition is_accepting (s : state) : bool :=
  match s with
  | S_EOF | S_BARE_WORD | S_QUOTED_WORD_END | S_SPACE | S_COMMENT_END | S_COMMA | S_EQUALS => true
  | _ => false
  end.

(** xscanners.py:120-125 modify_lexeme *)
Definition modify_lexeme (s : state) (lexeme : text) : text :=
  match s with S_QUOTED_WORD_END => removelast (tl lexeme) | _ => lexeme end.

(** xscanners.py:127-130 and 139-147 token *)
Definition token_of_state (s : state) : token :=
  match s with
  | S_EOF => EOF
  | S_BARE_WORD | S_QUOTED_WORD_END => WORD
  | S_SPACE => SPACE
  | S_COMMENT_END => COMMENT
  | S_COMMA => COMMA
  | S_EQUALS => EQUALS
  | _ => INVALID
  end.

(** xscanners.py:235-287 _next_state_for *)
Definition next_state_for (s : state) (c : ascii) : state :=
  match s with
  | S_START =>
      if isspace c then S_SPACE
      else if Ascii.eqb c NUL then S_EOF
      else if Ascii.eqb c "#" then S_COMMENT_INNER
      else if Ascii.eqb c DQ then S_QUOTED_WORD_INNER
      else if Ascii.eqb c "," then S_COMMA
      else if Ascii.eqb c "=" then S_EQUALS
      else S_BARE_WORD
  | S_SPACE => if isspace c then S_SPACE else S_ERROR
  | S_BARE_WORD =>
      if (isspace c || Ascii.eqb c NUL || Ascii.eqb c "#" || Ascii.eqb c "," || Ascii.eqb c "=")%bool
      then S_ERROR else S_BARE_WORD
  | S_COMMENT_INNER =>
      if (Ascii.eqb c NL || Ascii.eqb c NUL)%bool then S_COMMENT_END else S_COMMENT_INNER
  | S_QUOTED_WORD_INNER =>
      if Ascii.eqb c DQ then S_QUOTED_WORD_END
      else if Ascii.eqb c NUL then S_ERROR
      else S_QUOTED_WORD_INNER
  | _ => S_ERROR
  end.

(** xscanners.py:71-80 _next_char: the character and the new _pos *)
Definition next_char (t : text) (pos : nat) : ascii * nat :=
  match nth_error t pos with
  | Some c => (c, S pos)
  | None => (NUL, S (length t))
  end.

Inductive outcome (A : Type) := Done (a : A) | AssertionFailed | OutOfFuel.
Arguments Done {A} a.
Arguments AssertionFailed {A}.
Arguments OutOfFuel {A}.

(** xscanners.py:48-54, the loop that reads: the lexeme is kept reversed, and
    the top of the stack comes first.  [fuel] bounds the number of iterations;
    ScanProofs shows that the one used below never runs out. *)
Fixpoint forward (fuel : nat) (t : text) (pos : nat) (st : state) (lexeme : text)
    (stack : list state) : option (nat * text * list state) :=
  match st with
  | S_ERROR => Some (pos, lexeme, stack)
  | _ =>
      match fuel with
      | 0 => None
      | S fuel =>
          let (c, pos') := next_char t pos in
          let stack := if is_accepting st then [] else stack in
          forward fuel t pos' (next_state_for st c) (c :: lexeme) (st :: stack)
      end
  end.

(** xscanners.py:55-59, the loop that rolls back; the result is the state, the
    (reversed) lexeme and the position, None for the assertion of line 69 *)
Fixpoint backward (st : state) (lexeme : text) (pos : nat) (stack : list state) {struct stack}
    : option (state * text * nat) :=
  if (is_accepting st || match st with S_BAD => true | _ => false end)%bool
  then Some (st, lexeme, pos)
  else
    match stack with
    | [] => None
    | st' :: stack' =>
        match pos with
        | 0 => None
        | S pos' => backward st' (tl lexeme) pos' stack'
        end
    end.

(** lexeme.rstrip(NUL), on the reversed lexeme *)
Fixpoint strip_nul (lexeme : text) : text :=
  match lexeme with
  | c :: r => if Ascii.eqb c NUL then strip_nul r else lexeme
  | [] => []
  end.

(** xscanners.py:41-65 ScannerBase.get_token: token, lexeme and new position *)
Definition get_raw_token (t : text) (pos : nat) : outcome (token * option text * nat) :=
  match forward (length t - pos + 3) t pos S_START [] [S_BAD] with
  | None => OutOfFuel
  | Some (pos1, lexeme, stack) =>
      match backward S_ERROR lexeme pos1 stack with
      | None => AssertionFailed
      | Some (st, lexeme, pos2) =>
          let lexeme := modify_lexeme st (rev (strip_nul lexeme)) in
          if is_accepting st then Done (token_of_state st, Some lexeme, pos2)
          else Done (token_of_state st, None, pos2)
      end
  end.

(** xscanners.py:226-233 WordScanner.get_token (ignoring what is irrelevant) *)
Fixpoint get_token (fuel : nat) (t : text) (pos : nat) : outcome (token * option text * nat) :=
  match fuel with
  | 0 => OutOfFuel
  | S fuel =>
      match get_raw_token t pos with
      | Done (tok, lexeme, pos') =>
          if is_irrelevant tok then get_token fuel t pos' else Done (tok, lexeme, pos')
      | x => x
      end
  end.

(** xscanners.py:35-39: all tokens, the final EOF included *)
Fixpoint raw_tokens (fuel : nat) (t : text) (pos : nat) : outcome (list (token * option text)) :=
  match fuel with
  | 0 => OutOfFuel
  | S fuel =>
      match get_raw_token t pos with
      | Done (EOF, lexeme, _) => Done [(EOF, lexeme)]
      | Done (tok, lexeme, pos') =>
          match raw_tokens fuel t pos' with
          | Done l => Done ((tok, lexeme) :: l)
          | x => x
          end
      | AssertionFailed => AssertionFailed
      | OutOfFuel => OutOfFuel
      end
  end.

(** Entries of a word list: Text and Error nodes (positions left out).  The
    error keeps the lexeme that its message quotes. *)
Inductive entry := Text (t : text) | Unexpected (t : option text).

(** xparsers.py:586-636 WordList.parse *)
Fixpoint parse_words_from (fuel : nat) (t : text) (pos : nat) : outcome (list entry) :=
  match fuel with
  | 0 => OutOfFuel
  | S fuel =>
      match get_token (S (length t)) t pos with
      | Done (EOF, _, _) => Done []
      | Done (COMMA, _, pos') => parse_words_from fuel t pos'
      | Done (tok, lexeme, pos') =>
          match parse_words_from fuel t pos' with
          | Done l =>
              Done (match tok, lexeme with
                    | WORD, Some w => Text w
                    | _, _ => Unexpected lexeme
                    end :: l)
          | x => x
          end
      | AssertionFailed => AssertionFailed
      | OutOfFuel => OutOfFuel
      end
  end.
Definition parse_words (fuel : nat) (t : text) : outcome (list entry) := parse_words_from fuel t 0.
