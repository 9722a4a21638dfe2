(** The lexical structure of word lists. *)
From Coq Require Import Ascii List Bool Arith.
From Verif Require Import ScanModel.
Import ListNotations.
Open Scope char_scope.
Open Scope list_scope.

(** Pieces of a text. *)
Inductive item :=
| ISpace (s : text)            (* white space *)
| IWord (w : text)             (* a bare word *)
| IQuoted (w : text)           (* a word in double quotes *)
| IComment (c : text)          (* # up to the end of the line, with the newline *)
| ILastComment (c : text)      (* # up to the end of the text *)
| IComma
| IEquals.

(** How a piece is written. *)
Definition written (i : item) : text :=
  match i with
  | ISpace s => s
  | IWord w => w
  | IQuoted w => DQ :: w ++ [DQ]
  | IComment c => "#" :: c ++ [NL]
  | ILastComment c => "#" :: c
  | IComma => [","]
  | IEquals => ["="]
  end.

(** The characters that end a bare word. *)
Definition ends_word (c : ascii) : Prop :=
  isspace c = true \/ c = "#" \/ c = "," \/ c = "=".

Definition starts (P : ascii -> Prop) (t : text) : Prop :=
  match t with [] => False | c :: _ => P c end.

(** [pieces t l rest]: the text [t] consists of the pieces [l], each as long as
    possible, followed by [rest], which is empty or an opening quote that is
    never closed. *)
Inductive pieces : text -> list item -> text -> Prop :=
| p_end : pieces [] [] []
| p_unclosed r : ~ In DQ r -> pieces (DQ :: r) [] (DQ :: r)
| p_space s t l r : s <> [] -> Forall (fun c => isspace c = true) s ->
    ~ starts (fun c => isspace c = true) t ->
    pieces t l r -> pieces (s ++ t) (ISpace s :: l) r
| p_word w t l r : w <> [] -> Forall (fun c => ~ ends_word c) w -> ~ starts (eq DQ) w ->
    (t = [] \/ starts ends_word t) ->
    pieces t l r -> pieces (w ++ t) (IWord w :: l) r
| p_quoted w t l r : ~ In DQ w ->
    pieces t l r -> pieces (written (IQuoted w) ++ t) (IQuoted w :: l) r
| p_comment c t l r : ~ In NL c ->
    pieces t l r -> pieces (written (IComment c) ++ t) (IComment c :: l) r
| p_last_comment c : ~ In NL c -> pieces (written (ILastComment c)) [ILastComment c] []
| p_comma t l r : pieces t l r -> pieces ("," :: t) (IComma :: l) r
| p_equals t l r : pieces t l r -> pieces ("=" :: t) (IEquals :: l) r.

(** The token that stands for a piece. *)
Definition token_for (i : item) : token * option text :=
  match i with
  | ISpace s => (SPACE, Some s)
  | IWord w | IQuoted w => (WORD, Some w)
  | IComment c => (COMMENT, Some ("#" :: c ++ [NL]))
  | ILastComment c => (COMMENT, Some ("#" :: c))
  | IComma => (COMMA, Some [","])
  | IEquals => (EQUALS, Some ["="])
  end.

(** What a piece contributes to a word list: words are taken, separators and
    comments are dropped, an equals sign is reported. *)
Definition entry_for (i : item) : list entry :=
  match i with
  | IWord w | IQuoted w => [Text w]
  | IEquals => [Unexpected (Some ["="])]
  | _ => []
  end.
