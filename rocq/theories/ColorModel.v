(** * Colours: plainbox/impl/color.py, and those of outcomes: plainbox/impl/result.py *)
From Coq Require Import String Ascii List Bool Arith.
From Verif Require Import ScanModel Rfc822Model.
Import ListNotations.
Local Open Scope list_scope.

(** Notation for texts *)
Definition L (s : string) : text := list_ascii_of_string s.
(** 90: the escape sequence of a number *)
Definition code (n : string) : text := "027"%char :: "["%char :: L n ++ ["m"%char].
(** 33-46, 48-61, 63-70: the names and numbers *)
Definition foreground : list (text * text) :=
  map (fun p => (L (fst p), code (snd p)))
    [("BLACK", "30"); ("RED", "31"); ("GREEN", "32"); ("YELLOW", "33"); ("BLUE", "34"); ("MAGENTA", "35"); ("CYAN", "36"); ("WHITE", "37"); ("RESET", "39")]%string.
Definition background : list (text * text) :=
  map (fun p => (L (fst p), code (snd p)))
    [("BLACK", "40"); ("RED", "41"); ("GREEN", "42"); ("YELLOW", "44"); ("BLUE", "44"); ("MAGENTA", "45"); ("CYAN", "46"); ("WHITE", "47"); ("RESET", "49")]%string.
Definition styles : list (text * text) :=
  map (fun p => (L (fst p), code (snd p))) [("BRIGHT", "1"); ("DIM", "2"); ("NORMAL", "22"); ("RESET_ALL", "0")]%string.

(** getattr(..., name); None is AttributeError.  85-91: switched off, the same names are empty *)
Fixpoint named (t : text) (l : list (text * text)) : option text :=
  match l with [] => None | (n, c) :: r => if text_eqb n t then Some c else named t r end.
Definition attr (on : bool) (l : list (text * text)) (t : text) : option text :=
  match named t l with Some c => Some (if on then c else []) | None => None end.
(** str.upper, of ASCII *)
Definition upper_char (c : ascii) : ascii :=
  let n := nat_of_ascii c in if Nat.leb 97 n && Nat.leb n 122 then ascii_of_nat (n - 32) else c.
Definition upper (t : text) : text := map upper_char t.

(** 105-117, 127-145: whether colours are used *)
Definition enabled (color : option bool) (tty : bool) : bool := match color with Some b => b | None => tty end.
(** 154-161 f, b, s *)
Definition f (on : bool) (name : text) : option text := attr on foreground (upper name).
Definition b (on : bool) (name : text) : option text := attr on background (upper name).
Definition s (on : bool) (name : text) : option text := attr on styles (upper name).
(** 163-167 __call__, str(text) being the text *)
Definition colored (on : bool) (t name : text) (bright : bool) : option text :=
  match f on name, attr on styles (L "BRIGHT"), attr on styles (L "RESET_ALL") with
  | Some c, Some br, Some reset => Some (c ++ (if bright then br else []) ++ t ++ reset)
  | _, _, _ => None
  end.
(** 169-190 custom *)
Definition custom (on : bool) (t ansi : text) : text :=
  (if on then ansi else []) ++ t ++ match attr on styles (L "RESET_ALL") with Some r => r | None => [] end.
(** str.center(80, fill) *)
Definition center80 (fill : ascii) (t : text) : text :=
  let pad := 80 - length t in repeat fill (Nat.div2 pad) ++ t ++ repeat fill (pad - Nat.div2 pad).
(** 151-152 header *)
Definition header (on : bool) (t name : text) (bright : bool) (fill : ascii) : option text :=
  colored on (center80 fill (L "[ " ++ t ++ L " ]")) name bright.

(** result.py 113-186: the colours of outcomes *)
Inductive outcome := None_ | Pass | Fail | Skip | Not_supported | Not_implemented | Undecided | Crash.
Definition color_ansi (o : outcome) : text :=
  match o with
  | None_ => []
  | Pass => code "32;1"
  | Fail => code "31;1"
  | Skip => code "33;1"
  | Not_supported => code "33;1"
  | Not_implemented => code "31;1"
  | Undecided => code "35;1"
  | Crash => code "41;37;1"
  end.
(** color.py 147-149 result, [label] being result.tr_outcome() *)
Definition result (on : bool) (label : text) (o : outcome) : text := custom on label (color_ansi o).
