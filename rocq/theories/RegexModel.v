(** * Regular expressions, as far as patterns in /repo use them: classes of characters,
    sequences, alternatives and repetition.

    The answer of re.match is whether some beginning of the text matches; which one is
    found does not matter for validators.  It is computed with derivatives. *)
From Coq Require Import String Ascii List Bool Arith.
From Verif Require Import ScanModel Rfc822Model.
Import ListNotations.
Local Open Scope nat_scope.
Local Open Scope list_scope.

Inductive re := REmpty | REps | RChr (p : ascii -> bool) | RCat (a b : re) | RAlt (a b : re) | RStar (a : re).

Fixpoint nullable (r : re) : bool :=
  match r with
  | REmpty | RChr _ => false
  | REps | RStar _ => true
  | RCat a b => nullable a && nullable b
  | RAlt a b => nullable a || nullable b
  end.
Definition cat (a b : re) : re :=
  match a, b with REmpty, _ => REmpty | _, REmpty => REmpty | REps, _ => b | _, _ => RCat a b end.
Definition alt (a b : re) : re := match a, b with REmpty, _ => b | _, REmpty => a | _, _ => RAlt a b end.
Fixpoint der (c : ascii) (r : re) : re :=
  match r with
  | REmpty | REps => REmpty
  | RChr p => if p c then REps else REmpty
  | RCat a b => if nullable a then alt (cat (der c a) b) (der c b) else cat (der c a) b
  | RAlt a b => alt (der c a) (der c b)
  | RStar a => cat (der c a) (RStar a)
  end.

(** re.match(r, t): some beginning *)
Fixpoint match_start (r : re) (t : text) : bool :=
  nullable r || match t with [] => false | c :: t' => match_start (der c r) t' end.
(** re.match(r + '$', t): all of it, or all but a line feed at the end *)
Fixpoint match_end (r : re) (t : text) : bool :=
  match t with
  | [] => nullable r
  | c :: t' => (nullable r && Ascii.eqb c NL && match t' with [] => true | _ => false end) || match_end (der c r) t'
  end.

(** Abbreviations *)
Definition RPlus (a : re) : re := RCat a (RStar a).
Definition ROpt (a : re) : re := RAlt REps a.
Definition chr (c : ascii) : re := RChr (Ascii.eqb c).
Definition is_in (l : list ascii) (c : ascii) : bool := existsb (Ascii.eqb c) l.
Fixpoint seq (l : list re) : re := match l with [] => REps | [r] => r | r :: l' => RCat r (seq l') end.
Fixpoint alts (l : list re) : re := match l with [] => REmpty | [r] => r | r :: l' => RAlt r (alts l') end.
Definition word (s : string) : re := seq (map chr (list_ascii_of_string s)).
