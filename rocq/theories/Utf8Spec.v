(** UTF-8 as the Unicode standard has it, and what a user expects to see of the output
    of a job. *)
From Coq Require Import String Ascii List Bool Arith NArith.
From Verif Require Import ScanModel Rfc822Model JsonModel IologModel.
Import ListNotations.
Local Open Scope N_scope.
Local Open Scope list_scope.

(** Unicode scalar values (table 3-6) *)
Definition scalar (c : N) : Prop := c < 55296 \/ 57343 < c < 1114112.
Definition b (n : N) : ascii := ascii_of_N n.
Definition utf8 (c : N) : bytes :=
  if c <? 128 then [b c]
  else if c <? 2048 then [b (192 + c / 64); b (128 + c mod 64)]
  else if c <? 65536 then [b (224 + c / 4096); b (128 + (c / 64) mod 64); b (128 + c mod 64)]
  else [b (240 + c / 262144); b (128 + (c / 4096) mod 64); b (128 + (c / 64) mod 64); b (128 + c mod 64)].
Definition utf8_text (t : list N) : bytes := concat (map utf8 t).

(** Some character starts with these bytes. *)
Definition starts (s : bytes) : Prop := exists c r, scalar c /\ utf8 c = s ++ r.

(** [x] is what one replacement character stands for when the bytes [x ++ r] do not
    start with a character: the longest beginning that could have become one
    (maximal subpart of an ill-formed subsequence, section 3.9), or one byte. *)
Definition ill_formed (x r : bytes) : Prop :=
  (forall c r', scalar c -> x ++ r <> utf8 c ++ r') /\
  ((x <> [] /\ starts x /\ forall y z, x ++ r = y ++ z -> (length x < length y)%nat -> ~ starts y) \/
   (length x = 1%nat /\ ~ starts x)).

(** Reading bytes as text. *)
Inductive reads : bytes -> list N -> Prop :=
| reads_nil : reads [] []
| reads_char c r t : scalar c -> reads r t -> reads (utf8 c ++ r) (c :: t)
| reads_bad x r t : ill_formed x r -> reads r t -> reads (x ++ r) (65533 :: t).

(** The characters that are left out: C0 and C1 controls and DEL, but not tab, newline,
    vertical tab and carriage return. *)
Definition dropped (c : N) : Prop :=
  (c < 32 \/ 127 <= c < 160) /\ ~ In c [9; 10; 11; 13].
(** [u] is [t] without them. *)
Inductive without_controls : list N -> list N -> Prop :=
| wc_nil : without_controls [] []
| wc_drop c t u : dropped c -> without_controls t u -> without_controls (c :: t) u
| wc_keep c t u : ~ dropped c -> without_controls t u -> without_controls (c :: t) (c :: u).
