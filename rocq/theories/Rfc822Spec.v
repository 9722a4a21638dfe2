(** What loading and dumping RFC822-like records should mean, without the
    machinery of the loader. *)
From Coq Require Import Ascii List Bool Arith.
From Verif Require Import ScanModel Rfc822Model.
Import ListNotations.
Open Scope list_scope.

(** Lines of white space only, comment lines and continuation lines. *)
Definition blank (l : text) : bool := forallb isspace l.
Definition comment (l : text) : bool := starts_with HASH l.
Definition continues (l : text) : bool := starts_with SP l.

(** The maximal runs of non-blank lines. *)
Fixpoint split_blank (ls : list text) : list (list text) :=
  match ls with
  | [] => [[]]
  | l :: r =>
      if blank l then [] :: split_blank r
      else match split_blank r with
           | [] => [[l]]
           | b :: bs => (l :: b) :: bs
           end
  end.
Definition nonempty {A} (l : list A) : bool := match l with [] => false | _ => true end.
Definition blocks (ls : list text) : list (list text) := filter nonempty (split_blank ls).

(** The text of a value: what follows the colon, unless it is blank, and then the
    continuation lines without their first space. *)
Definition raw_value (first : text) (conts : list text) : text :=
  (if blank first then [] else lstrip first) ++ concat conts.

(** The fields of a block: every continuation line belongs to the nearest
    [key: value] line above it.  The first component collects continuation lines
    that have no such line yet. *)
Fixpoint group (ls : list text) : option (list text * list (text * text)) :=
  match ls with
  | [] => Some ([], [])
  | l :: r =>
      match group r with
      | None => None
      | Some (conts, fields) =>
          if continues l then Some (tl l :: conts, fields)
          else match split_colon l with
               | Some (k, first) => Some ([], (strip k, normalize (raw_value first conts)) :: fields)
               | None => None
               end
      end
  end.

Fixpoint nodupb (ks : list text) : bool :=
  match ks with
  | [] => true
  | k :: r => (negb (existsb (text_eqb k) r) && nodupb r)%bool
  end.

(** A block is a record if it has no stray line and no key twice. *)
Definition parse_block (ls : list text) : option (list (text * text)) :=
  match group ls with
  | Some ([], fields) => if nodupb (map fst fields) then Some fields else None
  | _ => None
  end.

Fixpoint sequence {A} (l : list (option A)) : option (list A) :=
  match l with
  | [] => Some []
  | None :: _ => None
  | Some x :: r => match sequence r with Some xs => Some (x :: xs) | None => None end
  end.

(** The fields of the records of a text; None if the text is not well formed. *)
Definition meaning (lines : list text) : option (list (list (text * text))) :=
  sequence (map parse_block (blocks (filter (fun l => negb (comment l)) lines))).

(** The fields of what was loaded. *)
Definition fields_of (r : list record + error) : option (list (list (text * text))) :=
  match r with inl rs => Some (map r_data rs) | inr _ => None end.

(** Records that are the same text further down: all line numbers shifted. *)
Definition shift (n : nat) (r : record) : record :=
  mk_record (r_data r) (r_raw r) (r_offsets r)
            (option_map (Nat.add n) (r_start r)) (option_map (Nat.add n) (r_end r)).
Definition shift_error (n : nat) (e : error) : error :=
  match e with SyntaxErr k p => SyntaxErr (n + k) p | e => e end.

(** Keys and values that survive dumping and loading. *)
Definition good_key (k : text) : Prop :=
  strip k = k /\ ~ In COLON k /\ ~ In NL k /\ comment k = false.
Definition dot_line (l : text) : Prop := exists w, blank w = true /\ l = w ++ [DOT].
Definition good_value (v : text) : Prop :=
  strip v = v /\
  (In NL v ->
   forall l, In l (split_nl v) -> (l = [] \/ blank l = false) /\ ~ dot_line l).
Definition good_record (d : list (text * text)) : Prop :=
  d <> [] /\ NoDup (map fst d) /\
  Forall (fun kv => good_key (fst kv) /\ good_value (snd kv)) d.

Definition as_values (d : list (text * text)) : list (text * value) :=
  map (fun kv => (fst kv, VText (snd kv))) d.

(** No character other than NL ends a line. *)
Definition plain_breaks (t : text) : Prop := forall c, In c t -> is_break c = true -> c = NL.

(** Where a record says that it comes from: lines [st] to [en] without a blank
    line among them, and every field at its offset, or one line above it when
    nothing follows the colon. *)
Definition line_at (lines : list text) (i : nat) : text := nth (i - 1) lines [].
Definition field_at (lines : list text) (st en : nat) (k : text) (off : nat) : Prop :=
  exists i k0 v0, st <= i <= en /\
    comment (line_at lines i) = false /\ continues (line_at lines i) = false /\
    split_colon (line_at lines i) = Some (k0, v0) /\ strip k0 = k /\
    off = i - st + (if blank v0 then 1 else 0).
Definition origin_right (lines : list text) (r : record) : Prop :=
  exists st en, r_start r = Some st /\ r_end r = Some en /\
    1 <= st <= en /\ en <= length lines /\
    (forall i, st <= i <= en -> blank (line_at lines i) = false) /\
    map fst (r_offsets r) = map fst (r_data r) /\
    forall k off, In (k, off) (r_offsets r) -> field_at lines st en k off.
Definition before (a b : record) : Prop :=
  exists e s, r_end a = Some e /\ r_start b = Some s /\ e < s.
