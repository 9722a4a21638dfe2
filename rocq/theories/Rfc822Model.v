(** RFC822-like records: plainbox/impl/secure/rfc822.py.

    Texts are lists of characters below 256 (as in ScanModel).  A stream is the
    list of its lines, each with its line terminator. *)
From Coq Require Import Ascii List Bool Arith.
From Verif Require Import ScanModel.
Import ListNotations.
Open Scope char_scope.
Open Scope list_scope.

Definition CR : ascii := "013".
Definition SP : ascii := " ".
Definition COLON : ascii := ":".
Definition DOT : ascii := ".".
Definition HASH : ascii := "#".
Definition TAB : ascii := "009".

(** ** Library functions that the code uses *)

(** str.lstrip, str.rstrip and str.strip without arguments *)
Fixpoint lstrip (t : text) : text :=
  match t with
  | [] => []
  | c :: r => if isspace c then lstrip r else t
  end.
Definition rstrip (t : text) : text := rev (lstrip (rev t)).
Definition strip (t : text) : text := rstrip (lstrip t).

(** t.split(NL): never empty *)
Fixpoint split_nl (t : text) : list text :=
  match t with
  | [] => [[]]
  | c :: r =>
      if Ascii.eqb c NL then [] :: split_nl r
      else match split_nl r with
           | [] => [[c]]
           | l :: ls => (c :: l) :: ls
           end
  end.
Fixpoint join_nl (ls : list text) : text :=
  match ls with
  | [] => []
  | [l] => l
  | l :: r => l ++ NL :: join_nl r
  end.

(** t.count(NL) *)
Definition count_nl (t : text) : nat := count_occ ascii_dec t NL.

(** The lines of a text stream with Unix line endings. *)
Fixpoint stream_lines_aux (acc : text) (t : text) : list text :=
  match t with
  | [] => match acc with [] => [] | _ => [rev acc] end
  | c :: r =>
      if Ascii.eqb c NL then rev (c :: acc) :: stream_lines_aux [] r
      else stream_lines_aux (c :: acc) r
  end.
Definition stream_lines := stream_lines_aux [].

(** str.splitlines(True), 331: all line boundaries below 256 *)
Definition is_break (c : ascii) : bool :=
  let n := nat_of_ascii c in
  (Nat.leb 10 n && Nat.leb n 13 || Nat.leb 28 n && Nat.leb n 30 || Nat.eqb n 133)%bool.
Fixpoint splitlines_aux (acc : text) (t : text) : list text :=
  match t with
  | [] => match acc with [] => [] | _ => [rev acc] end
  | c :: r =>
      if is_break c then
        match r with
        | d :: r' =>
            if (Ascii.eqb c CR && Ascii.eqb d NL)%bool
            then rev (d :: c :: acc) :: splitlines_aux [] r'
            else rev (c :: acc) :: splitlines_aux [] r
        | [] => [rev (c :: acc)]
        end
      else splitlines_aux (c :: acc) r
  end.
Definition splitlines := splitlines_aux [].

(** textwrap.dedent, on the lines of the text *)
Definition isblank (c : ascii) : bool := (Ascii.eqb c SP || Ascii.eqb c TAB)%bool.
Fixpoint leading (t : text) : text :=
  match t with
  | [] => []
  | c :: r => if isblank c then c :: leading r else []
  end.
Fixpoint common_prefix (a b : text) : text :=
  match a, b with
  | x :: a', y :: b' => if Ascii.eqb x y then x :: common_prefix a' b' else []
  | _, _ => []
  end.
Fixpoint drop_prefix (p t : text) : option text :=
  match p, t with
  | [], _ => Some t
  | x :: p', y :: t' => if Ascii.eqb x y then drop_prefix p' t' else None
  | _ :: _, [] => None
  end.
Definition margin (ls : list text) : option text :=
  fold_left (fun m l =>
    match l with
    | [] => m
    | _ => match m with None => Some (leading l) | Some m => Some (common_prefix m (leading l)) end
    end) ls None.
Definition dedent_lines (ls : list text) : list text :=
  let ls := map (fun l => if forallb isblank l then [] else l) ls in
  match margin ls with
  | Some (c :: m) => map (fun l => match drop_prefix (c :: m) l with Some r => r | None => l end) ls
  | _ => ls
  end.

(** ** The module *)

(** 49: re.sub on a text that has no NL, with the pattern that matches
    white space and one dot; since the pattern is anchored at both ends of a line
    and white space may include NL, substituting in the whole text is the same
    as substituting in each line. *)
Definition undot (l : text) : text :=
  match rev l with
  | c :: r => if (Ascii.eqb c DOT && forallb isspace r)%bool then rev r else l
  | [] => l
  end.

(** 44-54 normalize_rfc822_value *)
Definition normalize (v : text) : text :=
  if Nat.ltb 1 (count_nl v)
  then strip (join_nl (dedent_lines (map undot (split_nl v))))
  else strip v.

(** Dictionaries from texts to anything, in insertion order. *)
Definition text_eqb (a b : text) : bool := if list_eq_dec ascii_dec a b then true else false.
Fixpoint tget {A} (k : text) (d : list (text * A)) : option A :=
  match d with
  | [] => None
  | (k', v) :: r => if text_eqb k k' then Some v else tget k r
  end.
Fixpoint tset {A} (k : text) (v : A) (d : list (text * A)) : list (text * A) :=
  match d with
  | [] => [(k, v)]
  | (k', v') :: r => if text_eqb k k' then (k', v) :: r else (k', v') :: tset k v r
  end.

(** 57-109 RFC822Record, with the line numbers of its origin *)
Record record := mk_record {
  r_data : list (text * text);
  r_raw : list (text * text);
  r_offsets : list (text * nat);
  r_start : option nat;
  r_end : option nat }.

(** Values of a record to be dumped: a text or a sequence of texts. *)
Inductive value := VText (t : text) | VList (l : list text).

(** 160-168 _dump_part *)
Definition dump_line (v : text) : text :=
  match v with
  | [] => [SP; DOT; NL]
  | _ => if text_eqb v [DOT] then [SP; DOT; DOT; NL] else SP :: v ++ [NL]
  end.
Definition dump_part (k : text) (vs : list text) : text :=
  k ++ [COLON; NL] ++ concat (map dump_line vs).
(** 169-178 *)
Definition dump_field (k : text) (v : value) : text :=
  match v with
  | VList l => dump_part k l
  | VText t =>
      if existsb (Ascii.eqb NL) t then
        let vs := split_nl t in
        dump_part k (match last vs [] with [] => removelast vs | _ => vs end)
      else k ++ [COLON; SP] ++ t ++ [NL]
  end.
(** 156-179 dump *)
Definition dump (d : list (text * value)) : text :=
  concat (map (fun kv => dump_field (fst kv) (snd kv)) d) ++ [NL].

(** What goes wrong: RFC822SyntaxError with its line number, or an exception
    that is a bug of the parser itself (TypeError 395/405, KeyError 387). *)
Inductive problem := UnexpectedMultiLine | DuplicateKey (k old new : text) | UnexpectedLine.
Inductive error := SyntaxErr (lineno : nat) (p : problem) | TypeErr | KeyErr.

(** The local variables of gen_rfc822_records. *)
Record state := mk_state {
  s_rec : record;
  s_key : option text;
  s_values : list text }.

(** 286-300 _new_record *)
Definition new_record : record := mk_record [] [] [] None None.
Definition new_state : state := mk_state new_record None [].

(** 302-313 _commit_key_value_if_needed *)
Definition commit (s : state) : state :=
  match s_key s with
  | None => s
  | Some k =>
      let raw := concat (s_values s) in
      let r := s_rec s in
      mk_state (mk_record (tset k (normalize raw) (r_data r)) (tset k raw (r_raw r))
                          (r_offsets r) (r_start r) (r_end r))
               None (s_values s)
  end.

(** 315-327 *)
Definition set_start (n : nat) (s : state) : state :=
  let r := s_rec s in
  mk_state (mk_record (r_data r) (r_raw r) (r_offsets r)
              (match r_start r with None => Some n | x => x end) (r_end r)) (s_key s) (s_values s).
Definition set_end (n : nat) (s : state) : state :=
  let r := s_rec s in
  mk_state (mk_record (r_data r) (r_raw r) (r_offsets r) (r_start r) (Some n)) (s_key s) (s_values s).
Definition set_offset (k : text) (n : nat) (s : state) : state :=
  let r := s_rec s in
  mk_state (mk_record (r_data r) (r_raw r) (tset k n (r_offsets r)) (r_start r) (r_end r)) (s_key s) (s_values s).

(** line.split(COLON, 1), 378 *)
Fixpoint split_colon (l : text) : option (text * text) :=
  match l with
  | [] => None
  | c :: r =>
      if Ascii.eqb c COLON then Some ([], r)
      else match split_colon r with Some (a, b) => Some (c :: a, b) | None => None end
  end.

Definition starts_with (c : ascii) (l : text) : bool :=
  match l with d :: _ => Ascii.eqb c d | [] => false end.

(** 334-413, one line: the new state and the record that is yielded *)
Definition step (n : nat) (line : text) (s : state) : state * option record + error :=
  if starts_with HASH line then inl (s, None)
  else match strip line with
  | [] =>
      let s := commit s in
      inl (new_state, match r_data (s_rec s) with [] => None | _ => Some (s_rec s) end)
  | _ =>
      if starts_with SP line then
        match s_key s with
        | None => inr (SyntaxErr n UnexpectedMultiLine)
        | Some _ =>
            inl (set_end n (mk_state (s_rec s) (s_key s) (s_values s ++ [tl line])), None)
        end
      else match split_colon line with
      | Some (k, v) =>
          let s := commit (set_start n s) in
          let k := strip k in
          let v := lstrip v in
          match tget k (r_data (s_rec s)) with
          | Some _ =>
              match tget k (r_raw (s_rec s)) with
              | None => inr KeyErr
              | Some old => inr (SyntaxErr n (DuplicateKey k old v))
              end
          | None =>
              match r_start (s_rec s) with
              | None => inr TypeErr
              | Some start =>
                  match strip v with
                  | [] => inl (set_end n (set_offset k (n - start + 1) (mk_state (s_rec s) (Some k) [])), None)
                  | _ => inl (set_end n (set_offset k (n - start) (mk_state (s_rec s) (Some k) [v])), None)
                  end
              end
          end
      | None => inr (SyntaxErr n UnexpectedLine)
      end
  end.

(** 334-420: the loop from line number [n] on, and the last record *)
Fixpoint gen (n : nat) (lines : list text) (s : state) : list record + error :=
  match lines with
  | [] =>
      let s := commit s in
      inl (match r_data (s_rec s) with [] => [] | _ => [s_rec s] end)
  | line :: rest =>
      match step n line s with
      | inr e => inr e
      | inl (s', y) =>
          match gen (S n) rest s' with
          | inr e => inr e
          | inl rs => inl (match y with Some r => r :: rs | None => rs end)
          end
      end
  end.

(** 211-237 load_rfc822_records for a stream and for a string (328-332) *)
Definition load (lines : list text) : list record + error := gen 1 lines new_state.
Definition load_stream (t : text) : list record + error := load (stream_lines t).
Definition load_string (t : text) : list record + error := load (splitlines t).
