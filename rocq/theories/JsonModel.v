(** * JSON text as written by json.dumps(separators=(",", ":")) and read back
    by json.loads

    The standard library's json module is not part of /repo, but two pieces of
    the code are only as good as its text format: the IO log
    (/repo/plainbox/impl/result.py:499-557) and the unit checksum
    (/repo/plainbox/impl/unit/unit.py:810-847).  Both call json.dumps with the
    minimal separators and the default ensure_ascii=True.  The encoder below is
    that format, the decoder accepts it (and also the blanks JSON allows between
    the tokens).

    Simplifications: a character is a byte (code points above 255 are not
    represented, so surrogate pairs do not occur); a number is the text of the
    number (repr of a float or an int), kept as text by the decoder; NaN and
    Infinity are not numbers. *)

From Coq Require Import Ascii String List Bool Arith Lia.
From Verif Require Import ScanModel Rfc822Model.
Import ListNotations.
Local Open Scope nat_scope.
Local Open Scope list_scope.

(** The values json.dumps accepts: None, bool, int or float, str, list and dict
    (with its items in the order of iteration). *)
Inductive json : Type :=
| JNull : json
| JBool : bool -> json
| JNum : text -> json
| JStr : text -> json
| JList : list json -> json
| JObj : list (text * json) -> json.

Definition ch (n : nat) : ascii := ascii_of_nat n.

(** The lower case hexadecimal digit of a number below 16. *)
Definition hexdigit (n : nat) : ascii :=
  if n <? 10 then ch (48 + n) else ch (87 + n).

(** What json's ESCAPE_ASCII and ESCAPE_DCT make of one character (result.py:516
    and unit.py:832 use the default ensure_ascii=True): the two special
    characters and everything outside the range space to tilde are escaped. *)
Definition escape_char (c : ascii) : text :=
  let n := nat_of_ascii c in
  if n =? 34 then [ch 92; ch 34]
  else if n =? 92 then [ch 92; ch 92]
  else if n =? 10 then [ch 92; ch 110]
  else if n =? 13 then [ch 92; ch 114]
  else if n =? 9 then [ch 92; ch 116]
  else if n =? 12 then [ch 92; ch 102]
  else if n =? 8 then [ch 92; ch 98]
  else if (32 <=? n) && (n <=? 126) then [c]
  else [ch 92; ch 117; ch 48; ch 48; hexdigit (n / 16); hexdigit (n mod 16)].

(** A JSON string, with its quotes. *)
Definition dump_string (s : text) : text :=
  ch 34 :: flat_map escape_char s ++ [ch 34].

Definition t_null : text := list_ascii_of_string "null".
Definition t_true : text := list_ascii_of_string "true".
Definition t_false : text := list_ascii_of_string "false".

(** json.dumps(v, indent=None, separators=(',', ':')). *)
Fixpoint dumps (v : json) : text :=
  match v with
  | JNull => t_null
  | JBool true => t_true
  | JBool false => t_false
  | JNum tok => tok
  | JStr s => dump_string s
  | JList l =>
      ch 91 ::
      match l with
      | [] => []
      | v0 :: l0 =>
          dumps v0 ++
          (fix go (l : list json) : text :=
             match l with
             | [] => []
             | v :: l => ch 44 :: dumps v ++ go l
             end) l0
      end ++ [ch 93]
  | JObj l =>
      ch 123 ::
      match l with
      | [] => []
      | (k0, v0) :: l0 =>
          dump_string k0 ++ ch 58 :: dumps v0 ++
          (fix go (l : list (text * json)) : text :=
             match l with
             | [] => []
             | (k, v) :: l => ch 44 :: dump_string k ++ ch 58 :: dumps v ++ go l
             end) l0
      end ++ [ch 125]
  end.

(** Characters numbers are made of. *)
Definition numchar (c : ascii) : bool :=
  let n := nat_of_ascii c in
  ((48 <=? n) && (n <=? 57)) ||
  (n =? 43) || (n =? 45) || (n =? 46) || (n =? 69) || (n =? 101).

(** Blanks between tokens: space, tab, newline, carriage return. *)
Definition jblank (c : ascii) : bool :=
  let n := nat_of_ascii c in
  (n =? 32) || (n =? 9) || (n =? 10) || (n =? 13).

Fixpoint skip (t : text) : text :=
  match t with
  | c :: t' => if jblank c then skip t' else t
  | [] => []
  end.

(** The value of a hexadecimal digit. *)
Definition unhex (c : ascii) : option nat :=
  let n := nat_of_ascii c in
  if (48 <=? n) && (n <=? 57) then Some (n - 48)
  else if (97 <=? n) && (n <=? 102) then Some (n - 87)
  else if (65 <=? n) && (n <=? 70) then Some (n - 55)
  else None.

Definition unhex4 (a b c d : ascii) : option nat :=
  match unhex a, unhex b, unhex c, unhex d with
  | Some w, Some x, Some y, Some z => Some (((w * 16 + x) * 16 + y) * 16 + z)
  | _, _, _, _ => None
  end.

(** The rest of a string after the opening quote: the characters and what comes
    after the closing quote.  Control characters inside a string are an error, as
    in json's strict mode. *)
Fixpoint parse_chars (t : text) : option (text * text) :=
  match t with
  | [] => None
  | c :: t1 =>
      let n := nat_of_ascii c in
      if n =? 34 then Some ([], t1)
      else if n =? 92 then
        match t1 with
        | [] => None
        | e :: t2 =>
            let one x :=
              match parse_chars t2 with
              | Some (s, r) => Some (ch x :: s, r)
              | None => None
              end in
            let m := nat_of_ascii e in
            if m =? 34 then one 34
            else if m =? 92 then one 92
            else if m =? 47 then one 47
            else if m =? 110 then one 10
            else if m =? 114 then one 13
            else if m =? 116 then one 9
            else if m =? 102 then one 12
            else if m =? 98 then one 8
            else if m =? 117 then
              match t2 with
              | h1 :: h2 :: h3 :: h4 :: t3 =>
                  match unhex4 h1 h2 h3 h4 with
                  | Some x =>
                      if x <? 256 then
                        match parse_chars t3 with
                        | Some (s, r) => Some (ch x :: s, r)
                        | None => None
                        end
                      else None
                  | None => None
                  end
              | _ => None
              end
            else None
        end
      else if n <? 32 then None
      else
        match parse_chars t1 with
        | Some (s, r) => Some (c :: s, r)
        | None => None
        end
  end.

(** A string with its opening quote, blanks before it allowed. *)
Definition parse_string (t : text) : option (text * text) :=
  match skip t with
  | c :: t' => if nat_of_ascii c =? 34 then parse_chars t' else None
  | [] => None
  end.

(** The longest run of number characters. *)
Fixpoint number (t : text) : text * text :=
  match t with
  | c :: t' =>
      if numchar c then let (a, b) := number t' in (c :: a, b) else ([], t)
  | [] => ([], [])
  end.

(** A literal word. *)
Fixpoint literal (w : text) (v : json) (t : text) : option (json * text) :=
  match w, t with
  | [], _ => Some (v, t)
  | c :: w', d :: t' => if Ascii.eqb c d then literal w' v t' else None
  | _, [] => None
  end.

(** One value, the items of a list, the items of an object.  The fuel is an upper
    bound for the number of characters. *)
Fixpoint parse_value (fuel : nat) (t : text) {struct fuel} : option (json * text) :=
  match fuel with
  | O => None
  | S f =>
      match skip t with
      | [] => None
      | c :: t1 =>
          let n := nat_of_ascii c in
          if n =? 34 then
            match parse_chars t1 with
            | Some (s, r) => Some (JStr s, r)
            | None => None
            end
          else if n =? 91 then
            match skip t1 with
            | d :: t2 =>
                if nat_of_ascii d =? 93 then Some (JList [], t2)
                else
                  match parse_items f t1 with
                  | Some (l, r) => Some (JList l, r)
                  | None => None
                  end
            | [] => None
            end
          else if n =? 123 then
            match skip t1 with
            | d :: t2 =>
                if nat_of_ascii d =? 125 then Some (JObj [], t2)
                else
                  match parse_fields f t1 with
                  | Some (l, r) => Some (JObj l, r)
                  | None => None
                  end
            | [] => None
            end
          else if n =? 110 then literal t_null JNull (c :: t1)
          else if n =? 116 then literal t_true (JBool true) (c :: t1)
          else if n =? 102 then literal t_false (JBool false) (c :: t1)
          else if numchar c then
            let (tok, r) := number (c :: t1) in Some (JNum tok, r)
          else None
      end
  end
with parse_items (fuel : nat) (t : text) {struct fuel} : option (list json * text) :=
  match fuel with
  | O => None
  | S f =>
      match parse_value f t with
      | Some (v, r) =>
          match skip r with
          | d :: r1 =>
              if nat_of_ascii d =? 93 then Some ([v], r1)
              else if nat_of_ascii d =? 44 then
                match parse_items f r1 with
                | Some (l, r2) => Some (v :: l, r2)
                | None => None
                end
              else None
          | [] => None
          end
      | None => None
      end
  end
with parse_fields (fuel : nat) (t : text) {struct fuel}
  : option (list (text * json) * text) :=
  match fuel with
  | O => None
  | S f =>
      match parse_string t with
      | Some (k, r0) =>
          match skip r0 with
          | e :: r1 =>
              if nat_of_ascii e =? 58 then
                match parse_value f r1 with
                | Some (v, r2) =>
                    match skip r2 with
                    | d :: r3 =>
                        if nat_of_ascii d =? 125 then Some ([(k, v)], r3)
                        else if nat_of_ascii d =? 44 then
                          match parse_fields f r3 with
                          | Some (l, r4) => Some ((k, v) :: l, r4)
                          | None => None
                          end
                        else None
                    | [] => None
                    end
                | None => None
                end
              else None
          | [] => None
          end
      | None => None
      end
  end.

(** json.loads: one value with nothing but blanks after it; None stands for the
    ValueError json.loads raises. *)
Definition loads (t : text) : option json :=
  match parse_value (S (length t)) t with
  | Some (v, r) => match skip r with [] => Some v | _ => None end
  | None => None
  end.

(** The values with proper number texts (what repr of a float or int gives: not
    empty and only made of number characters). *)
Definition good_number (tok : text) : Prop :=
  tok <> [] /\ forallb numchar tok = true.

Inductive good : json -> Prop :=
| good_null : good JNull
| good_bool : forall b, good (JBool b)
| good_num : forall tok, good_number tok -> good (JNum tok)
| good_str : forall s, good (JStr s)
| good_list : forall l, (forall v, In v l -> good v) -> good (JList l)
| good_obj : forall l, (forall k v, In (k, v) l -> good v) -> good (JObj l).
