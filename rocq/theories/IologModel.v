(** * IO log files (/repo/plainbox/impl/result.py:499-557)

    The gzip and text layers under the writer and reader are not modelled: a file
    is its text.  The base64 functions are those of the standard library
    (binascii), modelled concretely because the log format depends on them. *)

From Coq Require Import Ascii String List Bool Arith.
From Verif Require Import ScanModel Rfc822Model JsonModel.
Import ListNotations.
Local Open Scope nat_scope.
Local Open Scope list_scope.

Definition bytes := list ascii.

(** ** Base64 *)

(** The character for a number below 64: A-Z a-z 0-9 + / *)
Definition b64char (n : nat) : ascii :=
  if n <? 26 then ch (65 + n)
  else if n <? 52 then ch (71 + n)
  else if n <? 62 then ch (n - 4)
  else if n =? 62 then ch 43
  else ch 47.

(** The number for a character of the alphabet. *)
Definition b64value (c : ascii) : option nat :=
  let n := nat_of_ascii c in
  if (65 <=? n) && (n <=? 90) then Some (n - 65)
  else if (97 <=? n) && (n <=? 122) then Some (n - 71)
  else if (48 <=? n) && (n <=? 57) then Some (n + 4)
  else if n =? 43 then Some 62
  else if n =? 47 then Some 63
  else None.

(** base64.standard_b64encode (called at 514) *)
Fixpoint b64encode (data : bytes) : text :=
  match data with
  | [] => []
  | [a] =>
      let a := nat_of_ascii a in
      [b64char (a / 4); b64char (a mod 4 * 16); ch 61; ch 61]
  | [a; b] =>
      let a := nat_of_ascii a in let b := nat_of_ascii b in
      [b64char (a / 4); b64char (a mod 4 * 16 + b / 16); b64char (b mod 16 * 4); ch 61]
  | a :: b :: c :: r =>
      let a := nat_of_ascii a in let b := nat_of_ascii b in let c := nat_of_ascii c in
      b64char (a / 4) :: b64char (a mod 4 * 16 + b / 16) ::
      b64char (b mod 16 * 4 + c / 64) :: b64char (c mod 64) :: b64encode r
  end.

(** base64.standard_b64decode (called at 547), as binascii.a2b_base64 does it:
    characters outside the alphabet are skipped, padding ends the data once a
    group is complete, None stands for binascii.Error (a ValueError).  [quad] is
    the position in the group of four, [left] the bits left over, [pads] the
    number of padding characters seen in a row. *)
Fixpoint b64scan (quad left pads : nat) (t : text) : option bytes :=
  match t with
  | [] => if quad =? 0 then Some [] else None
  | c :: t' =>
      if nat_of_ascii c =? 61 then
        if (2 <=? quad) && (4 <=? quad + S pads) then Some []
        else if 2 <=? quad then b64scan quad left (S pads) t'
        else b64scan quad left pads t'
      else
        match b64value c with
        | None => b64scan quad left pads t'
        | Some v =>
            let out n rest := option_map (cons (ch n)) rest in
            match quad with
            | 0 => b64scan 1 v 0 t'
            | 1 => out (left * 4 + v / 16) (b64scan 2 (v mod 16) 0 t')
            | 2 => out (left * 16 + v / 4) (b64scan 3 (v mod 4) 0 t')
            | _ => out (left * 64 + v) (b64scan 0 0 0 t')
            end
        end
  end.
Definition b64decode (t : text) : option bytes := b64scan 0 0 0 t.

(** ** Records *)

(** IOLogRecord, 459-476: a named tuple, its fields are not checked.  The delay is
    a number and the stream name a string, but any JSON value can be stored. *)
Record iorecord : Type := mk_iorecord {
  io_delay : json;
  io_stream : json;
  io_data : bytes
}.

(** IOLogRecordWriter.write_record, 507-520 *)
Definition write_record (r : iorecord) : text :=
  dumps (JList [io_delay r; io_stream r; JStr (b64encode (io_data r))]) ++ [NL].

(** The text of the file after some records were written, one after the other. *)
Definition write_log (rs : list iorecord) : text := concat (map write_record rs).

(** data.encode("ASCII"), 547: UnicodeEncodeError for other characters *)
Definition encode_ascii (t : text) : option bytes :=
  if forallb (fun c => nat_of_ascii c <? 128) t then Some t else None.

(** The rest of read_record for a line that is not empty, 544-547.  None stands for
    the exception that ends the iteration (ValueError of json.loads or of the
    base64 decoder, IndexError, KeyError, TypeError, AttributeError). *)
Definition parse_record (line : text) : option iorecord :=
  let finish d s b :=
    match encode_ascii b with
    | Some b =>
        match b64decode b with
        | Some data => Some (mk_iorecord d s data)
        | None => None
        end
    | None => None
    end in
  match loads line with
  | Some (JList (d :: s :: JStr b :: _)) => finish d s b
  | Some (JStr (x :: y :: z :: _)) => finish (JStr [x]) (JStr [y]) [z]
  | _ => None
  end.

(** IOLogRecordReader.__iter__ and read_record, 536-557: the records of a stream
    and whether the iteration came to its end (or raised an exception).  readline
    gives the next line, or nothing at the end of the file. *)
Fixpoint read_lines (ls : list text) : list iorecord * bool :=
  match ls with
  | [] => ([], true)
  | l :: ls' =>
      match parse_record l with
      | Some r => let (rs, e) := read_lines ls' in (r :: rs, e)
      | None => ([], false)
      end
  end.
Definition read_log (file : text) : list iorecord * bool := read_lines (stream_lines file).
