(** * The text of a log: /repo/plainbox/impl/result.py 373-437

    Characters of texts are code points here. *)
From Coq Require Import String Ascii List Bool Arith NArith.
From Verif Require Import ScanModel Rfc822Model JsonModel IologModel IniModel ExportModel.
Import ListNotations.
Local Open Scope N_scope.
Local Open Scope list_scope.

Definition ustr := list N.

(** ** CPython's incremental UTF-8 decoder
    (Objects/stringlib/codecs.h utf8_decode, Lib/codecs.py BufferedIncrementalDecoder, iterdecode) *)

(** What the next bytes are: a character of n bytes, an error of n bytes, or the
    beginning of a character. *)
Inductive head := HChar (c : N) (n : nat) | HBad (n : nat) | HMore.

Definition continuation (c : N) : bool := (128 <=? c) && (c <=? 191).
(** whether the second byte can follow E0..EF and F0..F4 *)
Definition second3 (c1 c2 : N) : bool :=
  continuation c2 && negb (if c2 <? 160 then c1 =? 224 else c1 =? 237).
Definition second4 (c1 c2 : N) : bool :=
  continuation c2 && negb (if c2 <? 144 then c1 =? 240 else c1 =? 244).

Definition next (s : bytes) : head :=
  match s with
  | [] => HMore
  | b1 :: r1 =>
      let c1 := N_of_ascii b1 in
      if c1 <? 128 then HChar c1 1
      else if c1 <? 194 then HBad 1
      else if c1 <? 224 then
        match r1 with
        | [] => HMore
        | b2 :: _ =>
            let c2 := N_of_ascii b2 in
            if continuation c2 then HChar ((c1 - 192) * 64 + (c2 - 128)) 2 else HBad 1
        end
      else if c1 <? 240 then
        match r1 with
        | [] => HMore
        | b2 :: r2 =>
            let c2 := N_of_ascii b2 in
            if second3 c1 c2 then
              match r2 with
              | [] => HMore
              | b3 :: _ =>
                  let c3 := N_of_ascii b3 in
                  if continuation c3 then HChar ((c1 - 224) * 4096 + (c2 - 128) * 64 + (c3 - 128)) 3 else HBad 2
              end
            else HBad 1
        end
      else if c1 <? 245 then
        match r1 with
        | [] => HMore
        | b2 :: r2 =>
            let c2 := N_of_ascii b2 in
            if second4 c1 c2 then
              match r2 with
              | [] => HMore
              | b3 :: r3 =>
                  let c3 := N_of_ascii b3 in
                  if continuation c3 then
                    match r3 with
                    | [] => HMore
                    | b4 :: _ =>
                        let c4 := N_of_ascii b4 in
                        if continuation c4 then
                          HChar ((c1 - 240) * 262144 + (c2 - 128) * 4096 + (c3 - 128) * 64 + (c4 - 128)) 4
                        else HBad 3
                    end
                  else HBad 2
              end
            else HBad 1
        end
      else HBad 1
  end.

Definition FFFD : N := 65533.

(** Decoding a buffer: the characters and the bytes that are left; None in front of
    them is UnicodeDecodeError.  [strict] is errors='strict', otherwise
    errors='replace'.  From CPython 3.8 on ED A0..BF at the end of a buffer is kept for
    later when more can come: that is [hold]. *)
Definition truncated_surrogate (s : bytes) : bool :=
  match s with
  | [b1; b2] => (N_of_ascii b1 =? 237) && (160 <=? N_of_ascii b2) && (N_of_ascii b2 <=? 191)
  | _ => false
  end.
Fixpoint decode_loop (strict hold : bool) (fuel : nat) (s : bytes) : option ustr * bytes :=
  match fuel, s with
  | O, _ | _, [] => (Some [], s)
  | S fuel', _ =>
      match next s with
      | HMore => (Some [], s)
      | HChar c n =>
          match decode_loop strict hold fuel' (skipn n s) with
          | (Some t, l) => (Some (c :: t), l)
          | (None, l) => (None, l)
          end
      | HBad n =>
          if hold && truncated_surrogate s then (Some [], s)
          else if strict then (None, s)
          else match decode_loop strict hold fuel' (skipn n s) with
               | (Some t, l) => (Some (FFFD :: t), l)
               | (None, l) => (None, l)
               end
      end
  end.
Definition decode (newer strict final : bool) (s : bytes) : option ustr * bytes :=
  match decode_loop strict (newer && negb final) (length s) s with
  | (Some t, []) => (Some t, [])
  | (Some t, l) =>
      if final then if strict then (None, l) else (Some (t ++ [FFFD]), []) else (Some t, l)
  | (None, l) => (None, l)
  end.
(** codecs.iterdecode: the pieces of text; None is the exception; [newer] is CPython 3.8
    or later *)
Fixpoint iterdecode (newer strict : bool) (buffer : bytes) (chunks : list bytes) : option (list ustr) :=
  match chunks with
  | [] =>
      match decode newer strict true (buffer ++ []) with
      | (Some t, _) => Some (match t with [] => [] | _ => [t] end)
      | (None, _) => None
      end
  | c :: r =>
      match decode newer strict false (buffer ++ c) with
      | (Some t, l) =>
          match iterdecode newer strict l r with
          | Some ts => Some (match t with [] => ts | _ => t :: ts end)
          | None => None
          end
      | (None, _) => None
      end
  end.

(** ** Control characters, 57-58 *)
Definition control (c : N) : bool :=
  (c <=? 31) && negb ((c =? 10) || (c =? 13) || (c =? 9) || (c =? 11)) || (127 <=? c) && (c <=? 159).
Definition remove_controls (t : ustr) : ustr := filter (fun c => negb (control c)) t.

(** 373-404 io_log_as_flat_text *)
Definition flat_text (newer : bool) (l : list iorecord) : ustr :=
  match iterdecode newer false [] (map io_data l) with
  | Some ts => concat (map remove_controls ts)
  | None => []
  end.
(** 406-430 io_log_as_text_attachment *)
Definition text_attachment (newer : bool) (l : list iorecord) : ustr :=
  match iterdecode newer true [] (map io_data (filter is_stdout l)) with
  | Some ts => concat (map remove_controls ts)
  | None => []
  end.
