(** * What the output of a resource job becomes

    /repo/plainbox/impl/ctrl.py 254-290, 327-351, session/state.py 1216-1222,
    impl/runner.py 75-87, impl/resource.py 76-130.

    Simplified: texts are lists of characters below 256; the decoding of a line is a
    parameter. *)
From Coq Require Import String Ascii List Bool Arith.
From Verif Require Import ScanModel Rfc822Model IniModel JsonModel IologModel ResourceModel ExportModel RunnerModel.
From Verif Require ExtcmdModel.
Import ListNotations.
Local Open Scope nat_scope.
Local Open Scope list_scope.

(** ** The log: runner.py 75-87, one record for each line, whatever stream it is on;
    [delay] is the time since the last one *)
Definition stream_name (x : ExtcmdModel.stream) : text := match x with ExtcmdModel.Out => T "stdout" | ExtcmdModel.Err => T "stderr" end.
Fixpoint on_lines (delay : nat -> json) (l : list ExtcmdModel.event) : list iorecord :=
  match l with
  | [] => []
  | ExtcmdModel.Data x d :: r => mk_iorecord (delay (length r)) (JStr (stream_name x)) d :: on_lines delay r
  | _ :: r => on_lines delay r
  end.
(** With CHUNKED_IO there is no line: 61-97 has no on_chunk *)
Definition log_of (chunked : bool) (delay : nat -> json) (l : list ExtcmdModel.event) : list iorecord :=
  if chunked then [] else on_lines delay l.

(** ** rfc822.py 239-420 as a generator: what is yielded and then the exception *)
Fixpoint gen_some (n : nat) (lines : list text) (s : Rfc822Model.state) : list record * option error :=
  match lines with
  | [] =>
      let s := commit s in
      (match r_data (s_rec s) with [] => [] | _ => [s_rec s] end, None)
  | line :: rest =>
      match step n line s with
      | inr e => ([], Some e)
      | inl (s', y) =>
          let '(rs, e) := gen_some (S n) rest s' in
          (match y with Some r => r :: rs | None => rs end, e)
      end
  end.

(** A Resource is its fields *)
Definition resource := list (text * text).
Section Decode.
  (** bytes.decode('UTF-8', errors='replace') *)
  Variable decode : bytes -> text.
  (** 333-335 *)
  Definition line_gen (log : list iorecord) : list text := map decode (map io_data (filter is_stdout log)).
  (** 327-351 gen_rfc822_records_from_io_log with 276-281; None is an exception that
      is not RFC822SyntaxError *)
  Definition parsed (log : list iorecord) : option (list resource) :=
    match gen_some 1 (line_gen log) new_state with
    | (rs, None) | (rs, Some (Rfc822Model.SyntaxErr _ _)) => Some (map r_data rs)
    | _ => None
    end.
  (** 268-290 _parse_and_store_resource; [none]: the outcome is OUTCOME_NONE *)
  Definition store (none : bool) (id : text) (log : list iorecord) (m : list (text * list resource)) : option (list (text * list resource)) :=
    if none then Some m
    else
      match parsed log with
      | None => None
      | Some l => Some (tset id (match l with [] => [[]] | _ => l end) m)
      end.
  (** 254-259: the end of observe_result *)
  Definition observe (plugin : text) (none : bool) (id : text) (log : list iorecord) (m : list (text * list resource)) : option (list (text * list resource)) :=
    if text_eqb plugin (T "resource") then store none id log m else Some m.
End Decode.

(** ** Values in requirements

    [own]: the attributes that every python object has; [other] and [function]: other
    comparisons and the calls. *)
Inductive pyvalue := Res (d : resource) | Text (t : text) | Number (n : nat) | Truth (b : bool) | Items (l : list pyvalue) | Context.
Definition truth (v : pyvalue) : bool :=
  match v with
  | Text [] | Number 0 | Items [] => false
  | Truth b => b
  | _ => true
  end.
Definition constant (c : cls) : option pyvalue :=
  match c with
  | Str s => Some (Text (T s))
  | Num n => Some (Number n)
  | Load => Some Context
  | _ => None
  end.
Definition same (v w : pyvalue) : bool :=
  match v, w with
  | Text a, Text b => text_eqb a b
  | Number a, Number b => Nat.eqb a b
  | Truth a, Truth b => Bool.eqb a b
  | _, _ => false
  end.
Section Python.
  Variable own : string -> option pyvalue.
  Variable other : string -> pyvalue -> pyvalue -> option pyvalue.
  Variable function : string -> list pyvalue -> option pyvalue.
  (** resource.py 112-124: own attributes first, except _data, then the fields *)
  Definition attribute (v : pyvalue) (a : string) : option pyvalue :=
    match v with
    | Res d =>
        match (if String.eqb a "_data" then None else own a) with
        | Some x => Some x
        | None => option_map Text (tget (T a) d)
        end
    | _ => None
    end.
  Definition simple (v : pyvalue) : bool := match v with Text _ => true | _ => false end.
  Definition compare (op : string) (v w : pyvalue) : option pyvalue :=
    if String.eqb op "Eq" && simple v && simple w then Some (Truth (same v w))
    else if String.eqb op "NotEq" && simple v && simple w then Some (Truth (negb (same v w)))
    else
      match v, w with
      | Text t, Items l => if String.eqb op "In" && forallb simple l then Some (Truth (existsb (same v) l)) else other op v w
      | _, _ => other op v w
      end.
  (** the last child of a list or a tuple is its context *)
  Definition sequence (c : cls) (l : list pyvalue) : option pyvalue :=
    Some (Items (filter (fun v => match v with Context => false | _ => true end) l)).
  (** The resource map as requirements see it *)
  Definition as_rmap (m : list (text * list resource)) : rmap pyvalue :=
    map (fun kv => (string_of_list_ascii (fst kv), map Res (snd kv))) m.
  Definition met (m : list (text * list resource)) (es : list expression) : verdict :=
    evaluate_or_raise pyvalue truth constant attribute compare sequence function (fun _ => None) (as_rmap m) es.
End Python.
