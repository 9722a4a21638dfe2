(** * Small commands: check-config, parse, script and self-test of plainbox/impl/commands *)
From Coq Require Import String Ascii List Bool Arith.
From Verif Require Import ScanModel Rfc822Model ChecksumModel.
Import ListNotations.
Local Open Scope list_scope.

Definition L (s : string) : text := list_ascii_of_string s.
(** What a command did: the lines it printed and its exit code, or an exception *)
Inductive outcome := Exit (code : nat) (out : list text) | Raised.

(** ** inv_check_config.py *)

Record config := {
  c_known : list text;                                (* Meta.filename_list *)
  c_loaded : list text;                               (* filename_list *)
  c_variables : list (text * text * text);            (* section, name, value as it is formatted *)
  c_sections : list (text * option (list (text * text)));   (* name, value; None is Unset *)
  c_problems : list (option text * text)              (* name of the variable of a ValidationError, message *)
}.
(** 39-43: the line of a file *)
Definition file_line (c : config) (f : text) : text :=
  if existsb (text_eqb f) (c_loaded c) then L " - " ++ f else L " - " ++ f ++ L " (not present)".
(** 45-49 *)
Definition variable_lines (v : text * text * text) : list text :=
  match v with (s, n, x) => [L "   [" ++ s ++ L "]"; L "   " ++ n ++ L "=" ++ x] end.
(** 51-56 *)
Definition section_lines (s : text * option (list (text * text))) : list text :=
  (L "   [" ++ fst s ++ L "]") :: match snd s with
    | Some items => map (fun kv => L "   " ++ fst kv ++ L "=" ++ snd kv) (sorted_items items)
    | None => []
    end.
(** 59-64 *)
Definition problem_line (p : option text * text) : text :=
  match p with (Some v, m) => L " - variable " ++ v ++ L ": " ++ m | (None, m) => L " - " ++ m end.
(** 36-67 run *)
Definition check_config (c : config) : outcome :=
  Exit (match c_problems c with [] => 0 | _ => 1 end)
    ([L "Configuration files:"] ++ map (file_line c) (c_known c) ++
     [L "Variables:"] ++ flat_map variable_lines (c_variables c) ++
     [L "Sections:"] ++ flat_map section_lines (c_sections c) ++
     match c_problems c with [] => [L "No validation problems found"] | l => L "Problems:" :: map problem_line l end).

(** ** inv_parse.py *)

(** What reading the input gives *)
Inductive input := Text (t : text) | Encode_error | Decode_error.
(** What a parser does: an object or None, or an exception *)
Inductive parsed (A : Type) := Returned (a : option A) | Failed.
Arguments Returned {A}. Arguments Failed {A}.
Section Parse.
  Variable ast : Type.
  Variable parser_fn : text -> parsed ast.
  Variable dumps : ast -> text.
  (** parsers.py 116-143 *)
  Definition parse_text_to_json (t : text) : option text :=
    match parser_fn t with Returned (Some a) => Some (dumps a) | Returned None | Failed => None end.
  (** 37-66 run and _do_read *)
  Definition parse (i : input) : outcome :=
    match i with
    | Decode_error => Raised
    | Encode_error => Exit 1 []
    | Text t => match parse_text_to_json t with None => Exit 2 [] | Some j => Exit 0 [j] end
    end.
End Parse.

(** ** inv_script.py *)

Record job := { j_id : text; j_command : option text }.
(** What a command leaves behind, by its name in the directory *)
Inductive leftover := File (n : text) (lines : list text) | Dir (n : text) | Other (n : text).
Section Script.
  Variable ascii_repr : text -> text.
  Variable str_of_nat : nat -> text.
  (** runner._run_command: the return code, and what is left *)
  Variable run_command : job -> nat * list leftover.
  (** 85-91 _display_file *)
  Fixpoint numbered (n : text) (k : nat) (lines : list text) : list text :=
    match lines with
    | [] => []
    | x :: r => (L "  " ++ n ++ L ":" ++ str_of_nat k ++ L ":" ++ L " " ++ x) :: numbered n (k + 1) r
    end.
  (** 76-99 _on_leftover_files *)
  Definition display (x : leftover) : list text :=
    match x with
    | File n lines => (L "Leftover file detected: " ++ ascii_repr n ++ L ":") :: numbered n 1 lines
    | Dir n => [L "Leftover directory detected: " ++ ascii_repr n]
    | Other n => [L "Leftover thing detected: " ++ ascii_repr n]
    end.
  (** 105-112 _get_job *)
  Definition get_job (jobs : list job) (i : text) : option job :=
    match filter (fun j => text_eqb (j_id j) i) jobs with [] => None | j :: _ => Some j end.
  (** 55-74, 101-103 run, and the job that was run *)
  Definition script (jobs : list job) (i : text) : outcome * option job :=
    match get_job jobs i with
    | None => (Exit 126 [L "There is no job called " ++ ascii_repr i; L "See `plainbox special --list-jobs` for a list of choices"], None)
    | Some j =>
        match j_command j with
        | None => (Exit 125 [L "Selected job does not have a command"], None)
        | Some c => let (rc, left) := run_command j in
                    (Exit rc (flat_map display left ++ [L "job " ++ j_id j ++ L " returned " ++ str_of_nat rc; L "command: " ++ c]), Some j)
        end
    end.
End Script.

(** ** inv_selftest.py and cmd_selftest.py *)

Definition self_test : text := L "self-test".
Definition after_reexec : text := L "--after-reexec".
Section Self_test.
  (** The options of the tool itself: whether they have a value; None is for those that are not known *)
  Variable option_kind : text -> option bool.
  Definition is_option (t : text) : bool := match t with c :: _ => Ascii.eqb c "-"%char | [] => false end.
  (** argparse: the arguments before the command, the command, and its own arguments *)
  Fixpoint scan (args : list text) : option (list text * text * list text) :=
    match args with
    | [] => None
    | t :: r =>
        if is_option t then
          match option_kind t with
          | None => None
          | Some false => match scan r with Some (g, c, a) => Some (t :: g, c, a) | None => None end
          | Some true =>
              match r with
              | [] => None
              | v :: r' => match scan r' with Some (g, c, a) => Some (t :: v :: g, c, a) | None => None end
              end
          end
        else Some ([], t, r)
    end.
  (** list.index and list.insert *)
  Fixpoint insert_after (t x : text) (l : list text) : option (list text) :=
    match l with
    | [] => None
    | y :: r => if text_eqb y t then Some (y :: x :: r) else match insert_after t x r with Some r' => Some (y :: r') | None => None end
    end.
  (** What a process with these arguments (that of the program first) does: run itself again with others, run the
      tests, or complain *)
  Inductive action := Again (argv : list text) | Tests | Complains.
  (** inv_selftest.py 31-54; cmd_selftest.py 60-62 *)
  Definition process (argv : list text) : action :=
    match argv with
    | [] => Complains
    | prog :: args =>
        match scan args with
        | Some (_, c, rest) =>
            if text_eqb c self_test then
              if existsb (text_eqb after_reexec) rest then Tests
              else match insert_after self_test after_reexec argv with Some a => Again a | None => Complains end
            else Complains
        | None => Complains
        end
    end.
End Self_test.
