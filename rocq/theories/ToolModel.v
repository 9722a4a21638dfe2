(** * Command line tools: plainbox/impl/clitools.py *)
From Coq Require Import String Ascii List Bool Arith.
From Verif Require Import ScanModel Rfc822Model IniModel ExportModel.
Import ListNotations.
Local Open Scope list_scope.

(** Notation for texts *)
Definition L (s : string) : text := list_ascii_of_string s.

(** ** Which commands are registered and which is run *)

(** 697-716 add_subcommands_with_hints; [known] are the names in the collection, and a command
    registers a parser of its name *)
Fixpoint guess (known hints : list text) : option text :=
  match hints with
  | [] => None
  | h :: r =>
      if match h with "-"%char :: _ => true | _ => false end then guess known r
      else if existsb (text_eqb h) known then Some h else guess known r
  end.
Definition registered_with_hints (known hints : list text) : list text :=
  match guess known hints with Some c => [c] | None => known end.
(** 658-662 add_subcommands *)
Definition registered (known : list text) (rest : option (list text)) : list text :=
  match rest with Some h => registered_with_hints known h | None => known end.

(** What the full parser makes of what is left after the options of the tool: argparse with
    subparsers, which must begin with the name of one *)
Inductive parsed := No_command | Command (name : text) (args : list text) | Invalid_choice (given : text) (choices : list text).
Definition parse (commands rest : list text) : parsed :=
  match rest with
  | [] => No_command
  | c :: args => if existsb (text_eqb c) commands then Command c args else Invalid_choice c commands
  end.

(** 561-589: the kinds of exceptions that are told apart *)
Inductive exception := System_exit (status : nat) | Io_error (broken_pipe : bool) | Keyboard_interrupt | Other_exception (name : text).
(** 556: what invoking a command does *)
Inductive behaviour := Finishes (value : option nat) | Raises_ (e : exception).
(** How a tool ends: a value returned by main, an exception that leaves it, and whether the
    debugger was started or a crash logged *)
Inductive ending := Returned (value : option nat) | Left (e : exception) | Crashed (e : exception) | Debugged (e : exception) (value : nat).

(** 558-603 dispatch_and_catch_exceptions *)
Definition catch (pdb debug_interrupt : bool) (b : behaviour) : ending :=
  match b with
  | Finishes v => Returned v
  | Raises_ (System_exit s) => Left (System_exit s)
  | Raises_ e =>
      let action :=
        match e with
        | Io_error epipe => if epipe then L "ignore" else L "raise"
        | Keyboard_interrupt => if debug_interrupt then L "debug" else L "ignore"
        | _ => if pdb then L "debug" else L "raise"
        end in
      if text_eqb action (L "ignore") then Returned (Some 0)
      else if text_eqb action (L "raise") then Crashed e
      else Debugged e 1
  end.

(** 290-324 main.  [early] is what happens before the parser is there: a KeyboardInterrupt, another
    exception, or [None] when all is well; [invoked] is what a command does with its arguments. *)
Definition main (known : list text) (invoked : text -> list text -> behaviour) (pdb debug_interrupt : bool)
    (early : option exception) (rest : list text) : ending :=
  match early with
  | Some Keyboard_interrupt => Returned None
  | Some e => Left e
  | None =>
      match parse (registered known (Some rest)) rest with
      | Invalid_choice _ _ => Left (System_exit 2)                     (* parser.error, in parse_args *)
      | No_command => catch pdb debug_interrupt (Raises_ (System_exit 2))   (* 552-554 *)
      | Command c args => catch pdb debug_interrupt (invoked c args)   (* 556 *)
      end
  end.

(** ** Names and texts of commands *)

(** 112-118 get_command_name; [cls] is the name of the class in lower case *)
Definition get_command_name (name : option text) (cls : text) : text :=
  match name with
  | Some n => n
  | None => if tprefix (rev (L "command")) (rev cls) then replace_all (L "command") [] cls else cls
  end.

(** 171-173, 197-199: t.split(marker, 1) as the part before and the one after, if the marker is there *)
Fixpoint split_at (marker t : text) : option (text * text) :=
  if tprefix marker t then Some ([], skipn (length marker) t)
  else match t with
       | [] => None
       | c :: r => match split_at marker r with Some (a, b) => Some (c :: a, b) | None => None end
       end.
(** 171, 197: joining lines *)
Fixpoint join_nl (l : list text) : text :=
  match l with [] => [] | [x] => x | x :: r => x ++ NL :: join_nl r end.
(** 173, 199 *)
Definition EPILOG : text := L "@EPILOG@".
(** 140-147 get_command_help; [doc] are the lines of the docstring *)
Definition get_command_help (help : option text) (doc : option (list text)) : option text :=
  match help with Some h => Some h | None => match doc with Some (x :: _) => Some x | _ => None end end.
(** 166-175 get_command_description *)
Definition get_command_description (description : option text) (doc : option (list text)) : option text :=
  match description with
  | Some d => Some d
  | None =>
      match doc with
      | None => None
      | Some lines => let t := join_nl (tl lines) in Some (strip (match split_at EPILOG t with Some (a, _) => a | None => t end))
      end
  end.
(** 192-201 get_command_epilog *)
Definition get_command_epilog (epilog : option text) (doc : option (list text)) : option text :=
  match epilog with
  | Some e => Some e
  | None =>
      match doc with
      | None => None
      | Some lines => match split_at EPILOG (join_nl (tl lines)) with Some (_, b) => Some (strip b) | None => None end
      end
  end.

(** ** Programs *)

Section Programs.
  Variable path : list text.                                  (* os.get_exec_path() *)
  Variable join : text -> text -> text.                       (* os.path.join *)
  Variable executable : text -> bool.                         (* os.access(..., os.X_OK) *)
  (** 891-899 find_exec; None is LookupError *)
  Fixpoint find_in (name : text) (l : list text) : option (text * text) :=
    match l with
    | [] => None
    | p :: r => if executable (join p name) then Some (name, join p name) else find_in name r
    end.
  Fixpoint find_exec (names : list text) : option (text * text) :=
    match names with
    | [] => None
    | n :: r => match find_in n path with Some x => Some x | None => find_exec r end
    end.
  (** 840-852 autopager: the pager, if there is to be one *)
  Definition pager (tty windows : bool) (env : option text) (names : list text) : option (text * text) :=
    if negb tty || windows then None
    else find_exec (match env with Some p => p :: names | None => names end).
End Programs.
