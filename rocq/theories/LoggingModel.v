(** * Where log messages go: plainbox/impl/logging.py and python's logging *)
From Coq Require Import String Ascii List Bool Arith.
From Verif Require Import ScanModel Rfc822Model.
Import ListNotations.
Local Open Scope list_scope.

Definition L (s : string) : text := list_ascii_of_string s.
(** Names of loggers: their parts, the last one first; [] is the root *)
Definition name := list text.
Fixpoint split_dots (t : text) : list text :=
  match t with
  | [] => [[]]
  | c :: r => if Ascii.eqb c "."%char then [] :: split_dots r
              else match split_dots r with x :: rest => (c :: x) :: rest | [] => [[c]] end
  end.
(** logging.getLogger *)
Definition get_logger (t : text) : name := match t with [] => [] | _ => rev (split_dots t) end.
Definition plainbox : name := [L "plainbox"].
Definition checkbox : name := [L "checkbox"].
Definition crashes : name := [L "crashes"; L "plainbox"].
Definition bug : name := [L "bug"; L "plainbox"].
Fixpoint name_eqb (a b : name) : bool :=
  match a, b with [] , [] => true | x :: a, y :: b => text_eqb x y && name_eqb a b | _, _ => false end.

(** The levels of the logging module *)
Inductive level := DEBUG | INFO | WARNING | ERROR | CRITICAL.
Definition levelno (l : level) : nat := match l with DEBUG => 10 | INFO => 20 | WARNING => 30 | ERROR => 40 | CRITICAL => 50 end.

Inductive handler := Console_debug | Console_info | Console_warning | Console_error
  | Logfile_debug | Logfile_error | Logfile_crash | Logfile_bug.
(** What is set: the levels of loggers (the newest first), that of the handler console_debug, and the configuration *)
Record state := { st_levels : list (name * nat); st_debug : nat; st_console_only : bool }.

(** 66-79 LevelFilter with the arguments of 206-226 *)
Definition level_filter (min max n : nat) : bool := Nat.leb min n && Nat.leb n max.
(** 228-296, 299-330: levels and filters of handlers, whether one accepts a message of level [n] *)
Definition accepts (st : state) (h : handler) (n : nat) : bool :=
  match h with
  | Console_debug => Nat.leb (st_debug st) n && level_filter 0 10 n
  | Console_info => level_filter 20 20 n
  | Console_warning => level_filter 30 30 n
  | Console_error => Nat.leb 40 n
  | Logfile_debug => level_filter 0 10 n
  | Logfile_error => Nat.leb 30 n
  | Logfile_crash => Nat.leb 40 n
  | Logfile_bug => true
  end.
(** 333-369, 372-391 DEFAULT_LOGGERS and DEFAULT_CONSOLE_ONLY_LOGGERS: the handlers of a logger *)
Definition console : list handler := [Console_debug; Console_info; Console_warning; Console_error].
Definition handlers (console_only : bool) (n : name) : list handler :=
  if name_eqb n plainbox then if console_only then console else console ++ [Logfile_error; Logfile_debug]
  else if name_eqb n checkbox then if console_only then [] else console ++ [Logfile_error; Logfile_debug]
  else if name_eqb n crashes then if console_only then [Console_error] else [Logfile_crash]
  else if name_eqb n bug then if console_only then [] else [Logfile_bug]
  else [].
(** 87-107 setup_logging; [usable]: the directory of logs exists or can be made.  The levels are those of
    333-369, 372-391 and of root, 394-428 *)
Definition setup (usable : bool) : state :=
  {| st_levels := if usable then [(checkbox, 30); (plainbox, 30); (crashes, 40); ([], 30)] else [(plainbox, 30); (crashes, 40); ([], 30)];
     st_debug := 150; st_console_only := negb usable |}.

(** Logger.setLevel *)
Definition set_level (n : name) (l : nat) (st : state) : state :=
  {| st_levels := (n, l) :: st_levels st; st_debug := st_debug st; st_console_only := st_console_only st |}.
(** 109-123 adjust_logging; 431-440 DEBUG_CONSOLE_CONFIG *)
Definition adjust (l : option level) (trace : option (list text)) (debug_console : bool) (st : state) : state :=
  let st := match l with
            | Some l => set_level checkbox (levelno l) (set_level plainbox (levelno l) (set_level [] (levelno l) st))
            | None => st
            end in
  let st := match trace with
            | Some names => fold_left (fun st t => set_level (get_logger t) (levelno DEBUG) st) names st
            | None => st
            end in
  if debug_console && (match l with Some DEBUG => true | _ => false end || match trace with Some (_ :: _) => true | _ => false end)
  then {| st_levels := st_levels st; st_debug := levelno DEBUG; st_console_only := st_console_only st |} else st.
(** str.split(',') *)
Fixpoint split_commas (t : text) : list text :=
  match t with
  | [] => [[]]
  | c :: r => if Ascii.eqb c ","%char then [] :: split_commas r
              else match split_commas r with x :: rest => (c :: x) :: rest | [] => [[c]] end
  end.
(** clitools.py 281-288 _setup_logging_from_environment; the variables PLAINBOX_DEBUG, PLAINBOX_LOG_LEVEL
    (a known level) and PLAINBOX_TRACE *)
Definition from_environment (debug : text) (log_level : option level) (trace : option text) (st : state) : state :=
  match debug with
  | [] => st
  | _ => adjust (Some match log_level with Some l => l | None => DEBUG end)
           (Some (split_commas match trace with Some t => t | None => [] end)) (text_eqb debug (L "console")) st
  end.

(** Logger.getEffectiveLevel *)
Fixpoint level_of (n : name) (l : list (name * nat)) : option nat :=
  match l with [] => None | (m, v) :: r => if name_eqb m n then Some v else level_of n r end.
Fixpoint effective (levels : list (name * nat)) (n : name) : nat :=
  match level_of n levels with
  | Some v => v
  | None => match n with [] => 0 | _ :: parent => effective levels parent end
  end.
(** Logger.callHandlers: the handlers of the logger and of all those above it *)
Fixpoint chain (console_only : bool) (n : name) : list handler :=
  handlers console_only n ++ match n with [] => [] | _ :: parent => chain console_only parent end.
(** Logger.log: where a message goes.  That loggers without any handler write warnings to the error output
    is not modelled *)
Definition destinations (st : state) (n : name) (lvl : nat) : list handler :=
  if Nat.leb (effective (st_levels st) n) lvl then filter (fun h => accepts st h lvl) (chain (st_console_only st) n) else [].
