(** * The text report of a session: plainbox/impl/exporter/text.py *)
From Coq Require Import String Ascii List Bool Arith.
From Verif Require Import ScanModel Rfc822Model ColorModel.
Import ListNotations.
Local Open Scope list_scope.

(** result.py 113-186: the words for outcomes, untranslated; colour sequences are those of ColorModel *)
Definition word (o : outcome) : text :=
  L match o with
    | None_ => "job didn't run"
    | Pass => "job passed"
    | Fail => "job failed"
    | Skip => "job skipped"
    | Not_supported => "job cannot be started"
    | Not_implemented => "job is not implemented"
    | Undecided => "job needs verification"
    | Crash => "job crashed"
    end.
(** result.py 116, 125, ...: the signs for outcomes, in UTF-8 *)
Definition sigil (o : outcome) : text :=
  let box := fun n => ["226"%char; "152"%char; n; " "%char] in
  match o with
  | None_ => L " "
  | Pass => box "145"%char
  | Fail => box "146"%char
  | Skip | Not_supported => box "144"%char
  | Not_implemented => L "-"
  | Undecided => ["226"%char; "129"%char; "135"%char; " "%char]
  | Crash => ["226"%char; "154"%char; "160"%char; " "%char]
  end.
Definition nl : ascii := "010"%char.
(** What the report reads of the state of a job on the run list: the summary of the job in UTF-8, its result and the
    outcomes of its earlier results *)
Record job_state := mk_state { summary : text; hollow : bool; result_outcome : outcome; history : list outcome }.
(** "{:^15}".format; words are ASCII *)
Definition center (t : text) : text :=
  let pad := 15 - length t in repeat " "%char (pad / 2) ++ t ++ repeat " "%char (pad - pad / 2).
(** ', '.join *)
Fixpoint commas (l : list text) : text :=
  match l with [] => [] | [x] => x | x :: r => x ++ L ", " ++ commas r end.
(** text.py 51-65 *)
Definition coloured_entry (s : job_state) : text :=
  L " " ++ custom true (sigil (result_outcome s)) (color_ansi (result_outcome s)) ++ L ": " ++ summary s ++ [nl] ++
  (if Nat.ltb 1 (length (history s))
   then L "  history: " ++ commas (map (fun o => custom true (word o) (color_ansi o)) (history s)) ++ [nl] else []).
(** text.py 67-71 *)
Definition plain_entry (s : job_state) : text := center (word (result_outcome s)) ++ L ": " ++ summary s ++ [nl].
(** text.py 45-77 dump: what goes to the stream, and the histories printed on standard output instead, one for each call of
    print; how print shows bytes is not modelled *)
Fixpoint dump (color : bool) (run_list : list job_state) : text * list (list outcome) :=
  match run_list with
  | [] => ([], [])
  | s :: r =>
      let '(t, p) := dump color r in
      if hollow s then (t, p)                                               (* 48-49 *)
      else if color then (coloured_entry s ++ t, p)
      else (plain_entry s ++ t, match history s with [] => p | h => h :: p end)
  end.
