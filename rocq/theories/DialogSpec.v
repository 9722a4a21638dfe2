(** * What a dialogue about a job means, said without the code that leads it *)
From Coq Require Import String Ascii List Bool Arith ZArith.
From Verif Require Import SessionModel DialogModel.
Import ListNotations.
Open Scope string_scope.
Open Scope list_scope.

(** ** Picking *)

(** The line is the key or the label of the command, and of none that is listed before. *)
Definition means (actions : list action) (line : string) (c : cmd) : Prop :=
  exists before key label after,
    actions = before ++ (key, label, c) :: after /\
    (line = key \/ line = label) /\
    (forall k l c', In (k, l, c') before -> line <> k /\ line <> l).
Definition means_nothing (actions : list action) (line : string) : Prop := forall c, ~ means actions line c.
(** What is read, and what is left to read *)
Definition reads (actions : list action) (lines : list string) (c : option cmd) (rest : list string) : Prop :=
  exists ignored, (forall l, In l ignored -> means_nothing actions l) /\
  match c with
  | Some c => exists l, means actions l c /\ lines = ignored ++ l :: rest
  | None => lines = ignored /\ rest = []
  end.

(** ** What was said, run, noted *)

Definition runs (h : list happening) : list nat := flat_map (fun x => match x with Ran n => [n] | _ => [] end) h.
Definition reruns (h : list happening) : nat :=
  length (filter (fun x => match x with Picked (Some Re_run) => true | _ => false end) h).
Definition something (t : string) : list string := if String.eqb t "" then [] else [t].
(** The texts typed, empty ones apart *)
Definition typed (h : list happening) : list string := flat_map (fun x => match x with Typed t => something t | _ => [] end) h.
(** Those typed as a comment before the job is run *)
Fixpoint said (h : list happening) : list string :=
  match h with
  | Picked (Some Comment) :: Typed t :: h' => something t ++ said h'
  | _ :: h' => said h'
  | [] => []
  end.
(** What happened after the last run *)
Fixpoint since_last_run (h : list happening) : list happening :=
  match h with
  | [] => []
  | x :: h' => match runs h', x with [], Ran _ => h' | [], _ => x :: h' | _, _ => since_last_run h' end
  end.
(** Texts as lines, each with its end *)
Definition as_lines (l : list string) : string := fold_right (fun t s => (t ++ NL ++ s)%string) "" l.
(** Texts appended, each on a new line, to a text that may not be there *)
Definition appended (base : option string) (l : list string) : option string :=
  fold_left (fun b t => Some match b with None => t | Some s => (s ++ NL ++ t)%string end) l base.

(** The outcome that a command stands for; no command is the end of the input *)
Definition decision (code : option Z) (c : option cmd) : option outcome :=
  match c with
  | Some Set_pass => Some OPass
  | Some Set_fail => Some OFail
  | Some Set_skip | None => Some OSkip
  | Some Set_suggested => match code with Some 0%Z => Some OPass | Some _ => Some OFail | None => None end
  | _ => None
  end.

(** Nothing but comments on the run, each with its text *)
Inductive only_comments : list happening -> Prop :=
| OC_nil : only_comments []
| OC_one t l : only_comments l -> only_comments (Picked (Some Set_comments) :: Typed t :: l).

(** ** What happens is what the lines say

    Before a run lines are read as commands of the prompt; after the n-th run they are read
    as verdicts on that run, until the user wants another one. *)
Section Follows.
  Variable before_run : list action.
  Variable after_run : nat -> list action.
  Inductive follows : option nat -> list happening -> list string -> list string -> Prop :=
  | F_end s lines : follows s [] lines lines
  | F_ran s n h lines rest : follows (Some n) h lines rest -> follows s (Ran n :: h) lines rest
  | F_typed s t h lines rest : follows s h lines rest -> follows s (Typed t :: h) (t :: lines) rest
  | F_prompt c h lines lines' rest :
      reads before_run lines c lines' -> follows None h lines' rest -> follows None (Picked c :: h) lines rest
  | F_again n h lines lines' rest :
      reads (after_run n) lines (Some Re_run) lines' -> follows None h lines' rest ->
      follows (Some n) (Picked (Some Re_run) :: h) lines rest
  | F_verdict n c h lines lines' rest :
      c <> Some Re_run -> reads (after_run n) lines c lines' -> follows (Some n) h lines' rest ->
      follows (Some n) (Picked c :: h) lines rest.
End Follows.
