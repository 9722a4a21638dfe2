(** * The dialogue about one job: plainbox/impl/commands/inv_run.py 63-104, 807-863, 898-970

    What is printed is not modelled.  Texts are strings, of which only equality and
    concatenation matter.  The labels of actions, which can be typed as well, are a
    parameter, because they are translated and coloured. *)
From Coq Require Import String Ascii List Bool Arith ZArith.
From Verif Require Import SessionModel.
Import ListNotations.
Open Scope string_scope.
Open Scope list_scope.

Definition NL : string := String "010"%char "".

(** ** Picking an action *)

(** 63-104 Action, ActionUI; 184-190 and 908-937: the commands *)
Inductive cmd := Run | Comment | Skip | Quit | Set_comments | Set_pass | Set_fail | Set_skip | Re_run | Set_suggested.
Definition action := (string * string * cmd)%type.
Definition chosen (line : string) (a : action) : bool :=
  match a with (accel, label, _) => String.eqb line accel || String.eqb line label end.
(** 87-104 ActionUI.run; the lines are what the user types, then comes the end of the input:
    None.  Lines that are no action are ignored. *)
Fixpoint pick (actions : list action) (lines : list string) : option cmd * list string :=
  match lines with
  | [] => (None, [])
  | l :: lines' => match find (chosen l) actions with Some a => (Some (snd a), lines') | None => pick actions lines' end
  end.

(** What happens: the user picks a command (or their input ends), they type a text, the job
    is run for the n-th time. *)
Inductive happening := Picked (c : option cmd) | Typed (t : string) | Ran (n : nat).

(** ** The result in the making *)

(** A JobResultBuilder with what the dialogue can change; [dr_run] is the run that it is
    about and stands for the rest. *)
Record draft := mk_draft {
  dr_outcome : option outcome;
  dr_comments : option string;
  dr_code : option Z;
  dr_run : option nat
}.
Definition set_outcome (o : outcome) (d : draft) : draft := mk_draft (Some o) (dr_comments d) (dr_code d) (dr_run d).
Definition set_comments (c : option string) (d : draft) : draft := mk_draft (dr_outcome d) c (dr_code d) (dr_run d).
(** plainbox/impl/result.py 233-242 add_comment *)
Definition add_comment (c : string) (d : draft) : draft :=
  set_comments (Some match dr_comments d with None => c | Some t => (t ++ NL ++ c)%string end) d.
(** input(...); if new_comment: result_builder.add_comment(new_comment) *)
Definition note (c : string) (d : draft) : draft := if String.eqb c "" then d else add_comment c d.

Definition is_decision (o : option outcome) : bool := match o with Some (OPass | OFail | OSkip) => true | _ => false end.

Section Dialogue.
  Variable label : cmd -> string.
  Variable interactive : bool.
  Variable plugin : string.
  Variable has_command : bool.     (* job.command is not None *)
  Variable explicit_fail : bool.   (* 'explicit-fail' in job.get_flag_set() *)
  (** What the runner returns for the n-th run: its outcome, comments and return code *)
  Variable outcome_of_run : nat -> option outcome.
  Variable comments_of_run : nat -> option string.
  Variable code_of_run : nat -> option Z.
  (** The comment on jobs that are skipped, translated (line 839) *)
  Variable skipped_text : string.

  Definition act (accel : string) (c : cmd) : action := (accel, label c, c).

  (** 183-190 wait_for_interaction_prompt *)
  Definition prompt : list action := [act "" Run; act "c" Comment; act "s" Skip; act "q" Quit].
  (** 901-937 *)
  Definition verdicts (code : option Z) : list action :=
    [act "c" Set_comments; act "p" Set_pass; act "f" Set_fail; act "s" Set_skip]
    ++ (if has_command then [act "r" Re_run] else [])
    ++ (match code with Some _ => [act "" Set_suggested] | None => [] end).
  (** 930-934 *)
  Definition suggested (code : option Z) : outcome := match code with Some 0%Z => OPass | _ => OFail end.

  Inductive answer := Decided (d : draft) (rest : list string) | Again (rest : list string) | End_of_input | Out_of_fuel.
  (** 938-970: the loop of _interaction_callback; the actions and the suggestion were made
      from the result at the beginning, whose return code does not change *)
  Fixpoint verdict (fuel : nat) (d : draft) (lines : list string) : list happening * answer :=
    match fuel with
    | O => ([], Out_of_fuel)
    | S fuel' =>
        if is_decision (dr_outcome d) then ([], Decided d lines)
        else
          match pick (verdicts (dr_code d)) lines with
          | (c, lines1) =>
              let continue h d lines := match verdict fuel' d lines with (l, a) => (Picked c :: h ++ l, a) end in
              match c with
              | Some Set_pass => continue [] (set_outcome OPass d) lines1
              | Some Set_fail =>
                  if explicit_fail then
                    match lines1 with
                    | [] => ([Picked c], End_of_input)
                    | t :: lines2 => continue [Typed t] (set_outcome OFail (note t d)) lines2
                    end
                  else continue [] (set_outcome OFail d) lines1
              | Some Set_skip | None => continue [] (set_outcome OSkip d) lines1
              | Some Set_suggested => continue [] (set_outcome (suggested (dr_code d)) d) lines1
              | Some Set_comments =>
                  match lines1 with
                  | [] => ([Picked c], End_of_input)
                  | t :: lines2 => continue [Typed t] (note t d) lines2
                  end
              | Some Re_run => ([Picked c], Again lines1)
              | Some _ => continue [] d lines1
              end
          end
    end.

  Inductive end_of_dialogue := Result (d : draft) (rest : list string) | Quits | Eof_error | No_fuel.

  (** 811-818 *)
  Definition asks_first : bool :=
    interactive && existsb (String.eqb plugin) ["user-interact"; "user-interact-verify"; "manual"].

  (** 807-863 _run_single_job_with_ui_loop; [n] runs have been made before *)
  Fixpoint dialogue (fuel : nat) (n : nat) (comments : string) (lines : list string) : list happening * end_of_dialogue :=
    match fuel with
    | O => ([], No_fuel)
    | S fuel' =>
        (* 852-863, after the job has been run with the result [d] *)
        let after h d lines :=
          if interactive && match dr_outcome d with Some OUndecided => true | _ => false end then
            match verdict (2 + length lines) (if String.eqb comments "" then d else set_comments (Some comments) d) lines with
            | (l, Decided d' rest) => (h ++ l, Result d' rest)
            | (l, Again rest) => match dialogue fuel' (S n) comments rest with (l', e) => (h ++ l ++ l', e) end
            | (l, End_of_input) => (h ++ l, Eof_error)
            | (l, Out_of_fuel) => (h ++ l, No_fuel)
            end
          else (h, Result d lines) in
        let ran := mk_draft (outcome_of_run n) (comments_of_run n) (code_of_run n) (Some n) in
        if asks_first then
          match (if String.eqb plugin "manual" then (None, [], lines) else match pick prompt lines with (c, r) => (c, [Picked c], r) end) with
          | (c, h, lines1) =>
              match c with
              | Some Comment =>
                  match lines1 with
                  | [] => (h, Eof_error)
                  | t :: lines2 =>
                      match dialogue fuel' n (if String.eqb t "" then comments else (comments ++ t ++ NL)%string) lines2 with
                      | (l, e) => (h ++ Typed t :: l, e)
                      end
                  end
              | Some Skip =>
                  (h, Result (mk_draft (Some OSkip) (Some (if String.eqb comments "" then skipped_text else comments)) None None) lines1)
              | Some Quit => (h, Quits)
              | _ => after (h ++ [Ran n]) (set_comments (Some comments) ran) lines1
              end
          end
        else after [Ran n] ran lines
    end.
  Definition talk (lines : list string) : list happening * end_of_dialogue := dialogue (S (length lines)) 0 "" lines.
End Dialogue.
