(** * The usage line of tools: plainbox/impl/_argparse.py *)
From Coq Require Import String Ascii List Bool Arith.
From Verif Require Import ScanModel Rfc822Model.
Import ListNotations.
Local Open Scope list_scope.

(** ' '.join and newline.join *)
Fixpoint join (sep : ascii) (l : list text) : text :=
  match l with [] => [] | [x] => x | x :: r => x ++ sep :: join sep r end.
Definition SP : ascii := " "%char.
Definition blanks (n : nat) : text := repeat SP n.

Section Width.
  Variable text_width : nat.
  (** 182-196 the loop of get_lines: [line] are the parts of the line, [n] is line_len + 1 *)
  Fixpoint loop (indent : text) (parts line : list text) (n : nat) : list text :=
    match parts with
    | [] => match line with [] => [] | _ => [indent ++ join SP line] end
    | part :: r =>
        if Nat.ltb text_width (n + length part) then
          (indent ++ join SP line) :: loop indent r [part] (length indent + length part + 1)
        else loop indent r (line ++ [part]) (n + length part + 1)
    end.
  (** 181-199 get_lines; None is IndexError *)
  Definition get_lines (parts : list text) (indent : text) (prefix : option text) : option (list text) :=
    match prefix with
    | None => Some (loop indent parts [] (length indent))
    | Some p =>
        match loop indent parts [] (length p) with
        | [] => None
        | x :: r => Some (skipn (length indent) x :: r)
        end
    end.
  (** 201-224: the lines when the usage is too long *)
  Definition wrapped (prefix prog : text) (opt pos : list text) : option (list text) :=
    if Nat.leb (4 * (length prefix + length prog)) (3 * text_width) then
      let indent := blanks (length prefix + length prog + 1) in
      match opt, pos with
      | _ :: _, _ =>
          match get_lines (prog :: opt) indent (Some prefix), get_lines pos indent None with
          | Some a, Some b => Some (a ++ b)
          | _, _ => None
          end
      | [], _ :: _ => get_lines (prog :: pos) indent (Some prefix)
      | [], [] => Some [prog]
      end
    else
      let indent := blanks (length prefix) in
      match get_lines (opt ++ pos) indent None with
      | Some lines =>
          if Nat.ltb 1 (length lines) then
            match get_lines opt indent None, get_lines pos indent None with
            | Some a, Some b => Some (prog :: a ++ b)
            | _, _ => None
            end
          else Some (prog :: lines)
      | None => None
      end.
  (** 150-224 _format_usage when the usage is not given: the lines of it.  The parts are those that the
      asserts of 177-178 say they are *)
  Definition usage_lines (prefix prog : text) (opt pos : list text) : option (list text) :=
    let usage := join SP (prog :: opt ++ pos) in
    if Nat.ltb text_width (length prefix + length usage) then wrapped prefix prog opt pos else Some [usage].
  (** 227: the text *)
  Definition format_usage (prefix prog : text) (opt pos : list text) : option text :=
    match usage_lines prefix prog opt pos with
    | Some lines => Some (prefix ++ join NL lines ++ [NL; NL])
    | None => None
    end.
End Width.
