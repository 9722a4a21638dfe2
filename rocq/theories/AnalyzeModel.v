(** * Reports about jobs, and paragraphs: plainbox/impl/commands/inv_analyze.py, plainbox/impl/ingredients.py *)
From Coq Require Import String Ascii List Bool Arith.
From Verif Require Import ScanModel Rfc822Model IniModel.
Import ListNotations.
Local Open Scope list_scope.

(** Notation for texts *)
Definition L (s : string) : text := list_ascii_of_string s.
Definition spaces (n : nat) : text := repeat " "%char n.
(** str.ljust, str.rjust, str.center of CPython *)
Definition ljust (w : nat) (t : text) : text := t ++ spaces (w - length t).
Definition rjust (w : nat) (t : text) : text := spaces (w - length t) ++ t.
Definition center (w : nat) (t : text) : text :=
  let pad := w - length t in
  let left := Nat.div2 pad + (if Nat.odd pad && Nat.odd w then 1 else 0) in
  spaces left ++ t ++ spaces (pad - left).

(** ** Reports *)

(** An expression of a program of requirements: the ids of the resources it names (resource.py
    524-530) and the texts in it (457-483) *)
Record expression := Expr { x_ids : list text; x_strings : list text }.
(** A job of the run list: [j_duration] is its duration as a text, [j_problem] what validate() raises,
    [j_requires] the program, [j_namespace] that of its provider *)
Record job := Job { j_id : text; j_automated : bool; j_duration : option text; j_problem : option text; j_origin : text;
                    j_requires : option (list expression); j_namespace : option text }.

(** max(len(job.id) for job in ...) *)
Definition max_len (l : list job) : nat := fold_right (fun j n => Nat.max (length (j_id j)) n) 0 l.
(** inv_analyze.py 99-122 _print_interactivity_report, without the heading *)
Definition interactivity (l : list job) : list text :=
  map (fun j => ljust (max_len l) (j_id j) ++ L " : " ++ ljust 11 (if j_automated j then L "automatic" else L "interactive") ++ L " : " ++
                match j_duration j with Some d => d | None => L "unknown" end) l.
(** inv_analyze.py 136-156 _print_validation_report; the variable problem *)
Fixpoint validation_loop (only_errors : bool) (w : nat) (l : list job) (problem : option text) : list text * option text :=
  match l with
  | [] => ([], problem)
  | j :: r =>
      let line p := ljust w (j_id j) ++ L " : " ++ p in
      match j_problem j with
      | Some p =>
          let (o, q) := validation_loop only_errors w r (Some p) in
          (line p :: (if match p with [] => false | _ => true end then [L "Job defined in " ++ j_origin j] else []) ++ o, q)
      | None =>
          if only_errors then validation_loop only_errors w r problem
          else let (o, q) := validation_loop only_errors w r (Some []) in (line [] :: o, q)
      end
  end.
Definition validation (only_errors : bool) (l : list job) : list text :=
  match l with
  | [] => []
  | _ => let (o, q) := validation_loop only_errors (max_len l) l None in
         o ++ (if only_errors && match q with None => true | _ => false end then [L "No problems found"] else [])
  end.

(** t contains sub *)
Fixpoint contains (sub t : text) : bool :=
  tprefix sub t || match t with [] => false | _ :: r => contains sub r end.
(** resource.py 567-572 resource_id_list *)
Definition resource_ids (ns : option text) (x : expression) : list text :=
  map (fun i => match ns with
                | Some (c :: n) => if contains (L "::") i then i else (c :: n) ++ L "::" ++ i
                | _ => i
                end) (x_ids x).
Inductive report := Printed (lines : list text) | Attribute_error.
(** inv_analyze.py 158-176 _print_requirement_report: the texts that go into the set.  An expression has
    no attribute resource_id *)
Fixpoint requirements (l : list job) : option (list text) :=
  match l with
  | [] => Some []
  | j :: r =>
      match j_requires j with
      | Some program =>
          if existsb (text_eqb (L "package")) (flat_map (resource_ids (j_namespace j)) program) then
            match program with [] => requirements r | _ => None end
          else requirements r
      | None => requirements r
      end
  end.
Definition requirement_report (l : list job) : report :=
  match requirements l with Some s => Printed s | None => Attribute_error end.

(** ** Paragraphs *)

Inductive align := Left_ | Right_ | Center_.
(** ingredients.py 70-87: what a RenderingContext keeps *)
Record style := Style { s_width : nat; s_bold : bool; s_top : nat; s_right : nat; s_bottom : nat; s_left : nat; s_align : align }.
(** str.splitlines, for texts whose only line boundaries are newlines *)
Fixpoint split_lines (t : text) : list text :=
  match t with
  | [] => []
  | c :: r => if Ascii.eqb c NL then [] :: split_lines r
              else match split_lines r with
                   | [] => [[c]]
                   | x :: rest => (c :: x) :: rest
                   end
  end.
Inductive content := A_text (t : text) | Chunks (l : list text).
Section Wrap.
  Variable wrap : nat -> text -> list text.             (* textwrap.wrap *)
  (** 89-122 para: the lines with whether they are bold; None is ValueError of textwrap *)
  Definition para (s : style) (c : content) : option (list (text * bool)) :=
    let width := s_width s - (s_left s + s_right s) in
    let chunks := match c with A_text t => if Nat.eqb width 0 then None else Some (wrap width t) | Chunks l => Some l end in
    let empty := repeat (spaces (s_width s), false) in
    match chunks with
    | None => None
    | Some chunks =>
        Some (empty (s_top s) ++
          map (fun line => (spaces (s_left s) ++ (match s_align s with Left_ => ljust | Right_ => rjust | Center_ => center end) width line ++ spaces (s_right s), s_bold s))
            (flat_map split_lines chunks) ++
          empty (s_bottom s))
    end.
End Wrap.
