(** * Validating the selectors of a test plan

    plainbox/impl/unit/testplan.py 67-182 and 629-654, with validators.py 622-690.
    The checks that look at all the units of the context, in the order of the field
    names; the checks of a plan by itself are those of C61.  The exception of a generator
    comes after the issues yielded before it. *)
From Coq Require Import String Ascii List Bool Arith.
From Verif Require Import Base ScanModel Rfc822Model XparseModel QualModel TestplanModel.
Import ListNotations.
Local Open Scope nat_scope.
Local Open Scope string_scope.
Local Open Scope list_scope.

(** The attributes of a unit of the context: None when there is no such attribute *)
Record unit_ := mk_unit { u_id : option (option string); u_kind : option string; u_plugin : option (option string) }.

Inductive plan_field := Include | Exclude | Mandatory | Bootstrap | Nested_part.
Inductive severity := Advice | Warning | Error.
(** The line of the field that the origin points at; None: the first line of the field *)
Record issue := mk_issue { i_field : plan_field; i_severity : severity; i_line : option nat }.
(** what was yielded, and the exception that ended it *)
Definition checks : Type := list issue * option exc.
Definition followed_by (a b : checks) : checks :=
  match snd a with Some e => a | None => (fst a ++ fst b, snd b) end.

Section Check.
  Variable re_parse : string -> re_kind.
  Variable compiles : string -> bool.
  Variable re_match : string -> string -> bool.
  Variable set_order : list string -> list string.

  Definition matcher_ := matcher string.
  Definition matches (m : matcher_) (i : string) : bool := get_simple_match string (fun i => i) m i.

  (** the keys of compute_value_map(context, 'id') but None, validators.py 537-562 *)
  Definition known (us : list unit_) : list string :=
    flat_map (fun u => match u_id u with Some (Some i) => [i] | _ => [] end) us.

  (** testplan.py 417-426 _gen_qualifiers, one qualifier after the other, with its line *)
  Fixpoint until_error (ms : list (nat * (matcher_ + exc))) : list (nat * matcher_) * option exc :=
    match ms with
    | [] => ([], None)
    | (k, inl m) :: r => let '(l, e) := until_error r in ((k, m) :: l, e)
    | (_, inr e) :: _ => ([], Some e)
    end.
  Definition qualifiers (n v : option string) : list (nat * matcher_) * option exc :=
    match v with
    | None => ([], None)
    | Some s =>
        match bind (of_outcome (parse_include_list (txt s) 0)) (fun stmts =>
              collect (fun x => bind (matcher_of string (fun i => i) re_parse compiles re_match n (snd x)) (fun m => inl [(fst x, m)])) stmts) with
        | inl ms => until_error ms
        | inr e => ([], Some e)
        end
    end.

  (** 67-112 NonEmptyPatternIntersectionValidator *)
  Definition non_empty (f : plan_field) (n v : option string) (ids : list string) : checks :=
    let '(ms, e) := qualifiers n v in
    (flat_map (fun km => if existsb (matches (snd km)) ids then [] else [mk_issue f Advice (Some (fst km))]) ms, e).

  (** 115-182 NoBaseIncludeValidator *)
  Definition included (ms : list (nat * matcher_)) (ids : list string) : list string :=
    flat_map (fun km => filter (matches (snd km)) ids) ms.
  Definition no_base (f : plan_field) (n inc v : option string) (ids : list string) : checks :=
    let '(base, e) := qualifiers n inc in
    match e with
    | Some e => ([], Some e)
    | None =>
        let '(ms, e) := qualifiers n v in
        (flat_map (fun km => if existsb (matches (snd km)) (included base ids) then [mk_issue f Warning (Some (fst km))] else []) ms, e)
    end.

  (** validators.py 669-681 with the constraints of testplan.py 643-651; both are looked at *)
  Definition bootstrap_unit (x : unit_) : checks :=
    followed_by
      (match u_kind x with Some k => if String.eqb k "job" then [] else [mk_issue Bootstrap Error None] | None => [mk_issue Bootstrap Error None] end, None)
      match u_plugin x with
      | None => ([], Some AttributeError)
      | Some p => (match p with Some w => if String.eqb w "resource" then [] else [mk_issue Bootstrap Error None] | None => [mk_issue Bootstrap Error None] end, None)
      end.
  (** validators.py 658-690, one reference *)
  Definition bootstrap_reference (us : list unit_) (i : string) : checks :=
    match filter (fun u => match u_id u with Some (Some j) => String.eqb i j | _ => false end) us with
    | [] => ([mk_issue Bootstrap Error None], None)
    | [x] => bootstrap_unit x
    | _ => ([mk_issue Bootstrap Error None], None)
    end.
  (** validators.py 645-657: what goes wrong in finding the references is an issue *)
  Definition bootstrap_references (us : list unit_) (p : plan) : checks :=
    match bootstrap_job_ids p with
    | inr _ => ([mk_issue Bootstrap Error None], None)
    | inl ids => fold_right (fun i r => followed_by (bootstrap_reference us i) r) ([], None) (set_order ids)
    end.

  (** unit.py 128-143 check_in_context with testplan.py 629-660; [part] is the text of the
      field nested_part *)
  Definition check_plan (us : list unit_) (p : plan) (part : option string) : checks :=
    let ids := known us in
    followed_by (no_base Bootstrap (ns p) (include p) (bootstrap p) ids)
    (followed_by (bootstrap_references us p)
    (followed_by (non_empty Exclude (ns p) (exclude p) ids)
    (followed_by (non_empty Include (ns p) (include p) ids)
    (followed_by (non_empty Mandatory (ns p) (mandatory p) ids)
    (followed_by (no_base Mandatory (ns p) (include p) (mandatory p) ids)
                 (non_empty Nested_part (ns p) part ids)))))).
End Check.
