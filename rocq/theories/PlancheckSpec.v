(** What validating a test plan should say about its selectors.  Statements, words and what
    they select are those of TestplanSpec (C46, C47). *)
From Coq Require Import String Ascii List Bool.
From Verif Require Import ScanModel XparseModel XparseSpec TestplanModel TestplanSpec PlancheckModel.
Import ListNotations.
Local Open Scope string_scope.
Local Open Scope list_scope.

Definition text_of (p : plan) (part : option string) (f : plan_field) : option string :=
  match f with
  | Include => include p | Exclude => exclude p | Mandatory => mandatory p | Bootstrap => bootstrap p | Nested_part => part
  end.
(** line [k] of the text, counted from zero, is the statement: PATTERN overrides *)
Definition says_at (v : option string) (k : nat) (pattern : text) : Prop :=
  exists s l ov, v = Some s /\ nth_error (lines_of (txt s)) k = Some l /\ include_line l pattern ov.

(** the unit is called so *)
Definition called (u : unit_) (i : string) : Prop := u_id u = Some (Some i).
(** there is exactly one unit that is called so, and it is a resource job *)
Definition only_resource (us : list unit_) (i : string) : Prop :=
  exists a u b, us = a ++ u :: b /\ called u i /\ (forall x, In x (a ++ b) -> ~ called x i) /\
    u_kind u = Some "job" /\ u_plugin u = Some (Some "resource").

Section Spec.
  Variable re_parse : string -> re_kind.
  Variable compiles : string -> bool.
  Variable re_match : string -> string -> bool.
  Definition hits (n : option string) (pattern : text) (i : string) : Prop := selects string (fun i => i) re_parse re_match n pattern i.
  (** the pattern selects one of the units *)
  Definition hits_unit (us : list unit_) (n : option string) (pattern : text) : Prop :=
    exists u i, In u us /\ called u i /\ hits n pattern i.
  (** the pattern selects a unit that the field include selects *)
  Definition hits_included (us : list unit_) (p : plan) (pattern : text) : Prop :=
    exists u i k t, In u us /\ called u i /\ hits (ns p) pattern i /\ says_at (include p) k t /\ hits (ns p) t i.
  (** a statement whose pattern is a regular expression, also in its namespace *)
  Definition usable (n : option string) (t : text) : Prop :=
    match re_parse (str t) with
    | ReErr => False
    | ReFixed => True
    | RePattern => exists re, whole_pattern n t re /\ compiles re = true
    end.
  Definition readable (n v : option string) : Prop :=
    forall s l, v = Some s -> In l (lines_of (txt s)) -> empty_line l \/ exists t ov, include_line l t ov /\ usable n t.
End Spec.

(** the lines that issues of a kind about a field point at, with repetitions *)
Definition selector_lines (f : plan_field) (sev : severity) (l : list issue) : list nat :=
  flat_map (fun i => match i_line i with Some k => if match i_field i, f with Include, Include | Exclude, Exclude | Mandatory, Mandatory | Bootstrap, Bootstrap | Nested_part, Nested_part => true | _, _ => false end
      then if match i_severity i, sev with Advice, Advice | Warning, Warning | Error, Error => true | _, _ => false end then [k] else [] else [] | None => [] end) l.
