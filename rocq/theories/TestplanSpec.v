(** What test plans should do. *)
From Coq Require Import String Ascii List Bool.
From Verif Require Import Base ScanModel ScanSpec XparseModel XparseSpec TestplanModel.
Import ListNotations.
Local Open Scope string_scope.
Local Open Scope list_scope.

(** [q] is the test plan [p] itself or one nested in it, at any depth. *)
Inductive part : plan -> plan -> Prop :=
| part_self p : part p p
| part_nested p q r : In q (nested p) -> part q r -> part p r.

(** The same, if every test plan on the way has the field category-overrides. *)
Inductive category_part : plan -> plan -> Prop :=
| cp_self p : category p <> None -> category_part p p
| cp_nested p q r : category p <> None -> In q (nested p) -> category_part q r -> category_part p r.

(** No field contains the character NUL, which the scanner takes for the end, and
    every quote in the list of bootstrap jobs is closed. *)
Definition clean (p : plan) : Prop :=
  forall q, part p q ->
    (forall f s, In f [include q; exclude q; mandatory q; bootstrap q; category q; certification q] ->
       f = Some s -> ~ In NUL (txt s)) /\
    (forall s, bootstrap q = Some s -> exists items, pieces (txt s) items []).

(** An include (or exclude) field says: PATTERN overrides *)
Definition includes_stmt (v : option string) (pattern : text) (ov : list (text * text)) : Prop :=
  exists s l, v = Some s /\ In l (lines_of (txt s)) /\ include_line l pattern ov.
(** A field of overrides says: apply VALUE to PATTERN *)
Definition override_stmt (v : option string) (value pattern : text) : Prop :=
  exists s l, v = Some s /\ In l (lines_of (txt s)) /\ override_line l value pattern.
(** A word list contains a word. *)
Definition lists_word (v : option string) (w : text) : Prop :=
  exists s items, v = Some s /\ pieces (txt s) items [] /\ (In (IWord w) items \/ In (IQuoted w) items).

(** An identifier without a namespace is in that of the provider. *)
Definition in_namespace (n : option string) (i full : string) : Prop :=
  match String.index 0 "::" i, n with
  | None, Some n => full = String.append n (String.append "::" i)
  | _, _ => full = i
  end.

(** The regular expression for a pattern of the include field: without its own
    anchors, in the namespace, between anchors. *)
Inductive unanchored : text -> text -> Prop :=
| un_both t : unanchored ("^"%char :: t ++ ["$"%char]) t
| un_start t : ends_dollar ("^"%char :: t) = false -> unanchored ("^"%char :: t) t
| un_end t : starts_caret (t ++ ["$"%char]) = false -> unanchored (t ++ ["$"%char]) t
| un_none t : starts_caret t = false -> ends_dollar t = false -> unanchored t t.
Definition whole_pattern (n : option string) (t : text) (re : string) : Prop :=
  exists bare full, unanchored t bare /\ in_namespace n (str bare) full /\
    re = String.append "^" (String.append full "$").

Section Spec.
  Variable job : Type.
  Variable job_id : job -> string.
  Variable re_parse : string -> re_kind.
  Variable re_match : string -> string -> bool.

  (** The pattern of a statement selects a job. *)
  Definition selects (n : option string) (pattern : text) (j : job) : Prop :=
    match re_parse (str pattern) with
    | ReErr => False
    | ReFixed => in_namespace n (str pattern) (job_id j)
    | RePattern => exists re, whole_pattern n pattern re /\ re_match re (job_id j) = true
    end.

  (** The test plan should run the job. *)
  Definition plan_includes (p : plan) (j : job) : Prop :=
    exists q t ov, part p q /\ includes_stmt (include q) t ov /\ selects (ns q) t j.
  Definition plan_excludes (p : plan) (j : job) : Prop :=
    exists q, part p q /\
      ((exists t ov, includes_stmt (exclude q) t ov /\ selects (ns q) t j) \/
       (exists w, lists_word (bootstrap q) w /\ in_namespace (ns q) (str w) (job_id j))).
  Definition plan_requires (p : plan) (j : job) : Prop :=
    exists q t ov, part p q /\ includes_stmt (mandatory q) t ov /\ selects (ns q) t j.

  (** The pattern of an override applies to a job. *)
  Definition applies (n : option string) (pattern : text) (j : job) : Prop :=
    exists full, in_namespace n (str pattern) full /\
      re_match (String.append "^" (String.append full "$")) (job_id j) = true.

  (** An override next to a pattern of the include field *)
  Definition inline_says (q : plan) (j : job) (f : field) (v : string) : Prop :=
    exists t ov fname value, includes_stmt (include q) t ov /\ In (fname, value) ov /\
      field_called (underscored fname) = Some f /\ v = str value /\ applies (ns q) t j.
  (** in the field category-overrides *)
  Definition category_says (q : plan) (j : job) (v : string) : Prop :=
    exists t value, override_stmt (category q) value t /\ in_namespace (ns q) (str value) v /\
      applies (ns q) t j.
  (** in the field certification-status-overrides *)
  Definition status_says (q : plan) (j : job) (v : string) : Prop :=
    exists t value, override_stmt (certification q) value t /\ v = str value /\ applies (ns q) t j.

  (** The test plan gives the job a value for a field. *)
  Definition says (p : plan) (j : job) (f : field) (v : string) : Prop :=
    (exists q, part p q /\ inline_says q j f v) \/
    (f = CATEGORY /\ exists q, category_part p q /\ category_says q j v) \/
    (f = STATUS /\ exists q, part p q /\ status_says q j v).
End Spec.
