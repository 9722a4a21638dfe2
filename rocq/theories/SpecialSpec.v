(** * What lists and graphs of jobs should show *)
From Coq Require Import String Ascii List Bool Arith.
From Verif Require Import Base ScanModel Rfc822Model QualModel QualSpec RegexModel RegexProofs SpecialModel.
Import ListNotations.
Local Open Scope list_scope.

Section Listing.
  Variable alternatives : text -> option (list re).

  (** A pattern chooses a job if one alternative matches the identifier: the last one as a whole (or
      all but a line feed at the end), the others at the beginning *)
  Definition whole (r : re) (t : text) : Prop := lang r t \/ exists a, t = a ++ ["010"%char] /\ lang r a.
  Definition starts (r : re) (t : text) : Prop := exists a b, t = a ++ b /\ lang r a.
  Definition chooses (p : text) (j : job) : Prop :=
    exists l r, alternatives p = Some (l ++ [r]) /\
      (whole r (L (j_id j)) \/ exists r', In r' l /\ starts r' (L (j_id j))).

  (** The test plan of that identifier in a provider: the first one *)
  Definition plan_in (p : provider) (n : name) (q : qualifier job) : Prop :=
    exists l1 l2, p n = l1 ++ Test_plan q :: l2 /\ forall q', ~ In (Test_plan q') l1.
  Definition some_plan (a : args) (ps : list provider) (f : qualifier job -> Prop) : Prop :=
    exists n p q, a_test_plan a = Some n /\ In p ps /\ plan_in p n q /\ f q.

  (** Included by the plan or a pattern, and excluded by neither *)
  Definition chosen (a : args) (ps : list provider) (j : job) : Prop :=
    (some_plan a ps (fun q => includes job j_id q j) \/ exists p, In p (a_include a) /\ chooses p j) /\
    ~ (some_plan a ps (fun q => excludes job j_id q j) \/ exists p, In p (a_exclude a) /\ chooses p j).
  (** Nothing was said about which jobs are to be shown *)
  Definition no_choice (a : args) : Prop := a_include a = [] /\ (a_test_plan a = None \/ a_test_plan a = Some ""%string).
End Listing.

(** ** Graphs *)

Inductive link := Depends | Runs_after | Requires (expression : text).
(** The links of a job; those to resources only if asked for *)
Definition linked (resources : bool) (j : job) (to : text) (k : link) : Prop :=
  match k with
  | Depends => In to (j_direct j)
  | Runs_after => In to (j_after j)
  | Requires e => resources = true /\ exists p rs, j_program j = Some (Some p) /\ In (e, rs) p /\ In to rs
  end.
Definition in_quotes (t : text) : text := """"%char :: t ++ [""""%char].
(** What is drawn for a link *)
Inductive link_line (a b : text) : link -> text -> Prop :=
| line_depends : link_line a b Depends ("009"%char :: in_quotes a ++ L " -> " ++ in_quotes b ++ L ";")
| line_after : link_line a b Runs_after ("009"%char :: in_quotes a ++ L " -> " ++ in_quotes b ++ L " [style=dotted];")
| line_requires e e' : Forall2 (fun c c' => c = """"%char /\ c' = "'"%char \/ c <> """"%char /\ c' = c) e e' ->
    link_line a b (Requires e) ("009"%char :: in_quotes a ++ L " -> " ++ in_quotes b ++ L " [style=dashed, label=" ++ in_quotes e' ++ L "];").
(** How a job is drawn; some kinds are not *)
Inductive look : text -> text -> Prop :=
| look_resource : look (L "resource") (L "shape=ellipse,color=blue")
| look_attachment : look (L "attachment") (L "color=green")
| look_shell : look (L "shell") []
| look_manual : look (L "manual") (L "color=orange")
| look_verify : look (L "user-verify") (L "color=orange")
| look_interact : look (L "user-interact") (L "color=orange").
Definition box_line (id look : text) : text := "009"%char :: in_quotes id ++ L " [" ++ look ++ L "];".
(** A line about a job *)
Inductive drawn (resources : bool) (j : job) : text -> Prop :=
| drawn_box s : look (j_plugin j) s -> drawn resources j (box_line (L (j_id j)) s)
| drawn_link b k line : linked resources j b k -> link_line (L (j_id j)) b k line -> drawn resources j line
| drawn_resource b e : linked resources j b (Requires e) -> drawn resources j (box_line b (L "shape=ellipse,color=blue")).
