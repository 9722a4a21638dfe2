(** * Jobs named on the command line, and lists and graphs of them:
    plainbox/impl/commands/inv_checkbox.py and inv_special.py *)
From Coq Require Import String Ascii List Bool Arith.
From Verif Require Import Base ScanModel Rfc822Model QualModel RegexModel OriginModel.
Import ListNotations.
Local Open Scope list_scope.

Definition L (s : string) : text := list_ascii_of_string s.
Definition Q : text := ["""" % char].

(** A job as far as these commands look at it.  The dependencies are sets: their elements in the
    order of iteration, whatever it is. *)
Record job := mk_job {
  j_id : name;
  j_checksum : text;
  j_plugin : text;
  j_direct : list text;                                (* get_direct_dependencies() *)
  j_after : list text;                                 (* get_after_dependencies() *)
  j_program : option (option (list (text * list text)))(* get_resource_program(): None: it raises *)
}.
(** Arguments *)
Record args := mk_args {
  a_special : option text;
  a_test_plan : option name;
  a_include : list text;
  a_exclude : list text;
  a_dot_resources : bool
}.
(** Units of one identifier in a provider: a test plan with its qualifier, or anything else *)
Inductive unit_of_id := Test_plan (q : qualifier job) | Other_unit.
Definition provider := name -> list unit_of_id.        (* id_map, a defaultdict *)

(** The pattern '^{}$'.format(pattern) of a pattern whose alternatives, outside of any group, are
    [l], with re.match: the ^ belongs to the first alternative, the $ to the last.
    inv_checkbox.py 80-81 and 93-94, qualifiers.py 159-169 *)
Fixpoint anchored (l : list re) (t : text) : bool :=
  match l with
  | [] => false
  | [r] => match_end r t
  | r :: l' => match_start r t || anchored l' t
  end.

Section Patterns.
  (** The alternatives of a pattern; None: the pattern is wrong *)
  Variable alternatives : text -> option (list re).

  (** inv_checkbox.py 77-101: the wrong ones are skipped with a warning *)
  Definition pattern_qualifiers (inclusive : bool) (l : list text) : list (qualifier job) :=
    flat_map (fun p => match alternatives p with
                       | Some r => [Simple (MPred (fun j => anchored r (L (j_id j)))) inclusive]
                       | None => [] end) l.
  (** 69-73 *)
  Fixpoint first_plan (l : list unit_of_id) : list (qualifier job) :=
    match l with [] => [] | Test_plan q :: _ => [q] | Other_unit :: r => first_plan r end.
  (** 61-103; [providers] is the set of providers of the jobs, in whatever order *)
  Definition matching_jobs (a : args) (providers : list provider) (jobs : list job) : list job :=
    let plan := match a_test_plan a with Some n => flat_map (fun p => first_plan (p n)) providers | None => [] end in
    select_jobs job j_id jobs (plan ++ pattern_qualifiers true (a_include a) ++ pattern_qualifiers false (a_exclude a)).
  (** inv_special.py 55-71 *)
  Definition special_jobs (a : args) (providers : list provider) (jobs : list job) : list job :=
    let m := matching_jobs a providers jobs in
    if match a_special a with Some _ => true | None => false end
       && match a_include a with [] => true | _ => false end
       && match a_test_plan a with None => true | Some n => match L n with [] => true | _ => false end end
    then jobs else m.

  (** What is printed, and whether it got to the end *)
  Definition printed := (list text * bool)%type.
  (** 73-76, 78-81 *)
  Definition print_jobs (l : list job) : printed := (map (fun j => L (j_id j)) l, true).
  Definition print_hashes (l : list job) : printed := (map (fun j => j_checksum j ++ L " " ++ L (j_id j)) l, true).

  (** 83-93: a set, sorted *)
  Fixpoint insert_text (x : text) (l : list text) : list text :=
    match l with
    | [] => [x]
    | y :: r => if text_eqb x y then l else if text_gt x y then y :: insert_text x r else x :: l
    end.
  Fixpoint expressions (l : list job) : option (list text) :=
    match l with
    | [] => Some []
    | j :: r =>
        match j_program j with
        | None => None
        | Some p =>
            match expressions r with
            | None => None
            | Some e => Some (match p with Some x => map fst x | None => [] end ++ e)
            end
        end
    end.
  Definition print_expressions (l : list job) : printed :=
    match expressions l with
    | None => ([], false)
    | Some e => (fold_right insert_text [] e, true)
    end.

  (** 95-125 *)
  Definition quoted (t : text) : text := Q ++ t ++ Q.
  Definition TAB : text := ["009"%char].
  Definition arrow (a b : text) (style : text) : text := TAB ++ quoted a ++ L " -> " ++ quoted b ++ style ++ L ";".
  Definition no_quotes (t : text) : text := map (fun c => if Ascii.eqb c """" then "'"%char else c) t.
  Definition node_line (j : job) : list text :=
    let id := L (j_id j) in
    if text_eqb (j_plugin j) (L "resource") then [TAB ++ quoted id ++ L " [shape=ellipse,color=blue];"]
    else if text_eqb (j_plugin j) (L "attachment") then [TAB ++ quoted id ++ L " [color=green];"]
    else if text_eqb (j_plugin j) (L "shell") then [TAB ++ quoted id ++ L " [];"]
    else if existsb (text_eqb (j_plugin j)) [L "manual"; L "user-verify"; L "user-interact"] then
      [TAB ++ quoted id ++ L " [color=orange];"]
    else [].
  Definition resource_lines (j : job) (p : list (text * list text)) : list text :=
    flat_map (fun e => flat_map (fun r =>
      [TAB ++ quoted r ++ L " [shape=ellipse,color=blue];";
       arrow (L (j_id j)) r (L " [style=dashed, label=" ++ quoted (no_quotes (fst e)) ++ L "]")]) (snd e)) p.
  Definition dot_job (resources : bool) (j : job) : printed :=
    let lines := node_line j ++ map (fun d => arrow (L (j_id j)) d []) (j_direct j)
                 ++ map (fun d => arrow (L (j_id j)) d (L " [style=dotted]")) (j_after j) in
    match j_program j with
    | None => (lines, false)
    | Some p => (lines ++ (if resources then match p with Some x => resource_lines j x | None => [] end else []), true)
    end.
  Fixpoint dot_jobs (resources : bool) (l : list job) : printed :=
    match l with
    | [] => ([L "}"], true)
    | j :: r =>
        let (a, ok) := dot_job resources j in
        if ok then let (b, ok') := dot_jobs resources r in (a ++ b, ok') else (a, false)
    end.
  Definition print_dot (resources : bool) (l : list job) : printed :=
    let (a, ok) := dot_jobs resources l in
    ([L "digraph dependency_graph {"; TAB ++ L "node [shape=box];"] ++ a, ok).

  (** 39-53; inv_checkbox.py 54-59: the jobs of all providers *)
  Definition run_special (a : args) (providers : list provider) (jobs : list job) : printed :=
    let l := special_jobs a providers jobs in
    match a_special a with
    | None => ([], true)
    | Some s =>
        if text_eqb s (L "list-jobs") then print_jobs l
        else if text_eqb s (L "list-job-hashes") then print_hashes l
        else if text_eqb s (L "list-expr") then print_expressions l
        else if text_eqb s (L "dep-graph") then print_dot (a_dot_resources a) l
        else ([], true)
    end.
End Patterns.
