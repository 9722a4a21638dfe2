(** Test plans: plainbox/impl/unit/testplan.py:320-583 and 684-928, and the
    overrides of a device context, plainbox/impl/session/state.py:361-379,
    481-488, 588-616 with plainbox/impl/session/jobs.py:224-249 and 377-424.

    The nested parts of a test plan (359-383, looked up by identifier in a
    throwaway session) are given as a tree; a test plan that contains itself is
    not modelled.  Line numbers are used for origins only and are dropped. *)
From Coq Require Import String Ascii List Bool Arith.
From Verif Require Import Base ScanModel Rfc822Model XparseModel QualModel.
Import ListNotations.
Local Open Scope nat_scope.
Local Open Scope string_scope.
Local Open Scope list_scope.

Definition str (t : text) : string := string_of_list_ascii t.
Definition txt (s : string) : text := list_ascii_of_string s.

(** The exceptions that come up; [Hang] is a parser that does not return. *)
Inductive exc := AssertionError | Hang | ReError | ValueError | UnboundLocalError | AttributeError.
Definition res (A : Type) := (A + exc)%type.
Definition bind {A B} (x : res A) (f : A -> res B) : res B :=
  match x with inl a => f a | inr e => inr e end.
Definition of_outcome {A} (x : outcome A) : res A :=
  match x with Done a => inl a | AssertionFailed => inr AssertionError | OutOfFuel => inr Hang end.

(** The results of [f] on each element, put together; stops at an exception *)
Definition collect {A B} (f : A -> res (list B)) : list A -> res (list B) :=
  fix go l :=
    match l with
    | [] => inl []
    | x :: r => bind (f x) (fun a => bind (go r) (fun b => inl (a ++ b)))
    end.

(** A test plan: the namespace of its provider (None without a provider), the
    fields include, exclude, mandatory_include, bootstrap_include,
    category_overrides and certification_status_overrides, and the nested parts *)
Inductive plan := Plan (ns include exclude mandatory bootstrap category certification : option string)
                       (nested : list plan).
Definition ns p := let '(Plan x _ _ _ _ _ _ _) := p in x.
Definition include p := let '(Plan _ x _ _ _ _ _ _) := p in x.
Definition exclude p := let '(Plan _ _ x _ _ _ _ _) := p in x.
Definition mandatory p := let '(Plan _ _ _ x _ _ _ _) := p in x.
Definition bootstrap p := let '(Plan _ _ _ _ x _ _ _) := p in x.
Definition category p := let '(Plan _ _ _ _ _ x _ _) := p in x.
Definition certification p := let '(Plan _ _ _ _ _ _ x _) := p in x.
Definition nested p := let '(Plan _ _ _ _ _ _ _ x) := p in x.

(** unit.py:775-791 qualify_id *)
Definition qualify (n : option string) (some_id : string) : string :=
  match String.index 0 "::" some_id, n with
  | None, Some n => n ++ "::" ++ some_id
  | _, _ => some_id
  end%string.

(** r"^{}$".format(...) *)
Definition between (s : string) : string := ("^" ++ s ++ "$")%string.

(** text.startswith('^'), text.endswith('$') *)
Definition starts_caret (t : text) : bool := match t with c :: _ => Ascii.eqb c "^" | [] => false end.
Definition ends_dollar (t : text) : bool := match rev t with c :: _ => Ascii.eqb c "$" | [] => false end.

(** 474-487 in parse_matchers, the same as 585-594 qualify_pattern *)
Definition qualify_pattern (n : option string) (t : text) : string :=
  if (starts_caret t && ends_dollar t)%bool then between (qualify n (str (removelast (tl t))))
  else if starts_caret t then between (qualify n (str (tl t)))
  else if ends_dollar t then between (qualify n (str (removelast t)))
  else between (qualify n (str t)).

(** override_map[pattern].extend(l), on a defaultdict or with setdefault *)
Definition extend {A} (k : string) (l : list A) (d : dict (list A)) : dict (list A) :=
  dset k (match dget k d with Some old => old ++ l | None => l end) d.

(** sorted(...) of pairs with different first components *)
Fixpoint insert_pair {A} (k : string) (a : A) (l : list (string * A)) : list (string * A) :=
  match l with
  | [] => [(k, a)]
  | (k', a') :: r =>
      match String.compare k k' with Gt => (k', a') :: insert_pair k a r | _ => (k, a) :: l end
  end.
Definition sorted_pairs {A} (l : list (string * A)) : list (string * A) :=
  fold_right (fun p r => insert_pair (fst p) (snd p) r) [] l.

(** jobs.py:319-332, the fields of a job state that can be overridden *)
Inductive field := CATEGORY | STATUS | RETRY.
(** jobs.py:419-422: getattr(self.__class__, 'effective_{}'.format(field)); all
    attributes with such a name are overridable *)
Definition field_called (s : string) : option field :=
  if String.eqb s "category_id" then Some CATEGORY
  else if String.eqb s "certification_status" then Some STATUS
  else if String.eqb s "auto_retry" then Some RETRY
  else None.
(** text.replace('-', '_'), 921 *)
Definition underscored (t : text) : string :=
  str (map (fun c => if Ascii.eqb c "-" then "_"%char else c) t).

Section Plans.
  Variable job : Type.
  Variable job_id : job -> string.
  (** the values of job.category_id, job.certification_status, job.auto_retry *)
  Variable own : job -> field -> string.

  (** Python's re: the class of the node that Re.parse returns
      (xparsers.py:188-238), whether re.compile accepts a pattern, and whether
      re.match finds a match of the pattern in a text *)
  Inductive re_kind := ReErr | ReFixed | RePattern.
  Variable re_parse : string -> re_kind.
  Variable compiles : string -> bool.
  Variable re_match : string -> string -> bool.
  (** the order in which a set is iterated over *)
  Variable set_order : list string -> list string.

  (** re.match(pattern, text) *)
  Definition rmatch (pattern s : string) : res bool :=
    if compiles pattern then inl (re_match pattern s) else inr ReError.

  (** PatternMatcher(pattern): secure/qualifiers.py:288-297 *)
  Definition pattern_matcher (pattern : string) : res (matcher job) :=
    if compiles pattern then inl (MPred (fun j => re_match pattern (job_id j))) else inr ReError.

  (** 427-503 parse_matchers, one statement: [inr] is the error that the quad
      carries; PatternMatcher() may also raise *)
  Definition matcher_of (n : option string) (s : (text * list (text * text)) + problem)
      : res (matcher job + exc) :=
    match s with
    | inr _ => inl (inr ValueError)
    | inl (t, _) =>
        match re_parse (str t) with
        | ReErr => inl (inr ReError)
        | ReFixed => inl (inl (MId (qualify n (str t))))
        | RePattern => bind (pattern_matcher (qualify_pattern n t)) (fun m => inl (inl m))
        end
    end.

  (** 427-503: all the statements of the text, first *)
  Definition parse_matchers (n : option string) (s : string) : res (list (matcher job + exc)) :=
    bind (of_outcome (parse_include_list (txt s) 0)) (fun stmts =>
    collect (fun x => bind (matcher_of n (snd x)) (fun m => inl [m])) stmts).

  (** 417-426 _gen_qualifiers *)
  Definition gen_qualifiers (n : option string) (v : option string) (inclusive : bool)
      : res (list (qualifier job)) :=
    match v with
    | None => inl []
    | Some s =>
        bind (parse_matchers n s) (fun ms =>
        collect (fun m => match m with inl m => inl [Simple m inclusive] | inr e => inr e end) ms)
    end.

  (** 320-341 get_bootstrap_job_ids; a set, with duplicates here *)
  Fixpoint bootstrap_job_ids (p : plan) : res (list string) :=
    bind match bootstrap p with
         | None => inl []
         | Some s =>
             bind (of_outcome (parse_words (S (length (txt s))) (txt s))) (fun es =>
             inl (flat_map (fun e => match e with Text w => [qualify (ns p) (str w)] | Unexpected _ => [] end) es))
         end (fun here =>
    bind (match p with Plan _ _ _ _ _ _ _ l => collect bootstrap_job_ids l end) (fun there =>
    inl (here ++ there))).

  (** 402-415 get_bootstrap_qualifier *)
  Fixpoint bootstrap_qualifier (excluding : bool) (p : plan) : res (qualifier job) :=
    bind match bootstrap p with
         | None => inl []
         | Some _ =>
             bind (bootstrap_job_ids p) (fun ids =>
             inl (map (fun i => Simple (MId i) (negb excluding)) (set_order ids)))
         end (fun here =>
    bind (match p with Plan _ _ _ _ _ _ _ l =>
            collect (fun q => bind (bootstrap_qualifier excluding q) (fun x => inl [x])) l end) (fun there =>
    inl (Composite (here ++ there)))).

  (** 368-383 get_qualifier *)
  Fixpoint get_qualifier (p : plan) : res (qualifier job) :=
    bind (gen_qualifiers (ns p) (include p) true) (fun inc =>
    bind (gen_qualifiers (ns p) (exclude p) false) (fun exc =>
    bind (bootstrap_qualifier true p) (fun boot =>
    bind (match p with Plan _ _ _ _ _ _ _ l =>
            collect (fun q => bind (get_qualifier q) (fun x => inl [x])) l end) (fun there =>
    inl (Composite (inc ++ exc ++ [boot] ++ there)))))).

  (** 386-400 get_mandatory_qualifier *)
  Fixpoint mandatory_qualifier (p : plan) : res (qualifier job) :=
    bind (gen_qualifiers (ns p) (mandatory p) true) (fun inc =>
    bind (match p with Plan _ _ _ _ _ _ _ l =>
            collect (fun q => bind (mandatory_qualifier q) (fun x => inl [x])) l end) (fun there =>
    inl (Composite (inc ++ there)))).

  (** 505-544 parse_category_overrides: category and pattern *)
  Definition parse_category_overrides (n : option string) (s : string) : res (list (string * string)) :=
    bind (of_outcome (parse_override_list (txt s) 0)) (fun stmts =>
    collect (fun x => match snd x with
                      | inl (value, pattern) =>
                          inl [(qualify n (str value), between (qualify n (str pattern)))]
                      | inr _ => inr ValueError
                      end) stmts).

  (** 567-583 get_effective_category *)
  Fixpoint first_match (l : list (string * string)) (j : job) : res string :=
    match l with
    | [] => inl (own j CATEGORY)
    | (c, pattern) :: r =>
        bind (rmatch pattern (job_id j)) (fun b : bool => if b then inl c else first_match r j)
    end.
  Definition effective_category (p : plan) (j : job) : res string :=
    match category p with
    | None => inl (own j CATEGORY)
    | Some s => bind (parse_category_overrides (ns p) s) (fun l => first_match l j)
    end.

  (** 546-565 get_effective_category_map *)
  Fixpoint over_jobs (c pattern : string) (jobs : list job) (m : dict string) : res (dict string) :=
    match jobs with
    | [] => inl m
    | j :: r =>
        bind (rmatch pattern (job_id j)) (fun b : bool =>
        over_jobs c pattern r (if b then dset (job_id j) c m else m))
    end.
  Fixpoint over_overrides (l : list (string * string)) (jobs : list job) (m : dict string) : res (dict string) :=
    match l with
    | [] => inl m
    | (c, pattern) :: r => bind (over_jobs c pattern jobs m) (fun m => over_overrides r jobs m)
    end.
  Definition effective_category_map (p : plan) (jobs : list job) : res (dict string) :=
    let m := fold_left (fun m j => dset (job_id j) (own j CATEGORY) m) jobs [] in
    match category p with
    | None => inl m
    | Some s => bind (parse_category_overrides (ns p) s) (fun l => over_overrides l jobs m)
    end.

  (** 900-928 _get_inline_overrides: pattern, (field, value) list; Error nodes are
      skipped *)
  Fixpoint inline_overrides (p : plan) : res (list (string * list (string * string))) :=
    bind match include p with
         | None => inl []
         | Some s =>
             bind (of_outcome (parse_include_list (txt s) 1)) (fun stmts =>
             inl (flat_map (fun x => match snd x with
                                     | inl (t, ov) =>
                                         match ov with
                                         | [] => []
                                         | _ => [(between (qualify (ns p) (str t)),
                                                  map (fun fv => (underscored (fst fv), str (snd fv))) ov)]
                                         end
                                     | inr _ => []
                                     end) stmts))
         end (fun here =>
    bind (match p with Plan _ _ _ _ _ _ _ l => collect inline_overrides l end) (fun there =>
    inl (here ++ there))).

  (** FieldOverride nodes of a field; Error nodes are skipped *)
  Definition overrides_in (s : string) : res (list (text * text)) :=
    bind (of_outcome (parse_override_list (txt s) 1)) (fun stmts =>
    inl (flat_map (fun x => match snd x with inl vp => [vp] | inr _ => [] end) stmts)).

  (** 843-869 _get_category_overrides: pattern, field and value; returns early,
      without the nested parts, if the field is absent *)
  Fixpoint category_overrides (p : plan) : res (list (string * string * string)) :=
    match category p with
    | None => inl []
    | Some s =>
        bind (overrides_in s) (fun l =>
        bind (match p with Plan _ _ _ _ _ _ _ l => collect category_overrides l end) (fun there =>
        inl (map (fun vp => (between (qualify (ns p) (str (snd vp))), "category_id"%string,
                             qualify (ns p) (str (fst vp)))) l ++ there)))
    end.

  (** 871-898 _get_blocker_status_overrides *)
  Fixpoint status_overrides (p : plan) : res (list (string * string * string)) :=
    bind match certification p with
         | None => inl []
         | Some s =>
             bind (overrides_in s) (fun l =>
             inl (map (fun vp => (between (qualify (ns p) (str (snd vp))), "certification_status"%string,
                                  str (fst vp))) l))
         end (fun here =>
    bind (match p with Plan _ _ _ _ _ _ _ l => collect status_overrides l end) (fun there =>
    inl (here ++ there))).

  (** 815-841 _get_override_list *)
  Definition override_list (p : plan) : res (list (string * list (string * string))) :=
    bind (inline_overrides p) (fun a =>
    bind (category_overrides p) (fun b =>
    bind (status_overrides p) (fun c =>
    let m := fold_left (fun m x => extend (fst x) (snd x) m) a [] in
    let m := fold_left (fun m x => extend (fst (fst x)) [(snd (fst x), snd x)] m) b m in
    let m := fold_left (fun m x => extend (fst (fst x)) [(snd (fst x), snd x)] m) c m in
    inl (sorted_pairs m)))).

  (** 754-770 and 772-813 _get_qualifier: whether it raises; [matcher] is not
      bound for a bad regular expression *)
  Definition check_qualifier_for (n : option string) (v : option string) : res unit :=
    match v with
    | None => inl tt
    | Some s =>
        bind (of_outcome (parse_include_list (txt s) 0)) (fun stmts =>
        bind (collect (fun x => match snd x with
                                | inr _ => inl []
                                | inl (t, _) =>
                                    match re_parse (str t) with
                                    | ReErr => inr UnboundLocalError
                                    | ReFixed => inl []
                                    | RePattern => bind (pattern_matcher (qualify_pattern n t)) (fun _ => inl [])
                                    end
                                end) stmts) (fun _ : list unit =>
        inl tt))
    end.

  (** 744-748 TestPlanUnitSupport: its override_list *)
  Definition support (p : plan) : res (list (string * list (string * string))) :=
    bind (override_list p) (fun l =>
    bind (check_qualifier_for (ns p) (include p)) (fun _ =>
    bind (check_qualifier_for (ns p) (exclude p)) (fun _ =>
    inl l))).

  (** state.py:588-596 _compute_override_map *)
  Fixpoint compute_override_map (plans : list plan) (m : dict (list (string * string)))
      : res (dict (list (string * string))) :=
    match plans with
    | [] => inl m
    | p :: r =>
        bind (support p) (fun l =>
        compute_override_map r (fold_left (fun m x => extend (fst x) (snd x) m) l m))
    end.

  (** The state of a job (jobs.py:319-332): the values that override its own;
      None is JOB_VALUE *)
  Definition jstate := (job * (field -> option string))%type.
  (** jobs.py:242-248 OverridableJobField.__get__ *)
  Definition effective (s : jstate) (f : field) : string :=
    match snd s f with Some v => v | None => own (fst s) f end.
  Definition field_eqb (a b : field) : bool :=
    match a, b with CATEGORY, CATEGORY | STATUS, STATUS | RETRY, RETRY => true | _, _ => false end.
  (** jobs.py:377-424 apply_overrides *)
  Fixpoint apply_overrides (l : list (string * string)) (s : jstate) : res jstate :=
    match l with
    | [] => inl s
    | (fname, v) :: r =>
        match field_called fname with
        | None => inr AttributeError
        | Some f => apply_overrides r (fst s, fun g => if field_eqb g f then Some v else snd s g)
        end
    end.
  (** state.py:604-616: the overrides of every pattern that matches *)
  Fixpoint apply_map (m : dict (list (string * string))) (s : jstate) : res jstate :=
    match m with
    | [] => inl s
    | (pattern, l) :: r =>
        bind (rmatch pattern (job_id (fst s))) (fun b : bool =>
        bind (if b then apply_overrides l s else inl s) (fun s =>
        apply_map r s))
    end.

  (** A device context: the test plans, the cached override map (state.py:512-540
      compute_shared) and the job states by identifier *)
  Record context := Context {
    plans : list plan;
    cache : option (dict (list (string * string)));
    states : dict jstate }.
  (** _test_plan_list and _shared_cache start empty *)
  Definition fresh : context := Context [] None [].

  (** state.py:344-359 override_map *)
  Definition override_map (c : context) : res (dict (list (string * string)) * context) :=
    match cache c with
    | Some m => inl (m, c)
    | None =>
        bind (compute_override_map (plans c) []) (fun m =>
        inl (m, Context (plans c) (Some m) (states c)))
    end.

  Inductive op := AddJob (j : job) | RemoveJob (i : string) | SetTestPlans (l : list plan).

  Fixpoint apply_all (m : dict (list (string * string))) (d : dict jstate) : res (dict jstate) :=
    match d with
    | [] => inl []
    | (i, s) :: r => bind (apply_map m s) (fun s => bind (apply_all m r) (fun r => inl ((i, s) :: r)))
    end.

  (** [AddJob] is what a new job does here (481-488, 612-616), an identifier that
      is known is left alone; [RemoveJob] drops the state; [SetTestPlans] is
      set_test_plan_list (361-383) without the mandatory jobs.  An exception ends
      the run: what is left behind is not modelled. *)
  Definition perform (o : op) (c : context) : res context :=
    match o with
    | AddJob j =>
        if dmem (job_id j) (states c) then inl c
        else
          bind (override_map c) (fun '(m, c) =>
          bind (apply_map m (j, fun _ => None)) (fun s =>
          inl (Context (plans c) (cache c) (dset (job_id j) s (states c)))))
    | RemoveJob i => inl (Context (plans c) (cache c) (ddel i (states c)))
    | SetTestPlans l =>
        let c := Context l None (states c) in
        match states c with
        | [] => inl c
        | _ =>
            bind (override_map c) (fun '(m, c) =>
            bind (apply_all m (states c)) (fun d =>
            inl (Context (plans c) (cache c) d)))
        end
    end.
  Fixpoint perform_all (l : list op) (c : context) : res context :=
    match l with
    | [] => inl c
    | o :: r => bind (perform o c) (fun c => perform_all r c)
    end.
End Plans.
