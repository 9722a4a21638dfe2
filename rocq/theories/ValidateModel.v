(** * Checking units: plainbox/impl/unit/validators.py, concrete_validators.py, validation.py,
    unit.py 98-270 and 881-944, unit_with_id.py 43-125, job.py 704-1066, template.py 53-78 and
    430-485, ctrl.py 292-325, plainbox/provider_manager.py 977-1175

    Messages are not modelled, except that composing one asks for the identifier of the unit
    (unit_with_id.py 58).  What is cached on units is not modelled: units do not change.  A
    text is a list of characters below 256. *)
From Coq Require Import QArith.
From Coq Require Import Ascii List Bool Arith.
From Verif Require Import ScanModel Rfc822Model XparseModel JsonModel DurationModel FieldsModel SiblingsModel.
Import ListNotations.
Open Scope char_scope.
Local Open Scope nat_scope.
Open Scope list_scope.

Definition k_command : text := ["c"; "o"; "m"; "m"; "a"; "n"; "d"].
Definition k_user : text := ["u"; "s"; "e"; "r"].
Definition k_duration : text := ["e"; "s"; "t"; "i"; "m"; "a"; "t"; "e"; "d"; "_"; "d"; "u"; "r"; "a"; "t"; "i"; "o"; "n"].
Definition k_requires : text := ["r"; "e"; "q"; "u"; "i"; "r"; "e"; "s"].
Definition k_shell : text := ["s"; "h"; "e"; "l"; "l"].
Definition k_imports : text := ["i"; "m"; "p"; "o"; "r"; "t"; "s"].
Definition k_qml : text := ["q"; "m"; "l"; "_"; "f"; "i"; "l"; "e"].
Definition k_cert_field : text := ["c"; "e"; "r"; "t"; "i"; "f"; "i"; "c"; "a"; "t"; "i"; "o"; "n"; "_"; "s"; "t"; "a"; "t"; "u"; "s"].
Definition k_cert : text := ["c"; "e"; "r"; "t"; "i"; "f"; "i"; "c"; "a"; "t"; "i"; "o"; "n"; "-"; "s"; "t"; "a"; "t"; "u"; "s"].
Definition k_retry_field : text := ["a"; "u"; "t"; "o"; "_"; "r"; "e"; "t"; "r"; "y"].
Definition k_retry : text := ["a"; "u"; "t"; "o"; "-"; "r"; "e"; "t"; "r"; "y"].
Definition k_unit : text := ["u"; "n"; "i"; "t"].
Definition k_t_unit : text := ["t"; "e"; "m"; "p"; "l"; "a"; "t"; "e"; "-"; "u"; "n"; "i"; "t"].
Definition k_t_resource : text := ["t"; "e"; "m"; "p"; "l"; "a"; "t"; "e"; "-"; "r"; "e"; "s"; "o"; "u"; "r"; "c"; "e"].
Definition k_t_filter : text := ["t"; "e"; "m"; "p"; "l"; "a"; "t"; "e"; "-"; "f"; "i"; "l"; "t"; "e"; "r"].
Definition k_t_imports : text := ["t"; "e"; "m"; "p"; "l"; "a"; "t"; "e"; "-"; "i"; "m"; "p"; "o"; "r"; "t"; "s"].
Definition w_job : text := ["j"; "o"; "b"].
Definition w_category : text := ["c"; "a"; "t"; "e"; "g"; "o"; "r"; "y"].
Definition w_template : text := ["t"; "e"; "m"; "p"; "l"; "a"; "t"; "e"].
Definition w_resource : text := ["r"; "e"; "s"; "o"; "u"; "r"; "c"; "e"].
Definition w_manual_plugin : text := ["m"; "a"; "n"; "u"; "a"; "l"].
Definition w_qml : text := ["q"; "m"; "l"].
Definition w_attachment : text := ["a"; "t"; "t"; "a"; "c"; "h"; "m"; "e"; "n"; "t"].
Definition w_user_verify : text := ["u"; "s"; "e"; "r"; "-"; "v"; "e"; "r"; "i"; "f"; "y"].
Definition w_user_interact : text := ["u"; "s"; "e"; "r"; "-"; "i"; "n"; "t"; "e"; "r"; "a"; "c"; "t"].
Definition w_user_interact_verify : text := ["u"; "s"; "e"; "r"; "-"; "i"; "n"; "t"; "e"; "r"; "a"; "c"; "t"; "-"; "v"; "e"; "r"; "i"; "f"; "y"].
Definition w_root : text := ["r"; "o"; "o"; "t"].
Definition w_bash : text := ["b"; "a"; "s"; "h"].
Definition w_bin_sh : text := ["/"; "b"; "i"; "n"; "/"; "s"; "h"].
Definition w_bin_bash : text := ["/"; "b"; "i"; "n"; "/"; "b"; "a"; "s"; "h"].
Definition w_unspecified : text := ["u"; "n"; "s"; "p"; "e"; "c"; "i"; "f"; "i"; "e"; "d"].
Definition w_not_part : text := ["n"; "o"; "t"; "-"; "p"; "a"; "r"; "t"; "-"; "o"; "f"; "-"; "c"; "e"; "r"; "t"; "i"; "f"; "i"; "c"; "a"; "t"; "i"; "o"; "n"].
Definition w_non_blocker : text := ["n"; "o"; "n"; "-"; "b"; "l"; "o"; "c"; "k"; "e"; "r"].
Definition w_blocker : text := ["b"; "l"; "o"; "c"; "k"; "e"; "r"].
Definition w_no : text := ["n"; "o"].
Definition w_CHECKBOX_SHARE : text := ["C"; "H"; "E"; "C"; "K"; "B"; "O"; "X"; "_"; "S"; "H"; "A"; "R"; "E"].
Definition w_CHECKBOX_DATA : text := ["C"; "H"; "E"; "C"; "K"; "B"; "O"; "X"; "_"; "D"; "A"; "T"; "A"].
Definition w_preserve_locale : text := ["p"; "r"; "e"; "s"; "e"; "r"; "v"; "e"; "-"; "l"; "o"; "c"; "a"; "l"; "e"].
Definition w_explicit_fail : text := ["e"; "x"; "p"; "l"; "i"; "c"; "i"; "t"; "-"; "f"; "a"; "i"; "l"].
Definition w_has_leftovers : text := ["h"; "a"; "s"; "-"; "l"; "e"; "f"; "t"; "o"; "v"; "e"; "r"; "s"].
Definition w_preserve_cwd : text := ["p"; "r"; "e"; "s"; "e"; "r"; "v"; "e"; "-"; "c"; "w"; "d"].
Definition w_suppress_output : text := ["s"; "u"; "p"; "p"; "r"; "e"; "s"; "s"; "-"; "o"; "u"; "t"; "p"; "u"; "t"].
Definition w_heredoc : text := ["<"; "<"].
Definition w_dot_qml : text := ["."; "q"; "m"; "l"].
Definition w_question : text := ["?"].

(** validation.py 36-63: what is wrong, and how bad it is *)
Inductive problem :=
| Missing | Wrong | Useless | Deprecated | Constant | Varying | Unknown_param | Not_unique
| Expected_i18n | Unexpected_i18n | Syntax_error | Bad_reference | Unknown.
Inductive severity := Error | Warning | Advice.

(** secure/origin.py 69-91: a range of lines, or a whole file *)
Definition origin : Type := option (nat * nat).
(** secure/origin.py 130-156 with_offset, just_line *)
Definition with_offset (o : origin) (n : nat) : origin := match o with Some (a, b) => Some (a + n, b + n) | None => None end.
Definition just_line (o : origin) : origin := match o with Some (a, _) => Some (a, a) | None => None end.

(** validators.py 115-160: an issue and the units it is about, by the identity of the objects *)
Record issue := mk_issue {
  i_field : text;
  i_kind : problem;
  i_sev : severity;
  i_origin : origin;
  i_units : list nat
}.

(** What a generator of issues does: it yields some and then ends or raises *)
Definition gen : Type := list issue * option fault.
Definition quiet : gen := ([], None).
Definition raises (e : fault) : gen := ([], Some e).
(** One generator after the other *)
Definition gapp (a b : gen) : gen :=
  match a with
  | (l, None) => (l ++ fst b, snd b)
  | (l, Some e) => (l, Some e)
  end.
Definition gcat (l : list gen) : gen := fold_right gapp quiet l.

(** Membership in a list of texts *)
Definition among (l : list text) (t : text) : bool := existsb (text_eqb t) l.
(** The truth value of a text or None *)
Definition truthy (o : option text) : bool := match o with Some (_ :: _) => true | _ => false end.
Definition present (o : option text) : bool := match o with Some _ => true | None => false end.
Definition is (o : option text) (w : text) : bool := match o with Some t => text_eqb t w | None => false end.
Definition one_of (o : option text) (l : list text) : bool := match o with Some t => among l t | None => false end.
(** The text occurs: Python's in *)
Fixpoint occurs (pat t : text) : bool :=
  match drop_prefix pat t with
  | Some _ => true
  | None => match t with [] => false | _ :: r => occurs pat r end
  end.
(** str.lstrip of the underscore: job.py 1055 *)
Fixpoint drop_underscores (t : text) : text :=
  match t with c :: r => if Ascii.eqb c UNDERSCORE then drop_underscores r else t | [] => [] end.

(** The classes of units: jobs, templates, the other units with identifiers (categories, test
    plans, exporters, manifest entries) and the ones without (files, packaging data) *)
Inductive cls := CJob | CTemplate | CNamed (k : text) | CPlain (k : text).

Section Validate.
  Variable P : Type.
  Variable vformat : P -> text -> text + fault.
  Variable render : option P -> text -> text.
  (** unit/__init__.py get_accessed_parameters for each engine, and membership in the
      parameters *)
  Variable accessed : bool -> text -> list text + fault.
  Variable has_param : P -> text -> bool.
  (** Reading a text with shlex: where it breaks, counted in lines *)
  Variable shlex : text -> option nat.
  (** float *)
  Variable py_float : text -> option Q.
  (** Is the JSON number different from zero? *)
  Variable number_truth : text -> bool.
  (** os.path.isfile, and the path of a file in the data directory of the provider *)
  Variable isfile : text -> bool.
  Variable data_path : unit_ P -> text -> text.
  (** hasattr(JobDefinition, name) *)
  Variable job_attribute : text -> bool.
  (** Identifiers in the program made of the field requires of a job that has one, and the ones
      in import statements *)
  Variable program : unit_ P -> list text + fault.
  Variable imported : text -> list text + fault.
  (** template.py 201-217 resource_id, and 273-300 get_filter_program for a template that has
      a filter *)
  Variable template_resource_id : unit_ P -> option text + fault.
  Variable filter_program : unit_ P -> bool + fault.

  Record vunit := mk_vunit {
    v_obj : nat;                       (* the identity of the object *)
    v_cls : cls;
    v_unit : unit_ P;
    v_virtual : bool;
    v_origin : origin;
    v_offsets : list (text * nat)      (* field_offset_map *)
  }.

  Definition value (u : vunit) (name : text) (default : option text) : option text + fault :=
    record_value P vformat render (v_unit u) name default.

  (** template.py 169-182: the identifier of a template is qualified even if it is empty *)
  Definition template_id (u : vunit) : option text + fault :=
    rbind (value u k_id (Some w_question)) (fun i =>
      inl match f_provider _ (v_unit u), i with
          | Some (ns, _), Some i => Some (ns ++ ":" :: ":" :: i)
          | _, _ => i
          end).
  (** unit_with_id.py 79-96: no fallback to the name *)
  Definition named_id (u : vunit) : option text + fault :=
    rbind (value u k_id None) (fun i =>
      inl match f_provider _ (v_unit u), i with
          | Some (ns, _), Some (c :: r) => Some (ns ++ ":" :: ":" :: c :: r)
          | _, _ => i
          end).
  (** getattr(unit, 'id'): None is AttributeError *)
  Definition id_of (u : vunit) : option (option text + fault) :=
    match v_cls u with
    | CJob => Some (job_id P vformat render (v_unit u))
    | CTemplate => Some (template_id u)
    | CNamed _ => Some (named_id u)
    | CPlain _ => None
    end.
  (** unit.py 464-472 and job.py 250-257: unit *)
  Definition unit_of (u : vunit) : option text + fault :=
    match v_cls u with CJob => inl (Some w_job) | _ => value u k_unit None end.
  Definition plugin_of (u : vunit) : option text + fault := plugin P vformat render (v_unit u).

  (** ** The validators *)

  (** validators.py 601-619: a constraint on a reference, and when it applies *)
  Record constraint := mk_constraint {
    k_only : vunit -> vunit -> bool + fault;
    k_holds : vunit -> vunit -> bool + fault
  }.
  Inductive validator :=
  (** 237-307: the function that reads the value, what may go wrong in it is not caught, and
      the function that judges it, what may go wrong in it is *)
  | Correct (kind : problem) (sev : severity) (onlyif : vunit -> bool + fault)
      (judge : vunit -> (bool + fault) + fault)
  | Deprecated_field                      (* 396-407 *)
  | Translatable                          (* 410-426 *)
  | Untranslatable                        (* 429-444 *)
  | Invariant                             (* 447-467 *)
  | Variant                               (* 470-500 *)
  | Shell_program (get : vunit -> option text + fault)      (* 503-534 *)
  | Unique_value                          (* 565-598, of the field id *)
  | Reference (refs : vunit -> list text + fault) (constraints : list constraint).   (* 622-690 *)

  Definition always (_ : vunit) : bool + fault := inl true.
  Definition judge {A} (get : vunit -> A + fault) (fn : A -> vunit -> bool + fault) (u : vunit) : (bool + fault) + fault :=
    match get u with inl a => inl (fn a u) | inr e => inr e end.
  (** 310-394 *)
  Definition Present_field (sev : severity) (onlyif : vunit -> bool + fault) (get : vunit -> option text + fault) : validator :=
    Correct Missing sev onlyif (judge get (fun v _ => inl (present v))).
  Definition Useless_field (onlyif : vunit -> bool + fault) (get : vunit -> option text + fault) : validator :=
    Correct Useless Warning onlyif (judge get (fun v _ => inl (negb (present v)))).
  Definition Member_of (l : list text) (get : vunit -> option text + fault) : validator :=
    Correct Wrong Error always (judge get (fun v _ => inl (one_of v l))).
  (** concrete_validators.py 44-52 *)
  Definition count_nl (t : text) : nat := length (filter (Ascii.eqb NL) t).
  Definition One_line (get : vunit -> option text + fault) : validator :=
    Correct Wrong Warning always (judge get (fun v _ => inl match v with Some t => count_nl t =? 0 | None => false end)).
  Definition Short_value (get : vunit -> option text + fault) : validator :=
    Correct Wrong Warning always (judge get (fun v _ => inl match v with Some t => length t <=? 80 | None => false end)).

  (** ** Reporting *)

  (** unit.py 205-241: where the issue is; when the field is only there marked for
      translation the lines are those of the whole unit, as the condition in 216 and 229 never
      holds *)
  Definition place (u : vunit) (field : text) (offset : nat) : origin :=
    match tget field (v_offsets u) with
    | Some n => just_line (with_offset (v_origin u) (n + offset))
    | None => v_origin u
    end.
  (** unit.py 163-244 report_issue, for one unit; composing the message reads the identifier
      of a unit with one: unit_with_id.py 48-68 *)
  Definition message_fault (u : vunit) : option fault :=
    match v_cls u with
    | CJob => match partial_id P vformat render (v_unit u) with inr e => Some e | inl _ => None end
    | CNamed _ => match value u k_id None with inr e => Some e | inl _ => None end
    | _ => None
    end.
  Definition report (u : vunit) (others : list nat) (field : text) (kind : problem) (sev : severity) (offset : nat) : gen :=
    match message_fault u with
    | Some e => raises e
    | None => ([mk_issue field kind sev (place u field offset) (v_obj u :: others)], None)
    end.

  (** ** What one validator says about one unit *)

  Definition parameters_used (u : vunit) (v : text) : list text + fault := accessed (jinja P (v_unit u)) v.
  Definition run (v : validator) (u : vunit) (field : text) : gen :=
    match v with
    | Correct kind sev onlyif judge =>
        match onlyif u with
        | inr e => raises e
        | inl false => quiet
        | inl true =>
            match judge u with
            | inr e => raises e
            | inl (inl true) => quiet
            | inl _ => report u [] field kind sev 0
            end
        end
    | Deprecated_field =>
        match value u field None with
        | inr e => raises e
        | inl None => quiet
        | inl (Some _) => report u [] field Deprecated Advice 0
        end
    | Translatable =>
        if v_virtual u then quiet else
        match value u field None with
        | inr e => raises e
        | inl None => quiet
        | inl (Some _) => if translatable P (v_unit u) field then quiet else report u [] field Expected_i18n Warning 0
        end
    | Untranslatable =>
        match value u field None with
        | inr e => raises e
        | inl v => if truthy v && translatable P (v_unit u) field then report u [] field Unexpected_i18n Warning 0 else quiet
        end
    | Invariant =>
        match f_params _ (v_unit u), tget field (f_data _ (v_unit u)) with
        | Some _, Some v =>
            match parameters_used u v with
            | inr e => raises e
            | inl [] => quiet
            | inl _ => report u [] field Varying Error 0
            end
        | _, _ => quiet
        end
    | Variant =>
        match f_params _ (v_unit u), tget field (f_data _ (v_unit u)) with
        | Some p, Some v =>
            match parameters_used u v with
            | inr e => raises e
            | inl [] => report u [] field Constant Error 0
            | inl l => gcat (map (fun n => if has_param p n then quiet else report u [] field Unknown_param Error 0) l)
            end
        | _, _ => quiet
        end
    | Shell_program get =>
        match get u with
        | inr e => raises e
        | inl None => quiet
        | inl (Some t) =>
            if occurs w_heredoc t then quiet
            else match shlex t with Some offset => report u [] field Syntax_error Error offset | None => quiet end
        end
    | Unique_value | Reference _ _ => quiet
    end.

  (** ** Validators that look at all the units *)

  (** validators.py 537-562 compute_value_map of the field id *)
  Definition vmap : Type := list (option text * list vunit).
  Definition key_eqb (a b : option text) : bool :=
    match a, b with Some a, Some b => text_eqb a b | None, None => true | _, _ => false end.
  Fixpoint mget (k : option text) (m : vmap) : option (list vunit) :=
    match m with [] => None | (k', l) :: r => if key_eqb k k' then Some l else mget k r end.
  Fixpoint madd (k : option text) (u : vunit) (m : vmap) : vmap :=
    match m with
    | [] => [(k, [u])]
    | (k', l) :: r => if key_eqb k k' then (k', l ++ [u]) :: r else (k', l) :: madd k u r
    end.
  Fixpoint value_map (m : vmap) (us : list vunit) : vmap + fault :=
    match us with
    | [] => inl m
    | u :: r =>
        match id_of u with
        | None => value_map m r
        | Some (inr e) => inr e
        | Some (inl i) => value_map (madd i u m) r
        end
    end.
  (** validators.py 71-112: the context, with what was computed earlier; nothing is kept when
      the computation raises *)
  Record context := mk_context { c_units : list vunit; c_cache : option vmap }.
  Definition compute_shared (c : context) : (vmap + fault) * context :=
    match c_cache c with
    | Some m => (inl m, c)
    | None =>
        match value_map [] (c_units c) with
        | inl m => (inl m, mk_context (c_units c) (Some m))
        | inr e => (inr e, c)
        end
    end.

  (** validators.py 672-681 *)
  Fixpoint constraints_checked (l : list constraint) (u referee : vunit) (field : text) : gen :=
    match l with
    | [] => quiet
    | k :: r =>
        gapp
          match k_only k u referee with
          | inr e => raises e
          | inl false => quiet
          | inl true =>
              match k_holds k u referee with
              | inr e => raises e
              | inl true => quiet
              | inl false => report u [] field Bad_reference Error 0
              end
          end
          (constraints_checked r u referee field)
    end.
  (** validators.py 658-690, one reference; the ones of a set come in some order, here with
      repetitions *)
  Definition reference_checked (m : vmap) (ks : list constraint) (u : vunit) (field : text) (r : text) : gen :=
    match mget (Some r) m with
    | None => report u [] field Bad_reference Error 0
    | Some [referee] => constraints_checked ks u referee field
    | Some [] => quiet
    | Some _ => report u [] field Bad_reference Error 0
    end.
  Definition run_in_context (v : validator) (u : vunit) (field : text) (c : context) : gen * context :=
    match v with
    | Unique_value =>
        match compute_shared c with
        | (inr e, c) => (raises e, c)
        | (inl m, c) =>
            (match id_of u with
             | None => raises Other_error
             | Some (inr e) => raises e
             | Some (inl i) =>
                 match mget i m with
                 | None => raises (Key_error match i with Some t => t | None => [] end)
                 | Some l =>
                     if 1 <? length l
                     then report u (map v_obj (filter (fun x => negb (v_obj x =? v_obj u)) l)) field Not_unique Error 0
                     else quiet
                 end
             end, c)
        end
    | Reference refs ks =>
        match compute_shared c with
        | (inr e, c) => (raises e, c)
        | (inl m, c) =>
            (match refs u with
             | inr _ => report u [] field Wrong Error 0
             | inl l => gcat (map (reference_checked m ks u field) l)
             end, c)
        end
    | _ => (quiet, c)
    end.

  (** ** The validators of each class *)

  (** unit.py 934-942, with the property unit of the class *)
  Definition unit_validators : list validator :=
    [Untranslatable; Invariant; Present_field Advice always unit_of].
  (** unit_with_id.py 112-124 *)
  Definition id_attribute (u : vunit) : option text + fault := match id_of u with Some r => r | None => inr Other_error end.
  Definition id_validators : list validator :=
    [Untranslatable; Present_field Error always id_attribute; Variant; Unique_value;
     Correct Wrong Error (fun u => rbind (value u k_id None) (fun v => inl (truthy v)))
       (judge id_attribute (fun _ u => rbind (value u k_id None) (fun v =>
          match v with Some t => inl (negb (has_colons t)) | None => inr Other_error end)))].

  Definition of_outcome (r : outcome (list text) + fault) : list text + fault :=
    match r with inl (Done l) => inl l | inl _ => inr Other_error | inr e => inr e end.
  (** The references of a job: job.py 616-676, 361-380 and 907-912, 923-927.  A parser that
      never comes back is modelled as one that raises *)
  Definition direct_refs (u : vunit) : list text + fault := of_outcome (direct_dependencies P vformat render (v_unit u)).
  Definition after_refs (u : vunit) : list text + fault := of_outcome (after_dependencies P vformat render (v_unit u)).
  Definition resource_refs (u : vunit) : list text + fault :=
    rbind (value u k_requires None) (fun r => match r with Some _ => program (v_unit u) | None => inl [] end).
  Definition import_refs (u : vunit) : list text + fault :=
    rbind (value u k_imports None) (fun i => imported match i with Some (c :: r) => c :: r | _ => [] end).
  Definition category_refs (u : vunit) : list text + fault :=
    rbind (category_id P vformat render (v_unit u)) (fun c =>
      match c with
      | [] => inl []
      | _ => rbind (get_category_id P vformat render (v_unit u)) (fun g => inl [g])
      end).
  Definition is_a (w : text) : constraint :=
    mk_constraint (fun _ _ => inl true) (fun _ r => rbind (unit_of r) (fun v => inl (is v w))).
  (** The plugin of what is not a job is not asked for *)
  Definition is_resource : constraint :=
    mk_constraint (fun _ r => rbind (unit_of r) (fun v => inl (is v w_job)))
                  (fun _ r => rbind (plugin_of r) (fun v => inl (is v w_resource))).

  Definition parses (refs : vunit -> list text + fault) (u : vunit) : bool + fault := rbind (refs u) (fun _ => inl true).
  Definition flags_of (u : vunit) : list text + fault := flag_set P vformat render (v_unit u).
  Definition flagged (w : text) (u : vunit) : bool + fault := rbind (flags_of u) (fun l => inl (among l w)).
  Definition get (name : text) (u : vunit) : option text + fault := value u name None.
  Definition shell_of (u : vunit) : option text + fault := value u k_shell (Some w_bash).
  Definition cert_of (u : vunit) : option text + fault := value u k_cert (Some w_unspecified).
  Definition retry_of (u : vunit) : option text + fault := value u k_retry (Some w_unspecified).
  Definition summary_of (u : vunit) : option text + fault := summary P vformat render (v_unit u).
  Definition description_of (u : vunit) : option text + fault := description P vformat render (v_unit u).
  (** job.py 382-397 qml_file *)
  Definition qml_of (u : vunit) : option text + fault :=
    rbind (get k_qml u) (fun q =>
      inl match q, f_provider _ (v_unit u) with Some q, Some _ => Some (data_path (v_unit u) q) | _, _ => None end).
  Definition duration_of (u : vunit) : option Q + fault := rbind (get k_duration u) (fun v => inl (estimated_duration py_float v)).
  Definition plugin_in (l : list text) (u : vunit) : bool + fault := rbind (plugin_of u) (fun p => inl (one_of p l)).
  Definition not_ (f : vunit -> bool + fault) (u : vunit) : bool + fault := rbind (f u) (fun b => inl (negb b)).
  (** Python's and: the second is not looked at when the first is false *)
  Definition and_ (f g : vunit -> bool + fault) (u : vunit) : bool + fault := rbind (f u) (fun b => if b then g u else inl false).
  Definition or_ (f g : vunit -> bool + fault) (u : vunit) : bool + fault := rbind (f u) (fun b => if b then inl true else g u).
  Definition absent (name : text) (u : vunit) : bool + fault := rbind (get name u) (fun v => inl (negb (present v))).
  Definition given (name : text) (u : vunit) : bool + fault := rbind (get name u) (fun v => inl (truthy v)).
  Definition no_stages : vunit -> bool + fault := and_ (absent k_purpose) (and_ (absent k_steps) (absent k_verification)).

  (** What json.loads gives: job.py 1040-1060 *)
  Definition json_truth (v : json) : bool :=
    match v with
    | JNull => false
    | JBool b => b
    | JNum t => number_truth t
    | JStr [] => false | JStr _ => true
    | JList [] => false | JList _ => true
    | JObj [] => false | JObj _ => true
    end.
  Definition is_dict (v : json) : bool := match v with JObj _ => true | _ => false end.
  Definition loaded (f : json -> bool + fault) (v : option text) : bool + fault :=
    match v with
    | None => inr Other_error
    | Some t => match loads t with Some j => f j | None => inr Other_error end
    end.
  Definition all_dicts (j : json) : bool + fault :=
    match j with
    | JList l => inl (forallb is_dict l)
    | JObj [] => inl true | JObj _ => inl false
    | JStr [] => inl true | JStr _ => inl false
    | _ => inr Other_error
    end.
  Definition known_keys (j : json) : bool + fault :=
    match j with
    | JList l =>
        if forallb is_dict l
        then inl (forallb (fun s => match s with JObj kvs => forallb (fun kv => job_attribute (drop_underscores (fst kv))) kvs | _ => true end) l)
        else inr Other_error
    | JObj [] => inl true
    | JStr [] => inl true
    | _ => inr Other_error
    end.

  Definition plugins : list text :=
    [w_attachment; w_resource; w_manual_plugin; w_user_verify; w_user_interact; w_user_interact_verify; w_shell; w_qml].
  Definition statuses : list text := [w_unspecified; w_not_part; w_non_blocker; w_blocker].
  Definition shells : list text := [w_bin_sh; w_bin_bash; w_bash].
  Definition retries : list text := [w_unspecified; w_no].
  Definition no_command (w : text) : validator :=
    Correct Useless Advice (absent k_command) (judge (get k_flags) (fun _ => not_ (flagged w))).

  (** job.py 733-1066 with the ones inherited: unit.py 311-318 merges them, and unit.py 123
      goes through them in the order of the names of the fields *)
  Definition job_validators : list (text * list validator) :=
    [ (k_after,
        [Untranslatable; Correct Wrong Error always (judge (get k_after) (fun _ => parses after_refs));
         Reference after_refs [is_a w_job]]);
      (k_retry_field, [Untranslatable; Invariant; Member_of retries retry_of]);
      (k_category, [Untranslatable; Invariant; Reference category_refs [is_a w_category]]);
      (k_cert_field, [Untranslatable; Invariant; Member_of statuses cert_of]);
      (k_command,
        [Untranslatable;
         Present_field Error (not_ (plugin_in [w_manual_plugin; w_qml])) (get k_command);
         Useless_field (plugin_in [w_manual_plugin; w_qml]) (get k_command);
         Correct Deprecated Advice (not_ (absent k_command))
           (judge (get k_command) (fun v _ => match v with Some t => inl (negb (occurs w_CHECKBOX_SHARE t)) | None => inr Other_error end));
         Correct Deprecated Advice (not_ (absent k_command))
           (judge (get k_command) (fun v _ => match v with Some t => inl (negb (occurs w_CHECKBOX_DATA t)) | None => inr Other_error end));
         Shell_program (get k_command)]);
      (k_depends,
        [Untranslatable; Correct Wrong Error always (judge (get k_depends) (fun _ => parses direct_refs));
         Reference direct_refs [is_a w_job]]);
      (k_description,
        [Translatable; Variant;
         Present_field Error (and_ (plugin_in [w_manual_plugin]) no_stages) description_of;
         Present_field Advice (and_ (not_ (flagged w_simple)) (and_ (not_ (plugin_in [w_manual_plugin])) no_stages)) description_of]);
      (k_environ, [Untranslatable; Invariant; Useless_field (absent k_command) (get k_environ)]);
      (k_duration,
        [Untranslatable; Invariant;
         Correct Missing Advice (not_ (flagged w_simple))
           (judge duration_of (fun v _ => inl match v with Some _ => true | None => false end));
         Correct Wrong Error (given k_duration)
           (judge duration_of (fun v _ => match v with Some q => inl (negb (Qle_bool q 0)) | None => inr Other_error end))]);
      (k_flags,
        [Untranslatable; Invariant;
         Correct Expected_i18n Advice (given k_command)
           (judge (get k_flags) (fun _ => or_ (flagged w_simple) (flagged w_preserve_locale)));
         Correct Useless Advice always
           (judge (get k_flags) (fun _ => not_ (and_ (flagged w_explicit_fail)
                                                  (plugin_in [w_shell; w_user_interact; w_attachment; w_resource]))));
         no_command w_has_leftovers; no_command w_preserve_cwd; no_command w_suppress_output]);
      (k_id, id_validators);
      (k_imports,
        [Untranslatable; Invariant; Correct Wrong Error always (judge (get k_imports) (fun _ => parses import_refs));
         Reference import_refs [is_a w_job]]);
      (k_name, [Untranslatable; Variant; Deprecated_field]);
      (k_plugin,
        [Untranslatable; Invariant; Present_field Error always plugin_of; Member_of plugins plugin_of;
         Correct Deprecated Advice always (judge plugin_of (fun v _ => inl (negb (is v w_user_verify))))]);
      (k_purpose,
        [Translatable;
         Present_field Advice (and_ (plugin_in [w_manual_plugin; w_user_interact; w_user_interact_verify]) (absent k_summary)) (get k_purpose)]);
      (k_qml,
        [Untranslatable; Invariant;
         Present_field Error (plugin_in [w_qml]) qml_of;
         Correct Wrong Advice (and_ (plugin_in [w_qml]) (fun u => rbind (qml_of u) (fun q => inl (truthy q))))
           (judge qml_of (fun v _ => match v with Some t => inl (ends_with w_dot_qml t) | None => inr Other_error end));
         Correct Wrong Error (and_ (plugin_in [w_qml]) (fun u => rbind (qml_of u) (fun q => inl (truthy q))))
           (judge qml_of (fun v _ => match v with Some t => inl (isfile t) | None => inr Other_error end))]);
      (k_requires,
        [Untranslatable; Correct Wrong Error (not_ (absent k_requires)) (judge (get k_requires) (fun _ => parses resource_refs));
         Reference resource_refs [is_a w_job; is_resource]]);
      (k_shell, [Untranslatable; Invariant; Member_of shells shell_of]);
      (k_siblings,
        [Translatable;
         Correct Syntax_error Error (given k_siblings) (judge (get k_siblings) (fun v _ => loaded (fun j => inl (json_truth j)) v));
         Correct Syntax_error Error (given k_siblings)
           (judge (get k_siblings) (fun v _ => loaded (fun j => inl match j with JList _ => true | _ => false end) v));
         Correct Syntax_error Error (given k_siblings) (judge (get k_siblings) (fun v _ => loaded all_dicts v));
         Correct Bad_reference Error (given k_siblings) (judge (get k_siblings) (fun v _ => loaded known_keys v))]);
      (k_steps,
        [Translatable;
         Present_field Advice (plugin_in [w_manual_plugin; w_user_interact; w_user_interact_verify]) (get k_steps)]);
      (k_summary,
        [Translatable; Variant; Present_field Advice always summary_of; One_line summary_of; Short_value summary_of]);
      (k_unit, unit_validators);
      (k_user,
        [Untranslatable; Invariant;
         Correct Wrong Error always (judge (get k_user) (fun v _ => inl match v with Some t => text_eqb t w_root | None => true end));
         Useless_field (absent k_command) (get k_user)]);
      (k_verification,
        [Translatable;
         Present_field Advice (plugin_in [w_manual_plugin; w_user_verify; w_user_interact_verify]) (get k_verification)]) ].

  (** template.py 433-483, with the ones of all units *)
  Definition template_imports (u : vunit) : list text + fault :=
    rbind (get k_t_imports u) (fun i => imported match i with Some (c :: r) => c :: r | _ => [] end).
  Definition template_refs (u : vunit) : list text + fault :=
    rbind (template_resource_id (v_unit u)) (fun r => inl match r with Some (c :: t) => [c :: t] | _ => [] end).
  Definition template_validators : list (text * list validator) :=
    [ (k_t_filter,
        [Untranslatable; Correct Wrong Error (not_ (absent k_t_filter)) (judge (get k_t_filter) (fun _ u => filter_program (v_unit u)))]);
      (k_t_imports,
        [Untranslatable;
         Correct Wrong Error always (judge (get k_t_imports) (fun _ => parses template_imports));
         Correct Wrong Error always
           (judge (get k_t_imports) (fun _ u => rbind (template_imports u) (fun l => inl (length l <=? 1))))]);
      (k_t_resource,
        [Untranslatable; Present_field Error always (get k_t_resource); Reference template_refs [is_a w_job; is_resource]]);
      (k_t_unit,
        [Untranslatable;
         Correct Missing Advice always
           (judge (fun u => value u k_t_unit (Some w_job)) (fun _ u => rbind (get k_t_unit u) (fun v => inl (present v))))]);
      (k_unit, unit_validators) ].

  (** The fields of the other classes: not modelled, but for the identifier and the type *)
  Variable other_validators : text -> list (text * list validator).
  Definition validators_of (c : cls) : list (text * list validator) :=
    match c with
    | CJob => job_validators
    | CTemplate => template_validators
    | CNamed k => (k_id, id_validators) :: other_validators k ++ [(k_unit, unit_validators)]
    | CPlain k => other_validators k ++ [(k_unit, unit_validators)]
    end.

  (** ** Checking a unit *)

  (** unit.py 114-127 check *)
  Definition check_fields (u : vunit) : gen :=
    gcat (map (fun fv => gcat (map (fun v => run v u (fst fv)) (snd fv))) (validators_of (v_cls u))).
  (** What instantiating a template with made-up values gives: outside of the try, and inside.
      A template that makes templates is checked only once *)
  Variable try_instance : vunit -> (vunit + fault) + fault.
  (** template.py 57-78: when the instance cannot be made the issue is put aside, not yielded *)
  Definition check_alone (u : vunit) : gen :=
    match v_cls u with
    | CTemplate =>
        gapp (check_fields u)
          match try_instance u with
          | inr e => raises e
          | inl (inr _) => match message_fault u with Some e => raises e | None => quiet end
          | inl (inl new) => check_fields new
          end
    | _ => check_fields u
    end.
  (** unit.py 129-145 check_in_context: the cache goes from one validator to the next; after
      something was raised nothing else happens *)
  Fixpoint run_all (l : list (text * validator)) (u : vunit) (c : context) : gen * context :=
    match l with
    | [] => (quiet, c)
    | (field, v) :: r =>
        let (g, c) := run_in_context v u field c in
        match snd g with
        | Some _ => (g, c)
        | None => let (g', c) := run_all r u c in (gapp g g', c)
        end
    end.
  Definition flat (l : list (text * list validator)) : list (text * validator) :=
    flat_map (fun fv => map (pair (fst fv)) (snd fv)) l.
  Definition check_together (u : vunit) (c : context) : gen * context := run_all (flat (validators_of (v_cls u))) u c.
  (** unit.py 881-910 check *)
  Definition check (u : vunit) (c : context) : gen * context :=
    let g := check_alone u in
    match snd g with
    | Some _ => (g, c)
    | None => let (g', c) := check_together u c in (gapp g g', c)
    end.
  (** provider_manager.py 1128-1132 validate_units_in_context *)
  Fixpoint check_all (us : list vunit) (c : context) : gen * context :=
    match us with
    | [] => (quiet, c)
    | u :: r =>
        let (g, c) := check u c in
        match snd g with
        | Some _ => (g, c)
        | None => let (g', c) := check_all r c in (gapp g g', c)
        end
    end.

  (** ** The command validate *)

  Record provider := mk_provider {
    p_name : text;
    p_base : text;
    p_units : list vunit;
    p_problems : list (problem * origin)      (* load problems, as issues: 1149-1175 *)
  }.
  (** provider_manager.py 1058-1073 *)
  Definition provider_list (installed : list provider) (categories manifest p : provider) : list provider :=
    let l := if forallb (fun q => negb (text_eqb (p_name q) (p_name p))) installed then installed ++ [p] else installed in
    let l := if text_eqb (p_base p) (p_base categories) then l else l ++ [categories] in
    if text_eqb (p_base p) (p_base manifest) then l else l ++ [manifest].
  (** 1118-1126: each problem as many times as there are problems *)
  Definition early_issues (p : provider) : list issue :=
    let l := map (fun x => mk_issue [] (fst x) Error (snd x) []) (p_problems p) in
    flat_map (fun _ => l) l.
  Definition is_advice (i : issue) : bool := match i_sev i with Advice => true | _ => false end.
  Definition is_error (i : issue) : bool := match i_sev i with Error => true | _ => false end.
  Definition is_warning (i : issue) : bool := match i_sev i with Warning => true | _ => false end.
  Definition is_deprecated (i : issue) : bool := match i_kind i with Deprecated => true | _ => false end.
  (** 1083-1093 *)
  Definition fails (strict : bool) (i : issue) : bool :=
    is_error i || (strict && is_warning i) || (strict && negb (is_advice i)).
  Definition shows (strict deprecated : bool) (i : issue) : bool :=
    negb (is_advice i) || (deprecated && is_deprecated i) || strict.
  (** 1054-1113: what was printed, how many were hidden and whether validation failed, or what
      was raised after printing something *)
  Inductive verdict :=
  | Verdict (shown : list issue) (hidden : nat) (failed : bool)
  | Crash (shown : list issue) (e : fault).
  Definition validate (strict deprecated : bool) (installed : list provider) (categories manifest p : provider) : verdict :=
    let c := mk_context (flat_map p_units (provider_list installed categories manifest p)) None in
    let g := gapp (early_issues p, None) (fst (check_all (p_units p) c)) in
    let shown := filter (shows strict deprecated) (fst g) in
    match snd g with
    | Some e => Crash shown e
    | None => Verdict shown (length (fst g) - length shown) (existsb (fails strict) (fst g))
    end.

  (** ** Instances of templates: ctrl.py 303-325, the units that join the session *)
  Fixpoint accepted (us : list vunit) : list vunit * option fault :=
    match us with
    | [] => ([], None)
    | u :: r =>
        match check_alone u with
        | (_, Some (Missing_param _)) => accepted r
        | (_, Some e) => ([], Some e)
        | (l, None) =>
            if existsb is_error l
            then match id_of u with
                 | Some (inl _) => accepted r
                 | Some (inr e) => ([], Some e)
                 | None => ([], Some Other_error)
                 end
            else let (l', e) := accepted r in (u :: l', e)
        end
    end.
End Validate.
