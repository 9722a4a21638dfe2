(** Configuration objects: plainbox/impl/secure/config.py.

    INI files are in IniModel.  Floating point numbers are their repr texts. *)
From Coq Require Import String Ascii List Bool Arith ZArith DecimalString.
From Verif Require Import ScanModel Rfc822Model IniModel.
Import ListNotations.
Local Open Scope nat_scope.
Local Open Scope list_scope.

(** ** Values and variables *)

Inductive kind := KStr | KBool | KInt | KFloat | KList.

(** Values of variables; [VNone] is None and [VUnset] is Unset, 83-98. *)
Inductive value :=
| VStr (t : text)
| VBool (b : bool)
| VInt (z : Z)
| VFloat (repr : text)
| VList (l : list text)
| VNone
| VUnset.

(** isinstance(value, kind); bool is a subclass of int *)
Definition is_kind (k : kind) (v : value) : bool :=
  match k, v with
  | KStr, VStr _ | KBool, VBool _ | KInt, VInt _ | KInt, VBool _ | KFloat, VFloat _ | KList, VList _ => true
  | _, _ => false
  end.

(** A validator: whether it is marked with understands_Unset, 101-112, and
    whether it accepts a value (returns None).  Messages are not modelled. *)
Record validator := mk_validator { understands_unset : bool; accepts : kind -> value -> bool }.

(** 765-776 KindValidator *)
Definition kind_validator : validator := mk_validator false is_kind.
(** 797-808 ChoiceValidator, for lists of texts *)
Definition choice_validator (choices : list text) : validator :=
  mk_validator false (fun _ v => match v with VStr t => tmem t choices | _ => false end).
(** 817-828 SubsetValidator, for lists of texts *)
Definition subset_validator (superset : list text) : validator :=
  mk_validator false (fun _ v => match v with VList l => forallb (fun t => tmem t superset) l | _ => false end).
(** 837-854 OneOrTheOtherValidator *)
Definition one_or_other_validator (a b : list text) : validator :=
  mk_validator false (fun _ v =>
    match v with
    | VList l => negb (existsb (fun t => tmem t a) l && existsb (fun t => tmem t b) l)
    | _ => true
    end).
(** 861-881 NotUnsetValidator *)
Definition not_unset_validator : validator :=
  mk_validator true (fun _ v => match v with VUnset => false | _ => true end).
(** 890-901 NotEmptyValidator *)
Definition not_empty_validator : validator :=
  mk_validator false (fun _ v => match v with VStr [] => false | _ => true end).

(** 115-152 Variable *)
Record variable := mk_variable {
  v_name : text;
  v_section : text;
  v_kind : kind;
  v_default : value;
  v_validators : list validator   (* with the KindValidator, 130-145 *)
}.

(** 154-174 Variable.validate: whether no ValidationError is raised *)
Definition validate (x : variable) (v : value) : bool :=
  forallb (fun c =>
    match v with
    | VUnset => if understands_unset c then accepts c (v_kind x) v else true
    | _ => accepts c (v_kind x) v
    end) (v_validators x).

(** 190-196 mangled_name *)
Definition mangled (x : variable) : text := v_section x ++ T "__" ++ v_name x.

(** ** Configuration objects *)

(** A configuration class: its variables, sections and parametric sections. *)
Record cls := mk_cls {
  c_variables : list variable;
  c_sections : list text;
  c_parametric : list text
}.

(** Values of sections: of a section, of a parametric section. *)
Inductive sectval := SPlain (d : tdict text) | SParam (d : tdict (tdict text)).

(** What is recorded in the problem list: an error of the parser, a value
    refused for a variable, or the whole configuration. *)
Inductive problem := PParse | PValue (x : variable) (v : value) | PWhole.

(** del d[k] *)
Definition tdel {A} (k : text) (d : tdict A) : tdict A :=
  filter (fun kv => negb (text_eqb k (fst kv))) d.

(** 462-484 Config *)
Record config := mk_config {
  g_var : tdict value;
  g_sect : tdict sectval;
  g_problems : list problem
}.
Definition new_config : config := mk_config [] [] [].

(** 239-250 Variable.__get__ *)
Definition get_var (x : variable) (g : config) : value :=
  match tget (mangled x) (g_var g) with Some v => v | None => v_default x end.

(** 252-261 Variable.__set__; None is ValidationError *)
Definition set_var (x : variable) (v : value) (g : config) : option config :=
  if validate x v
  then Some (mk_config (tset (mangled x) v (g_var g)) (g_sect g) (g_problems g))
  else None.

(** 299-305 Section.__get__; None is Unset *)
Definition get_section (s : text) (g : config) : option sectval := tget s (g_sect g).
(** 307-308 Section.__set__ *)
Definition set_section (s : text) (v : sectval) (g : config) : config :=
  mk_config (g_var g) (tset s v (g_sect g)) (g_problems g).
(** 263-267 and 707-711 Variable.__delete__; None is KeyError *)
Definition del_var (x : variable) (g : config) : option config :=
  match tget (mangled x) (g_var g) with
  | Some _ => Some (mk_config (tdel (mangled x) (g_var g)) (g_sect g) (g_problems g))
  | None => None
  end.
Definition add_problem (p : problem) (g : config) : config :=
  mk_config (g_var g) (g_sect g) (g_problems g ++ [p]).

(** ** Reading *)

(** Exceptions other than ValidationError that leave read and read_string. *)
Inductive escape := EInterpolation | EValue | EType | EAttribute | EParser.

Definition of_ierror (e : ierror) : escape :=
  match e with IInterpolation => EInterpolation | IType => EType end.

(** str.lower *)
Definition lower (c : ascii) : ascii :=
  let n := nat_of_ascii c in
  if (Nat.leb 65 n && Nat.leb n 90 || Nat.leb 192 n && Nat.leb n 222 && negb (Nat.eqb n 215))%bool
  then ascii_of_nat (n + 32) else c.

(** ConfigParser._convert_to_boolean, configparser.py:1189-1194; BOOLEAN_STATES *)
Definition convert_to_boolean (t : text) : option bool :=
  let l := map lower t in
  if tmem l [T "1"; T "yes"; T "true"; T "on"] then Some true
  else if tmem l [T "0"; T "no"; T "false"; T "off"] then Some false
  else None.

(** int(text): white space around, an optional sign, digits, single underscores
    between digits.  (Other than decimal digits are not modelled.) *)
Definition is_digit (c : ascii) : bool :=
  let n := nat_of_ascii c in (Nat.leb 48 n && Nat.leb n 57)%bool.
Fixpoint no_underscores (after_digit : bool) (t : text) : option text :=
  match t with
  | [] => if after_digit then Some [] else None
  | c :: r =>
      if is_digit c then option_map (cons c) (no_underscores true r)
      else if (Ascii.eqb c "_" && after_digit)%bool then no_underscores false r
      else None
  end.
Definition digits_value (t : text) : option Z :=
  match no_underscores false t with
  | Some d => option_map Z.of_int (NilZero.int_of_string (string_of_list_ascii d))
  | None => None
  end.
Definition to_int (t : text) : option Z :=
  match strip t with
  | "-"%char :: r => option_map Z.opp (digits_value r)
  | "+"%char :: r => digits_value r
  | r => digits_value r
  end.
(** str(int) *)
Definition int_str (z : Z) : text := T (NilZero.string_of_int (Z.to_int z)).

Section Config.
  (** float(text), to the repr of the number; None is ValueError *)
  Variable to_float : text -> option text.
  (** validate_whole, 727-738: whether no ValidationError is raised *)
  Variable whole_ok : config -> bool.

  (** The conversion of a reader function, 644-651, on what parser.get returns *)
  Definition convert (k : kind) (v : option text) : value + escape :=
    match k, v with
    | KStr, Some t => inl (VStr t)
    | KStr, None => inl VNone
    | KBool, Some t => match convert_to_boolean t with Some b => inl (VBool b) | None => inr EValue end
    | KBool, None => inr EAttribute
    | KInt, Some t => match to_int t with Some z => inl (VInt z) | None => inr EValue end
    | KInt, None => inr EType
    | KFloat, Some t => match to_float t with Some r => inl (VFloat r) | None => inr EValue end
    | KFloat, None => inr EType
    | KList, Some t => match convert_to_list t with Some l => inl (VList l) | None => inr EValue end
    | KList, None => inr EAttribute
    end.

  (** What is assigned to a variable, 653-660 *)
  Definition read_value (i : ini) (x : variable) : value + escape :=
    match ini_get i (v_section x) (v_name x) with
    | GMissing => inl (v_default x)
    | GError e => inr (of_ierror e)
    | GValue v => convert (v_kind x) v
    end.

  (** 652-665 *)
  Fixpoint read_variables (i : ini) (l : list variable) (g : config) : config * option escape :=
    match l with
    | [] => (g, None)
    | x :: l' =>
        match read_value i x with
        | inr e => (g, Some e)
        | inl v =>
            match set_var x v g with
            | Some g' => read_variables i l' g'
            | None => read_variables i l' (add_problem (PValue x v) g)
            end
        end
    end.

  (** 667-674 *)
  Fixpoint read_sections (i : ini) (l : list text) (g : config) : config * option escape :=
    match l with
    | [] => (g, None)
    | s :: l' =>
        match ini_items i s with
        | None => read_sections i l' g
        | Some (inr e) => (g, Some (of_ierror e))
        | Some (inl d) => read_sections i l' (set_section s (SPlain d) g)
        end
    end.

  (** parser.keys(): DEFAULT and the sections *)
  Definition ini_keys (i : ini) : list text := DEFAULT :: map fst (i_sections i).

  (** The values of one parametric section, 677-682 *)
  Fixpoint parametric_values (i : ini) (prefix : text) (keys : list text) (acc : tdict (tdict text))
      : tdict (tdict text) + escape :=
    match keys with
    | [] => inl acc
    | k :: r =>
        if tprefix prefix k then
          match ini_items i k with
          | None => parametric_values i prefix r acc      (* not possible *)
          | Some (inr e) => inr (of_ierror e)
          | Some (inl d) => parametric_values i prefix r (tset (skipn (length prefix) k) d acc)
          end
        else parametric_values i prefix r acc
    end.

  Fixpoint read_parametric (i : ini) (l : list text) (g : config) : config * option escape :=
    match l with
    | [] => (g, None)
    | s :: l' =>
        match parametric_values i (s ++ T ":") (ini_keys i) [] with
        | inr e => (g, Some e)
        | inl d => read_parametric i l' (set_section s (SParam d) g)
        end
    end.

  (** 643-685 _read_commit, with the handler of ValidationError of its callers *)
  Definition read_commit (c : cls) (i : ini) (g : config) : config * option escape :=
    match read_variables i (c_variables c) g with
    | (g, Some e) => (g, Some e)
    | (g, None) =>
        match read_sections i (c_sections c) g with
        | (g, Some e) => (g, Some e)
        | (g, None) =>
            match read_parametric i (c_parametric c) g with
            | (g, Some e) => (g, Some e)
            | (g, None) => if whole_ok g then (g, None) else (add_problem PWhole g, None)
            end
        end
    end.

  Definition reset (g : config) : config := mk_config (g_var g) (g_sect g) [].

  (** 548-589 read_string *)
  Definition read_string (c : cls) (t : text) (g : config) : config * option escape :=
    match read_text t empty_ini with
    | (_, AttrError) => (reset g, Some EAttribute)
    | (i, ParserError) => read_commit c i (add_problem PParse (reset g))
    | (i, Fine) => read_commit c i (reset g)
    end.

  (** parser.read: files that cannot be opened are skipped; what goes wrong in
      the others is raised *)
  Fixpoint read_files (l : list (option text)) (i : ini) : ini + escape :=
    match l with
    | [] => inl i
    | None :: l' => read_files l' i
    | Some t :: l' =>
        match read_text t i with
        | (i', Fine) => read_files l' i'
        | (_, ParserError) => inr EParser
        | (_, AttrError) => inr EAttribute
        end
    end.

  (** 603-641 read, of the contents of the files *)
  Definition read (c : cls) (files : list (option text)) (g : config) : config * option escape :=
    match read_files files empty_ini with
    | inr e => (reset g, Some e)
    | inl i => read_commit c i (reset g)
    end.

  (** ** Writing *)

  (** str(value), 531-533; lists are joined with a comma and a space first (the
      TypeError for a default of another type than the kind is not modelled) *)
  Fixpoint join_list (l : list text) : text :=
    match l with
    | [] => []
    | [x] => x
    | x :: r => x ++ T ", " ++ join_list r
    end.
  Definition value_str (v : value) : text :=
    match v with
    | VStr t => t
    | VBool true => T "True"
    | VBool false => T "False"
    | VInt z => int_str z
    | VFloat r => r
    | VList l => join_list l
    | VNone => T "None"
    | VUnset => T "unset"
    end.

  (** 525-533; None is the ValueError of a value with a percent sign *)
  Fixpoint write_variables (l : list variable) (g : config) (i : ini) : option ini :=
    match l with
    | [] => Some i
    | x :: l' =>
        let i := if is_default (v_section x) then i else ensure_section (v_section x) i in
        match get_var x g with
        | VUnset => write_variables l' g i
        | v =>
            match ini_set (v_section x) (v_name x) (value_str v) i with
            | Some i' => write_variables l' g i'
            | None => None
            end
        end
    end.

  Fixpoint set_all (s : text) (d : tdict text) (i : ini) : option ini :=
    match d with
    | [] => Some i
    | (k, v) :: r => match ini_set s k v i with Some i' => set_all s r i' | None => None end
    end.

  (** 534-539; None is also the AttributeError of an unset section (Unset.items)
      and the ValueError of a section called DEFAULT *)
  Fixpoint write_sections (l : list text) (g : config) (i : ini) : option ini :=
    match l with
    | [] => Some i
    | s :: l' =>
        match (if is_default s then None else get_section s g) with
        | Some (SPlain d) =>
            match set_all s d (ensure_section s i) with
            | Some i' => write_sections l' g i'
            | None => None
            end
        | _ => None
        end
    end.

  Fixpoint set_params (s : text) (d : tdict (tdict text)) (i : ini) : option ini :=
    match d with
    | [] => Some i
    | (k, e) :: r =>
        let name := s ++ T ":" ++ k in
        match set_all name e (ensure_section name i) with
        | Some i' => set_params s r i'
        | None => None
        end
    end.

  (** 540-546 *)
  Fixpoint write_parametric (l : list text) (g : config) (i : ini) : option ini :=
    match l with
    | [] => Some i
    | s :: l' =>
        match get_section s g with
        | Some (SParam d) =>
            match set_params s d i with
            | Some i' => write_parametric l' g i'
            | None => None
            end
        | _ => None
        end
    end.

  (** 508-546 get_parser_obj *)
  Definition get_parser_obj (c : cls) (g : config) : option ini :=
    match write_variables (c_variables c) g empty_ini with
    | None => None
    | Some i =>
        match write_sections (c_sections c) g i with
        | None => None
        | Some i => write_parametric (c_parametric c) g i
        end
    end.

  (** 591-601 write *)
  Definition write (c : cls) (g : config) : option text :=
    option_map write_ini (get_parser_obj c g).
End Config.
