(** What users expect from configuration files and objects. *)
From Coq Require Import String Ascii List Bool Arith ZArith.
From Verif Require Import ScanModel Rfc822Model IniModel ConfigModel.
Import ListNotations.
Local Open Scope nat_scope.
Local Open Scope list_scope.

(** ** INI files *)

(** What a parser holds for an option of a section ([DEFAULT] is one). *)
Definition held (i : ini) (sect opt : text) : option (option text) :=
  if text_eqb sect DEFAULT then tget opt (i_defaults i)
  else match tget sect (i_sections i) with Some d => tget opt d | None => None end.

(** The section is there. *)
Definition has_section (i : ini) (sect : text) : Prop :=
  sect = DEFAULT \/ exists d, tget sect (i_sections i) = Some d.

(** An option of a section, with the options of [DEFAULT] as fall-back. *)
Definition offered (i : ini) (sect opt : text) : option (option text) :=
  match held i sect opt with Some v => Some v | None => held i DEFAULT opt end.

(** A text in which %% stands for a percent sign and %(name)s for the value of
    another option, which may in turn contain some, up to [n] levels deep. *)
Inductive expands (m : text -> option (option text)) : nat -> text -> text -> Prop :=
| ex_end n : expands m n [] []
| ex_char n c t u : c <> PCT -> expands m n t u -> expands m n (c :: t) (c :: u)
| ex_percent n t u : expands m n t u -> expands m n (PCT :: PCT :: t) (PCT :: u)
| ex_plain n k w t u : k <> [] -> ~ In ")"%char k -> m k = Some (Some w) -> ~ In PCT w ->
    expands m n t u -> expands m n (T "%(" ++ k ++ T ")s" ++ t) (w ++ u)
| ex_nested n k w v t u : k <> [] -> ~ In ")"%char k -> m k = Some (Some w) -> In PCT w ->
    expands m n w v -> expands m (S n) t u ->
    expands m (S n) (T "%(" ++ k ++ T ")s" ++ t) (v ++ u).

(** Names and values that an INI file can carry. *)
Definition option_name (k : text) : Prop :=
  k <> [] /\ strip k = k /\ ~ In NL k /\ ~ In "="%char k /\
  match k with c :: _ => c <> "#"%char /\ c <> ";"%char /\ c <> "["%char | [] => True end.
Definition section_name (s : text) : Prop := s <> [] /\ ~ In NL s.
Definition continuation (l : text) : Prop :=
  strip l = l /\ match l with c :: _ => c <> "#"%char /\ c <> ";"%char | [] => True end.
(** Lines without white space around them; the further ones are no comments; the
    last one is not empty unless it is the only one. *)
Definition writable (v : text) : Prop :=
  match split_nl v with
  | l :: ls => strip l = l /\ Forall continuation ls /\ (ls = [] \/ last ls [] <> [])
  | [] => False
  end.

(** A parser content in which every name and value is of that kind. *)
Definition writable_options (d : tdict (option text)) : Prop :=
  NoDup (map fst d) /\
  forall k v, In (k, v) d -> option_name k /\ match v with Some t => writable t | None => True end.
Definition writable_ini (i : ini) : Prop :=
  writable_options (i_defaults i) /\ NoDup (map fst (i_sections i)) /\
  forall s d, In (s, d) (i_sections i) -> section_name s /\ s <> DEFAULT /\ writable_options d.

(** What a file says, by itself, about an option; what the last of some files
    that says something about it says.  A file that cannot be opened is None. *)
Definition file_says (f : option text) (s k : text) : option (option text) :=
  match f with Some t => held (fst (read_text t empty_ini)) s k | None => None end.
Fixpoint latest (files : list (option text)) (s k : text) : option (option text) :=
  match files with
  | [] => None
  | f :: r => match latest r s k with Some v => Some v | None => file_says f s k end
  end.

(** ** Variables *)

Section Spec.
  Variable to_float : text -> option text.

  (** A text of a kind. *)
  Inductive denotes : kind -> text -> value -> Prop :=
  | d_str t : denotes KStr t (VStr t)
  | d_true t : In (map lower t) [T "1"; T "yes"; T "true"; T "on"] -> denotes KBool t (VBool true)
  | d_false t : In (map lower t) [T "0"; T "no"; T "false"; T "off"] -> denotes KBool t (VBool false)
  | d_int t z : to_int t = Some z -> denotes KInt t (VInt z)
  | d_float t r : to_float t = Some r -> denotes KFloat t (VFloat r)
  | d_list t l : convert_to_list t = Some l -> denotes KList t (VList l).

  (** What the contents of a parser say about a variable: nothing, that it is
      mentioned without a value, or a value. *)
  Inductive says (i : ini) (x : variable) : value -> Prop :=
  | says_no_section : ~ has_section i (v_section x) -> says i x (v_default x)
  | says_nothing : has_section i (v_section x) -> offered i (v_section x) (v_name x) = None ->
      says i x (v_default x)
  | says_none : has_section i (v_section x) -> offered i (v_section x) (v_name x) = Some None ->
      v_kind x = KStr -> says i x VNone
  | says_value raw t v : has_section i (v_section x) ->
      offered i (v_section x) (v_name x) = Some (Some raw) ->
      expands (offered i (v_section x)) 9 raw t -> denotes (v_kind x) t v -> says i x v.

  (** The value of a variable after reading. *)
  Definition taken (x : variable) (v : value) (before after : config) : Prop :=
    get_var x after = if validate x v then v else get_var x before.

  (** What is recorded for values that are not valid. *)
  Definition refusals (l : list (variable * value)) : list problem :=
    map (fun xv => PValue (fst xv) (snd xv)) (filter (fun xv => negb (validate (fst xv) (snd xv))) l).

  (** What a section says about one option: an option without a value is empty. *)
  Inductive item (i : ini) (s k : text) : text -> Prop :=
  | item_none : offered i s k = Some None -> item i s k []
  | item_value raw t : offered i s k = Some (Some raw) -> expands (offered i s) 9 raw t -> item i s k t.

  (** A dictionary has exactly what a section says. *)
  Definition section_dict (i : ini) (s : text) (d : tdict text) : Prop :=
    forall k, match tget k d with Some t => item i s k t | None => offered i s k = None end.

  (** A dictionary has exactly the sections called s:k, by k. *)
  Definition param_dict (i : ini) (s : text) (d : tdict (tdict text)) : Prop :=
    forall k, match tget k d with
      | Some e => has_section i (s ++ T ":" ++ k) /\ section_dict i (s ++ T ":" ++ k) e
      | None => ~ has_section i (s ++ T ":" ++ k)
      end.

  (** Every option of a section can be expanded. *)
  Definition readable_section (i : ini) (s : text) : Prop :=
    forall k raw, offered i s k = Some (Some raw) -> exists t, expands (offered i s) 9 raw t.

  (** What reading leaves: every variable as told, problems for the values that
      are refused, dictionaries for the sections that are there. *)
  Definition configured (whole_ok : config -> bool) (c : cls) (i : ini) (first : list problem)
      (g g' : config) : Prop :=
    exists vs, Forall2 (says i) (c_variables c) vs /\
      (forall x v, In (x, v) (combine (c_variables c) vs) -> taken x v g g') /\
      (forall s, In s (c_sections c) -> has_section i s ->
         exists d, get_section s g' = Some (SPlain d) /\ section_dict i s d) /\
      (forall s, In s (c_sections c) -> ~ has_section i s -> get_section s g' = get_section s g) /\
      (forall s, In s (c_parametric c) -> exists d, get_section s g' = Some (SParam d) /\ param_dict i s d) /\
      let seen := first ++ refusals (combine (c_variables c) vs) in
      g_problems g' = seen ++ if whole_ok (mk_config (g_var g') (g_sect g') seen) then [] else [PWhole].

  (** Everything of interest in a file has the right form. *)
  Definition intelligible (c : cls) (i : ini) : Prop :=
    (forall x, In x (c_variables c) -> exists v, says i x v) /\
    (forall s, In s (c_sections c) -> has_section i s -> readable_section i s) /\
    (forall s k, In s (c_parametric c) -> has_section i (s ++ T ":" ++ k) -> readable_section i (s ++ T ":" ++ k)).

  (** Lists of plain words. *)
  Definition word_char (c : ascii) : Prop :=
    isspace c = false /\ c <> DQ /\ c <> "'"%char /\ c <> "\"%char /\ c <> ","%char /\ c <> PCT.
  Definition word (w : text) : Prop := w <> [] /\ forall c, In c w -> word_char c.

  (** A value of a kind that can be written and read back. *)
  Inductive storable : kind -> value -> Prop :=
  | st_str t : writable t -> ~ In PCT t -> storable KStr (VStr t)
  | st_bool b : storable KBool (VBool b)
  | st_int z : storable KInt (VInt z)
  | st_float r : writable r -> ~ In PCT r -> to_float r = Some r -> storable KFloat (VFloat r)
  | st_list l : Forall word l -> storable KList (VList l).

  (** A class whose names can be told apart in a file: no two variables with the
      same name and section, none of [DEFAULT] with the name of another
      section's, no section for both variables and a dictionary, no colons. *)
  Definition plain_name (s : text) : Prop := section_name s /\ ~ In ":"%char s.
  Record good_class (c : cls) : Prop := mk_good_class {
    gc_variables : forall x, In x (c_variables c) ->
      option_name (v_name x) /\ plain_name (v_section x) /\ ~ In (v_section x) (c_sections c);
    gc_distinct : NoDup (map mangled (c_variables c));
    gc_default : forall x y, In x (c_variables c) -> In y (c_variables c) ->
      v_section x = DEFAULT -> v_section y <> DEFAULT -> v_name x <> v_name y;
    gc_sections : NoDup (c_sections c ++ c_parametric c);
    gc_plain : forall s, In s (c_sections c ++ c_parametric c) -> plain_name s /\ s <> DEFAULT
  }.

  (** A configuration that can be saved. *)
  Definition good_dict (d : tdict text) : Prop :=
    NoDup (map fst d) /\ forall k v, In (k, v) d -> option_name k /\ writable v /\ ~ In PCT v.
  Record good_config (c : cls) (g : config) : Prop := mk_good_config {
    gg_variables : forall x, In x (c_variables c) ->
      get_var x g = VUnset \/ storable (v_kind x) (get_var x g) /\ validate x (get_var x g) = true;
    gg_sections : forall s, In s (c_sections c) ->
      exists d, get_section s g = Some (SPlain d) /\ good_dict d;
    gg_parametric : forall s, In s (c_parametric c) ->
      exists d, get_section s g = Some (SParam d) /\ NoDup (map fst d) /\
        forall k e, In (k, e) d -> ~ In NL k /\ good_dict e
  }.

  (** The text of a variable of [DEFAULT]. *)
  Definition default_text (c : cls) (g : config) (k t : text) : Prop :=
    exists x, In x (c_variables c) /\ v_section x = DEFAULT /\ v_name x = k /\
      get_var x g <> VUnset /\ t = value_str (get_var x g).

  (** What a dictionary becomes: itself, and the variables of [DEFAULT]. *)
  Definition restored (c : cls) (g : config) (d d' : tdict text) : Prop :=
    forall k t, tget k d' = Some t <-> tget k d = Some t \/ tget k d = None /\ default_text c g k t.
End Spec.
