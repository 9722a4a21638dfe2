(** * The fields of units and jobs: plainbox/impl/unit/unit.py 480-794, unit_with_id.py
    60-96, job.py 235-420, 480-700

    Texts are lists of characters below 256, as in ScanModel; dictionaries are in insertion
    order.  Values are texts, never None.  Caching of what the methods return is not modelled:
    the unit, its parameters and the translations do not change. *)
From Coq Require Import Ascii List Bool Arith.
From Verif Require Import ScanModel Rfc822Model XparseModel.
Import ListNotations.
Open Scope char_scope.
Local Open Scope nat_scope.
Open Scope list_scope.

Definition UNDERSCORE : ascii := "_".
Definition k_id : text := ["i"; "d"].
Definition k_name : text := ["n"; "a"; "m"; "e"].
Definition k_plugin : text := ["p"; "l"; "u"; "g"; "i"; "n"].
Definition k_flags : text := ["f"; "l"; "a"; "g"; "s"].
Definition k_environ : text := ["e"; "n"; "v"; "i"; "r"; "o"; "n"].
Definition k_depends : text := ["d"; "e"; "p"; "e"; "n"; "d"; "s"].
Definition k_after : text := ["a"; "f"; "t"; "e"; "r"].
Definition k_summary : text := ["s"; "u"; "m"; "m"; "a"; "r"; "y"].
Definition k_description : text := ["d"; "e"; "s"; "c"; "r"; "i"; "p"; "t"; "i"; "o"; "n"].
Definition k_purpose : text := ["p"; "u"; "r"; "p"; "o"; "s"; "e"].
Definition k_steps : text := ["s"; "t"; "e"; "p"; "s"].
Definition k_verification : text := ["v"; "e"; "r"; "i"; "f"; "i"; "c"; "a"; "t"; "i"; "o"; "n"].
Definition k_category : text := ["c"; "a"; "t"; "e"; "g"; "o"; "r"; "y"; "_"; "i"; "d"].
Definition k_engine : text := ["t"; "e"; "m"; "p"; "l"; "a"; "t"; "e"; "-"; "e"; "n"; "g"; "i"; "n"; "e"].
Definition w_jinja2 : text := ["j"; "i"; "n"; "j"; "a"; "2"].
Definition w_simple : text := ["s"; "i"; "m"; "p"; "l"; "e"].
Definition w_shell : text := ["s"; "h"; "e"; "l"; "l"].
Definition w_PURPOSE : text := ["P"; "U"; "R"; "P"; "O"; "S"; "E"].
Definition w_STEPS : text := ["S"; "T"; "E"; "P"; "S"].
Definition w_VERIFICATION : text := ["V"; "E"; "R"; "I"; "F"; "I"; "C"; "A"; "T"; "I"; "O"; "N"].
Definition w_uncategorised : text :=
  ["c"; "o"; "m"; "."; "c"; "a"; "n"; "o"; "n"; "i"; "c"; "a"; "l"; "."; "p"; "l"; "a"; "i"; "n"; "b"; "o"; "x"; ":"; ":";
   "u"; "n"; "c"; "a"; "t"; "e"; "g"; "o"; "r"; "i"; "s"; "e"; "d"].

(** What inserting parameters may raise *)
Inductive fault := Key_error (k : text) | Missing_param (k : text) | Other_error.

(** re.split with the class of white space and the comma, one or more: job.py 539 and 549.
    [skipping] is whether a separator was just read; the pieces around each run of
    separators, which may be empty at both ends. *)
Definition is_sep (c : ascii) : bool := isspace c || Ascii.eqb c ",".
Fixpoint split_seps (skipping : bool) (acc : text) (t : text) : list text :=
  match t with
  | [] => [rev acc]
  | c :: r =>
      if is_sep c then if skipping then split_seps true [] r else rev acc :: split_seps true [] r
      else split_seps false (c :: acc) r
  end.
Definition resplit (t : text) : list text := split_seps false [] t.

(** The text contains two colons in a row: unit.py 788 *)
Fixpoint has_colons (t : text) : bool :=
  match t with
  | c :: r => (Ascii.eqb c ":" && match r with d :: _ => Ascii.eqb d ":" | [] => false end) || has_colons r
  | [] => false
  end.
(** str.rstrip of NL only: unit.py 602, job.py 697 *)
Fixpoint drop_nl (t : text) : text := match t with c :: r => if Ascii.eqb c NL then drop_nl r else t | [] => [] end.
Definition rstrip_nl (t : text) : text := rev (drop_nl (rev t)).

Section Unit.
  (** Parameters of template instances, and what inserting them does: str.format for the
      default engine, and jinja2, which never fails here and knows about the environment *)
  Variable P : Type.
  Variable vformat : P -> text -> text + fault.
  Variable render : option P -> text -> text.

  Record unit_ := mk_unit {
    f_data : list (text * text);
    f_raw : list (text * text);
    f_provider : option (text * (text -> text));   (* the namespace and get_translated_data *)
    f_params : option P
  }.

  (** unit.py 586-606 and job.py 684-700 from_rfc822_record *)
  Definition from_record (data raw : list (text * text)) (provider : option (text * (text -> text))) (params : option P) : unit_ :=
    mk_unit data (map (fun kv => (fst kv, rstrip_nl (snd kv))) raw) provider params.

  (** unit.py 523-529 template_engine *)
  Definition jinja (u : unit_) : bool :=
    match tget k_engine (f_data u) with Some e => text_eqb e w_jinja2 | None => false end.
  (** Parameters inserted: the same lines in 625-647, 669-684, 723-760 *)
  Definition insert (u : unit_) (v : text) : text + fault :=
    match f_params u with
    | Some p => if jinja u then inl (render (Some p) v) else vformat p v
    | None => if jinja u then inl (render None v) else inl v
    end.

  (** unit.py 608-647 get_record_value: a KeyError becomes MissingParam for the default
      engine *)
  Definition to_missing (r : text + fault) : text + fault :=
    match r with inr (Key_error k) => inr (Missing_param k) | _ => r end.
  Definition either (name : text) (d : list (text * text)) (default : option text) : option text :=
    match tget (UNDERSCORE :: name) d with
    | Some v => Some v
    | None => match tget name d with Some v => Some v | None => default end
    end.
  Definition record_value (u : unit_) (name : text) (default : option text) : option text + fault :=
    match either name (f_data u) default with
    | None => inl None
    | Some v => match to_missing (insert u v) with inl v => inl (Some v) | inr e => inr e end
    end.
  (** unit.py 649-684 get_raw_record_value *)
  Definition raw_record_value (u : unit_) (name : text) (default : option text) : option text + fault :=
    match either name (f_raw u) default with
    | None => inl None
    | Some v => match insert u v with inl v => inl (Some v) | inr e => inr e end
    end.
  (** unit.py 835-848 get_translated_data *)
  Definition translated_data (u : unit_) (msgid : text) : text :=
    match msgid, f_provider u with
    | _ :: _, Some (_, tr) => tr msgid
    | _, _ => msgid
    end.
  (** unit.py 686-761 get_translated_record_value *)
  Definition translated_value (u : unit_) (name : text) (default : option text) : option text + fault :=
    match tget (UNDERSCORE :: name) (f_raw u) with
    | Some msgid => match insert u (normalize (translated_data u msgid)) with inl v => inl (Some v) | inr e => inr e end
    | None =>
        match tget name (f_data u) with
        | Some v => match insert u v with inl v => inl (Some v) | inr e => inr e end
        | None => inl default
        end
    end.
  (** unit.py 763-773 is_translatable_field *)
  Definition translatable (u : unit_) (name : text) : bool :=
    match tget (UNDERSCORE :: name) (f_data u) with Some _ => true | None => false end.

  (** unit.py 775-791 qualify_id *)
  Definition qualify_id (u : unit_) (some_id : text) : text :=
    match has_colons some_id, f_provider u with
    | false, Some (ns, _) => ns ++ ":" :: ":" :: some_id
    | _, _ => some_id
    end.

  (** ** Jobs *)

  Definition rbind {A B} (x : A + fault) (f : A -> B + fault) : B + fault := match x with inl a => f a | inr e => inr e end.

  (** job.py 249-257 partial_id *)
  Definition partial_id (u : unit_) : option text + fault :=
    rbind (record_value u k_name None) (fun n => record_value u k_id n).
  (** unit_with_id.py 84-96 id: an empty identifier is not qualified *)
  Definition job_id (u : unit_) : option text + fault :=
    rbind (partial_id u) (fun i =>
      inl match f_provider u, i with
          | Some (ns, _), Some (c :: r) => Some (ns ++ ":" :: ":" :: c :: r)
          | _, _ => i
          end).
  (** job.py 532-551 get_environ_settings, get_flag_set *)
  Definition words_of_field (u : unit_) (name : text) : list text + fault :=
    rbind (record_value u name None) (fun f => inl match f with Some t => resplit t | None => [] end).
  Definition environ_settings (u : unit_) : list text + fault := words_of_field u k_environ.
  Definition flag_set (u : unit_) : list text + fault := words_of_field u k_flags.
  (** job.py 259-264 plugin *)
  Definition plugin (u : unit_) : option text + fault :=
    rbind (record_value u k_plugin None) (fun p =>
      match p with
      | Some p => inl (Some p)
      | None => rbind (flag_set u) (fun fl => inl (if existsb (text_eqb w_simple) fl then Some w_shell else None))
      end).
  (** job.py 266-268 summary, 477-482 tr_summary *)
  Definition summary (u : unit_) : option text + fault := rbind (partial_id u) (fun i => record_value u k_summary i).
  Definition tr_summary (u : unit_) : option text + fault := rbind (partial_id u) (fun i => translated_value u k_summary i).
  (** job.py 270-289 description: the combination of stages; in 484-508 the labels are
      translated and the values are those of get_translated_record_value *)
  Fixpoint stages (value : text -> option text + fault) (l : list (text * text)) : text + fault :=
    match l with
    | [] => inl []
    | (name, label) :: r =>
        rbind (value name) (fun v =>
        rbind (stages value r) (fun t =>
          inl (match v with Some v => label ++ ":" :: NL :: v ++ [NL] | None => [] end ++ t)))
    end.
  Definition describe (value : text -> option text + fault) (labels : list (text * text)) : option text + fault :=
    rbind (value k_description) (fun d =>
      match d with
      | Some d => inl (Some d)
      | None => rbind (stages value labels) (fun t => inl match strip t with [] => None | s => Some s end)
      end).
  Definition description (u : unit_) : option text + fault :=
    describe (fun name => record_value u name None)
      [(k_purpose, w_PURPOSE); (k_steps, w_STEPS); (k_verification, w_VERIFICATION)].
  (** job.py 361-380 category_id and 676-682 get_category_id *)
  Definition category_id (u : unit_) : text + fault :=
    rbind (record_value u k_category (Some w_uncategorised)) (fun c =>
      match c with Some c => inl (qualify_id u c) | None => inr Other_error end).
  Definition get_category_id (u : unit_) : text + fault := rbind (category_id u) (fun c => inl (qualify_id u c)).

  (** job.py 611-664 get_direct_dependencies, get_after_dependencies: a set, here with
      repetitions; words that cannot be parsed are logged and dropped; the parser itself may
      assert or never come back *)
  Definition words_qualified (u : unit_) (t : text) : outcome (list text) :=
    obind (parse_words (S (length t)) t) (fun l =>
      Done (flat_map (fun e => match e with Text w => [qualify_id u w] | _ => [] end) l)).
  Definition dependencies (u : unit_) (name : text) : outcome (list text) + fault :=
    rbind (record_value u name None) (fun f =>
      inl match f with Some t => words_qualified u t | None => Done [] end).
  Definition direct_dependencies (u : unit_) := dependencies u k_depends.
  Definition after_dependencies (u : unit_) := dependencies u k_after.
End Unit.
