(** INI files: the parts of the standard library's configparser and shlex that
    plainbox/impl/secure/config.py relies on (PlainBoxConfigParser, 414-459,
    with allow_no_value=True and delimiters=('='), 524, 573 and 631).

    Texts are lists of characters below 256 (as in ScanModel).  The standard
    library is modelled as of Python 3.11 (configparser.py 1012-1146, 941-952,
    740-875, 370-446; shlex.py 133-250). *)
From Coq Require Import String Ascii List Bool Arith.
From Verif Require Import ScanModel Rfc822Model.
Import ListNotations.
Open Scope char_scope.
Local Open Scope nat_scope.
Local Open Scope list_scope.

Definition tdict (A : Type) := list (text * A).
Definition T (s : string) : text := list_ascii_of_string s.
Arguments T s%string_scope.

(** k in d, for lists of texts *)
Definition tmem (k : text) (l : list text) : bool := existsb (text_eqb k) l.

(** t.startswith(p) *)
Fixpoint tprefix (p t : text) : bool :=
  match p, t with
  | [], _ => true
  | a :: p', b :: t' => Ascii.eqb a b && tprefix p' t'
  | _ :: _, [] => false
  end.

Definition DEFAULT : text := T "DEFAULT".
Definition PCT : ascii := "%".

(** ** Contents of a parser *)

(** Option values: None is an option without a value. *)
Record ini := mk_ini { i_defaults : tdict (option text); i_sections : tdict (tdict (option text)) }.
Definition empty_ini : ini := mk_ini [] [].

(** ** Reading: _read, configparser.py:1012-1134 *)

(** Values while reading: without a value; already joined (of an earlier file);
    the lines so far. *)
Inductive rval := RNone | RText (t : text) | RLines (l : list text).

Record rstate := mk_rstate {
  r_defs : tdict rval;
  r_sects : tdict (tdict rval);
  r_cur : option text;              (* sectname; None: cursect is None *)
  r_opt : option text;              (* optname *)
  r_indent : nat;
  r_added_s : list text;            (* the sections in elements_added *)
  r_added_o : list (text * text);   (* the options in elements_added *)
  r_bad : bool                      (* e is not None *)
}.

Definition is_default (s : text) : bool := text_eqb s DEFAULT.

(** cursect *)
Definition cur_options (s : rstate) (sect : text) : tdict rval :=
  if is_default sect then r_defs s
  else match tget sect (r_sects s) with Some d => d | None => [] end.

(** cursect[opt] = v *)
Definition set_option (sect opt : text) (v : rval) (s : rstate) : rstate :=
  let d := tset opt v (cur_options s sect) in
  if is_default sect
  then mk_rstate d (r_sects s) (r_cur s) (r_opt s) (r_indent s) (r_added_s s) (r_added_o s) (r_bad s)
  else mk_rstate (r_defs s) (tset sect d (r_sects s)) (r_cur s) (r_opt s) (r_indent s)
         (r_added_s s) (r_added_o s) (r_bad s).

(** What ends the reading early: a configparser.Error (duplicate section or
    option, no section header) or an AttributeError (a continuation line after
    an option without a value). *)
Inductive rstop := StopError | StopAttribute.

Definition is_comment (t : text) : bool :=
  match strip t with c :: _ => Ascii.eqb c "#" || Ascii.eqb c ";" | [] => false end.

(** NONSPACECRE.search(line).start() *)
Fixpoint indent_of (l : text) : nat :=
  match l with
  | c :: r => if isspace c then S (indent_of r) else 0
  | [] => 0
  end.

(** SECTCRE.match: [ then at least one character then the last ] of the line *)
Fixpoint upto_last_bracket (t : text) : option text :=
  match t with
  | [] => None
  | c :: r =>
      match upto_last_bracket r with
      | Some h => Some (c :: h)
      | None => if Ascii.eqb c "]" then Some [] else None
      end
  end.
Definition section_header (value : text) : option text :=
  match value with
  | c :: r =>
      if Ascii.eqb c "[" then
        match upto_last_bracket r with
        | Some (a :: h) => Some (a :: h)
        | _ => None
        end
      else None
  | [] => None
  end.

(** OPTCRE_NV with the delimiter =: the option up to the first = (or the end)
    without the white space before it; the value after it, if there is one *)
Fixpoint split_equals (t : text) : text * option text :=
  match t with
  | [] => ([], None)
  | c :: r =>
      if Ascii.eqb c "=" then ([], Some r)
      else let (a, b) := split_equals r in (c :: a, b)
  end.
Definition option_line (value : text) : text * option text :=
  let (a, b) := split_equals value in (rstrip a, option_map strip b).

Definition added (so : text * text) (l : list (text * text)) : bool :=
  existsb (fun x => text_eqb (fst so) (fst x) && text_eqb (snd so) (snd x)) l.

(** optname is not None and not empty *)
Definition truthy (o : option text) : bool :=
  match o with Some (_ :: _) => true | _ => false end.

(** One line, 1037-1127 *)
Definition read_line (line : text) (s : rstate) : rstate + rstop :=
  let value := if is_comment line then [] else strip line in
  match value with
  | [] =>
      match r_cur s, r_opt s with
      | Some sect, Some opt =>
          if negb (is_comment line) && truthy (r_opt s) then
            match tget opt (cur_options s sect) with
            | Some (RLines l) => inl (set_option sect opt (RLines (l ++ [[]])) s)
            | _ => inl s
            end
          else inl s
      | _, _ => inl s
      end
  | _ =>
      let indent := indent_of line in
      match (if truthy (r_opt s) && (r_indent s <? indent) then
               match r_cur s, r_opt s with Some sect, Some opt => Some (sect, opt) | _, _ => None end
             else None) with
      | Some (sect, opt) =>
          match tget opt (cur_options s sect) with
          | Some (RLines l) => inl (set_option sect opt (RLines (l ++ [value])) s)
          | _ => inr StopAttribute
          end
      | None =>
          match section_header value with
          | Some h =>
              match tget h (r_sects s) with
              | Some _ =>
                  if tmem h (r_added_s s) then inr StopError
                  else inl (mk_rstate (r_defs s) (r_sects s) (Some h) None indent
                              (h :: r_added_s s) (r_added_o s) (r_bad s))
              | None =>
                  if is_default h
                  then inl (mk_rstate (r_defs s) (r_sects s) (Some h) None indent
                              (r_added_s s) (r_added_o s) (r_bad s))
                  else inl (mk_rstate (r_defs s) (tset h [] (r_sects s)) (Some h) None indent
                              (h :: r_added_s s) (r_added_o s) (r_bad s))
              end
          | None =>
              match r_cur s with
              | None => inr StopError
              | Some sect =>
                  let (opt, val) := option_line value in
                  if added (sect, opt) (r_added_o s) then inr StopError
                  else
                    inl (set_option sect opt
                      (match val with Some v => RLines [v] | None => RNone end)
                      (mk_rstate (r_defs s) (r_sects s) (r_cur s) (Some opt) indent
                         (r_added_s s) ((sect, opt) :: r_added_o s)
                         (r_bad s || match opt with [] => true | _ => false end)))
              end
          end
      end
  end.

(** How reading ends. *)
Inductive rend := Fine | ParserError | AttrError.

(** All lines: the last state before what ends the reading. *)
Fixpoint read_lines (lines : list text) (s : rstate) : rstate * rend :=
  match lines with
  | [] => (s, if r_bad s then ParserError else Fine)
  | l :: rest =>
      match read_line l s with
      | inl s' => read_lines rest s'
      | inr StopError => (s, ParserError)
      | inr StopAttribute => (s, AttrError)
      end
  end.

(** _join_multiline_values, 1136-1146 *)
Definition join_value (v : rval) : option text :=
  match v with
  | RNone => None
  | RText t => Some t
  | RLines l => Some (rstrip (join_nl l))
  end.
Definition join_options (d : tdict rval) : tdict (option text) :=
  map (fun kv => (fst kv, join_value (snd kv))) d.
Definition joined (s : rstate) : ini :=
  mk_ini (join_options (r_defs s))
    (map (fun kv => (fst kv, join_options (snd kv))) (r_sects s)).

Definition load_value (v : option text) : rval :=
  match v with Some t => RText t | None => RNone end.
Definition load_options (d : tdict (option text)) : tdict rval :=
  map (fun kv => (fst kv, load_value (snd kv))) d.
Definition start_reading (i : ini) : rstate :=
  mk_rstate (load_options (i_defaults i))
    (map (fun kv => (fst kv, load_options (snd kv))) (i_sections i))
    None None 0 [] [] false.

(** Reading one file or text into a parser. *)
Definition read_text (t : text) (i : ini) : ini * rend :=
  let (s, e) := read_lines (stream_lines t) (start_reading i) in (joined s, e).

(** ** Writing: PlainBoxConfigParser.write, config.py:430-446, and
    _write_section, configparser.py:941-952 *)

(** str(value).replace NL by NL and a tab *)
Fixpoint indent_lines (t : text) : text :=
  match t with
  | [] => []
  | c :: r => if Ascii.eqb c NL then NL :: TAB :: indent_lines r else c :: indent_lines r
  end.

Definition write_option (kv : text * option text) : text :=
  fst kv ++ match snd kv with Some v => T " = " ++ indent_lines v | None => [] end ++ [NL].

Fixpoint text_leb (a b : text) : bool :=
  match a, b with
  | [], _ => true
  | _ :: _, [] => false
  | x :: a', y :: b' =>
      if Ascii.eqb x y then text_leb a' b' else nat_of_ascii x <? nat_of_ascii y
  end.

(** sorted(items): by key, as the keys differ *)
Fixpoint insert_item (x : text * option text) (l : tdict (option text)) : tdict (option text) :=
  match l with
  | [] => [x]
  | y :: r => if text_leb (fst x) (fst y) then x :: l else y :: insert_item x r
  end.
Definition sort_items (d : tdict (option text)) : tdict (option text) := fold_right insert_item [] d.

Definition write_section (name : text) (d : tdict (option text)) : text :=
  T "[" ++ name ++ T "]" ++ [NL] ++ flat_map write_option (sort_items d) ++ [NL].

Definition write_ini (i : ini) : text :=
  (match i_defaults i with [] => [] | d => write_section DEFAULT d end) ++
  flat_map (fun kv => write_section (fst kv) (snd kv)) (i_sections i).

(** ** Looking values up *)

Inductive lookup := NoSuch | Found (v : option text).

(** _unify_values, configparser.py:1165-1187: None is NoSectionError *)
Definition unify (i : ini) (sect : text) : option (text -> option (option text)) :=
  let with_defaults d := fun k =>
    match tget k d with Some v => Some v | None => tget k (i_defaults i) end in
  match tget sect (i_sections i) with
  | Some d => Some (with_defaults d)
  | None => if is_default sect then Some (with_defaults []) else None
  end.

(** BasicInterpolation._interpolate_some, configparser.py:407-446: expansion of
    %% and of %(name)s, up to ten levels deep.  The first kind of error is an
    InterpolationError, the second a TypeError (the name has no value). *)
Inductive ierror := IInterpolation | IType.
Inductive imode := MText | MPercent | MKey (acc : text) | MClose (key : text).

(** The loop, with what is done for a value that contains a percent sign *)
Fixpoint some_from (nested : text -> text + ierror) (map : text -> option (option text))
    (m : imode) (rest : text) {struct rest} : text + ierror :=
  match rest with
  | [] => match m with MText => inl [] | _ => inr IInterpolation end
  | c :: r =>
      match m with
      | MText =>
          if Ascii.eqb c PCT then some_from nested map MPercent r
          else match some_from nested map MText r with inl x => inl (c :: x) | inr e => inr e end
      | MPercent =>
          if Ascii.eqb c PCT
          then match some_from nested map MText r with inl x => inl (PCT :: x) | inr e => inr e end
          else if Ascii.eqb c "(" then some_from nested map (MKey []) r
          else inr IInterpolation
      | MKey acc =>
          if Ascii.eqb c ")" then
            match acc with [] => inr IInterpolation | _ => some_from nested map (MClose (rev acc)) r end
          else some_from nested map (MKey (c :: acc)) r
      | MClose k =>
          if Ascii.eqb c "s" then
            match map k with
            | None => inr IInterpolation
            | Some None => inr IType
            | Some (Some v) =>
                match (if existsb (Ascii.eqb PCT) v then nested v else inl v) with
                | inr e => inr e
                | inl x => match some_from nested map MText r with inl y => inl (x ++ y) | inr e => inr e end
                end
            end
          else inr IInterpolation
      end
  end.

Fixpoint interpolate (depth : nat) (map : text -> option (option text)) (t : text) : text + ierror :=
  match depth with
  | 0 => inr IInterpolation
  | S d => some_from (interpolate d map) map MText t
  end.

Definition max_depth : nat := 10.

(** parser.get, configparser.py:763-801 *)
Inductive got := GMissing | GValue (v : option text) | GError (e : ierror).
Definition ini_get (i : ini) (sect opt : text) : got :=
  match unify i sect with
  | None => GMissing
  | Some m =>
      match m opt with
      | None => GMissing
      | Some None => GValue None
      | Some (Some t) =>
          match interpolate max_depth m t with
          | inl x => GValue (Some x)
          | inr e => GError e
          end
      end
  end.

(** parser.items(section), configparser.py:847-875; None is NoSectionError.  The
    options of [DEFAULT] are included; an option without a value is the empty
    text. *)
Fixpoint update (d e : tdict (option text)) : tdict (option text) :=
  match e with [] => d | (k, v) :: r => update (tset k v d) r end.

Fixpoint items_of (m : text -> option (option text)) (d : tdict (option text))
    : tdict text + ierror :=
  match d with
  | [] => inl []
  | (k, v) :: r =>
      match (match v with None => inl [] | Some t => interpolate max_depth m t end) with
      | inr e => inr e
      | inl x => match items_of m r with inl l => inl ((k, x) :: l) | inr e => inr e end
      end
  end.

Definition ini_items (i : ini) (sect : text) : option (tdict text + ierror) :=
  let go d := let all := update (i_defaults i) d in Some (items_of (fun k => tget k all) all) in
  match tget sect (i_sections i) with
  | Some d => go d
  | None => if is_default sect then go [] else None
  end.

(** ** Setting: BasicInterpolation.before_set, configparser.py:394-401 *)

(** value.replace('%%', '') *)
Fixpoint drop_pairs (t : text) : text :=
  match t with
  | c :: r =>
      match r with
      | c2 :: r2 => if Ascii.eqb c PCT && Ascii.eqb c2 PCT then drop_pairs r2 else c :: drop_pairs r
      | [] => [c]
      end
  | [] => []
  end.

(** Every % that is left starts a %(name)s. *)
Fixpoint references_only (m : imode) (t : text) : bool :=
  match t with
  | [] => match m with MText => true | _ => false end
  | c :: r =>
      match m with
      | MText => if Ascii.eqb c PCT then references_only MPercent r else references_only MText r
      | MPercent => if Ascii.eqb c "(" then references_only (MKey []) r else false
      | MKey acc =>
          if Ascii.eqb c ")" then
            match acc with [] => false | _ => references_only (MClose acc) r end
          else references_only (MKey (c :: acc)) r
      | MClose _ => if Ascii.eqb c "s" then references_only MText r else false
      end
  end.

(** None is ValueError *)
Definition set_ok (v : text) : bool := references_only MText (drop_pairs v).

(** parser.set of an existing section or of DEFAULT *)
Definition ini_set (sect opt v : text) (i : ini) : option ini :=
  if set_ok v then
    if is_default sect then Some (mk_ini (tset opt (Some v) (i_defaults i)) (i_sections i))
    else Some (mk_ini (i_defaults i)
      (tset sect (tset opt (Some v) (match tget sect (i_sections i) with Some d => d | None => [] end))
         (i_sections i)))
  else None.

(** if not has_section: add_section *)
Definition ensure_section (sect : text) (i : ini) : ini :=
  match tget sect (i_sections i) with
  | Some _ => i
  | None => mk_ini (i_defaults i) (tset sect [] (i_sections i))
  end.

(** ** shlex.split(value), POSIX mode, split at white space, no comments;
    None is ValueError (no closing quotation, no escaped character) *)

Inductive smode := SSpace | SWord | SQuote (q : ascii) | SEscape (back : smode).

Definition shblank (c : ascii) : bool :=
  Ascii.eqb c " " || Ascii.eqb c "009" || Ascii.eqb c "010" || Ascii.eqb c "013".
Definition shquote (c : ascii) : bool := Ascii.eqb c DQ || Ascii.eqb c "'".
Definition backslash : ascii := "\".

(** [tok] is the token so far, reversed; [quoted] as in read_token. *)
Fixpoint shlex (m : smode) (tok : text) (quoted : bool) (t : text) : option (list text) :=
  let emit (rest : option (list text)) :=
    match tok, quoted with
    | [], false => rest
    | _, _ => match rest with Some l => Some (rev tok :: l) | None => None end
    end in
  match t with
  | [] =>
      match m with
      | SSpace | SWord => emit (Some [])
      | SQuote _ | SEscape _ => None
      end
  | c :: r =>
      match m with
      | SSpace =>
          if shblank c then emit (shlex SSpace [] false r)
          else if Ascii.eqb c backslash then shlex (SEscape SWord) tok quoted r
          else if shquote c then shlex (SQuote c) tok quoted r
          else shlex SWord [c] quoted r
      | SQuote q =>
          if Ascii.eqb c q then shlex SWord tok true r
          else if Ascii.eqb c backslash && Ascii.eqb q DQ then shlex (SEscape m) tok true r
          else shlex m (c :: tok) true r
      | SEscape back =>
          let tok :=
            match back with
            | SQuote q =>
                if negb (Ascii.eqb c backslash) && negb (Ascii.eqb c q)
                then backslash :: tok else tok
            | _ => tok
            end in
          shlex back (c :: tok) quoted r
      | SWord =>
          if shblank c then emit (shlex SSpace [] false r)
          else if shquote c then shlex (SQuote c) tok quoted r
          else if Ascii.eqb c backslash then shlex (SEscape SWord) tok quoted r
          else shlex SWord (c :: tok) quoted r
      end
  end.

(** PlainBoxConfigParser._convert_to_list, config.py:452-458 *)
Definition convert_to_list (value : text) : option (list text) :=
  shlex SSpace [] false (map (fun c => if Ascii.eqb c "," then " " else c) value).
