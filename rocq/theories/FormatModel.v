(** Model of python's string.Formatter as plainbox uses it: to find the parameters a
    text refers to and to insert their values.

    The parser is that of CPython (_string.formatter_parser, function
    MarkupIterator_next), as a machine that reads one character at a time.
    Simplifications: characters are bytes; the values that are inserted are texts and
    numbers; attribute access inside a placeholder, the conversion and the final
    formatting of a value are functions given from outside. *)
From Coq Require Import String Ascii List Bool Arith.
From Verif Require Import Base.
Import ListNotations.
Local Open Scope string_scope.
Local Open Scope list_scope.

Definition snoc (s : string) (c : ascii) : string := String.append s (String c EmptyString).

(** What the parser yields: some literal text and perhaps a placeholder, which has a
    name, a conversion and a format specification. *)
Record hole := mk_hole { h_name : string; h_conv : option ascii; h_spec : string }.
Definition piece := (string * option hole)%type.

Inductive fstate :=
| SLit (lit : string)                          (* reading literal text *)
| SOpen (lit : string)                         (* after an opening brace *)
| SClose (lit : string)                        (* after a closing brace *)
| SName (lit nm : string)                      (* reading the name of a placeholder *)
| SIndex (lit nm : string)                     (* the same, inside square brackets *)
| SBang (lit nm : string)                      (* after the exclamation mark *)
| SConv (lit nm : string) (cv : ascii)         (* after the conversion *)
| SSpec (lit nm : string) (cv : option ascii) (spec : string) (depth : nat).

Inductive fstep := Go (st : fstate) | Yield (p : piece) (st : fstate) | Bad.

Definition LB : ascii := "{"%char.
Definition RB : ascii := "}"%char.

(** One character of the name of a placeholder. *)
Definition name_step (lit nm : string) (c : ascii) : fstep :=
  if Ascii.eqb c LB then Bad
  else if Ascii.eqb c "["%char then Go (SIndex lit (snoc nm c))
  else if Ascii.eqb c RB then Yield (lit, Some (mk_hole nm None "")) (SLit "")
  else if Ascii.eqb c ":"%char then Go (SSpec lit nm None "" 0)
  else if Ascii.eqb c "!"%char then Go (SBang lit nm)
  else Go (SName lit (snoc nm c)).

Definition fnext (st : fstate) (c : ascii) : fstep :=
  match st with
  | SLit lit =>
      if Ascii.eqb c LB then Go (SOpen lit)
      else if Ascii.eqb c RB then Go (SClose lit)
      else Go (SLit (snoc lit c))
  | SOpen lit =>
      if Ascii.eqb c LB then Yield (snoc lit LB, None) (SLit "") else name_step lit "" c
  | SClose lit =>
      if Ascii.eqb c RB then Yield (snoc lit RB, None) (SLit "") else Bad
  | SName lit nm => name_step lit nm c
  | SIndex lit nm =>
      if Ascii.eqb c "]"%char then Go (SName lit (snoc nm c)) else Go (SIndex lit (snoc nm c))
  | SBang lit nm => Go (SConv lit nm c)
  | SConv lit nm cv =>
      if Ascii.eqb c RB then Yield (lit, Some (mk_hole nm (Some cv) "")) (SLit "")
      else if Ascii.eqb c ":"%char then Go (SSpec lit nm (Some cv) "" 0)
      else Bad
  | SSpec lit nm cv spec d =>
      if Ascii.eqb c LB then Go (SSpec lit nm cv (snoc spec c) (S d))
      else if Ascii.eqb c RB then
        match d with
        | 0 => Yield (lit, Some (mk_hole nm cv spec)) (SLit "")
        | S d' => Go (SSpec lit nm cv (snoc spec c) d')
        end
      else Go (SSpec lit nm cv (snoc spec c) d)
  end.

(** The pieces, and whether the parser reached the end of the text; if not, asking
    for one more piece raises ValueError. *)
Fixpoint fparse_from (st : fstate) (s : string) : list piece * bool :=
  match s with
  | EmptyString =>
      match st with
      | SLit "" => ([], true)
      | SLit lit => ([(lit, None)], true)
      | _ => ([], false)
      end
  | String c s' =>
      match fnext st c with
      | Bad => ([], false)
      | Go st' => fparse_from st' s'
      | Yield p st' => let (ps, ok) := fparse_from st' s' in (p :: ps, ok)
      end
  end.

(** [string.Formatter().parse(text)] *)
Definition fparse (s : string) : list piece * bool := fparse_from (SLit "") s.

(** plainbox/impl/unit/__init__.py:33-53 [get_accessed_parameters], default engine;
    None is the ValueError of the parser.  The result is a set. *)
Definition hole_names (ps : list piece) : list name :=
  flat_map (fun p => match snd p with Some h => [h_name h] | None => [] end) ps.
Definition accessed_default (s : string) : option (list name) :=
  let (ps, ok) := fparse s in if ok then Some (hole_names ps) else None.

(** ** Formatting *)

Inductive pval := PStr (s : string) | PInt (n : nat).

Inductive ferr := FValue | FKey (k : name) | FIndex | FOther.

(** formatter_field_name_split: the part before the first dot or bracket, the rest. *)
Fixpoint first_part (s : string) : string * string :=
  match s with
  | EmptyString => (EmptyString, EmptyString)
  | String c s' =>
      if (Ascii.eqb c "."%char || Ascii.eqb c "["%char)%bool then (EmptyString, s)
      else let (a, b) := first_part s' in (String c a, b)
  end.

Definition is_digit (c : ascii) : bool := Nat.leb 48 (nat_of_ascii c) && Nat.leb (nat_of_ascii c) 57.
Definition all_digits (s : string) : bool := forallb is_digit (list_ascii_of_string s).

Section Vformat.
(** Following attributes and indices, converting, and formatting a value; None when
    python raises. *)
Variable access : pval -> string -> option pval.
Variable conv1 : pval -> ascii -> option pval.
Variable fmt1 : pval -> string -> option string.

(** Formatter.get_field with no positional arguments: numbers and empty names ask
    for positional arguments. *)
Definition get_field (nm : string) (params : dict pval) : ferr + pval :=
  let (first, rest) := first_part nm in
  match nm with
  | EmptyString => inl FIndex
  | _ =>
      if negb (String.eqb first "") && all_digits first then inl FIndex
      else match dget first params with
           | None => inl (FKey first)
           | Some v =>
               match rest with
               | EmptyString => inr v
               | _ => match access v rest with Some w => inr w | None => inl FOther end
               end
           end
  end.

Definition convert_field (v : pval) (cv : option ascii) : ferr + pval :=
  match cv with
  | None => inr v
  | Some c => match conv1 v c with Some w => inr w | None => inl FValue end
  end.

(** Formatter._vformat; [depth] counts the levels of nesting that are left. *)
Fixpoint vf (depth : nat) (s : string) (params : dict pval) : ferr + string :=
  match depth with
  | 0 => inl FValue
  | S d =>
      let (ps, ok) := fparse s in
      (fix go (ps : list piece) (acc : string) : ferr + string :=
         match ps with
         | [] => if ok then inr acc else inl FValue
         | (lit, None) :: ps' => go ps' (String.append acc lit)
         | (lit, Some h) :: ps' =>
             match get_field (h_name h) params with
             | inl e => inl e
             | inr v =>
                 match convert_field v (h_conv h) with
                 | inl e => inl e
                 | inr w =>
                     match vf d (h_spec h) params with
                     | inl e => inl e
                     | inr spec =>
                         match fmt1 w spec with
                         | None => inl FValue
                         | Some t => go ps' (String.append acc (String.append lit t))
                         end
                     end
                 end
             end
         end) ps EmptyString
  end.

(** [string.Formatter().vformat(text, (), params)]: recursion_depth is 2. *)
Definition vformat (s : string) (params : dict pval) : ferr + string := vf 3 s params.
End Vformat.
