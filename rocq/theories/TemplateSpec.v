(** What format strings and instances of templates should be. *)
From Coq Require Import String Ascii List Bool.
From Verif Require Import Base ResourceModel ResourceSpec FormatModel TemplateModel.
Import ListNotations.
Local Open Scope string_scope.
Local Open Scope list_scope.

(** ** Format strings *)

(** A text with placeholders: literal text and names of parameters. *)
Inductive seg := Text (s : string) | Hole (n : name).

(** How it is written: braces in the literal text are doubled. *)
Fixpoint doubled (s : string) : string :=
  match s with
  | EmptyString => EmptyString
  | String c s' =>
      if (Ascii.eqb c "{"%char || Ascii.eqb c "}"%char)%bool
      then String c (String c (doubled s')) else String c (doubled s')
  end.
Definition written (x : seg) : string :=
  match x with
  | Text s => doubled s
  | Hole n => String.append "{" (String.append n "}")
  end.
Fixpoint all_written (l : list seg) : string :=
  match l with [] => EmptyString | x :: l' => String.append (written x) (all_written l') end.

(** Names that mean themselves: not empty, no number and no punctuation. *)
Definition punctuation : list ascii := ["{"; "}"; "["; "."; ":"; "!"]%char.
Definition plain_name (n : name) : Prop :=
  n <> EmptyString /\ all_digits n = false /\
  forall c, In c (list_ascii_of_string n) -> ~ In c punctuation.

(** The text with the values in place of the names, if they all have one. *)
Fixpoint filled (show : pval -> option string) (params : dict pval) (l : list seg)
  : option string :=
  match l with
  | [] => Some EmptyString
  | Text s :: l' => option_map (String.append s) (filled show params l')
  | Hole n :: l' =>
      match dget n params with
      | None => None
      | Some v =>
          match show v, filled show params l' with
          | Some a, Some b => Some (String.append a b)
          | _, _ => None
          end
      end
  end.

(** A placeholder with this name occurs in the text. *)
Definition placeholder (text : string) (h : hole) : Prop :=
  exists lit, In (lit, Some h) (fst (fparse text)).
(** A placeholder that is only a name, perhaps with a conversion or a format that
    has no placeholders in it. *)
Definition simple_hole (h : hole) : Prop :=
  (forall c, In c (list_ascii_of_string (h_name h)) -> c <> "."%char /\ c <> "["%char) /\
  (forall c, In c (list_ascii_of_string (h_spec h)) -> c <> "{"%char /\ c <> "}"%char).

(** ** Instances *)

(** The fields of the instance: those of the template that are not about templates,
    and the two that are always there. *)
Definition fields_of (t_fields u_fields : dict string) (unit_name engine_name : string) : Prop :=
  dget "unit" u_fields = Some unit_name /\
  dget "template-engine" u_fields = Some engine_name /\
  forall k, k <> "unit" -> k <> "template-engine" ->
    dget k u_fields = if String.prefix "template-" k then None else dget k t_fields.

(** The parameters of the i-th instance: its number, and those attributes of the
    record that some field refers to. *)
Definition params_of (used : name -> Prop) (r : resource) (i : nat) (params : dict pval) : Prop :=
  dget "__index__" params = Some (PInt i) /\
  forall k, k <> "__index__" ->
    (used k -> dget k params = option_map PStr (dget k r)) /\
    (~ used k -> dget k params = None).

(** One instance for each record that is accepted, in order, numbered from i + 1. *)
Inductive instances (accepted : resource -> Prop) (one : resource -> nat -> tunit -> Prop)
  : nat -> list resource -> list tunit -> Prop :=
| inst_nil : forall i, instances accepted one i [] []
| inst_skip : forall i r rs us, ~ accepted r -> instances accepted one i rs us ->
    instances accepted one i (r :: rs) us
| inst_take : forall i r rs u us, accepted r -> one r (S i) u ->
    instances accepted one (S i) rs us -> instances accepted one i (r :: rs) (u :: us).

(** What the field template-resource refers to. *)
Definition has_colons (s : string) : Prop := exists x y, s = String.append x (String.append "::" y).
(** The namespace and the rest: what is before and after the first double colon, or
    the namespace of the provider and everything. *)
Definition partial_name (provider_ns : option string) (s : string) (n : option string) (p : string) : Prop :=
  (exists a, s = String.append a (String.append "::" p) /\ ~ has_colons (String.append a ":") /\ n = Some a) \/
  (~ has_colons s /\ p = s /\ n = provider_ns).
(** The first import with that alias, else the name in the namespace. *)
Definition refers_to (provider_ns : option string) (imports : list (string * string)) (s id : string) : Prop :=
  exists n p, partial_name provider_ns s n p /\
    ((exists l1 l2, imports = l1 ++ (id, p) :: l2 /\ forall x, ~ In (x, p) l1) \/
     ((forall x, ~ In (x, p) imports) /\
      match n with None => id = p | Some m => id = String.append m (String.append "::" p) end)).
