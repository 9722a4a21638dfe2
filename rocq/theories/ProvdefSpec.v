(** * What a definition of a provider means *)
From Coq Require Import String Ascii List Bool Arith.
From Verif Require Import ScanModel Rfc822Model IniModel ConfigModel ConfigSpec ExportModel PluginModel ProviderModel ProvdefModel.
Import ListNotations.
Local Open Scope nat_scope.
Local Open Scope list_scope.

(** ** Names *)

(** A label: a small letter, then small letters, digits and dashes. *)
Definition is_small (c : ascii) : Prop := nat_of_ascii "a" <= nat_of_ascii c <= nat_of_ascii "z".
Definition is_digit (c : ascii) : Prop := nat_of_ascii "0" <= nat_of_ascii c <= nat_of_ascii "9".
Definition name_char (c : ascii) : Prop := is_small c \/ is_digit c \/ c = "-"%char.
Definition label (t : text) : Prop := exists c r, t = c :: r /\ is_small c /\ forall d, In d r -> name_char d.
(** A year: four digits and a dot, or nothing. *)
Definition year (t : text) : Prop :=
  t = [] \/ exists a b c d, t = [a; b; c; d; "."%char] /\ is_digit a /\ is_digit b /\ is_digit c /\ is_digit d.
(** A qualified name: a year, two or more labels with dots between them, a colon, a label. *)
Definition qualified (t : text) : Prop :=
  exists y l m n, t = y ++ l ++ concat (map (fun k => "."%char :: k) m) ++ ":"%char :: n /\
    year y /\ label l /\ m <> [] /\ Forall label m /\ label n.
(** A short name. *)
Definition short (t : text) : Prop := t <> [] /\ forall c, In c t -> name_char c.

(** ** Definitions *)

Record definition := mk_definition {
  s_reloc : bool; s_location : option text; s_name : text; s_namespace : option text; s_version : text;
  s_description : option text; s_domain : option text;
  s_units : option text; s_jobs : option text; s_data : option text; s_bin : option text; s_locale : option text }.

(** What the options in the section of the provider say. *)
Section Says.
  Variable to_float : text -> option text.
  Variable i : ini.
  Definition option_ (k : string) (kd : kind) : variable := mk_variable (T k) SECTION kd VUnset [].
  Definition says_text (k : string) (o : option text) : Prop :=
    says to_float i (option_ k KStr) (match o with Some t => VStr t | None => VUnset end).
  Definition says_flag (k : string) (b : bool) : Prop :=
    says to_float i (option_ k KBool) (VBool b) \/ b = false /\ says to_float i (option_ k KBool) VUnset.
  Definition defines (d : definition) : Prop :=
    says_flag "relocatable" (s_reloc d) /\ says_text "location" (s_location d) /\ says_text "name" (Some (s_name d)) /\
    says_text "namespace" (s_namespace d) /\ says_text "version" (Some (s_version d)) /\ says_text "description" (s_description d) /\
    says_text "gettext_domain" (s_domain d) /\ says_text "units_dir" (s_units d) /\ says_text "jobs_dir" (s_jobs d) /\
    says_text "data_dir" (s_data d) /\ says_text "bin_dir" (s_bin d) /\ says_text "locale_dir" (s_locale d).
End Says.

Section Meaning.
  Variable isdir : text -> bool.

  (** A directory that can be used. *)
  Definition usable (d : text) : Prop := (exists r, d = SL :: r) /\ isdir d = true.
  Definition usable_if_given (o : option text) : Prop := forall d, o = Some d -> usable d.

  (** A definition that is accepted. *)
  Definition acceptable (d : definition) : Prop :=
    usable_if_given (s_location d) /\
    match s_namespace d with
    | None => qualified (s_name d) \/ exists n, s_name d = n ++ [NL] /\ qualified n
    | Some ns => ns <> [] /\ (short (s_name d) \/ (exists n, s_name d = n ++ [NL] /\ short n) \/ exists n r, s_name d = n ++ r /\ qualified n)
    end /\
    (exists v c r, s_version d = v ++ c :: r /\ (v = [] \/ v = T "v") /\ is_digit c) /\
    (forall t, s_domain d = Some t -> exists c r, t = c :: r /\ (is_small c \/ is_digit c \/ c = "_"%char \/ c = "-"%char)) /\
    usable_if_given (s_units d) /\ usable_if_given (s_jobs d) /\ usable_if_given (s_data d) /\ usable_if_given (s_bin d) /\
    usable_if_given (s_locale d).

  (** The directory of some kind: the one that is given, or the first of some
      directories below the location that exists. *)
  Inductive chosen (own location : option text) : list (list string) -> option text -> Prop :=
  | c_own d l : own = Some d -> chosen own location l (Some d)
  | c_here loc parts l : own = None -> location = Some loc -> isdir (fold_left pjoin (map T parts) loc) = true ->
      chosen own location (parts :: l) (Some (fold_left pjoin (map T parts) loc))
  | c_later loc parts l o : own = None -> location = Some loc -> isdir (fold_left pjoin (map T parts) loc) = false ->
      chosen own location l o -> chosen own location (parts :: l) o
  | c_nowhere l : own = None -> location = None -> chosen own location l None
  | c_none : own = None -> chosen own location [] None.

  (** The provider of a definition with its directories. *)
  Definition provides (d : definition) (secure : bool) (p : provider1) : Prop :=
    q_name p = s_name d /\
    (forall ns, s_namespace d = Some ns -> q_namespace p = ns) /\
    (s_namespace d = None -> exists r, s_name d = q_namespace p ++ ":"%char :: r /\ ~ In ":"%char (q_namespace p)) /\
    q_version p = s_version d /\ q_description p = (match s_description d with Some t => VStr t | None => VUnset end) /\
    q_secure p = secure /\ q_domain p = s_domain d /\
    p_base (q_dirs p) = s_location d /\
    chosen (s_units d) (s_location d) [["units"%string]] (p_units (q_dirs p)) /\
    chosen (s_jobs d) (s_location d) [["jobs"%string]] (p_jobs (q_dirs p)) /\
    chosen (s_data d) (s_location d) [["data"%string]] (p_data (q_dirs p)) /\
    chosen (s_bin d) (s_location d) [["bin"%string]] (p_bin (q_dirs p)) /\
    chosen (s_locale d) (s_location d) [["locale"%string]; ["build"; "mo"]%string] (p_locale (q_dirs p)).

  (** A relocatable definition is about the directory of its file and nothing else. *)
  Definition relocated (filename : text) (d : definition) : definition :=
    if s_reloc d then
      mk_definition (s_reloc d) (Some (pdirname filename)) (s_name d) (s_namespace d) (s_version d) (s_description d) (s_domain d)
        None None None None None
    else d.
End Meaning.
