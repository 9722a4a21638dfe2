(** * Definitions of providers: /repo/plainbox/impl/secure/providers/v1.py 1070-1560 and
    /repo/plainbox/impl/providers/v1.py *)
From Coq Require Import String Ascii List Bool Arith.
From Verif Require Import ScanModel Rfc822Model IniModel ConfigModel RegexModel ChecksumModel CacheModel ExportModel PluginModel ProviderModel.
Import ListNotations.
Local Open Scope nat_scope.
Local Open Scope list_scope.

(** ** Patterns *)

Definition between (a b c : ascii) : bool := Nat.leb (nat_of_ascii a) (nat_of_ascii c) && Nat.leb (nat_of_ascii c) (nat_of_ascii b).
Definition digit : ascii -> bool := between "0" "9".
Definition small : ascii -> bool := between "a" "z".
Definition small_digit_dash (c : ascii) : bool := small c || digit c || Ascii.eqb c "-".
(** [a-z][a-z0-9-]* *)
Definition re_label : re := RCat (RChr small) (RStar (RChr small_digit_dash)).
(** 1098 and 1121 *)
Definition re_iqn : re :=
  seq [ROpt (seq [RChr digit; RChr digit; RChr digit; RChr digit; chr "."]); re_label; RPlus (RCat (chr ".") re_label); chr ":"; re_label].
(** 1096-1102 IQNValidator *)
Definition iqn_valid (t : text) : bool := match_end re_iqn t.
(** 1119-1132 ProviderNameValidator: ^(...)|(...)$ *)
Definition name_valid (t : text) : bool := match_start re_iqn t || match_end (RPlus (RChr small_digit_dash)) t.
(** 1142-1175 VersionValidator *)
Definition re_digits : re := RPlus (RChr digit).
Definition re_sep : re := ROpt (RChr (is_in ["-"; "_"; "."]%char)).
Definition re_version : re :=
  seq [ROpt (chr "v");
       ROpt (RCat re_digits (chr "!"));
       RCat re_digits (RStar (RCat (chr ".") re_digits));
       ROpt (seq [re_sep; alts [word "a"; word "b"; word "c"; word "rc"; word "alpha"; word "beta"; word "pre"; word "preview"]; re_sep; ROpt re_digits]);
       ROpt (RAlt (RCat (chr "-") re_digits) (seq [re_sep; alts [word "post"; word "rev"; word "r"]; re_sep; ROpt re_digits]));
       ROpt (seq [re_sep; word "dev"; re_sep; ROpt re_digits]);
       ROpt (seq [chr "+"; RPlus (RChr (fun c => small c || digit c));
                  RStar (RCat (RChr (is_in ["-"; "_"; "."]%char)) (RPlus (RChr (fun c => small c || digit c))))])].
Definition version_valid (t : text) : bool := match_start re_version t.
(** 1266 *)
Definition domain_valid (t : text) : bool := match_start (RPlus (RChr (fun c => small c || digit c || is_in ["_"; "-"]%char c))) t.

(** PatternValidator, /repo/plainbox/impl/secure/config.py 779-794: it is called for texts
    only, since KindValidator comes before it *)
Definition text_validator (ok : text -> bool) : validator :=
  mk_validator false (fun _ v => match v with VStr t => ok t | _ => false end).

(** ** The definition, 1200-1482 *)

Definition SECTION : text := T "PlainBox Provider".
Definition is_abs (t : text) : bool := match t with c :: _ => Ascii.eqb c SL | [] => false end.

Inductive made (P : Type) := Made (p : P) | Refused (p : problem) | Escapes (e : escape) | Escapes_validation.
Arguments Made {P}. Arguments Refused {P}. Arguments Escapes {P}. Arguments Escapes_validation {P}.

(** 621-683: what Provider1 is initialised with *)
Record provider1 := mk_provider1 {
  q_name : text; q_namespace : text; q_version : text; q_description : value; q_secure : bool;
  q_domain : option text; q_dirs : provider }.

Section Definition_.
  Variable isdir : text -> bool.
  Variable to_float : text -> option text.

  Definition X_reloc := mk_variable (T "relocatable") SECTION KBool VUnset [kind_validator].
  Definition dir_variable (name : string) : variable :=
    mk_variable (T name) SECTION KStr VUnset
      [kind_validator; not_empty_validator; text_validator is_abs; text_validator isdir].
  Definition X_location := dir_variable "location".
  Definition X_name := mk_variable (T "name") SECTION KStr VUnset
    [not_unset_validator; kind_validator; not_empty_validator; text_validator name_valid].
  Definition X_namespace := mk_variable (T "namespace") SECTION KStr VUnset [kind_validator; not_empty_validator].
  Definition X_version := mk_variable (T "version") SECTION KStr VUnset
    [not_unset_validator; kind_validator; not_empty_validator; text_validator version_valid].
  Definition X_description := mk_variable (T "description") SECTION KStr VUnset [kind_validator].
  Definition X_domain := mk_variable (T "gettext_domain") SECTION KStr VUnset [kind_validator; text_validator domain_valid].
  Definition X_units := dir_variable "units_dir".
  Definition X_jobs := dir_variable "jobs_dir".
  Definition X_data := dir_variable "data_dir".
  Definition X_bin := dir_variable "bin_dir".
  Definition X_locale := dir_variable "locale_dir".
  (** The order is that of the class body. *)
  Definition definition_class : cls :=
    mk_cls [X_reloc; X_location; X_name; X_namespace; X_version; X_description; X_domain; X_units; X_jobs; X_data; X_bin; X_locale] [] [].

  (** bool(value) for texts, booleans and Unset *)
  Definition truth (v : value) : bool :=
    match v with VStr (_ :: _) => true | VBool b => b | _ => false end.
  (** 1467-1482 validate_whole; a name that is Unset is handled in [unnamed] *)
  Definition whole_ok (g : config) : bool :=
    if truth (get_var X_namespace g) then true
    else match get_var X_name g with VStr t => iqn_valid t | _ => true end.
  (** re.match of Unset is a TypeError *)
  Definition unnamed (g : config) : bool :=
    negb (truth (get_var X_namespace g)) && match get_var X_name g with VStr _ => false | _ => true end.

  (** v = self.x_dir *)
  Definition as_text (v : value) : option text := match v with VStr t => Some t | _ => None end.
  (** 1278-1454: implicit and effective directories *)
  Definition implicit (g : config) (parts : list string) : option text :=
    match as_text (get_var X_location g) with
    | Some l => Some (fold_left pjoin (map T parts) l)
    | None => None
    end.
  Definition existing (o : option text) : option text :=
    match o with Some d => if isdir d then Some d else None | None => None end.
  Definition effective (x : variable) (g : config) (parts : list string) : option text :=
    match as_text (get_var x g) with Some t => Some t | None => existing (implicit g parts) end.
  Definition effective_locale (g : config) : option text :=
    match as_text (get_var X_locale g) with
    | Some t => Some t
    | None => match existing (implicit g ["locale"%string]) with Some d => Some d | None => existing (implicit g ["build"; "mo"]%string) end
    end.

  (** name.split(':', 1)[0] *)
  Fixpoint before_colon (t : text) : text :=
    match t with [] => [] | c :: r => if Ascii.eqb c ":" then [] else c :: before_colon r end.

  (** 684-690, 760-768 from_definition *)
  Definition from_definition (g : config) (secure : bool) : provider1 :=
    let name := match as_text (get_var X_name g) with Some t => t | None => [] end in
    mk_provider1 name
      (if truth (get_var X_namespace g) then match as_text (get_var X_namespace g) with Some t => t | None => [] end else before_colon name)
      (match as_text (get_var X_version g) with Some t => t | None => [] end)
      (get_var X_description g) secure (as_text (get_var X_domain g))
      (mk_provider (effective X_units g ["units"%string]) (effective X_jobs g ["jobs"%string]) (effective X_data g ["data"%string])
         (effective X_bin g ["bin"%string]) (effective_locale g) (as_text (get_var X_location g))).

  (** 1507-1513: None is ValidationError *)
  Fixpoint set_all_vars (l : list (variable * value)) (g : config) : option config :=
    match l with
    | [] => Some g
    | (x, v) :: r => match set_var x v g with Some g' => set_all_vars r g' | None => None end
    end.
  Definition relocate (filename : text) (g : config) : option config :=
    if truth (get_var X_reloc g) then
      set_all_vars [(X_location, VStr (pdirname filename)); (X_units, VUnset); (X_jobs, VUnset); (X_data, VUnset); (X_bin, VUnset); (X_locale, VUnset)] g
    else Some g.

  (** 1490-1530 Provider1PlugIn.__init__ *)
  Definition plug_in (secure_list : list text) (filename t : text) : made provider1 :=
    match read_string to_float whole_ok definition_class t new_config with
    | (_, Some e) => Escapes e
    | (g, None) =>
        if unnamed g then Escapes EType
        else
          match relocate filename g with
          | None => Escapes_validation
          | Some g =>
              match g_problems g with
              | PParse :: _ => Escapes EAttribute            (* exc.variable of a configparser.Error *)
              | p :: _ => Refused p
              | [] => Made (from_definition g (tmem (pdirname filename) secure_list))
              end
          end
    end.
End Definition_.

(** ** Search paths *)

(** 1538-1560 get_secure_PROVIDERPATH_list; [env] is os.getenv, [listing] what os.path.exists
    and os.listdir say *)
Definition or_else (a b : option text) : option text := match a with Some (c :: t) => Some (c :: t) | _ => b end.
Definition secure_list (env : text -> option text) (listing : text -> option (list text)) : list text :=
  match or_else (env (T "SNAP")) (env (T "SNAP_APP_PATH")) with
  | Some (c :: t) =>
      let d := pjoin (c :: t) (T "providers") in
      match listing d with Some l => map (pjoin d) l | None => [] end
  | _ => [T "/usr/local/share/plainbox-providers-1"; T "/usr/share/plainbox-providers-1"]
  end.
(** /repo/plainbox/impl/providers/v1.py 44-73; [home] is expanduser of ~/.local/share/ *)
Definition user_entry (env : text -> option text) (home : text) : text :=
  pjoin (match env (T "XDG_DATA_HOME") with Some d => d | None => home end) (T "plainbox-providers-1").
(** str.split(':') *)
Fixpoint split_colon (acc : text) (t : text) : list text :=
  match t with [] => [rev acc] | c :: r => if Ascii.eqb c ":" then rev acc :: split_colon [] r else split_colon (c :: acc) r end.
(** 88-97 *)
Definition insecure_list (env : text -> option text) (listing : text -> option (list text)) (home : text) : list text :=
  match env (T "PROVIDERPATH") with
  | None => secure_list env listing ++ [user_entry env home]
  | Some p => split_colon [] p
  end.
