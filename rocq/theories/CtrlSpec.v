(** * What execution controllers should do, stated without their code *)

From Coq Require Import String Ascii List Bool ZArith.
From Verif Require Import Base CtrlModel.
Import ListNotations.
Local Open Scope string_scope.
Local Open Scope list_scope.

(** ** Choice *)

(** The last one of those with the highest score. *)
Definition best {A} (score : A -> Z) (ctrls : list A) (c : A) : Prop :=
  exists before after, ctrls = before ++ c :: after /\
    (forall d, In d before -> (score d <= score c)%Z) /\
    (forall d, In d after -> (score d < score c)%Z).

(** Controllers that run their commands as the user the job asks for. *)
Definition changes_user (c : controller) : Prop :=
  match c with PTL1 _ | Pkexec | Sudo _ | SudoPass _ => True | UserCtrl | Qml => False end.

(** ** Environment *)

Definition neutral (j : cjob) : Prop := ~ In "preserve-locale" (cj_flags j).
Definition locale_variable (k : string) : Prop := k = "LANGUAGE" \/ String.prefix "LC_" k = true.

(** [x:old], with an empty [old] when there is no such variable *)
Definition prefixed (x : string) (old : option string) : string :=
  String.append x (String ":" (match old with Some v => v | None => "" end)).

(** The values plainbox itself gives to variables. *)
Inductive assigned (m : machine) (j : cjob) (session_dir nest_dir : string) : string -> string -> Prop :=
| a_lang : neutral j -> assigned m j session_dir nest_dir "LANG" "C.UTF-8"
| a_domain : forall k v, ~ neutral j -> p_gettext_domain (cj_provider j) = Some v ->
    In k ["TEXTDOMAIN"; "PLAINBOX_PROVIDER_GETTEXT_DOMAIN"] ->
    assigned m j session_dir nest_dir k v
| a_locale_dir : forall k v, ~ neutral j -> p_locale_dir (cj_provider j) = Some v ->
    In k ["TEXTDOMAINDIR"; "PLAINBOX_PROVIDER_LOCALE_DIR"] ->
    assigned m j session_dir nest_dir k v
| a_pythonpath : forall x, p_extra_pythonpath (cj_provider j) = Some x -> x <> "" ->
    assigned m j session_dir nest_dir "PYTHONPATH" (prefixed x (dget "PYTHONPATH" (m_environ m)))
| a_path :
    assigned m j session_dir nest_dir "PATH" (prefixed nest_dir (dget "PATH" (m_environ m)))
| a_share : forall k, In k ["PLAINBOX_SESSION_SHARE"; "CHECKBOX_DATA"] ->
    assigned m j session_dir nest_dir k (path_join session_dir "CHECKBOX_DATA")
| a_data : forall v, p_data_dir (cj_provider j) = Some v ->
    assigned m j session_dir nest_dir "PLAINBOX_PROVIDER_DATA" v
| a_units : forall v, p_units_dir (cj_provider j) = Some v ->
    assigned m j session_dir nest_dir "PLAINBOX_PROVIDER_UNITS" v
| a_legacy : forall v, p_checkbox_share (cj_provider j) = Some v ->
    assigned m j session_dir nest_dir "CHECKBOX_SHARE" v.

(** The value of a variable in the environment of a job: what plainbox assigns, else
    what the process has (except for the variables of the locale when the job does
    not preserve it), else what the configuration says. *)
Definition configured (config : option (dict string)) (k : string) : option string :=
  match config with Some c => dget k c | None => None end.
Inductive layered (m : machine) (j : cjob) (config : option (dict string))
    (session_dir nest_dir k : string) : option string -> Prop :=
| l_assigned : forall v, assigned m j session_dir nest_dir k v ->
    layered m j config session_dir nest_dir k (Some v)
| l_inherited : forall v,
    (forall w, ~ assigned m j session_dir nest_dir k w) ->
    ~ (neutral j /\ locale_variable k) ->
    dget k (m_environ m) = Some v ->
    layered m j config session_dir nest_dir k (Some v)
| l_configured :
    (forall w, ~ assigned m j session_dir nest_dir k w) ->
    (neutral j /\ locale_variable k) \/ dget k (m_environ m) = None ->
    layered m j config session_dir nest_dir k (configured config k).

(** ** Commands *)

(** How env(1) reads its arguments: options first, then settings, then the command.
    None: an option. *)
Fixpoint split_setting (s : string) : option (string * string) :=
  match s with
  | EmptyString => None
  | String c r =>
      if Ascii.eqb c "=" then Some ("", r)
      else match split_setting r with
           | Some (k, v) => Some (String c k, v)
           | None => None
           end
  end.
Fixpoint env_read (args : list string) : option (list (string * string) * list string) :=
  match args with
  | [] => Some ([], [])
  | a :: r =>
      if String.prefix "-" a then None
      else match split_setting a with
           | Some kv =>
               match env_read r with
               | Some (l, cmd) => Some (kv :: l, cmd)
               | None => None
               end
           | None => Some ([], args)
           end
  end.
(** Names variables can have: no equals sign and no leading dash. *)
Definition good_name (k : string) : Prop :=
  String.prefix "-" k = false /\ split_setting k = None /\ k <> "".
