(** * Execution controllers (/repo/plainbox/impl/ctrl.py:395-1601)

    What a controller is asked for: its score for a job, the command and the
    environment.  The process environment (os.environ), the platform and the facts
    the constructors find out about the machine are arguments.  Not modelled: the
    symlink nest, the temporary directories and the QML pipes. *)

From Coq Require Import String Ascii List Bool ZArith.
From Verif Require Import Base.
Import ListNotations.
Local Open Scope string_scope.
Local Open Scope list_scope.

(** ** Choice of the controller *)

(** list.sort(key=...): stable *)
Fixpoint insert_score {A} (x : A * Z) (l : list (A * Z)) : list (A * Z) :=
  match l with
  | [] => [x]
  | y :: l' => if (snd x <=? snd y)%Z then x :: l else y :: insert_score x l'
  end.
Fixpoint sort_scores {A} (l : list (A * Z)) : list (A * Z) :=
  match l with
  | [] => []
  | x :: l' => insert_score x (sort_scores l')
  end.

Inductive choice (A : Type) : Type :=
| Chosen : A -> choice A
| LookupErr : choice A      (* no controller supports the job *)
| IndexErr : choice A.      (* there are no controllers at all *)
Arguments Chosen {A}. Arguments LookupErr {A}. Arguments IndexErr {A}.

(** SessionDeviceContext.get_ctrl_for_job (session/state.py:470-501) and
    JobRunner._get_ctrl_for_job (runner.py:912-939), which are the same code *)
Definition get_ctrl {A} (score : A -> Z) (ctrls : list A) : choice A :=
  match rev (sort_scores (map (fun c => (c, score c)) ctrls)) with
  | [] => IndexErr
  | (c, s) :: _ => if (s <? 0)%Z then LookupErr else Chosen c
  end.

(** ** Jobs, providers, machines *)

Record cprovider : Type := mk_cprovider {
  p_is_provider1 : bool;
  p_secure : bool;
  p_gettext_domain : option string;
  p_locale_dir : option string;
  p_extra_pythonpath : option string;
  p_data_dir : option string;
  p_units_dir : option string;
  p_checkbox_share : option string
}.
Record cjob : Type := mk_cjob {
  cj_provider : cprovider;
  cj_plugin : string;
  cj_flags : list string;       (* get_flag_set() *)
  cj_environ : list string;     (* get_environ_settings() *)
  cj_user : option string;
  cj_shell : string;
  cj_command : option string;
  cj_checksum : string
}.
Record machine : Type := mk_machine {
  m_windows : bool;             (* sys.platform == 'win32' *)
  m_root : bool;                (* os.getuid() == 0 *)
  m_environ : dict string       (* os.environ *)
}.

(** os.getenv(name) is true: set and not empty *)
Definition env_true (m : machine) (k : string) : bool :=
  match dget k (m_environ m) with Some "" => false | Some _ => true | None => false end.
Definition on_snap (m : machine) : bool := env_true m "SNAP" || env_true m "SNAP_APP_PATH".

(** The controllers, with what their constructors found out:
    RootViaPTL1 (1100-1129: whether the policykit action is registered; false on
    snappy), RootViaPkexec, RootViaSudo (1323-1353: whether the user may use sudo),
    RootViaSudoWithPass (1430-1455), User and Qml. *)
Inductive controller : Type :=
| PTL1 : bool -> controller
| Pkexec : controller
| Sudo : bool -> controller
| SudoPass : bool -> controller
| UserCtrl : controller
| Qml : controller.

Definition has_flag (f : string) (j : cjob) : bool := smem f (cj_flags j).
Definition has_user (j : cjob) : bool := match cj_user j with Some _ => true | None => false end.

(** UserJobExecutionController.get_checkbox_score, 785-810 *)
Definition user_score (m : machine) (j : cjob) : Z :=
  if m_windows m then
    if has_user j then -1
    else if negb (has_flag "win32" j) then -1
    else 1
  else
    if has_flag "win32" j then -1
    else if has_user j then (if m_root m then 4 else -1)
    else 1.
(** QmlJobExecutionController.get_checkbox_score, 858-868 *)
Definition qml_score (j : cjob) : Z := if String.eqb (cj_plugin j) "qml" then 4 else -1.
(** RootViaPTL1ExecutionController.get_checkbox_score, 1177-1207 *)
Definition ptl1_score (m : machine) (supported : bool) (j : cjob) : Z :=
  if negb (p_is_provider1 (cj_provider j)) then -1
  else if negb (p_secure (cj_provider j)) then -1
  else if env_true m "SSH_CONNECTION" then -1
  else if has_flag "win32" j then -1
  else if on_snap m then -1
  else if has_user j && supported then 3 else 0.
(** RootViaPkexecExecutionController.get_checkbox_score, 1286-1302 *)
Definition pkexec_score (m : machine) (j : cjob) : Z :=
  if has_flag "win32" j then -1
  else if on_snap m then -1
  else if has_user j then 1 else 0.
(** RootViaSudoExecutionController.get_checkbox_score, 1392-1407 *)
Definition sudo_score (can : bool) (j : cjob) : Z :=
  if has_flag "win32" j then -1
  else if has_user j && can then 2 else -1.
(** RootViaSudoWithPassExecutionController.get_checkbox_score, 1589-1601 *)
Definition sudo_pass_score (can : bool) (j : cjob) : Z :=
  if has_user j && can then 2 else -1.

(** CheckBoxExecutionController.get_score for jobs, 568-579 *)
Definition score (m : machine) (j : cjob) (c : controller) : Z :=
  match c with
  | PTL1 supported => ptl1_score m supported j
  | Pkexec => pkexec_score m j
  | Sudo can => sudo_score can j
  | SudoPass can => sudo_pass_score can j
  | UserCtrl => user_score m j
  | Qml => qml_score j
  end.

(** The controllers of a session (session/state.py:561-582; device.py:213-220) and of a
    job runner (runner.py:310-333) on Linux and Windows. *)
Definition session_ctrls (windows supported can : bool) : list controller :=
  if windows then [UserCtrl] else [PTL1 supported; Pkexec; Sudo can; UserCtrl].
Definition runner_ctrls (windows supported can : bool) : list controller :=
  if windows then [UserCtrl] else [PTL1 supported; Pkexec; Sudo can; UserCtrl; Qml].

(** ** Environment *)

(** str.split(":") and ":".join *)
Fixpoint split_path (s : string) : list string :=
  match s with
  | EmptyString => [""]
  | String c r =>
      if Ascii.eqb c ":" then "" :: split_path r
      else match split_path r with
           | [] => [String c ""]
           | x :: l => String c x :: l
           end
  end.
Fixpoint join_path (l : list string) : string :=
  match l with
  | [] => ""
  | [x] => x
  | x :: l' => String.append x (String ":" (join_path l'))
  end.

(** os.path.join(a, b) for a relative b *)
Fixpoint last_char (s : string) : option ascii :=
  match s with
  | EmptyString => None
  | String c EmptyString => Some c
  | String _ r => last_char r
  end.
Definition path_join (a b : string) : string :=
  match last_char a with
  | None => b
  | Some c => if Ascii.eqb c "/" then String.append a b else String.append a (String "/" b)
  end.

Definition getd (k : string) (d : dict string) : string :=
  match dget k d with Some v => v | None => "" end.
Definition set_opt (k : string) (v : option string) (d : dict string) : dict string :=
  match v with Some v => dset k v d | None => d end.

(** get_CHECKBOX_DATA, 709-717 *)
Definition checkbox_data (session_dir : string) : string := path_join session_dir "CHECKBOX_DATA".

(** The loop that drops the variables of the locale, 662-664 *)
Definition del_lc (env : dict string) : dict string :=
  fold_left (fun e k => if String.prefix "LC_" k then ddel k e else e) (dkeys env) env.

(** The loop over the environment section of the configuration, 698-706 *)
Definition add_config (config : dict string) (env : dict string) : dict string :=
  fold_left (fun e kv => if dmem (fst kv) e then e else dset (fst kv) (snd kv) e) config env.

(** get_execution_environment, 624-707.  [config] is None when there is no
    configuration or it has no environment section. *)
Definition execution_environment (m : machine) (j : cjob) (config : option (dict string))
    (session_dir nest_dir : string) : dict string :=
  let p := cj_provider j in
  let env := m_environ m in
  let env :=
    if negb (has_flag "preserve-locale" j) then
      let env := dset "LANG" "C.UTF-8" env in
      let env := if dmem "LANGUAGE" env then ddel "LANGUAGE" env else env in
      del_lc env
    else
      let env := set_opt "PLAINBOX_PROVIDER_GETTEXT_DOMAIN" (p_gettext_domain p)
                   (set_opt "TEXTDOMAIN" (p_gettext_domain p) env) in
      set_opt "PLAINBOX_PROVIDER_LOCALE_DIR" (p_locale_dir p)
        (set_opt "TEXTDOMAINDIR" (p_locale_dir p) env) in
  let env :=
    match p_extra_pythonpath p with
    | None | Some "" => env
    | Some x => dset "PYTHONPATH" (join_path (x :: split_path (getd "PYTHONPATH" env))) env
    end in
  let env := dset "PATH" (join_path (nest_dir :: split_path (getd "PATH" env))) env in
  let env := dset "CHECKBOX_DATA" (checkbox_data session_dir)
               (dset "PLAINBOX_SESSION_SHARE" (checkbox_data session_dir) env) in
  let env := set_opt "PLAINBOX_PROVIDER_DATA" (p_data_dir p) env in
  let env := set_opt "PLAINBOX_PROVIDER_UNITS" (p_units_dir p) env in
  let env := set_opt "CHECKBOX_SHARE" (p_checkbox_share p) env in
  match config with
  | Some c => add_config c env
  | None => env
  end.

Definition copy_vars : list string :=
  ["PYTHONHOME"; "PYTHONUSERBASE"; "LD_LIBRARY_PATH"; "GI_TYPELIB_PATH"].

(** get_differential_execution_environment, 1008-1063 *)
Definition differential_environment (m : machine) (j : cjob) (config : option (dict string))
    (session_dir nest_dir : string) : dict string :=
  let base := m_environ m in
  let target := execution_environment m j config session_dir nest_dir in
  let delta :=
    filter (fun kv =>
      match dget (fst kv) base with
      | None => true
      | Some v => negb (String.eqb v (snd kv))
      end || smem (fst kv) (cj_environ j)) target in
  let delta :=
    if negb (has_flag "preserve-locale" j) then
      dset "LC_ALL" "C.UTF-8" (dset "LANGUAGE" "" (dset "LANG" "C.UTF-8" delta))
    else delta in
  if on_snap m then
    fold_left (fun d kv =>
      if smem (fst kv) copy_vars || String.prefix "SNAP" (fst kv)
      then dset (fst kv) (snd kv) d else d) base delta
  else delta.

(** ** Commands *)

(** sorted(env.items()): the keys are different *)
Fixpoint insert_item (x : string * string) (l : list (string * string)) : list (string * string) :=
  match l with
  | [] => [x]
  | y :: l' => if String.leb (fst x) (fst y) then x :: l else y :: insert_item x l'
  end.
Definition sort_items (d : dict string) : list (string * string) := fold_right insert_item [] d.

(** "{key}={value}".format(...) *)
Definition setting (kv : string * string) : string :=
  String.append (fst kv) (String "=" (snd kv)).

(** get_execution_command of the controllers that run commands.  None: a missing
    user or command, which subprocess refuses with TypeError.  [via] is the job that
    generated the job (job_state.via_job). *)
Definition execution_command (m : machine) (c : controller) (j : cjob) (via : option cjob)
    (config : option (dict string)) (session_dir nest_dir : string) : option (list string) :=
  let delta j := sort_items (differential_environment m j config session_dir nest_dir) in
  let with_env prefix :=
    match cj_command j with
    | Some command =>
        Some (prefix ++ "env" :: map setting (delta j) ++ [cj_shell j; "-c"; command])
    | None => None
    end in
  match c with
  | UserCtrl =>           (* 743-783 *)
      match cj_command j with
      | Some command =>
          if has_flag "win32" j then Some ["cmd.exe"; "/C"; command]
          else Some [cj_shell j; "-c"; command]
      | None => None
      end
  | PTL1 _ =>             (* 1131-1175 *)
      match cj_user j with
      | Some user =>
          Some (["pkexec"; "--user"; user; "plainbox-trusted-launcher-1"] ++
                match via with
                | Some g => "--generator" :: cj_checksum g ::
                            flat_map (fun kv => ["-G"; setting kv]) (delta g)
                | None => []
                end ++
                "--target" :: cj_checksum j ::
                flat_map (fun kv => ["-T"; setting kv]) (delta j))
      | None => None
      end
  | Pkexec =>             (* 1249-1284 *)
      match cj_user j with
      | Some user => with_env ["pkexec"; "--user"; user]
      | None => None
      end
  | Sudo _ =>             (* 1355-1390 *)
      match cj_user j with
      | Some user => with_env ["sudo"; "-S"; "-u"; user]
      | None => None
      end
  | SudoPass _ =>         (* 1457-1497 *)
      match cj_user j with
      | Some user =>
          with_env ["sudo"; "--prompt="; "--reset-timestamp"; "--stdin"; "--user"; user]
      | None => None
      end
  | Qml => None           (* not modelled: 823-856 *)
  end.
