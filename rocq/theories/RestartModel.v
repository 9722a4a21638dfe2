(** * Restarting the testing application after a reboot

    /repo/plainbox/impl/session/restart.py (all of it), and the parts of
    /repo/plainbox/impl/session/assistant.py that use it: run_job (1300-1346),
    use_job_result (1398-1422) and resume_session (614-640).

    The file system is a dictionary from names to contents.  What a program
    does is the list of its effects; a crash leaves any prefix of that list.

    Simplified: creating directories always works, so do sudo and systemctl
    (the code ignores how they end); the only reason for a strategy to fail is
    the command it is given.  A result is its outcome.  Texts are lists of
    characters below 256 (as in ScanModel). *)
From Coq Require Import String Ascii List Bool Arith.
From Verif Require Import ScanModel Rfc822Model IniModel.
Import ListNotations.
Local Open Scope char_scope.
Local Open Scope nat_scope.
Local Open Scope list_scope.

(** ** Standard library *)

Definition word_like (c : ascii) : bool :=
  let n := nat_of_ascii c in
  ((48 <=? n) && (n <=? 57)) || ((65 <=? n) && (n <=? 90)) || ((97 <=? n) && (n <=? 122)) || (n =? 95).

(** What shlex.quote leaves alone: not [^\w@%+=:,./-], shlex.py _find_unsafe *)
Definition safe_char (c : ascii) : bool :=
  word_like c || existsb (Ascii.eqb c) (T "@%+=:,./-").

Definition SQ : ascii := "'".

(** s.replace: every single quote becomes '"'"' *)
Fixpoint guard_quotes (s : text) : text :=
  match s with
  | [] => []
  | c :: r => if Ascii.eqb c SQ then [SQ; DQ; SQ; DQ; SQ] ++ guard_quotes r else c :: guard_quotes r
  end.

(** shlex.quote *)
Definition quote (s : text) : text :=
  match s with
  | [] => [SQ; SQ]
  | _ => if forallb safe_char s then s else SQ :: guard_quotes s ++ [SQ]
  end.

(** ' '.join(words) *)
Fixpoint unwords (ws : list text) : text :=
  match ws with
  | [] => []
  | [w] => w
  | w :: r => w ++ " "%char :: unwords r
  end.

(** text.split() *)
Fixpoint split_words (acc : text) (t : text) : list text :=
  match t with
  | [] => match acc with [] => [] | _ => [rev acc] end
  | c :: r =>
      if isspace c then match acc with [] => split_words [] r | _ => rev acc :: split_words [] r end
      else split_words (c :: acc) r
  end.
Definition py_split (t : text) : list text := split_words [] t.

(** shlex.split *)
Definition shlex_split (t : text) : option (list text) := shlex SSpace [] false t.

(** os.path.expandvars: a dollar and a name, or a dollar and a name in braces,
    are replaced when the variable is set *)
Inductive vmode := VText | VDollar | VName (acc : text) | VBrace (acc : text).
Definition DOLLAR : ascii := "$".

Definition var_value (env : text -> option text) (written name : text) : text :=
  match env name with Some v => v | None => written end.

Fixpoint expandvars (env : text -> option text) (m : vmode) (t : text) : text :=
  match t with
  | [] =>
      match m with
      | VText => []
      | VDollar => [DOLLAR]
      | VName acc => var_value env (DOLLAR :: rev acc) (rev acc)
      | VBrace acc => DOLLAR :: "{" :: rev acc
      end
  | c :: r =>
      let plain := if Ascii.eqb c DOLLAR then expandvars env VDollar r else c :: expandvars env VText r in
      match m with
      | VText => plain
      | VDollar =>
          if word_like c then expandvars env (VName [c]) r
          else if Ascii.eqb c "{" && existsb (Ascii.eqb "}") r then expandvars env (VBrace []) r
          else DOLLAR :: plain
      | VName acc =>
          if word_like c then expandvars env (VName (c :: acc)) r
          else var_value env (DOLLAR :: rev acc) (rev acc) ++ plain
      | VBrace acc =>
          if Ascii.eqb c "}" then
            var_value env (DOLLAR :: "{" :: rev acc ++ T "}") (rev acc) ++ expandvars env VText r
          else expandvars env (VBrace (c :: acc)) r
      end
  end.

(** PlainBoxConfigParser.write with space_around_delimiters=False, config.py
    422-439, and _write_section, configparser.py:941-952 *)
Definition write_option_tight (kv : text * option text) : text :=
  fst kv ++ T "=" ++ match snd kv with Some v => indent_lines v | None => T "None" end ++ [NL].
Definition write_section_tight (name : text) (d : tdict (option text)) : text :=
  T "[" ++ name ++ T "]" ++ [NL] ++ flat_map write_option_tight (sort_items d) ++ [NL].
Definition write_tight (i : ini) : text :=
  (match i_defaults i with [] => [] | d => write_section_tight DEFAULT d end) ++
  flat_map (fun kv => write_section_tight (fst kv) (snd kv)) (i_sections i).

(** ** Strategies *)

(** FValue is ValueError (interpolation syntax), FType is TypeError, FIndex is
    IndexError *)
Inductive rfault := FValue | FType | FIndex.

(** Several config.set calls of one section, in order *)
Fixpoint set_all (sect : text) (kvs : list (text * text)) (i : ini) : ini + rfault :=
  match kvs with
  | [] => inl i
  | (k, v) :: r =>
      match ini_set sect k v i with
      | Some i' => set_all sect r i'
      | None => inr FValue
      end
  end.

(** The arguments of XDGRestartStrategy.__init__, restart.py:70-79 *)
Record xdg_args := mk_xdg {
  x_name : option text; x_generic : option text; x_comment : option text;
  x_icon : option text; x_terminal : bool; x_categories : option text; x_notify : bool }.

(** value or default *)
Definition or_else (o : option text) (d : text) : text :=
  match o with Some [] | None => d | Some v => v end.
Definition yes_no (b : bool) : text := if b then T "true" else T "false".

Definition desktop_entry : text := T "Desktop Entry".

(** XDGRestartStrategy.__init__, restart.py:86-103 *)
Definition xdg_init (a : xdg_args) : ini + rfault :=
  set_all desktop_entry
    ([ (T "Type", T "Application");
       (T "Version", T "1.0");
       (T "Name", or_else (x_name a) (T "Resume Testing Session"));
       (T "GenericName", or_else (x_generic a) (T "Resume Testing Session"));
       (T "Comment", or_else (x_comment a) (T "Automatically resume the testing session"));
       (T "Terminal", yes_no (x_terminal a)) ] ++
     match x_icon a with Some (c :: r) => [(T "Icon", c :: r)] | _ => [] end ++
     [ (T "Categories", or_else (x_categories a) (T "System"));
       (T "StartupNotify", yes_no (x_notify a)) ])
    (ensure_section desktop_entry empty_ini).

(** get_desktop_filename, restart.py:105-108 *)
Definition desktop_filename (env : text -> option text) (app_id : text) : text :=
  expandvars env VText (T "$HOME/.config/autostart/" ++ app_id ++ T ".desktop").

(** SnappyRestartStrategy.__init__, restart.py:141-157 *)
Definition snappy_init (env : text -> option text) : ini + rfault :=
  match set_all (T "Unit")
          [ (T "Description", T "Plainbox Resume Wrapper");
            (T "After", T "ubuntu-snappy.frameworks.target");
            (T "Requires", T "ubuntu-snappy.frameworks.target");
            (T "X-Snappy", T "yes") ] (ensure_section (T "Unit") empty_ini) with
  | inl i =>
      match env (T "USER") with
      | None => inr FType
      | Some user =>
          match set_all (T "Service") [ (T "Type", T "oneshot"); (T "User", user) ]
                  (ensure_section (T "Service") i) with
          | inl i' => set_all (T "Install") [ (T "WantedBy", T "multi-user.target") ]
                        (ensure_section (T "Install") i')
          | inr e => inr e
          end
      end
  | inr e => inr e
  end.

(** get_autostart_config_filename, restart.py:159-162, and service_name, 139 *)
Definition service_name : text := T "plainbox-autostart.service".
Definition service_filename : text := T "/etc/systemd/system/" ++ service_name.

(** os.getenv(name) is true *)
Definition env_true (env : text -> option text) (name : text) : bool :=
  match env name with Some (_ :: _) => true | _ => false end.

(** str.format of None is None *)
Definition snappy_binary (env : text -> option text) : text :=
  T "/" ++ (if env_true env (T "SNAP_APP_PATH") then T "apps" else T "snap") ++ T "/bin/" ++
  match env (T "SNAP_NAME") with Some n => n | None => T "None" end ++ T ".checkbox-cli".

(** ** Effects *)

Inductive effect :=
| EMkdirs (name : text)            (* os.makedirs of the directory of a file *)
| ETruncate (name : text)          (* open(name, 'wt') *)
| EWrite (name piece : text)       (* some of what was written reaches the file *)
| ERemove (name : text)            (* os.remove, ENOENT ignored; os.unlink; rm *)
| ECopy (src dst : text)           (* sudo cp *)
| EEnable | EDisable               (* sudo systemctl enable, disable *)
| ERunning (job : option text)     (* metadata.running_job_name = ... *)
| EResult (job outcome : text)     (* state.update_job_result *)
| ECheckpoint                      (* manager.checkpoint *)
| ELoad.                           (* SessionManager.load_session *)

(** What the file system holds and whether the service is enabled *)
Record machine := mk_machine { files : tdict text; enabled : bool }.
(** The part of the session that matters here *)
Record session := mk_session { running : option text; results : tdict text }.
Record world := mk_world { disk : machine; saved : session; memory : session }.

Definition tdel {A} (k : text) (d : tdict A) : tdict A :=
  filter (fun kv => negb (text_eqb k (fst kv))) d.

Definition on_files (f : tdict text -> tdict text) (w : world) : world :=
  mk_world (mk_machine (f (files (disk w))) (enabled (disk w))) (saved w) (memory w).
Definition on_memory (f : session -> session) (w : world) : world :=
  mk_world (disk w) (saved w) (f (memory w)).
Definition content (name : text) (d : tdict text) : text :=
  match tget name d with Some t => t | None => [] end.

Definition act (e : effect) (w : world) : world :=
  match e with
  | EMkdirs _ => w
  | ETruncate n => on_files (tset n []) w
  | EWrite n p => on_files (fun d => tset n (content n d ++ p) d) w
  | ERemove n => on_files (tdel n) w
  | ECopy s d => on_files (fun fs => match tget s fs with Some t => tset d t fs | None => fs end) w
  | EEnable => mk_world (mk_machine (files (disk w)) true) (saved w) (memory w)
  | EDisable => mk_world (mk_machine (files (disk w)) false) (saved w) (memory w)
  | ERunning j => on_memory (fun s => mk_session j (results s)) w
  | EResult j o => on_memory (fun s => mk_session (running s) (tset j o (results s))) w
  | ECheckpoint => mk_world (disk w) (memory w) (memory w)
  | ELoad => mk_world (disk w) (saved w) (saved w)
  end.
Definition perform (es : list effect) (w : world) : world := fold_left (fun w e => act e w) es w.

(** A file is written in pieces, whose number and sizes are up to the buffers
    of the runtime: [cut] says how a text is cut. *)
Definition writing (cut : text -> list text) (name t : text) : list effect :=
  ETruncate name :: map (EWrite name) (cut t).

(** ** Priming and diffusing *)

(** The strategy objects with their self.config *)
Inductive strategy :=
| XDG (terminal : bool) (config : ini)
| Snappy (config : ini).

(** XDGRestartStrategy.prime_application_restart, restart.py:110-118, and
    SnappyRestartStrategy.prime_application_restart, 164-188: the effects and
    the strategy with the configuration it is left with.  [tmp] is the name
    that tempfile.NamedTemporaryFile makes. *)
Definition prime (env : text -> option text) (cut : text -> list text) (tmp : text)
  (s : strategy) (app_id cmd : text) : (list effect * strategy) + rfault :=
  match s with
  | XDG terminal config =>
      let filename := desktop_filename env app_id in
      let cmd := if terminal then cmd ++ T ";$SHELL" else cmd in
      match ini_set desktop_entry (T "Exec") cmd config with
      | None => inr FValue
      | Some config' =>
          inl (EMkdirs filename :: writing cut filename (write_tight config'), XDG terminal config')
      end
  | Snappy config =>
      match shlex_split cmd with
      | None => inr FValue
      | Some [] => inr FIndex
      | Some (first :: _) =>
          match ini_set (T "Service") (T "ExecStart")
                  (snappy_binary env ++ T " " ++ unwords (tl (py_split first))) config with
          | None => inr FValue
          | Some config' =>
              inl (EMkdirs service_filename :: writing cut tmp (write_tight config') ++
                   [ECopy tmp service_filename; ERemove tmp; EEnable], Snappy config')
          end
      end
  end.

(** diffuse_application_restart, restart.py:120-128 and 190-197 *)
Definition diffuse (env : text -> option text) (s : strategy) (app_id : text) : list effect :=
  match s with
  | XDG _ _ => [ERemove (desktop_filename env app_id)]
  | Snappy _ => [EDisable; ERemove service_filename]
  end.

(** detect_restart_strategy, restart.py:200-220: LookupError is [None] *)
Definition detect (env : text -> option text) (autostart_dir : bool) : option (strategy + rfault) :=
  if env_true env (T "SNAP") || env_true env (T "SNAP_APP_PATH") then
    Some (match snappy_init env with inl c => inl (Snappy c) | inr e => inr e end)
  else if autostart_dir then
    Some (match xdg_init (mk_xdg None None None None true None false) with
          | inl c => inl (XDG true c)
          | inr e => inr e
          end)
  else None.

(** ** The session assistant *)

Definition o_pass : text := T "pass".
Definition o_fail : text := T "fail".

(** ' '.join(shlex.quote(part) for part in callback(session_id)),
    assistant.py:1311-1314 *)
Definition restart_command (parts : list text) : text := unwords (map quote parts).

(** run_job of a job that can start, assistant.py:1304-1346, without the user
    interface and the builder it returns.  [strat] is self._restart_strategy,
    [parts] what self._restart_cmd_callback returns for this session, None when
    there is no callback; [body] is what the job does to the machine.
    The second component is the exception that ends the call, if any. *)
Definition run_job (env : text -> option text) (cut : text -> list text) (tmp respawn : text)
  (app_id : text) (strat : option strategy) (parts : option (list text))
  (autorestart noreturn : bool) (job : text) (body : list effect)
  : list effect * option rfault :=
  let start := [ERunning (Some job); ECheckpoint] in
  let rest :=
    (if noreturn then
       match parts with
       | Some ps => EMkdirs respawn :: ETruncate respawn :: map (EWrite respawn) (cut (concat ps))
       | None => [EMkdirs respawn]
       end
     else []) ++ body in
  match (if autorestart then strat else None) with
  | None => (start ++ rest ++ [ECheckpoint], None)
  | Some s =>
      match parts with
      | None => (start, Some FType)
      | Some ps =>
          match prime env cut tmp s app_id (restart_command ps) with
          | inr e => (start, Some e)
          | inl (es, s') => (start ++ es ++ rest ++ diffuse env s' app_id ++ [ECheckpoint], None)
          end
      end
  end.

(** use_job_result, assistant.py:1398-1422 *)
Definition use_job_result (job outcome : text) : list effect := [EResult job outcome; ECheckpoint].

(** resume_session, assistant.py:614-639.  The flags of a job are looked up by
    its name. *)
Definition resume_session (env : text -> option text) (app_id : text) (strat : option strategy)
  (autorestart noreturn : text -> bool) (w : world) : list effect :=
  ELoad ::
  match running (saved w) with
  | Some (c :: r) =>
      let job := c :: r in
      if autorestart job then
        [EResult job (if noreturn job then o_pass else o_fail); ERunning None; ECheckpoint]
      else []
  | _ => []
  end ++
  match strat with
  | Some s => diffuse env s app_id
  | None => []
  end.
