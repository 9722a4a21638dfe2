(** * Exporters as units: plainbox/impl/unit/exporter.py, plainbox/impl/session/manager.py 449-510,
    plainbox/impl/exporter/tar.py 133-140

    The checks are those of the model of validation (validators.py, unit.py, unit_with_id.py);
    its note on what is not modelled applies.  An exporter whose class is the one for jinja2
    loads its template when it is made: that is not modelled. *)
From Coq Require Import String Ascii List Bool Arith.
From Verif Require Import PathModel ScanModel Rfc822Model JsonModel IniModel FieldsModel SiblingsModel ValidateModel ExportModel.
Import ListNotations.
Local Open Scope nat_scope.
Local Open Scope list_scope.

Definition k_data : text := T "data".
Definition k_entry_point : text := T "entry_point".
Definition k_extension : text := T "file_extension".
Definition k_options : text := T "options".
Definition k_exporter : text := T "exporter".
Definition k_template : text := T "template".

(** exporter.py 199-204: re.split with the class of the semicolon, the comma and white space, one
    or more.  [skipping] is whether a separator was just read. *)
Definition option_sep (c : ascii) : bool := Ascii.eqb c ";" || Ascii.eqb c "," || isspace c.
Fixpoint split_options (skipping : bool) (acc : text) (t : text) : list text :=
  match t with
  | [] => [rev acc]
  | c :: r =>
      if option_sep c then if skipping then split_options true [] r else rev acc :: split_options true [] r
      else split_options false (c :: acc) r
  end.

(** A value of an object read by json.loads: the last one of several *)
Definition jlookup (k : text) (kvs : list (text * json)) : option json := tget k (rev kvs).

Section Exporters.
  Variable P : Type.
  Variable vformat : P -> text -> text + fault.
  Variable render : option P -> text -> text.
  Variable accessed : bool -> text -> list text + fault.
  Variable has_param : P -> text -> bool.
  Variable shlex : text -> option nat.
  Variable number_truth : text -> bool.
  Variable isfile : text -> bool.
  (** The characters that re calls words *)
  Variable wordchar : ascii -> bool.
  (** pkg_resources.load_entry_point of the group of exporters: the class, or it raises *)
  Variable C : Type.
  Variable load_entry_point : text -> option C.
  (** data_dir of the provider of the unit; providers may have none *)
  Variable data_dir : unit_ P -> option text.

  Notation vunit := (vunit P).
  Notation value := (value P vformat render).
  Notation attr n := (fun u => value u n None).

  (** 118-121 the pattern of extensions, as re.search tells: the dollar also matches before a
      final newline *)
  Definition ext_char (c : ascii) : bool := wordchar c || Ascii.eqb c "." || Ascii.eqb c "-".
  Fixpoint ext_rest (t : text) : bool :=
    match t with
    | [] => true
    | [c] => ext_char c || Ascii.eqb c NL
    | c :: r => ext_char c && ext_rest r
    end.
  Definition good_extension (t : text) : bool := match t with c :: r => ext_char c && ext_rest r | [] => false end.

  (** 131-137: the template of the data, in the data directory *)
  Definition template_found (v : option text) (u : vunit) : bool + fault :=
    match v with
    | None => inr Other_error
    | Some t =>
        match f_provider P (v_unit P u), data_dir (v_unit P u), loads t with
        | Some _, Some d, Some (JObj kvs) =>
            match jlookup k_template kvs with
            | Some (JStr name) => inl (isfile (path_join d name))
            | _ => inr Other_error
            end
        | _, _, _ => inr Other_error
        end
    end.

  (** 104-139 with unit_with_id.py 112-124 and unit.py 934-942, sorted by field as in unit.py
      123: summary is read with a default (71), so it is never missing *)
  Definition summary_attr (u : vunit) : option text + fault := value u k_summary (Some []).
  Definition exporter_validators : list (text * list (validator P)) :=
    [ (k_data,
        [Untranslatable P;
         Correct P Syntax_error Error (fun u => rbind (value u k_data None) (fun v => inl (ValidateModel.truthy v)))
           (judge P (attr k_data) (fun v _ => loaded (fun j => inl (json_truth number_truth j)) v));
         Correct P Wrong Error (fun u => rbind (value u k_entry_point None) (fun v => inl (is v w_jinja2)))
           (judge P (attr k_data) template_found)]);
      (k_entry_point,
        [Present_field P Error (always P) (attr k_entry_point); Untranslatable P;
         Correct P Wrong Error (always P)
           (judge P (attr k_entry_point) (fun v _ =>
              match v with
              | Some n => match load_entry_point n with Some _ => inl true | None => inr Other_error end
              | None => inr Other_error
              end))]);
      (k_extension,
        [Present_field P Error (always P) (attr k_extension); Untranslatable P;
         Correct P Syntax_error Error (always P)
           (judge P (attr k_extension) (fun v _ => match v with Some t => inl (good_extension t) | None => inr Other_error end))]);
      (k_id, id_validators P vformat render);
      (k_options, [Untranslatable P]);
      (k_summary,
        [Present_field P Advice (always P) summary_attr; Translatable P;
         One_line P summary_attr; Short_value P summary_attr]);
      (k_unit, unit_validators P vformat render) ].

  (** unit.py 881-910: check() as a list, so what is raised is raised before anything else *)
  Definition check_exporter (u : vunit) : gen :=
    gcat (map (fun fv => gcat (map (fun v => run P vformat render accessed has_param shlex v u (fst fv)) (snd fv))) exporter_validators).

  (** 142-212 ExporterUnitSupport *)
  Record support := mk_support {
    s_data : json;
    s_data_dir : option text;
    s_class : C;
    s_options : list text;
    s_extension : option text;
    s_summary : option text;
    s_template : option json          (* None: the attribute is not set *)
  }.
  (** 189-194 _get_data *)
  Definition get_data (u : vunit) : json + fault :=
    rbind (value u k_data None) (fun d =>
      match d with
      | Some (c :: r) => match loads (c :: r) with Some j => inl j | None => inr Other_error end
      | _ => inl (JObj [])
      end).
  (** 199-204 _get_option_list *)
  Definition get_option_list (u : vunit) : list text + fault :=
    rbind (value u k_options None) (fun o =>
      inl match o with Some (c :: r) => split_options false [] (c :: r) | _ => [] end).
  (** 206-209 _get_exporter_cls *)
  Definition get_class (u : vunit) : C + fault :=
    rbind (value u k_entry_point None) (fun n =>
      match n with
      | Some n => match load_entry_point n with Some c => inl c | None => inr Other_error end
      | None => inr Other_error
      end).
  (** 153-161 __init__ *)
  Definition make_support (u : vunit) : support + fault :=
    rbind (get_data u) (fun data =>
    rbind (match f_provider P (v_unit P u) with Some _ => inl (data_dir (v_unit P u)) | None => inr Other_error end) (fun dir =>
    rbind (get_class u) (fun c =>
    rbind (get_option_list u) (fun options =>
    rbind (value u k_extension None) (fun ext =>
    rbind (translated_value P vformat render (v_unit P u) k_summary (Some [])) (fun summary =>
    rbind (value u k_entry_point None) (fun n =>
    if is n w_jinja2
    then match data with
         | JObj kvs =>
             match jlookup k_template kvs with
             | Some t => inl (mk_support data dir c options ext summary (Some t))
             | None => inr (Key_error k_template)
             end
         | _ => inr Other_error
         end
    else inl (mk_support data dir c options ext summary None)))))))).
  (** 57-62 support *)
  Definition support_of (u : vunit) : option support + fault :=
    match check_exporter u with
    | (_, Some e) => inr e
    | ([], None) => rbind (make_support u) (fun s => inl (Some s))
    | (_ :: _, None) => inl None
    end.

  (** ** The exporters of a session: manager.py 449-471 *)

  Definition is_exporter (u : vunit) : bool :=
    match v_cls P u with CNamed k => text_eqb k k_exporter | _ => false end.
  Definition legacy : list (text * text) :=
    [ (T "com.canonical.plainbox::global", T "global"); (T "com.canonical.plainbox::html", T "html");
      (T "com.canonical.plainbox::json", T "json"); (T "com.canonical.plainbox::junit", T "junit");
      (T "com.canonical.plainbox::tar", T "tar"); (T "com.canonical.plainbox::text", T "text");
      (T "com.canonical.plainbox::xlsx", T "xlsx") ].
  (** The identifier of an exporter that passed the checks is a text *)
  Definition key (i : option text) : text := match i with Some t => t | None => [] end.
  Fixpoint collect (us : list vunit) (m : list (text * support)) : list (text * support) + fault :=
    match us with
    | [] => inl m
    | u :: r =>
        if is_exporter u
        then rbind (support_of u) (fun s =>
               match s with
               | Some s => rbind (named_id P vformat render u) (fun i => collect r (tset (key i) s m))
               | None => collect r m
               end)
        else collect r m
    end.
  Definition add_legacy (m : list (text * support)) : list (text * support) :=
    fold_left (fun m nl => match tget (fst nl) m with Some s => tset (snd nl) s m | None => m end) legacy m.
  Definition exporter_map (us : list vunit) : list (text * support) + fault :=
    rbind (collect us []) (fun m => inl (add_legacy m)).

  (** 473-510 create_exporter: the options that the class supports; a class that does not look
      at options has None.  The result is None for ValueError *)
  Variable supported : C -> option (list text).
  Definition make_exporter (strict : bool) (l : list text) (s : support) : option options :=
    match supported (s_class s) with
    | Some o => create_exporter strict o l (s_options s)
    | None => Some []
    end.
  Inductive created := Made (c : C) (o : options) | No_such_exporter | Unsupported_option | Raised (e : fault).
  Definition create (us : list vunit) (id : text) (strict : bool) (l : list text) : created :=
    match exporter_map us with
    | inr e => Raised e
    | inl m =>
        match tget id m with
        | None => No_such_exporter
        | Some s => match make_exporter strict l s with Some o => Made (s_class s) o | None => Unsupported_option end
        end
    end.

  (** ** tar.py 133-140: all exporters of all providers, without checking them *)
  Fixpoint all_exporters (us : list vunit) (m : list (text * support)) : list (text * support) + fault :=
    match us with
    | [] => inl m
    | u :: r =>
        if is_exporter u
        then rbind (make_support u) (fun s => rbind (named_id P vformat render u) (fun i => all_exporters r (tset (key i) s m)))
        else all_exporters r m
    end.
End Exporters.
