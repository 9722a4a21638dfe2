(** * What a job that passes validation is like

    Independent of how validation works.  The only things taken from the models are the unit
    record (its fields as read through the API), the JSON reader and written durations, which
    have their own properties. *)
From Coq Require Import QArith.
From Coq Require Import Ascii String List Bool.
From Verif Require Import ScanModel Rfc822Model JsonModel DurationModel FieldsModel.
Import ListNotations.
Local Open Scope nat_scope.
Local Open Scope list_scope.

(** Texts, written as strings *)
Definition T (s : string) : text := list_ascii_of_string s.
Definition contains (part t : text) : Prop := exists a b, t = a ++ part ++ b.

(** What can be seen of a job through its attributes.  [see_field name default] is the value of a
    field, parameters inserted. *)
Record view := mk_view {
  see_field : text -> option text -> option text;
  see_id : option text;
  see_plugin : option text;
  see_qml : option text;                  (* the path of the QML file *)
  see_direct : option (list text);        (* references; None when reading them raises *)
  see_after : option (list text);
  see_resources : option (list text);
  see_imports : option (list text);
  see_category : option (list text)
}.

Section Spec.
  Variable P : Type.
  Variable accessed : bool -> text -> list text + fault.
  Variable has_param : P -> text -> bool.
  Variable shlex : text -> option nat.
  Variable py_float : text -> option Q.
  Variable isfile : text -> bool.
  Variable job_attribute : text -> bool.

  (** Fields of an instance of a template: [data] holds the texts as they are written, [jinja]
      tells the engine *)
  Definition same_in_all_instances (jinja : bool) (data : list (text * text)) (field : string) : Prop :=
    forall v, tget (T field) data = Some v -> accessed jinja v = inl [].
  Definition differs_by_parameters (jinja : bool) (params : P) (data : list (text * text)) (field : string) : Prop :=
    forall v, tget (T field) data = Some v ->
      exists l, accessed jinja v = inl l /\ l <> [] /\ forall n, In n l -> has_param params n = true.

  Record well_formed (jinja : bool) (params : option P) (data : list (text * text)) (w : view) : Prop := {
    wf_id : see_id w <> None;
    wf_no_namespace : forall i, see_field w (T "id") None = Some i -> ~ contains (T "::") i;
    wf_plugin : exists p, see_plugin w = Some p /\
      In p (map T ["attachment"; "resource"; "manual"; "user-verify"; "user-interact"; "user-interact-verify"; "shell"; "qml"])%string;
    wf_command : see_plugin w <> Some (T "manual") -> see_plugin w <> Some (T "qml") -> see_field w (T "command") None <> None;
    wf_command_lexes : forall c, see_field w (T "command") None = Some c -> ~ contains (T "<<") c -> shlex c = None;
    wf_description : see_plugin w = Some (T "manual") ->
      exists f, In f ["description"; "purpose"; "steps"; "verification"]%string /\ see_field w (T f) None <> None;
    wf_user : see_field w (T "user") None = None \/ see_field w (T "user") None = Some (T "root");
    wf_duration : forall d, see_field w (T "estimated_duration") None = Some d -> d <> [] ->
      exists q, estimated_duration py_float (Some d) = Some q /\ (0 < q)%Q;
    wf_shell : exists s, see_field w (T "shell") (Some (T "bash")) = Some s /\ In s (map T ["/bin/sh"; "/bin/bash"; "bash"])%string;
    wf_status : exists s, see_field w (T "certification-status") (Some (T "unspecified")) = Some s /\
      In s (map T ["unspecified"; "not-part-of-certification"; "non-blocker"; "blocker"])%string;
    wf_retry : exists s, see_field w (T "auto-retry") (Some (T "unspecified")) = Some s /\ In s (map T ["unspecified"; "no"])%string;
    wf_qml : see_plugin w = Some (T "qml") -> exists f, see_qml w = Some f /\ (f <> [] -> isfile f = true);
    wf_siblings : forall s, see_field w (T "siblings") None = Some s -> s <> [] ->
      exists l, loads s = Some (JList l) /\ l <> [] /\
        forall o, In o l -> exists kvs, o = JObj kvs /\
          forall n name v, In (repeat "_"%char n ++ name, v) kvs -> hd_error name <> Some "_"%char -> job_attribute name = true;
    wf_direct : see_direct w <> None;
    wf_after : see_after w <> None;
    wf_resources : see_resources w <> None;
    wf_imports : see_imports w <> None;
    wf_invariant : params <> None -> forall f,
      In f ["plugin"; "user"; "environ"; "estimated_duration"; "shell"; "imports"; "category_id"; "flags"; "qml_file";
            "certification_status"; "auto_retry"; "unit"]%string ->
      same_in_all_instances jinja data f;
    wf_variant : forall p, params = Some p -> forall f, In f ["id"; "name"; "summary"; "description"]%string ->
      differs_by_parameters jinja p data f
  }.

  (** ** Together with other units *)

  Variable U : Type.
  (** Attributes of units: id (None: there is no such attribute, or it cannot be read), unit
      and plugin *)
  Variable identifier : U -> option (option text).
  Variable kind plugin : U -> option text.

  Definition the_only_one (all : list U) (i : option text) (x : U) : Prop :=
    exists before after, all = before ++ x :: after /\ identifier x = Some i /\
      forall y, In y (before ++ after) -> identifier y <> Some i.
  Definition refers_to (all : list U) (good : U -> Prop) (refs : option (list text)) : Prop :=
    exists l, refs = Some l /\ forall r, In r l -> exists x, the_only_one all (Some r) x /\ good x.

  Record well_connected (all : list U) (u : U) (w : view) : Prop := {
    wc_alone : the_only_one all (see_id w) u;
    wc_direct : refers_to all (fun x => kind x = Some (T "job")) (see_direct w);
    wc_after : refers_to all (fun x => kind x = Some (T "job")) (see_after w);
    wc_resources : refers_to all (fun x => kind x = Some (T "job") /\ plugin x = Some (T "resource")) (see_resources w);
    wc_imports : refers_to all (fun x => kind x = Some (T "job")) (see_imports w);
    wc_category : refers_to all (fun x => kind x = Some (T "category")) (see_category w)
  }.
End Spec.
