(** * When an exporter can be used

    Independent of how validation works: in terms of what reading the fields of the unit gives,
    the JSON reader and the files there are. *)
From Coq Require Import String Ascii List Bool Arith.
From Verif Require Import PathModel ScanModel Rfc822Model JsonModel FieldsModel.
Import ListNotations.
Local Open Scope nat_scope.
Local Open Scope list_scope.

Definition W (s : string) : text := list_ascii_of_string s.
Arguments W s%string_scope.

(** A list of options: words with separators between them.  The first and the last word are
    empty when the text starts or ends with a separator. *)
Definition separator (c : ascii) : Prop := c = ";"%char \/ c = ","%char \/ isspace c = true.
Inductive worded : text -> list text -> Prop :=
| w_last w : (forall c, In c w -> ~ separator c) -> worded w [w]
| w_more w s t l : (forall c, In c w -> ~ separator c) -> s <> [] -> (forall c, In c s -> separator c) ->
    (forall c, hd_error t = Some c -> ~ separator c) -> worded t l -> worded (w ++ s ++ t) (w :: l).

(** The value of a name in an object, the last one if there are several *)
Definition says_last (kvs : list (text * json)) (name : text) (v : json) : Prop :=
  exists before after, kvs = before ++ (name, v) :: after /\ forall v', ~ In (name, v') after.

(** Neither null, false, zero nor empty *)
Definition something (nonzero : text -> bool) (j : json) : Prop :=
  match j with
  | JNull => False
  | JBool b => b = true
  | JNum t => nonzero t = true
  | JStr t => t <> []
  | JList l => l <> []
  | JObj l => l <> []
  end.

Section Spec.
  Variable P : Type.
  Variable accessed : bool -> text -> list text + fault.
  Variable has_param : P -> text -> bool.
  Variable nonzero : text -> bool.
  Variable isfile : text -> bool.
  Variable wordchar : ascii -> bool.
  Variable C : Type.
  Variable classes : text -> option C.

  (** [see name default] is what reading a field gives, [marked] are the fields written with an
      underscore in front, [data] the fields as written.  [dir] is where templates are *)
  Record usable (see : text -> option text -> option text) (marked : text -> bool) (virtual jinja : bool)
      (params : option P) (data : list (text * text)) (dir : option text) : Prop := {
    u_id : exists i, see (W "id") None = Some i /\ forall a b, i <> a ++ W "::" ++ b;
    u_kind : see (W "unit") None <> None;
    u_extension : exists w nl, see (W "file_extension") None = Some (w ++ nl) /\ w <> [] /\ (nl = [] \/ nl = [NL]) /\
      forall c, In c w -> wordchar c = true \/ c = "."%char \/ c = "-"%char;
    u_class : exists n c, see (W "entry_point") None = Some n /\ classes n = Some c;
    u_data : forall t, see (W "data") None = Some t -> t <> [] -> exists j, loads t = Some j /\ something nonzero j;
    u_template : see (W "entry_point") None = Some (W "jinja2") ->
      exists t kvs d name, see (W "data") None = Some t /\ loads t = Some (JObj kvs) /\ dir = Some d /\
        says_last kvs (W "template") (JStr name) /\ isfile (path_join d name) = true;
    u_summary : exists s, see (W "summary") (Some []) = Some s /\ ~ In NL s /\ length s <= 80;
    u_translated : virtual = true \/ see (W "summary") None = None \/ marked (W "summary") = true;
    u_plain : forall f v, In f ["data"; "entry_point"; "file_extension"; "id"; "options"; "unit"]%string ->
      see (W f) None = Some v -> v <> [] -> marked (W f) = false;
    u_varies : forall p v, params = Some p -> tget (W "id") data = Some v ->
      exists l, accessed jinja v = inl l /\ l <> [] /\ forall n, In n l -> has_param p n = true;
    u_constant : forall p v, params = Some p -> tget (W "unit") data = Some v -> accessed jinja v = inl []
  }.

  (** What making the object needs, usable or not *)
  Record loadable (see : text -> option text -> option text) : Prop := {
    l_class : exists n c, see (W "entry_point") None = Some n /\ classes n = Some c;
    l_data : forall t, see (W "data") None = Some t -> t <> [] -> loads t <> None;
    l_template : see (W "entry_point") None = Some (W "jinja2") ->
      exists t kvs v, see (W "data") None = Some t /\ t <> [] /\ loads t = Some (JObj kvs) /\ says_last kvs (W "template") v
  }.
End Spec.

(** The exporters of a session.  [named] is the identifier and what is offered for a unit, if
    anything is.  Of several of a name the last one counts. *)
Definition offered {U S} (named : U -> option (text * S)) (us : list U) (k : text) (s : S) : Prop :=
  exists before u after, us = before ++ u :: after /\ named u = Some (k, s) /\ forall v s', In v after -> named v <> Some (k, s').
(** The short names *)
Definition short (k full : text) : Prop :=
  In k (map W ["global"; "html"; "json"; "junit"; "tar"; "text"; "xlsx"])%string /\ full = W "com.canonical.plainbox::" ++ k.
(** The exporters by name: a short name stands for the full one, if that is offered. *)
Definition listed {U S} (named : U -> option (text * S)) (us : list U) (k : text) (s : S) : Prop :=
  (exists full, short k full /\ offered named us full s) \/
  offered named us k s /\ forall full s', short k full -> ~ offered named us full s'.
