(** Model of plainbox/impl/unit/template.py: instantiating a template for a list of
    resource records.

    Simplifications: the fields of a template that is itself an instance (with
    parameters) are not modelled; jinja2 is three functions given from outside; how
    python reads the lines of a filter, and how the lines of an import statement are
    split into words, likewise. *)
From Coq Require Import String Ascii List Bool Arith.
From Verif Require Import Base ResourceModel FormatModel.
Import ListNotations.
Local Open Scope string_scope.
Local Open Scope list_scope.

(** plainbox/impl/unit/template.py:105-140: the fields that matter here.  [t_ns] is
    the namespace of the provider, if there is one. *)
Record template := mk_template {
  t_data : dict string;
  t_raw : dict string;
  t_ns : option string
}.

(** A resource record: plainbox/impl/resource.py:80-98 [Resource] *)
Definition resource := dict string.

(** What is created: the class asked for, data, raw data and parameters. *)
Record tunit := mk_tunit {
  u_class : string;
  u_data : dict string;
  u_raw : dict string;
  u_params : dict pval
}.

Inductive terr :=
| UnknownUnit            (* KeyError from the collection of unit classes *)
| BadFormat              (* ValueError of the format parser *)
| BadImports             (* ValueError of the imports parser *)
| BadFilter (p : problem).

(** The part of the text before the first double colon and the part after it. *)
Fixpoint split_colons (s : string) : option (string * string) :=
  match s with
  | EmptyString => None
  | String c s' =>
      match s with
      | String ":"%char (String ":"%char r) => Some (EmptyString, r)
      | _ => match split_colons s' with Some (a, b) => Some (String c a, b) | None => None end
      end
  end.

Section Template.
(** Rendering a text that has no parameters with jinja2, and the variables of a
    jinja2 text (None: it has an error). *)
Variable jinja : string -> string.
Variable jinja_vars : string -> option (list name).
(** The lines that are not blank of a filter, as python reads them, and the words of
    the lines of an import statement. *)
Variable read_filter : string -> list source.
Variable read_imports : string -> list (list string).
(** Is there a unit class of that name? *)
Variable known_unit : string -> bool.
(** Values and what python does with them, for filters; a record is a value. *)
Variable value : Type.
Variable truth : value -> bool.
Variable constant : cls -> option value.
Variable attribute : value -> string -> option value.
Variable compare : string -> value -> value -> option value.
Variable sequence : cls -> list value -> option value.
Variable call : string -> list value -> option value.
Variable global : string -> option value.
Variable as_value : resource -> value.

(** plainbox/impl/unit/unit.py:521-529 [template_engine] *)
Definition engine (t : template) : string :=
  match dget "template-engine" (t_data t) with Some e => e | None => "default" end.

(** plainbox/impl/unit/unit.py:608-647 [get_record_value], without parameters *)
Definition record_value (t : template) (n : name) (default : option string) : option string :=
  let v := match dget (String.append "_" n) (t_data t) with
           | Some v => Some v
           | None => match dget n (t_data t) with Some v => Some v | None => default end
           end in
  match v with
  | Some v => Some (if String.eqb (engine t) "jinja2" then jinja v else v)
  | None => None
  end.

(** plainbox/impl/unit/template.py:246-255 [template_unit] *)
Definition template_unit (t : template) : string :=
  match record_value t "template-unit" (Some "job") with Some v => v | None => "job" end.

(** plainbox/impl/unit/template.py:257-271 [get_imported_jobs]: a generator, that is
    the lines it has not read yet; a line it cannot read raises when it gets there. *)
Definition gen := list (list string).
Definition imported_jobs (t : template) : gen :=
  match record_value t "template-imports" None with
  | Some s => read_imports s
  | None => read_imports ""
  end.

(** plainbox/impl/unit/template.py:184-190 [resource_partial_id] *)
Definition resource_partial_id (t : template) : option string :=
  match record_value t "template-resource" None with
  | None => None
  | Some s => match split_colons s with Some (_, r) => Some r | None => Some s end
  end.

(** plainbox/impl/unit/template.py:192-199 [resource_namespace] *)
Definition resource_namespace (t : template) : option string :=
  match record_value t "template-resource" None with
  | Some s => match split_colons s with Some (n, _) => Some n | None => t_ns t end
  | None => t_ns t
  end.

(** Looking through the imports from where the generator is: the id of the first
    import with that alias, and the generator after it. *)
Fixpoint take_import (alias : string) (g : gen) : terr + (option string * gen) :=
  match g with
  | [] => inr (None, [])
  | l :: g' =>
      match parse_import l with
      | None => inl BadImports
      | Some (id, a) => if String.eqb a alias then inr (Some id, g') else take_import alias g'
      end
  end.

(** plainbox/impl/unit/template.py:201-217 [resource_id] *)
Definition resource_id (t : template) : terr + option string :=
  match resource_partial_id t with
  | None => inr None
  | Some p =>
      match take_import p (imported_jobs t) with
      | inl e => inl e
      | inr (Some id, _) => inr (Some id)
      | inr (None, _) =>
          match resource_namespace t with
          | None => inr (Some p)
          | Some ns => inr (Some (qualify ns p))
          end
      end
  end.

(** plainbox/impl/resource.py:523-531: the ids of the aliases of an expression, when
    the imports come from a generator: it is never started again. *)
Fixpoint resolve_aliases (ns : option string) (g : gen) (aliases : list string)
  : terr + (list string * gen) :=
  match aliases with
  | [] => inr ([], g)
  | a :: rest =>
      match take_import a g with
      | inl e => inl e
      | inr (found, g') =>
          let id := match found with Some id => id | None => a end in
          match resolve_aliases ns g' rest with
          | inl e => inl e
          | inr (ids, g'') => inr (qualified ns id :: ids, g'')
          end
      end
  end.

(** plainbox/impl/resource.py:507-535 [ResourceExpression.__init__] with a generator *)
Definition make_expression_gen (ns : option string) (g : gen) (src : source)
  : terr + (expression * gen) :=
  match analyze src with
  | inr p => inl (BadFilter p)
  | inl aliases =>
      match resolve_aliases ns g aliases with
      | inl e => inl e
      | inr (ids, g') =>
          match src with
          | Source [Node Expr [b]] false => inr (mk_expression aliases ids (Some b), g')
          | Source [Node Expr [b]] true => inr (mk_expression aliases ids None, g')
          | _ => inl (BadFilter PySyntaxErr)
          end
      end
  end.

(** plainbox/impl/resource.py:200-214 [ResourceProgram.__init__] with a generator *)
Fixpoint make_program_gen (ns : option string) (g : gen) (lines : list source)
  : terr + list expression :=
  match lines with
  | [] => inr []
  | src :: rest =>
      match make_expression_gen ns g src with
      | inl e => inl e
      | inr (e, g') =>
          match make_program_gen ns g' rest with inl x => inl x | inr es => inr (e :: es) end
      end
  end.

(** plainbox/impl/unit/template.py:273-285 [get_filter_program] (the cache only
    avoids doing this again) *)
Definition filter_program (t : template) : terr + option (list expression) :=
  match record_value t "template-filter" None with
  | None => inr None
  | Some s =>
      match make_program_gen (resource_namespace t) (imported_jobs t) (read_filter s) with
      | inl e => inl e
      | inr es => inr (Some es)
      end
  end.

(** plainbox/impl/unit/template.py:390-416 [should_instantiate] *)
Definition should_instantiate (t : template) (r : resource) : terr + bool :=
  match filter_program t with
  | inl e => inl e
  | inr None => inr true
  | inr (Some es) =>
      match resource_id t with
      | inl e => inl e
      | inr rid =>
          let m := match rid with Some i => [(i, [as_value r])] | None => [] end in
          match evaluate_or_raise value truth constant attribute compare sequence call global m es with
          | Holds => inr true
          | _ => inr false
          end
      end
  end.

Definition is_template_field (k : name) : bool := String.prefix "template-" k.

Definition own_fields (d : dict string) : dict string :=
  filter (fun kv => negb (is_template_field (fst kv))) d.

(** plainbox/impl/unit/__init__.py:33-53 [get_accessed_parameters] *)
Definition accessed (eng text : string) : option (list name) :=
  if String.eqb eng "jinja2" then jinja_vars text else accessed_default text.

Fixpoint accessed_all (eng : string) (d : dict string) : option (list name) :=
  match d with
  | [] => Some []
  | (_, v) :: d' =>
      match accessed eng v, accessed_all eng d' with
      | Some a, Some b => Some (a ++ b)
      | _, _ => None
      end
  end.

(** plainbox/impl/unit/template.py:328-388 [instantiate_one] *)
Definition instantiate_one (t : template) (r : resource) (cls_name : string) (index : nat)
  : terr + tunit :=
  let raw := dset "unit" (template_unit t)
    (dset "template-engine" (engine t) (own_fields (t_raw t))) in
  let data := dset "unit" (template_unit t)
    (dset "template-engine" (engine t) (own_fields (t_data t))) in
  match accessed_all (engine t) data with
  | None => inl BadFormat
  | Some used =>
      let params := map (fun kv => (fst kv, PStr (snd kv)))
        (filter (fun kv => smem (fst kv) used) r) in
      inr (mk_tunit cls_name data raw (dset "__index__" (PInt index) params))
  end.

(** plainbox/impl/unit/template.py:314-326: the loop of [instantiate_all] *)
Fixpoint instantiate_loop (t : template) (cls_name : string) (index : nat)
    (rs : list resource) : terr + list tunit :=
  match rs with
  | [] => inr []
  | r :: rs' =>
      match should_instantiate t r with
      | inl e => inl e
      | inr false => instantiate_loop t cls_name index rs'
      | inr true =>
          match instantiate_one t r cls_name (S index) with
          | inl e => inl e
          | inr u =>
              match instantiate_loop t cls_name (S index) rs' with
              | inl e => inl e
              | inr us => inr (u :: us)
              end
          end
      end
  end.

(** plainbox/impl/unit/template.py:287-326 [get_target_unit_cls], [instantiate_all] *)
Definition instantiate_all (t : template) (rs : list resource) : terr + list tunit :=
  if known_unit (template_unit t) then instantiate_loop t (template_unit t) 0 rs
  else inl UnknownUnit.
End Template.
