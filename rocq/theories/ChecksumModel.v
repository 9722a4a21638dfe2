(** * The text under a unit's checksum (/repo/plainbox/impl/unit/unit.py:790-847)

    The checksum is the SHA256 of a canonical text; SHA256 itself is not modelled. *)

From Coq Require Import Ascii String List Bool Arith.
From Verif Require Import ScanModel Rfc822Model JsonModel.
Import ListNotations.
Local Open Scope nat_scope.
Local Open Scope list_scope.

(** A value of a field: something JSON can hold or a Symbol. *)
Inductive fvalue : Type :=
| Plain : json -> fvalue
| Sym : text -> fvalue.

(** A unit as far as the checksum is concerned: the fields in the order of its
    dictionary, the namespace of its provider (None without a provider) and, for a
    unit made from a template, the parameters. *)
Record unitdef : Type := mk_unitdef {
  u_data : list (text * fvalue);
  u_namespace : option text;
  u_parameters : option (list (text * fvalue))
}.

(** The order of Python strings: by code points. *)
Fixpoint text_leb (a b : text) : bool :=
  match a, b with
  | [], _ => true
  | _, [] => false
  | x :: a', y :: b' =>
      if nat_of_ascii x <? nat_of_ascii y then true
      else if nat_of_ascii x =? nat_of_ascii y then text_leb a' b'
      else false
  end.

(** sorted(d.items()), 818 and 840.  The keys of a dictionary are different, so
    the values are never compared. *)
Fixpoint insert {A} (x : text * A) (l : list (text * A)) : list (text * A) :=
  match l with
  | [] => [x]
  | y :: l' => if text_leb (fst x) (fst y) then x :: l else y :: insert x l'
  end.
Fixpoint sorted_items {A} (l : list (text * A)) : list (text * A) :=
  match l with
  | [] => []
  | x :: l' => insert x (sorted_items l')
  end.

(** default_fn, 822-825: symbols become their text. *)
Definition jvalue (v : fvalue) : json :=
  match v with Plain j => j | Sym s => JStr s end.
Definition jitems (l : list (text * fvalue)) : list (text * json) :=
  map (fun kv => (fst kv, jvalue (snd kv))) l.

Definition k_namespace : text := list_ascii_of_string "namespace".

(** 828-829: sorted_data['namespace'] = ..., which replaces a field of that name
    and otherwise comes last *)
Definition with_namespace (ns : option text) (l : list (text * fvalue)) : list (text * fvalue) :=
  match ns with
  | None | Some [] => l
  | Some ns => tset k_namespace (Plain (JStr ns)) l
  end.

(** _compute_checksum without the hash function, 810-844 *)
Definition canonical (u : unitdef) : text :=
  dumps (JObj (jitems (with_namespace (u_namespace u) (sorted_items (u_data u))))) ++
  match u_parameters u with
  | None => []
  | Some p => dumps (JObj (jitems (sorted_items p)))
  end.

(** checksum, 790-808, 847 *)
Definition checksum (sha256 : text -> text) (u : unitdef) : text := sha256 (canonical u).
