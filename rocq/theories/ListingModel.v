(** * Listing everything there is: plainbox/impl/highlevel.py 40-337 and
    plainbox/impl/commands/inv_list.py 28-60

    Names and attributes are as repr() gives them; which attributes an object of a kind has is left to
    the unit.  None is an exception. *)
From Coq Require Import String Ascii List Bool Arith.
From Verif Require Import ScanModel Rfc822Model.
Import ListNotations.
Local Open Scope list_scope.

Definition L (s : string) : text := list_ascii_of_string s.

(** 40-128 PlainBoxObject *)
Inductive obj := Obj (group name : text) (attrs : list (text * text)) (children : list obj).
Definition o_group (o : obj) : text := let (g, _, _, _) := o in g.
Definition o_name (o : obj) : text := let (_, n, _, _) := o in n.
Definition o_attrs (o : obj) : list (text * text) := let (_, _, a, _) := o in a.
Definition o_children (o : obj) : list obj := let (_, _, _, c) := o in c.

(** A unit: Meta.name, and what it has *)
Record unit_ := mk_unit { u_kind : text; u_id : text; u_path : text; u_os_id : text; u_attrs : list (text * text) }.
Record provider := mk_provider { p_name : text; p_attrs : list (text * text); p_units : list unit_ }.
Record repository := mk_repository { r_location : text; r_storages : list (text * list (text * text)) }.

(** 224-337 *)
Definition unit_to_obj (u : unit_) : option obj :=
  let make n := Some (Obj (u_kind u) n (u_attrs u) []) in
  if text_eqb (u_kind u) (L "test plan") then make (u_id u)
  else if text_eqb (u_kind u) (L "job") then make (u_id u)
  else if text_eqb (u_kind u) (L "category") then make (u_id u)
  else if text_eqb (u_kind u) (L "file") then make (u_path u)
  else if text_eqb (u_kind u) (L "template") then make (u_id u)
  else if text_eqb (u_kind u) (L "manifest entry") then make (u_id u)
  else if text_eqb (u_kind u) (L "packaging meta-data") then make (u_os_id u)
  else if text_eqb (u_kind u) (L "exporter") then make (u_id u)
  else None.
Fixpoint all_some {A B} (f : A -> option B) (l : list A) : option (list B) :=
  match l with
  | [] => Some []
  | x :: r => match f x with None => None | Some y => match all_some f r with None => None | Some t => Some (y :: t) end end
  end.
(** 176-205 *)
Definition provider_obj (p : provider) : option obj :=
  match all_some unit_to_obj (p_units p) with
  | None => None
  | Some c => Some (Obj (L "provider") (p_name p) (p_attrs p) c)
  end.
(** 206-221 *)
Definition repository_obj (r : repository) : obj :=
  Obj (L "repository") (r_location r) [] (map (fun s => Obj (L "storage") (fst s) (snd s) []) (r_storages r)).
(** 154-222 *)
Definition get_object_tree (ps : list provider) (rs : list repository) : option obj :=
  match all_some provider_obj ps with
  | None => None
  | Some c => Some (Obj (L "service") (L "'service object'") [] (c ++ map repository_obj rs))
  end.

(** '{:15}' *)
Definition padded (t : text) : text := t ++ repeat " "%char (15 - length t).
Definition two : text := L "  ".
(** inv_list.py 40-60; [word] is the translation of the word children *)
Section Show.
  Variable word : text.
  Variable group : option text.
  Variable attrs : bool.
  Definition asked_for (g : text) : bool := match group with None => true | Some g' => text_eqb g g' end.
  Fixpoint show (indent : text) (o : obj) : list text :=
    match o with
    | Obj g n a c =>
        let own := asked_for g in
        let lines := if own then (indent ++ g ++ L " " ++ n)
                       :: (if attrs then map (fun kv => (indent ++ two) ++ padded (fst kv) ++ L ": " ++ snd kv) a else []) else [] in
        let indent := if own then indent ++ two else indent in
        lines ++
        match c with
        | [] => []
        | _ =>
            let (head, indent) := match group with None => ([indent ++ word], indent ++ two) | Some _ => ([], indent) end in
            head ++ flat_map (show indent) c
        end
    end.
  (** 36-38 *)
  Definition run_list (ps : list provider) (rs : list repository) : option (list text) :=
    match get_object_tree ps rs with None => None | Some o => Some (show [] o) end.
End Show.
