(** * What a list of everything should show *)
From Coq Require Import String Ascii List Bool Arith.
From Verif Require Import ScanModel Rfc822Model ListingModel.
Import ListNotations.
Local Open Scope list_scope.

(** The kinds of units that can be shown *)
Definition known_kinds : list text :=
  map L ["job"; "test plan"; "category"; "file"; "template"; "manifest entry"; "packaging meta-data"; "exporter"]%string.
(** What a unit is called *)
Inductive called (u : unit_) : text -> Prop :=
| called_path : u_kind u = L "file" -> called u (u_path u)
| called_os : u_kind u = L "packaging meta-data" -> called u (u_os_id u)
| called_id : In (u_kind u) (map L ["job"; "test plan"; "category"; "template"; "manifest entry"; "exporter"]%string) -> called u (u_id u).

(** A thing of a group, its name, and its attributes *)
Definition thing := (text * text * list (text * text))%type.
(** The things there are of a group, in order *)
Inductive units_of (g : text) : list unit_ -> list thing -> Prop :=
| units_none : units_of g [] []
| units_this u l n r : u_kind u = g -> called u n -> units_of g l r -> units_of g (u :: l) ((g, n, u_attrs u) :: r)
| units_other u l r : u_kind u <> g -> units_of g l r -> units_of g (u :: l) r.
(** One or more lines for each: the name, and the attributes if asked for, one a line *)
Definition field (k : text) : text := if Nat.ltb (length k) 15 then k ++ repeat " "%char (15 - length k) else k.
Definition thing_lines (attrs : bool) (t : thing) : list text :=
  let '(g, n, a) := t in
  (g ++ " "%char :: n) :: (if attrs then map (fun kv => " "%char :: " "%char :: field (fst kv) ++ ":"%char :: " "%char :: snd kv) a else []).

(** The tree without its attributes *)
Inductive tree := Tree (group name : text) (children : list tree).
Fixpoint bare (o : obj) : tree := match o with Obj g n _ c => Tree g n (map bare c) end.
Fixpoint everything (o : obj) : list obj := match o with Obj g n a c => o :: flat_map everything c end.
(** Names as repr() writes texts, in quotes; groups without quotes, that do not begin with a space *)
Definition quote (c : ascii) : bool := Ascii.eqb c "'" || Ascii.eqb c """".
Definition well_named (o : obj) : Prop :=
  (exists c r, o_name o = c :: r /\ quote c = true) /\
  (exists c r, o_group o = c :: r /\ c <> " "%char) /\ forallb (fun c => negb (quote c)) (o_group o) = true.
