(** * What the contents of a provider should be *)
From Coq Require Import String Ascii List Bool Arith.
From Verif Require Import ScanModel Rfc822Model JsonModel IniModel PluginModel PluginSpec ProviderModel.
Import ListNotations.
Local Open Scope nat_scope.
Local Open Scope list_scope.

(** The text of a path begins with that of another. *)
Definition extends (d f : text) : Prop := exists r, f = d ++ r.
(** The last component of a path is a stem, which is more than dots, and a suffix. *)
Definition has_suffix (f e : text) : Prop :=
  exists dirs stem, f = dirs ++ stem ++ e /\ (dirs = [] \/ exists d, dirs = d ++ [SL]) /\ ~ In SL stem /\
    exists c, In c stem /\ c <> "."%char.

(** The path of something below a directory, by the names on the way. *)
Definition below (d : text) (names : list text) : text := d ++ concat (map (fun n => SL :: n) names).
Definition is_name (c : text) : Prop := c <> [] /\ ~ In SL c.

(** ** Units of a file *)
Section Units.
  Variable Pr : Type.
  Variables (records : text -> list (list (text * text)) + Pr) (unit_class : text -> bool) (unknown_type : text -> Pr)
    (from_record : list (text * text) -> unit_ + Pr) (issues : unit_ -> list (bool * Pr)) (invalid : unit_ -> option Pr)
    (check validate : bool).

  (** The type a record says it has. *)
  Definition type_of (r : list (text * text)) (t : text) : Prop :=
    match tget (T "unit") r with Some n => t = n | None => t = T "job" end.
  (** A record makes a unit if its type is known, its data can be taken, and it passes the
      tests that are asked for. *)
  Definition makes (r : list (text * text)) (u : unit_) : Prop :=
    (exists t, type_of r t /\ unit_class t = true) /\ from_record r = inl u /\
    (check = true -> forall i, ~ In (true, i) (issues u)) /\ (validate = true -> invalid u = None).
  (** Why it does not. *)
  Inductive fails (r : list (text * text)) : Pr -> Prop :=
  | f_type t : type_of r t -> unit_class t = false -> fails r (unknown_type t)
  | f_data t e : type_of r t -> unit_class t = true -> from_record r = inr e -> fails r e
  | f_check t u l1 i l2 : type_of r t -> unit_class t = true -> from_record r = inl u -> check = true ->
      issues u = l1 ++ (true, i) :: l2 -> (forall j, ~ In (true, j) l1) -> fails r i
  | f_validate t u e : type_of r t -> unit_class t = true -> from_record r = inl u ->
      (check = true -> forall i, ~ In (true, i) (issues u)) -> validate = true -> invalid u = Some e -> fails r e.

  (** What a file adds: all its units and one for itself, or a problem. *)
  Inductive adds {X} (classify : text -> classified X) (f : text) : list unit_ -> list Pr -> Prop :=
  | a_nothing r b : classify f = Is r b NoPlugin -> adds classify f [] []
  | a_content r b : classify f = Is r b ContentFile -> adds classify f [file_unit f r b] []
  | a_units r b l us : classify f = Is r b UnitFile -> records f = inl l -> Forall2 makes l us ->
      adds classify f (us ++ [file_unit f r b]) []
  | a_unreadable r b e : classify f = Is r b UnitFile -> records f = inr e -> adds classify f [] [e]
  | a_problem r b l1 rec l2 us e : classify f = Is r b UnitFile -> records f = inl (l1 ++ rec :: l2) ->
      Forall2 makes l1 us -> fails rec e -> adds classify f [] [e].
End Units.

(** A map from keys to the units that have them, in order. *)
Definition indexes (key : unit_ -> option text) (us : list unit_) (d : tdict (list unit_)) : Prop :=
  forall k, match tget k d with
            | Some l => l <> [] /\ l = filter (fun u => match key u with Some k' => text_eqb k' k | None => false end) us
            | None => forall u, In u us -> key u <> Some k
            end.
