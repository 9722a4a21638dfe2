(** * The units of a session: what is expected, without the program *)
From Coq Require Import List Bool Arith.
From Verif Require Import DeviceModel.
Import ListNotations.

Definition unit_dec (a b : unit) : {a = b} + {a <> b}.
Proof. repeat decide equality. Defined.

(** What someone who follows the signals from the start knows *)
Fixpoint follow (es : list event) (known : list unit) : list unit :=
  match es with
  | [] => known
  | Added u :: r => follow r (known ++ [u])
  | Removed u :: r => follow r (remove unit_dec u known)
  | Provider _ :: r => follow r known
  end.

(** The units that a unit brings with it, itself first *)
Fixpoint nodes (t : tree) : list unit :=
  match t with Tree u children => u :: concat (map nodes children) end.

(** These units are added at the end, those already there are left alone *)
Fixpoint grow (us : list unit) (new : list unit) : list unit :=
  match new with
  | [] => us
  | u :: r => grow (if in_dec unit_dec u us then us else us ++ [u]) r
  end.

(** Units can be told apart by their checksums and by their identifiers *)
Definition tells_apart (U : unit -> Prop) : Prop :=
  (forall a b, U a -> U b -> u_sum a = u_sum b -> a = b) /\
  (forall a b i, U a -> U b -> with_id a = Some i -> with_id b = Some i -> a = b).

(** A unit whose further units are jobs; only jobs have further units *)
Definition proper (t : tree) : Prop :=
  match t with Tree u children =>
    (is_job u = false -> children = []) /\ (forall x, In x (concat (map nodes children)) -> is_job x = true)
  end.

(** Histories in which units are told apart; [ops_in U ops]: all units are from
    [U]; what the session itself adds are jobs *)
Definition op_in (U : unit -> Prop) (o : op) : Prop :=
  match o with
  | AddUnit t => proper t /\ forall u, In u (nodes t) -> U u
  | RemoveUnit u => U u
  | AddProvider _ ts => forall t, In t ts -> proper t /\ forall u, In u (nodes t) -> U u
  | SessionAdds t => proper t /\ is_job (root t) = true /\ forall u, In u (nodes t) -> U u
  | SessionRemoves u => U u
  end.
