(** What users expect of results and builders. *)
From Coq Require Import String Ascii List Bool Arith NArith ZArith.
From Verif Require Import ScanModel Rfc822Model JsonModel IniModel Utf8Model ResultModel.
Import ListNotations.
Local Open Scope nat_scope.
Local Open Scope list_scope.

(** The values each piece of data of a result can have. *)
Inductive allowed : text -> value -> Prop :=
| al_outcome t : allowed (T "outcome") (VStr t)
| al_duration t : allowed (T "execution_duration") (VFloat t)
| al_comments t : allowed (T "comments") (VStr t)
| al_code z : allowed (T "return_code") (VInt z)
| al_log l : (forall v, In v l -> exists x, v = VTuple x) -> allowed (T "io_log") (VList l)
| al_filename t : allowed (T "io_log_filename") (VStr t).

Definition known : list text :=
  [T "outcome"; T "execution_duration"; T "comments"; T "return_code"; T "io_log"; T "io_log_filename"].

(** What was set, with nothing for an empty log. *)
Definition substance (v : option value) : option value :=
  match v with Some (VList []) => None | Some VNone => None | o => o end.

(** The same data, in any order (==). *)
Definition same_data (d d' : list (text * value)) : Prop := forall k, tget k d = tget k d'.

(** Escape sequences as ECMA-48 has them: CSI P..P I..I F. *)
Inductive csi_start : ustr -> Prop :=
| csi_one : csi_start [155%N]
| csi_two : csi_start [27%N; 91%N].
Definition csi (x : ustr) : Prop :=
  exists i p q f, x = i ++ p ++ q ++ [f] /\ csi_start i /\
    Forall (fun c => 48 <= c <= 63)%N p /\ Forall (fun c => 32 <= c <= 47)%N q /\ (64 <= f <= 126)%N.

(** From left to right, every escape sequence is left out. *)
Inductive sanitised : ustr -> ustr -> Prop :=
| san_nil : sanitised [] []
| san_skip x t u : csi x -> sanitised t u -> sanitised (x ++ t) u
| san_keep c t u : (forall x r, c :: t = x ++ r -> ~ csi x) -> sanitised t u -> sanitised (c :: t) (c :: u).

(** What a builder holds under a name; None is UNSET. *)
Inductive holds (b : builder) : text -> option value -> Prop :=
| h_outcome : holds b (T "outcome") (b_outcome b)
| h_duration : holds b (T "execution_duration") (b_duration b)
| h_comments : holds b (T "comments") (b_comments b)
| h_code : holds b (T "return_code") (b_return_code b)
| h_log : holds b (T "io_log") (b_io_log b)
| h_filename : holds b (T "io_log_filename") (b_filename b).
(** It holds what it may hold. *)
Definition well_typed (b : builder) : Prop := forall k v, holds b k (Some v) -> allowed k v.

(** The last assignment to a name. *)
Definition last_set (kw : list (text * option value)) (k : text) (v : option value) : Prop :=
  exists l1 l2, kw = l1 ++ (k, v) :: l2 /\ ~ In k (map fst l2).

(** Comments in the order they were made, one after the other on lines of their own. *)
Fixpoint joined (c : ustr) (l : list ustr) : ustr :=
  match l with [] => c | d :: r => joined (c ++ 10%N :: d) r end.
