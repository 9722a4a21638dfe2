(** * What jobs made from a job are like *)
From Coq Require Import String Ascii List Bool Arith.
From Verif Require Import ScanModel ScanSpec Rfc822Model FieldsSpec.
Import ListNotations.
Open Scope char_scope.
Local Open Scope nat_scope.
Open Scope list_scope.

Definition str (s : string) : text := list_ascii_of_string s.
Definition contains (p t : text) : Prop := exists a b, t = a ++ p ++ b.
Definition ends_in (p t : text) : Prop := exists a, t = a ++ p.

(** A word that can stand in a list without quotes *)
Definition bare (w : text) : Prop := w <> [] /\ Forall (fun c => ~ ends_word c) w /\ ~ starts (eq DQ) w.

(** The last of several values for one name *)
Definition last_value (o : list (text * text)) (k v : text) : Prop :=
  exists a b, o = a ++ (k, v) :: b /\ ~ In k (map fst b).

(** The names of the flags, and what is made for each: prefix of the identifier and the job
    that suspends *)
Inductive variant : bool -> text -> text -> text -> Prop :=
| v_auto : variant false (str "also-after-suspend") (str "after-suspend-") (str "com.canonical.certification::suspend/suspend_advanced_auto")
| v_manual : variant true (str "also-after-suspend-manual") (str "after-suspend-manual-") (str "com.canonical.certification::suspend/suspend_advanced").
