(** * Stored sessions: what is expected *)
From Coq Require Import String Ascii List Bool Arith Sorted.
From Verif Require Import ScanModel Rfc822Model IniModel RepoModel.
Import ListNotations.
Local Open Scope nat_scope.
Local Open Scope list_scope.

(** The directory of the session with an identifier *)
Definition session_dir (id : text) : text := id ++ T ".session".
(** An identifier: not hidden *)
Definition good_id (id : text) : Prop := exists c r, id = c :: r /\ c <> "."%char.
(** A session is there: a directory of that name *)
Definition stored (l : list entry) (id : text) : Prop :=
  good_id id /\ exists e, In e l /\ e_name e = session_dir id /\ e_dir e = true.
(** A directory: no name twice, and no slash in a name *)
Definition directory (l : list entry) : Prop := NoDup (map e_name l) /\ forall e, In e l -> ~ In "/"%char (e_name e).
(** Everything in it can be looked at (for one thing, there are no dangling links) *)
Definition readable (l : list entry) : Prop := forall e, In e l -> exists t, e_stat e = inr t.
(** One is not older than another *)
Definition not_older (l : list entry) (a b : text) : Prop :=
  forall x y s t, In x l -> In y l -> e_name x = a -> e_name y = b -> e_stat x = inr s -> e_stat y = inr t -> t <= s.
Definition youngest_first (l : list entry) (names : list text) : Prop := StronglySorted (not_older l) names.

(** What a session is known by *)
Definition about (load : text -> errno + text) (peek : text -> option metadata) (id : text) (m : metadata) : Prop :=
  exists data, load (session_dir id) = inr data /\ data <> [] /\ peek data = Some m.
Definition loadable (load : text -> errno + text) (names : list text) : Prop := forall n, In n names -> exists data, load n = inr data.

(** Sessions the user is past: those that were declined, and those that could not be
    resumed *)
Definition passed (pick : text -> option choice) (loads : text -> bool) (n : text) : Prop :=
  pick n = Some Next \/ pick n = Some Resume /\ loads n = false.
