(** * File names, as the posixpath module of the standard library treats them

    Only what suspending and resuming a session uses
    (/repo/plainbox/impl/session/suspend.py:568-572 and
    /repo/plainbox/impl/session/resume.py:1058-1065). *)

From Coq Require Import Ascii String List Bool Arith.
From Verif Require Import ScanModel.
Import ListNotations.
Local Open Scope char_scope.
Local Open Scope nat_scope.
Local Open Scope list_scope.

Definition slash : ascii := "/"%char.

(** text.split("/") *)
Fixpoint split_slash (t : text) : list text :=
  match t with
  | [] => [[]]
  | c :: t' =>
      if Ascii.eqb c slash then [] :: split_slash t'
      else match split_slash t' with
           | w :: ws => (c :: w) :: ws
           | [] => [[c]]
           end
  end.

(** "/".join(words) *)
Fixpoint join_slash (ws : list text) : text :=
  match ws with
  | [] => []
  | [w] => w
  | w :: ws' => w ++ slash :: join_slash ws'
  end.

(** os.path.isabs *)
Definition isabs (t : text) : bool :=
  match t with c :: _ => Ascii.eqb c slash | [] => false end.

(** os.path.join with two arguments *)
Definition path_join (a b : text) : text :=
  if isabs b then b
  else match a with
       | [] => b
       | _ => if Ascii.eqb (last a " "%char) slash then a ++ b else a ++ slash :: b
       end.

Definition dot : text := ["."%char].
Definition dotdot : text := ["."%char; "."%char].

Definition text_eqb (a b : text) : bool :=
  if list_eq_dec ascii_dec a b then true else false.

(** The loop of os.path.normpath for a name that starts with a slash: empty
    components and dots are dropped, dot-dot drops the component before it.
    [acc] holds the components so far, the last one first. *)
Fixpoint norm_components (acc : list text) (ws : list text) : list text :=
  match ws with
  | [] => rev acc
  | w :: ws' =>
      if text_eqb w [] || text_eqb w dot then norm_components acc ws'
      else if text_eqb w dotdot then norm_components (tl acc) ws'
      else norm_components (w :: acc) ws'
  end.

(** [x for x in os.path.abspath(t).split("/") if x]; [cwd] is the (absolute)
    current directory. *)
Definition abs_components (cwd t : text) : list text :=
  norm_components [] (split_slash (if isabs t then t else path_join cwd t)).

(** [len(os.path.commonprefix([a, b]))], and what is left of both *)
Fixpoint drop_common (a b : list text) : list text * list text :=
  match a, b with
  | x :: a', y :: b' => if text_eqb x y then drop_common a' b' else (a, b)
  | _, _ => (a, b)
  end.

(** os.path.relpath(t, start).  The empty name, for which Python raises
    ValueError, is treated like the current directory. *)
Definition relpath (cwd t start : text) : text :=
  let (up, down) := drop_common (abs_components cwd start) (abs_components cwd t) in
  match map (fun _ => dotdot) up ++ down with
  | [] => dot
  | ws => join_slash ws
  end.
