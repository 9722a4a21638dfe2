(** What arrives: what a file holds after some events, also when they were cut short,
    what was printed, and how options are written.  Nothing of the model but its events
    and UTF-8 of Utf8Spec is used. *)
From Coq Require Import String Ascii List Bool Arith NArith.
From Verif Require Import ScanModel Rfc822Model JsonModel IologModel IniModel ExportModel Utf8Model Utf8Spec DeliverModel.
Import ListNotations.
Local Open Scope nat_scope.
Local Open Scope list_scope.

(** The content of the file [p], which was [c]. *)
Inductive holds (p : text) : list event -> bytes -> bytes -> Prop :=
| holds_nil c : holds p [] c c
| holds_emptied l c c' : holds p l [] c' -> holds p (Emptied p :: l) c c'
| holds_appended l s c c' : holds p l (c ++ s) c' -> holds p (Appended p s :: l) c c'
| holds_other l e c c' : e <> Emptied p -> (forall s, e <> Appended p s) -> holds p l c c' -> holds p (e :: l) c c'.
(** Stopped at some point: some events happened, and perhaps part of a write. *)
Inductive stopped : list event -> list event -> Prop :=
| stopped_between l l' : stopped (l ++ l') l
| stopped_within l p s s' l' : stopped (l ++ Appended p (s ++ s') :: l') (l ++ [Appended p s]).

(** All the text that was printed. *)
Definition shown (l : list event) : list N := concat (map (fun e => match e with Printed t => t | _ => [] end) l).

(** A file cut at every multiple of [n] is cut between characters. *)
Definition cut_between_characters (n : nat) (t : list N) : Prop :=
  forall k, k * n <= length (utf8_text t) -> exists t1 t2, t = t1 ++ t2 /\ length (utf8_text t1) = k * n.

(** k1=v1,k2=v2, ... *)
Definition pair_text (kv : text * text) : text := fst kv ++ "="%char :: snd kv.
Fixpoint joined (l : list text) : text :=
  match l with
  | [] => []
  | [p] => p
  | p :: r => p ++ ","%char :: joined r
  end.
(** keys hold neither comma nor equals sign, values hold no comma *)
Definition clean_pair (kv : text * text) : Prop :=
  ~ In ","%char (fst kv) /\ ~ In "="%char (fst kv) /\ ~ In ","%char (snd kv).
Definition means_options (s : text) (l : list (text * text)) : Prop :=
  l <> [] /\ Forall clean_pair l /\ s = joined (map pair_text l).
(** the last value given for a key *)
Definition last_value (l : list (text * text)) (k v : text) : Prop :=
  exists a b, l = a ++ (k, v) :: b /\ ~ In k (map fst b).
