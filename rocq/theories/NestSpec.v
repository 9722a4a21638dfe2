(** What a job finds when its command starts, and what is left afterwards. *)
From Coq Require Import String Ascii List Bool Arith ZArith.
From Verif Require Import ScanModel Rfc822Model JsonModel IniModel ChecksumModel CacheModel NestModel.
Import ListNotations.
Local Open Scope nat_scope.
Local Open Scope list_scope.

(** The name of a file: what is after the last slash. *)
Definition named (f name : text) : Prop :=
  ~ In slash name /\ (f = name \/ exists d, f = d ++ slash :: name).

(** The directory is there after these effects. *)
Definition exists_after (tr : list effect) (p : text) : Prop :=
  exists a b, tr = a ++ MakeDir p :: b /\ ~ In (RemoveDir p) b.

(** The file is an executable of a provider with the namespace of the job. *)
Definition available (namespace : text) (providers : list provider) (f : text) : Prop :=
  exists p, In p providers /\ p_namespace p = namespace /\ In f (p_executables p).
(** All executables, with repetitions, in the order of the providers. *)
Inductive gathered (namespace : text) : list provider -> list text -> Prop :=
| g_nil : gathered namespace [] []
| g_same p r l : p_namespace p = namespace -> gathered namespace r l -> gathered namespace (p :: r) (p_executables p ++ l)
| g_other p r l : p_namespace p <> namespace -> gathered namespace r l -> gathered namespace (p :: r) l.
(** No two of them have the same name. *)
Definition no_clash (files : list text) : Prop :=
  forall a f b g c, files = a ++ f :: b ++ g :: c -> forall n, ~ (named f n /\ named g n).

(** What is at a relative path below a directory, when every directory on the way can
    be listed. *)
Inductive below : node -> text -> node -> Prop :=
| b_here l name n : In (name, n) l -> below (Dir true l) name n
| b_deep l name n rel m : In (name, n) l -> below n rel m -> below (Dir true l) (name ++ slash :: rel) m.
Definition reported (n : node) : Prop := n = File \/ exists l, n = Dir true l.
(** Names in directories are not empty, have no slash and are different. *)
Inductive proper : node -> Prop :=
| p_file : proper File
| p_link : proper LinkToDir
| p_dir r l : NoDup (map fst l) -> Forall (fun e => fst e <> [] /\ ~ In slash (fst e)) l -> Forall (fun e => proper (snd e)) l ->
    proper (Dir r l).

(** The last of several exceptions. *)
Definition last_of (l : list (option exn)) (x : option exn) : Prop :=
  (exists a b e, l = a ++ Some e :: b /\ x = Some e /\ forall y, In y b -> y = None) \/
  ((forall y, In y l -> y = None) /\ x = None).
Definition raised_by {V} (r : V + exn) : option exn := match r with inl _ => None | inr x => Some x end.
(** The command is run. *)
Definition can_start {V} (e : env V) (files : list text) : Prop :=
  (forall x, e_data e <> Some (Some x)) /\ (exists nest, e_nest e = inl nest) /\ no_clash files /\ (exists cwd, e_cwd e = inl cwd).
(** Something was left that is reported. *)
Definition left_something (tree : node) : Prop := exists rel n, below tree rel n /\ reported n.
(** The exceptions of leaving the directory, in their order. *)
Definition leaving {V} (e : env V) (told : bool) : list (option exn) :=
  [raised_by (e_run e); if told then e_listener e else None; e_rm_cwd e].
