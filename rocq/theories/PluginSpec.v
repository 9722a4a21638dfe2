(** * What plug-in collections should hold *)
From Coq Require Import String Ascii List Bool Arith.
From Verif Require Import ScanModel Rfc822Model JsonModel IniModel ChecksumModel PluginModel.
Import ListNotations.
Local Open Scope nat_scope.
Local Open Scope list_scope.

(** What is at a relative path below a directory. *)
Inductive at_path : dir -> text -> node -> Prop :=
| at_here d n x : In (n, x) d -> at_path d n x
| at_below d n d' p x : In (n, NDir d') d -> at_path d' p x -> at_path d (n ++ SLASH :: p) x.

(** An entry has one of the wanted extensions. *)
Definition wanted (x : ext) (entry : text) : Prop :=
  match x with
  | ExtAny => True
  | ExtOne e => exists stem, entry = stem ++ e
  | ExtMany l => exists e stem, In e l /\ entry = stem ++ e
  end.

(** The files a collection is about. *)
Definition plugin_file (fs : text -> option dir) (recursive : bool) (x : ext) (dirs : list text) (f : text) : Prop :=
  exists d tree entry, In d dirs /\ fs d = Some tree /\ wanted x entry /\ f = pjoin d entry /\
    if recursive then at_path tree entry NFile else In (entry, NFile) tree.

(** The order of texts: by their first difference, shorter ones first. *)
Inductive before : text -> text -> Prop :=
| b_end c t : before [] (c :: t)
| b_less c d t u : nat_of_ascii c < nat_of_ascii d -> before (c :: t) (d :: u)
| b_same c t u : before t u -> before (c :: t) (c :: u).
(** Increasing. *)
Fixpoint increasing (l : list text) : Prop :=
  match l with [] => True | x :: r => (forall y, In y r -> before x y) /\ increasing r end.

(** The last pair with a name that satisfies something. *)
Definition last_with {A B} (l : list (text * A)) (n : text) (good : A -> option B) (b : B) : Prop :=
  exists l1 a l2, l = l1 ++ (n, a) :: l2 /\ good a = Some b /\ forall a', In (n, a') l2 -> good a' = None.
Definition done {W P X} (r : loading W P X) : option W := match r with Done w => Some w | _ => None end.

(** What loading a file comes to. *)
Definition loads {O W P X} (read : text -> loading O P X) (wrap : text -> O -> loading W P X) (f : text) (w : W) : Prop :=
  exists o, read f = Done o /\ wrap f o = Done w.
Definition has_problem {O W P X} (read : text -> loading O P X) (wrap : text -> O -> loading W P X) (f : text) (p : P) : Prop :=
  read f = Problem p \/ exists o, read f = Done o /\ wrap f o = Problem p.
Definition raises {O W P X} (read : text -> loading O P X) (wrap : text -> O -> loading W P X) (f : text) (x : X) : Prop :=
  read f = Raise x \/ exists o, read f = Done o /\ wrap f o = Raise x.
