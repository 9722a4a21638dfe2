(** What users expect from the trusted launcher. *)

From Coq Require Import String List Bool ZArith.
From Verif Require Import Base JobModel SolverModel SessionModel LauncherModel.
Import ListNotations.

(** A job that comes with another one: a node of the tree of jobs. *)
Inductive comes_with : job -> jtree -> Prop :=
| cw_root j cs : comes_with j (JTree j cs)
| cw_child j i cs c : In c cs -> comes_with j c -> comes_with j (JTree i cs).

Section Spec.
  Variable shell_of : job -> string.
  Variable command_of : job -> string.
  Variable siblings : job -> list jtree.
  Variable load_records : string -> option (list resource).
  Variable environ : dict string.
  Variable call : list string -> dict string -> option (string * Z).
  Variable providers : list provider.

  (** The job is defined by one of the providers. *)
  Definition provided (j : job) : Prop := exists p, In p providers /\ In (UJob j) p.

  (** [given] put on top of the environment of the launcher. *)
  Definition overlaid (given : option (dict string)) (env : dict string) : Prop :=
    forall k, dget k env =
      match given with
      | Some d => match dget k d with Some v => Some v | None => dget k environ end
      | None => dget k environ
      end.

  (** The command of [j], started in an environment with the given variables. *)
  Definition command_event (j : job) (given : option (dict string)) (e : event) : Prop :=
    e_job e = j /\ e_argv e = [shell_of j; "-c"%string; command_of j] /\ overlaid given (e_env e).

  (** A template of the providers makes the job of the output of the resource job
      [g], which was run with the given variables and succeeded. *)
  Definition generated_by (g : job) (given : option (dict string)) (j : job) : Prop :=
    j_plugin g = "resource"%string /\
    exists e out rs p t l, command_event g given e /\
      call (e_argv e) (e_env e) = Some (out, 0%Z) /\ load_records out = Some rs /\
      In p providers /\ In (UTemplate t) p /\ t_resource t = Some (j_id g) /\
      t_make t rs = Some l /\ In j l.

  (** The jobs the launcher may run: those of the providers, those that come with
      them, and those made of the output of the requested generator, itself a job
      of the providers. *)
  Inductive trusted (a : args) : job -> Prop :=
  | tr_provided j : provided j -> trusted a j
  | tr_sibling i j : provided i -> comes_with j (JTree i (siblings i)) -> trusted a j
  | tr_generated g j : provided g -> a_generator a = Some (j_sum g) ->
      generated_by g (a_generator_env a) j -> trusted a j.

  (** The units of the providers are all different and the names of jobs stand
      for one job each. *)
  Definition consistent : Prop :=
    NoDup (map unit_sum (concat providers)) /\
    forall i1 i2 j1 j2, provided i1 -> provided i2 ->
      comes_with j1 (JTree i1 (siblings i1)) -> comes_with j2 (JTree i2 (siblings i2)) ->
      j_id j1 = j_id j2 -> j_sum j1 = j_sum j2.
End Spec.

(** The variables given on the command line are a dictionary. *)
Definition proper (a : args) : Prop :=
  (forall d, a_target_env a = Some d -> NoDup (dkeys d)) /\
  (forall d, a_generator_env a = Some d -> NoDup (dkeys d)).

Definition failure (x : lexit) : Prop := match x with XCode _ => False | _ => True end.
