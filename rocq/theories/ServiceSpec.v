(** * What the service for remote sessions is to do

    Rules for those who call it, and what is expected of the service in return. *)
From Coq Require Import Ascii List ZArith.
From Verif Require Import ScanModel Rfc822Model OriginModel OriginSpec SymbolModel ServiceModel.
Import ListNotations.
Local Open Scope list_scope.

(** ** Rules *)

Definition none_in_progress (s : svc) : Prop := forall f, In f (s_fins s) -> f_over f = true.
(** finish_job is called when the service says that it is running something, and not while
    another call of finish_job is in progress.  All else is free: any number of callers, in any
    order, at any time. *)
Definition one_finish (s : svc) (e : event) : Prop :=
  match e with Finish_job => s_state s = Running /\ none_in_progress s | _ => True end.
(** Besides, only the last call of run_job is continued, and sessions are not finalized or
    resumed while something is running *)
Definition one_client (s : svc) (e : event) : Prop :=
  match e with
  | Finish_job => s_state s = Running /\ none_in_progress s
  | Next g _ _ => S g = length (s_gens s)
  | Finalize_session _ | Resume_last _ => s_state s <> Running
  | _ => True
  end.
Fixpoint obeys (rule : svc -> event -> Prop) (s : svc) (l : list event) : Prop :=
  match l with [] => True | e :: r => rule s e /\ obeys rule (fst (step s e)) r end.

(** ** Jobs *)

Definition is_running (k : nat) (s : svc) : Prop := exists x, nth_error (s_execs s) k = Some x /\ x_end x = None.
(** The results that finish_job fed to the session *)
Definition fed_results (s : svc) : list (option text * result) :=
  flat_map (fun f => match f with Fed j r => [(j, r)] | Resumed _ _ => [] end) (s_fed s).
(** A thread that ran this job and ended with this result *)
Definition produced (x : exec) (jr : option text * result) : Prop :=
  x_end x = Some (Some (snd jr)) /\ fst jr = Some (x_job x).

(** ** Phases *)

Inductive moves : phase -> event -> phase -> Prop :=
| m_start l : moves Idle (Start_session (Some l)) Started
| m_bootstrap l : moves Started (Bootstrap (Some l)) Bootstrapped
| m_run p g t i : moves p (Next g t i) Running
| m_last p f : moves p (Finish_waited f (Some [])) Idle
| m_more p f j l : moves p (Finish_waited f (Some (j :: l))) Bootstrapped
| m_resume p r u : moves p (Resume_last (Session_ r u)) Bootstrapped
| m_finalize p : moves p (Finalize_session true) Idle.
Definition needs (e : event) : option phase :=
  match e with
  | Start_session _ => Some Idle
  | Bootstrap _ => Some Started
  | Run_job _ => Some Bootstrapped
  | Monitor_job => Some Running
  | _ => None
  end.

(** ** Output *)

Definition written (ea : event * answer) : text := match ea with (Line _ l, Goes_on) => l | _ => [] end.
Definition delivered (ea : event * answer) : text := match ea with (_, Is_running o) => o | _ => [] end.

(** ** Plans: sorted by name, and those of the same name as before *)

Definition not_after (a b : text * option text) : Prop :=
  match snd a, snd b with Some x, Some y => ~ before y x | _, _ => False end.
