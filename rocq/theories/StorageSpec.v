(** What users of the session storage rely on. *)
From Coq Require Import Ascii List Bool Arith.
From Verif Require Import StorageModel.
Import ListNotations.

(** The saved data: the contents of the session file, nothing if there is
    none. *)
Definition saved (s : fs) : bytes :=
  match current s with None => [] | Some i => content s i end.

(** [may_load s x]: if the machine stops in state [s], [x] may be the saved
    data after it is started again. *)
Definition may_load (s : fs) (x : bytes) : Prop :=
  exists s', power_loss s s' /\ saved s' = x.

(** A call that did not do what was asked for (a missing or an existing file
    that is reported truthfully is not a fault). *)
Definition fault (e : sys * answer) : bool :=
  match e with
  | (Write _ d, ANum n) => negb (Nat.eqb n (length d))
  | (Read _ n, AData d) => negb (Nat.eqb (length d) n)
  | (_, AErr EOTHER) => true
  | _ => false
  end.
Definition faultless (tr : trace) : bool := forallb (fun e => negb (fault e)) tr.

(** No flush of a file failed. *)
Definition flushed (tr : trace) : bool :=
  forallb (fun e => match e with (Fsync _, AErr _) => false | _ => true end) tr.

(** A rename failed. *)
Definition rename_failed (tr : trace) : bool :=
  existsb (fun e => match e with (Rename, AErr _) => true | _ => false end) tr.

(** A write failed or was partial. *)
Definition write_failed (tr : trace) : bool :=
  existsb (fun e => match e with
                    | (Write _ _, AErr _) => true
                    | (Write _ d, ANum n) => negb (Nat.eqb n (length d))
                    | _ => false
                    end) tr.

(** The program stopped, by itself. *)
Definition returned {A} (p : prog A) : Prop := exists a, p = Ret a.
Definition raised {A} (p : prog A) : Prop := exists e, p = Raise e.
Definition ended {A} (p : prog A) : Prop := returned p \/ raised p.

(** Sane file systems: names are bound to existing files, and the present
    binding of a name is among those it may have after a power failure. *)
Definition sane (s : fs) : Prop :=
  In (current s) (current_hist s) /\ In (next s) (next_hist s) /\
  (forall i, In (Some i) (current_hist s) -> i < fresh s) /\
  (forall i, In (Some i) (next_hist s) -> i < fresh s).

(** Everything that can happen to a session directory: [history power l s] says
    that [s] is reached by saves (of the data [l], most recent first) and lock
    breaks, each of which may stop at any point, with any system calls failing.
    When [power] is true the machine may also lose power, at any time, but
    flushing a file to disk never fails. *)
Inductive history (power : bool) : list bytes -> fs -> Prop :=
| h_new : history power [] new_fs
| h_save d l s tr p' s' :
    history power l s -> runs (save_checkpoint d) s tr p' s' ->
    (power = true -> flushed tr = true) -> history power (d :: l) s'
| h_checkpoint d l s tr p' s' :
    history power l s -> runs (checkpoint d) s tr p' s' ->
    (power = true -> flushed tr = true) -> history power (d :: l) s'
| h_break l s tr p' s' :
    history power l s -> runs break_lock s tr p' s' -> history power l s'
| h_power l s s' :
    power = true -> history power l s -> power_loss s s' -> history power l s'.
