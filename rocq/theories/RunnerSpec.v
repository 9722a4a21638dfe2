(** What users expect from running jobs. *)
From Coq Require Import String Ascii List Bool Arith ZArith.
From Verif Require Import ScanModel Rfc822Model JsonModel IologModel IniModel CacheModel RunnerModel.
Import ListNotations.
Local Open Scope nat_scope.
Local Open Scope list_scope.

(** The outcome that a return code stands for; None is a command that could not be
    started. *)
Inductive verdict : option Z -> outcome -> Prop :=
| v_pass : verdict (Some 0%Z) O_pass
| v_fail c : (0 < c)%Z -> verdict (Some c) O_fail
| v_signal c : (c < 0)%Z -> verdict (Some c) O_crash
| v_not_started : verdict None O_crash.

Definition automatic : list text := [T "shell"; T "attachment"; T "resource"; T "user-interact"].
Definition asking : list text := [T "user-verify"; T "user-interact-verify"].
Definition supported : list text := automatic ++ asking ++ [T "manual"; T "qml"].
(** Those that a dry run still executes. *)
Definition always_run : list text := [T "resource"; T "attachment"].

(** Some controller can run the job. *)
Definition usable (scores : list Z) : Prop := exists s, In s scores /\ (0 <= s)%Z.

(** The job is really executed. *)
Record executes (dry : bool) (scores : list Z) (hit : option jresult) (j : job) : Prop := mk_executes {
  e_wanted : dry = false \/ In (j_plugin j) always_run;
  e_ctrl : usable scores;
  e_command : j_command j = true;
  e_cache : j_plugin j = T "resource" -> j_cachable j = true -> hit = None
}.

(** The output as the log shows it: delay, stream, data. *)
Definition shown (r : iorecord) (e : json * text * bytes) : Prop :=
  io_delay r = fst (fst e) /\ io_stream r = JStr (snd (fst e)) /\ io_data r = snd e.

(** The output of a command that was started. *)
Definition produced (x : execution) : list (json * text * bytes) := if x_started x then x_output x else [].
(** The delays are numbers, or whatever JSON can hold. *)
Definition measured (x : execution) : Prop := forall e, In e (produced x) -> good (fst (fst e)).

(** The log at [p] reads back as the output of [x]. *)
Definition logs (f : files) (p : path) (x : execution) : Prop :=
  exists t rs, f p = Some t /\ read_log t = (rs, true) /\ Forall2 shown rs (produced x).

(** A character that log file names keep. *)
Definition kept_char (c : ascii) : Prop :=
  In c (list_ascii_of_string "-.ABCDEFGHIJKLMNOPQRSTUVWXYZabcdefghijklmnopqrstuvwxyz0123456789").
(** Two identifiers that only differ in characters that are not kept. *)
Definition alike (a b : text) : Prop :=
  Forall2 (fun c d => c = d \/ ~ kept_char c /\ ~ kept_char d) a b.
