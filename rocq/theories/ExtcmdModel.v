(** Running a command with its output captured by threads:
    plainbox/vendor/extcmd/__init__.py:437-617 (ExternalCommandWithDelegate).

    The threads (main thread in call(), the two readers, the queue worker) and
    the child process are interleaved step by step.  Not modelled: a
    KeyboardInterrupt that arrives while the main thread is outside of
    proc.wait(), and failures to start or to signal the child. *)
From Coq Require Import Ascii List Bool ZArith.
Import ListNotations.
Open Scope list_scope.

Definition bytes := list ascii.
Definition NL : ascii := "010"%char.

(** stream_name *)
Inductive stream := Out | Err.
Definition stream_eqb (a b : stream) : bool :=
  match a, b with Out, Out | Err, Err => true | _, _ => false end.

(** What the delegate is told, in order; [Data] stands for on_line or, with the
    CHUNKED_IO flag, on_chunk. *)
Inductive event :=
| Begin
| Data (s : stream) (d : bytes)
| Interrupt
| Ended (code : Z)
| AbnormalEnd (signal : Z).

(** Where a reader thread is: about to read, with data to put in the queue,
    finished (_read_stream, 584-605). *)
Inductive reader := Reading | Putting (d : bytes) | ReaderDone.

(** Where the queue worker is: about to get, about to call the delegate,
    finished (_drain_queue, 607-617). *)
Inductive worker := Getting | Calling (s : stream) (d : bytes) | WorkerDone.

(** Where the main thread is in call() (468-570). *)
Inductive main :=
| Starting                      (* before on_begin *)
| Waiting                       (* in proc.wait(), 508-523 *)
| Joining1 (rc : Z)             (* joining the stdout reader *)
| Joining2 (rc : Z)             (* joining the stderr reader *)
| Stopping (rc : Z)             (* about to put None in the queue *)
| Joining3 (rc : Z)             (* joining the queue worker *)
| Ending (rc : Z)               (* about to call on_end or on_abnormal_end *)
| Returned (rc : Z).

Record state := mk_state {
  s_main : main;
  s_reader : stream -> reader;
  s_worker : worker;
  s_queue : list (option (stream * bytes));
  s_pipe : stream -> bytes;       (* written and not yet read *)
  s_closed : stream -> bool;      (* nobody can write to the pipe any more *)
  s_exit : option Z;              (* return code of the child *)
  s_written : stream -> bytes;    (* everything ever written to the stream *)
  s_events : list event           (* what the delegate was told *)
}.

Definition upd {A} (f : stream -> A) (s : stream) (v : A) : stream -> A :=
  fun x => if stream_eqb x s then v else f x.

Definition init : state :=
  mk_state Starting (fun _ => Reading) Getting [] (fun _ => []) (fun _ => false) None (fun _ => []) [].

(** stream.read(1) with CHUNKED_IO, stream.readline() without (590-593): the
    data returned and what stays in the pipe.  readline blocks until there is a
    whole line or the pipe is closed. *)
Inductive read_data : bool -> bytes -> bool -> bytes -> bytes -> Prop :=
| rd_chunk b r c : read_data true (b :: r) c [b] r
| rd_line l r c : ~ In NL l -> read_data false (l ++ NL :: r) c (l ++ [NL]) r
| rd_last l : ~ In NL l -> l <> [] -> read_data false l true l [].

(** One step; [chunked] is the CHUNKED_IO flag, [fails] tells for which data the
    delegate raises an exception. *)
Inductive step (chunked : bool) (fails : stream -> bytes -> bool) : state -> state -> Prop :=
(* call(): 480-506, on_begin, then the process and the threads are started *)
| st_begin s : s_main s = Starting ->
    step chunked fails s (mk_state Waiting (s_reader s) (s_worker s) (s_queue s) (s_pipe s) (s_closed s)
                      (s_exit s) (s_written s) (s_events s ++ [Begin]))
(* the child (or a process it left behind) writes a byte *)
| st_write s x b : s_main s <> Starting -> s_closed s x = false ->
    step chunked fails s (mk_state (s_main s) (s_reader s) (s_worker s) (s_queue s)
                      (upd (s_pipe s) x (s_pipe s x ++ [b])) (s_closed s) (s_exit s)
                      (upd (s_written s) x (s_written s x ++ [b])) (s_events s))
(* the last write end of a pipe is closed *)
| st_close s x : s_main s <> Starting -> s_closed s x = false ->
    step chunked fails s (mk_state (s_main s) (s_reader s) (s_worker s) (s_queue s) (s_pipe s)
                      (upd (s_closed s) x true) (s_exit s) (s_written s) (s_events s))
(* the child exits *)
| st_exit s rc : s_main s <> Starting -> s_exit s = None ->
    step chunked fails s (mk_state (s_main s) (s_reader s) (s_worker s) (s_queue s) (s_pipe s)
                      (s_closed s) (Some rc) (s_written s) (s_events s))
(* 590-593 *)
| st_read s x d rest : s_main s <> Starting -> s_reader s x = Reading ->
    read_data chunked (s_pipe s x) (s_closed s x) d rest ->
    step chunked fails s (mk_state (s_main s) (upd (s_reader s) x (Putting d)) (s_worker s) (s_queue s)
                      (upd (s_pipe s) x rest) (s_closed s) (s_exit s) (s_written s) (s_events s))
(* 601-602: an empty read ends the thread *)
| st_read_end s x : s_main s <> Starting -> s_reader s x = Reading ->
    s_pipe s x = [] -> s_closed s x = true ->
    step chunked fails s (mk_state (s_main s) (upd (s_reader s) x ReaderDone) (s_worker s) (s_queue s)
                      (s_pipe s) (s_closed s) (s_exit s) (s_written s) (s_events s))
(* 603-604 *)
| st_put s x d : s_reader s x = Putting d ->
    step chunked fails s (mk_state (s_main s) (upd (s_reader s) x Reading) (s_worker s)
                      (s_queue s ++ [Some (x, d)])
                      (s_pipe s) (s_closed s) (s_exit s) (s_written s) (s_events s))
(* 610 *)
| st_get s x d q : s_worker s = Getting -> s_queue s = Some (x, d) :: q ->
    step chunked fails s (mk_state (s_main s) (s_reader s) (Calling x d) q
                      (s_pipe s) (s_closed s) (s_exit s) (s_written s) (s_events s))
(* 611-612 *)
| st_get_none s q : s_worker s = Getting -> s_queue s = None :: q ->
    step chunked fails s (mk_state (s_main s) (s_reader s) WorkerDone q
                      (s_pipe s) (s_closed s) (s_exit s) (s_written s) (s_events s))
(* 613-616 *)
| st_call s x d : s_worker s = Calling x d -> fails x d = false ->
    step chunked fails s (mk_state (s_main s) (s_reader s) Getting (s_queue s)
                      (s_pipe s) (s_closed s) (s_exit s) (s_written s) (s_events s ++ [Data x d]))
(* 613-616, the delegate raises: nothing catches the exception, the thread ends *)
| st_call_raise s x d : s_worker s = Calling x d -> fails x d = true ->
    step chunked fails s (mk_state (s_main s) (s_reader s) WorkerDone (s_queue s)
                      (s_pipe s) (s_closed s) (s_exit s) (s_written s) (s_events s ++ [Data x d]))
(* 518-523: CTRL-C while waiting *)
| st_interrupt s : s_main s = Waiting ->
    step chunked fails s (mk_state (s_main s) (s_reader s) (s_worker s) (s_queue s)
                      (s_pipe s) (s_closed s) (s_exit s) (s_written s) (s_events s ++ [Interrupt]))
(* 511-517: wait() returns *)
| st_wait s rc : s_main s = Waiting -> s_exit s = Some rc ->
    step chunked fails s (mk_state (Joining1 rc) (s_reader s) (s_worker s) (s_queue s)
                      (s_pipe s) (s_closed s) (s_exit s) (s_written s) (s_events s))
(* 547-550 *)
| st_join1 s rc : s_main s = Joining1 rc -> s_reader s Out = ReaderDone ->
    step chunked fails s (mk_state (Joining2 rc) (s_reader s) (s_worker s) (s_queue s)
                      (s_pipe s) (s_closed s) (s_exit s) (s_written s) (s_events s))
(* 554-557 *)
| st_join2 s rc : s_main s = Joining2 rc -> s_reader s Err = ReaderDone ->
    step chunked fails s (mk_state (Stopping rc) (s_reader s) (s_worker s) (s_queue s)
                      (s_pipe s) (s_closed s) (s_exit s) (s_written s) (s_events s))
(* 560-561 *)
| st_stop s rc : s_main s = Stopping rc ->
    step chunked fails s (mk_state (Joining3 rc) (s_reader s) (s_worker s) (s_queue s ++ [None])
                      (s_pipe s) (s_closed s) (s_exit s) (s_written s) (s_events s))
(* 562-564 *)
| st_join3 s rc : s_main s = Joining3 rc -> s_worker s = WorkerDone ->
    step chunked fails s (mk_state (Ending rc) (s_reader s) (s_worker s) (s_queue s)
                      (s_pipe s) (s_closed s) (s_exit s) (s_written s) (s_events s))
(* 565-571 *)
| st_end s rc : s_main s = Ending rc ->
    step chunked fails s (mk_state (Returned rc) (s_reader s) (s_worker s) (s_queue s)
                      (s_pipe s) (s_closed s) (s_exit s) (s_written s)
                      (s_events s ++ [if (rc <? 0)%Z then AbnormalEnd (- rc) else Ended rc])).

(** Every interleaving. *)
Inductive reachable (chunked : bool) (fails : stream -> bytes -> bool) : state -> Prop :=
| reach_init : reachable chunked fails init
| reach_step s s' : reachable chunked fails s -> step chunked fails s s' -> reachable chunked fails s'.
