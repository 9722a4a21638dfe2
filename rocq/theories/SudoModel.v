(** * Jobs run by sudo with a password: /repo/plainbox/impl/ctrl.py 1514-1560, with
    /repo/plainbox/vendor/extcmd/__init__.py 582-614

    subprocess.Popen.communicate reads the pipes of the process itself, at the same time
    as the threads of the external command object do, and closes each when it is at its
    end.  One stream is modelled here, the other one is alike and independent; the queue
    between the reader and the delegate is that of C26.  Not modelled: the CHUNKED_IO
    flag, which plainbox does not use with this controller. *)
From Coq Require Import String Ascii List Bool Arith ZArith.
From Verif Require Import ExtcmdModel.
Import ListNotations.
Local Open Scope nat_scope.
Local Open Scope list_scope.

(** ** Output *)
(** 595-614: a reader is waiting for a line, or has ended *)
Record pipe := mk_pipe {
  p_future : bytes;      (** what the process has yet to write *)
  p_pipe : bytes;        (** what is in the pipe *)
  p_buffer : bytes;      (** what the stream object of the reader holds *)
  p_closed : bool;       (** closed by communicate *)
  p_done : bool;         (** the reader has ended *)
  p_lines : list bytes;  (** what was put into the queue *)
}.
Definition start (output : bytes) : pipe := mk_pipe output [] [] false false [].
Inductive label := Write | Fill | Line | Last | Steal | Close | Stop.
Inductive step : label -> pipe -> pipe -> Prop :=
(** the process writes some bytes *)
| s_write w f p b c d l : w <> [] ->
    step Write (mk_pipe (w ++ f) p b c d l) (mk_pipe f (p ++ w) b c d l)
(** readline has no line and reads from the pipe *)
| s_fill f r p b l : r <> [] -> ~ In NL b ->
    step Fill (mk_pipe f (r ++ p) b false false l) (mk_pipe f p (b ++ r) false false l)
(** readline has a line *)
| s_line f p x b l : ~ In NL x ->
    step Line (mk_pipe f p (x ++ NL :: b) false false l) (mk_pipe f p b false false (l ++ [x ++ [NL]]))
(** readline sees the end: what is left, if any, is the last line, then the thread ends *)
| s_last b l : ~ In NL b ->
    step Last (mk_pipe [] [] b false false l) (mk_pipe [] [] [] false true (l ++ match b with [] => [] | _ => [b] end))
(** communicate reads from the pipe *)
| s_steal f r p b d l : r <> [] ->
    step Steal (mk_pipe f (r ++ p) b false d l) (mk_pipe f p b false d l)
(** communicate sees the end and closes the stream *)
| s_close b d l :
    step Close (mk_pipe [] [] b false d l) (mk_pipe [] [] b true d l)
(** 603-608: reading from a closed stream raises ValueError *)
| s_stop f p b l :
    step Stop (mk_pipe f p b true false l) (mk_pipe f p b true true l).
Inductive run : pipe -> list label -> pipe -> Prop :=
| r_nil s : run s [] s
| r_step s a s' tr s'' : step a s s' -> run s' tr s'' -> run s (a :: tr) s''.

(** ** The main thread: 1514-1560 *)
(** one turn of the loop: asking for the password may be interrupted or raise an
    exception; communicate returns with a code or is interrupted *)
Inductive turn := AskInterrupted | AskRaises | Finished (code : Z) | Interrupted.
Inductive event := Begin | Ask | Send | Signal | OnInterrupt | OnEnd (code : Z).
(** [Waits]: the turns are used up; [Hangs]: the finally clause waits for ever, as the
    process still waits for a password and was sent no signal *)
Inductive result := Waits | Code (c : Z) | Raises | Hangs.
(** [started]: communicate was called before, so calling it with input again raises
    ValueError; [free]: the process has the password or was sent a signal *)
Fixpoint loop (started free : bool) (turns : list turn) : list event * result :=
  match turns with
  | [] => ([], Waits)
  | AskInterrupted :: r =>
      let x := loop started true r in (Ask :: Signal :: OnInterrupt :: fst x, snd x)
  | AskRaises :: _ => ([Ask], if free then Raises else Hangs)
  | Finished c :: _ => if started then ([Ask], if free then Raises else Hangs) else ([Ask; Send; OnEnd c], Code c)
  | Interrupted :: r =>
      if started then ([Ask], if free then Raises else Hangs)
      else let x := loop true true r in (Ask :: Send :: Signal :: OnInterrupt :: fst x, snd x)
  end.
Definition call (turns : list turn) : list event * result :=
  let x := loop false false turns in (Begin :: fst x, snd x).
