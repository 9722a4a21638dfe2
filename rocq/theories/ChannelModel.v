(** * Streams and channels: /repo/plainbox/vendor/rpyc/core/stream.py and channel.py

    What the operating system does with a call is an event: it hands over or takes some
    bytes, or the call fails.  Threads and poll() are not modelled. *)
From Coq Require Import String Ascii List Bool Arith NArith ZArith.
From Verif Require Import ScanModel IologModel BrineModel.
Import ListNotations.
Local Open Scope nat_scope.
Local Open Scope list_scope.

(** ** Reading *)

(** What a call of recv or os.read does: it returns up to [S n] of the bytes that were
    asked for, none as the peer has closed the connection, or it raises socket.timeout,
    an error that is retried (retry_errnos, stream.py 18), or another error. *)
Inductive revent := Data (n : nat) | Closed | Timeout | Again | Failed.
(** All bytes read, with the bytes and events to come; EOFError, after the stream was
    closed; or the call does not return: no event is left. *)
Inductive got := Got (d rest : bytes) (es : list revent) | Eof | Blocked.

(** [limit] is MAX_IO_CHUNK; [patient] that timeouts and errors like EAGAIN are tried
    again: SocketStream.read, 210-229, does so, PipeStream.read, 291-307, takes every
    error for the end.  [src] are the bytes the peer has sent. *)
Section Read.
  Variable limit : nat.
  Variable patient : bool.
  Fixpoint read_stream (es : list revent) (count : nat) (src : bytes) : got :=
    match count with
    | O => Got [] src es
    | S _ =>
        match es with
        | [] => Blocked
        | Data n :: es =>
            (* recv(min(MAX_IO_CHUNK, count)); no bytes there to hand over: not this event *)
            let k := Nat.min (Nat.min limit count) (Nat.min (S n) (length src)) in
            match k with
            | O => Blocked
            | S _ =>
                match read_stream es (count - k) (skipn k src) with
                | Got d rest es => Got (firstn k src ++ d) rest es
                | r => r
                end
            end
        | Closed :: _ => Eof
        | Timeout :: es | Again :: es => if patient then read_stream es count src else Eof
        | Failed :: _ => Eof
        end
    end.
End Read.
Definition socket_read := read_stream (N.to_nat 8000) true.
Definition pipe_read := read_stream (N.to_nat 32000) false.

(** ** Writing *)

(** What a call of send or os.write does: it takes up to [S n] of the bytes, or raises. *)
Inductive wevent := Taken (n : nat) | Refused.
Inductive put := Put (es : list wevent) | Put_eof | Put_blocked.
(** SocketStream.write, 230-238, and PipeStream.write, 308-317: what was taken, and how
    the call ends *)
Fixpoint write_stream (limit : nat) (es : list wevent) (data : bytes) : bytes * put :=
  match data with
  | [] => ([], Put es)
  | _ :: _ =>
      match es with
      | [] => ([], Put_blocked)
      | Taken n :: es =>
          let chunk := firstn limit data in
          let k := Nat.min (S n) (length chunk) in
          let (out, r) := write_stream limit es (skipn k data) in (firstn k chunk ++ out, r)
      | Refused :: _ => ([], Put_eof)
      end
  end.
Definition socket_write := write_stream (N.to_nat 8000).
Definition pipe_write := write_stream (N.to_nat 32000).

(** ** Frames *)
Definition FLUSHER : ascii := ascii_of_nat 10.
Section Channel.
  (** zlib.compress and zlib.decompress: None is zlib.error *)
  Variable deflate : bytes -> bytes.
  Variable inflate : bytes -> option bytes.

  (** the bytes Channel.send writes, channel.py 62-69; struct.error when there are too
      many of them *)
  Definition frame (compress : bool) (data : bytes) : res bytes :=
    let compressed := compress && (3000 <? N.of_nat (length data))%N in
    let data := if compressed then deflate data else data in
    bind (pack_size 4 (N.of_nat (length data))) (fun h =>
    Ok (h ++ [byte (if compressed then 1 else 0)%N] ++ data ++ [FLUSHER])).

  (** Channel.recv, 50-55 *)
  Inductive received := Received (d rest : bytes) (es : list revent) | No_inflate | Recv_eof | Recv_blocked.
  Definition recv (limit : nat) (patient : bool) (es : list revent) (src : bytes) : received :=
    match read_stream limit patient es 5 src with
    | Got header src es =>
        let length_ := unpack_all (firstn 4 header) in
        let compressed := negb (unpack_all (skipn 4 header) =? 0)%N in
        match read_stream limit patient es (N.to_nat length_ + 1) src with
        | Got d src es =>
            let d := removelast d in
            if compressed then match inflate d with Some d => Received d src es | None => No_inflate end
            else Received d src es
        | Eof => Recv_eof
        | Blocked => Recv_blocked
        end
    | Eof => Recv_eof
    | Blocked => Recv_blocked
    end.
  (** receiving again and again, up to [fuel] times, until it fails: the messages *)
  Fixpoint recv_all (fuel : nat) (limit : nat) (patient : bool) (es : list revent) (src : bytes) : list bytes * received :=
    match fuel with
    | O => ([], Recv_blocked)
    | S fuel =>
        match recv limit patient es src with
        | Received d src es => let (l, r) := recv_all fuel limit patient es src in (d :: l, r)
        | r => ([], r)
        end
    end.
  (** sending messages one after the other, each with the events there are for it, until
      one fails: what the peer is handed *)
  Fixpoint send_all (limit : nat) (compress : bool) (es : list wevent) (msgs : list bytes) : bytes :=
    match msgs with
    | [] => []
    | m :: msgs =>
        match frame compress m with
        | Ok f =>
            match write_stream limit es f with
            | (out, Put es) => out ++ send_all limit compress es msgs
            | (out, _) => out
            end
        | _ => []
        end
    end.
End Channel.
