(** * A server with a pool of threads: plainbox/vendor/rpyc/utils/server.py 292-504 (ThreadPoolServer)

    The polling thread, the accepting thread and the workers take turns in any order. Each event below is one action on
    the shared queue, polling object or table of connections. Not modelled: authentication, closing the server, and the
    time a thread rests after an exception. *)
From Coq Require Import List Bool Arith.
Import ListNotations.

(** What a worker is doing: waiting for the queue, holding a descriptor with so many rounds of the loop left (422), or
    inside poll() of a connection (424) *)
Inductive worker := Idle | Holding (fd n : nat) | Inside (fd c n : nat).
(** What poll() of a connection comes to: a request served, none there, EOFError, another exception, 423-435 *)
Inductive answer := Served | Nothing | Eof | Fails.
Record pool := mk_pool {
  conns : list (nat * nat);        (* self.fd_to_conn: descriptor and connection; connections are numbered as accepted *)
  next : nat;                      (* the number of the next connection *)
  freed : list nat;                (* descriptors in the table whose connection has closed itself: the system may give them out *)
  polled : list nat;               (* registered in self.poll_object *)
  pending : list (nat * bool);     (* what the last poll gave and is still to be handled; true: error or hang-up *)
  queue : list nat;                (* self._active_connection_queue *)
  workers : list worker;
  missed : bool;                   (* a worker met the KeyError of a descriptor that is not in the table *)
  closed : list nat }.             (* the connections closed by _drop_connection *)

Definition mem (x : nat) (l : list nat) : bool := existsb (Nat.eqb x) l.
Definition remove_all (x : nat) (l : list nat) : list nat := filter (fun y => negb (Nat.eqb x y)) l.
Fixpoint lookup (fd : nat) (t : list (nat * nat)) : option nat :=
  match t with [] => None | (k, c) :: r => if Nat.eqb fd k then Some c else lookup fd r end.
Definition del (fd : nat) (t : list (nat * nat)) : list (nat * nat) := filter (fun kv => negb (Nat.eqb fd (fst kv))) t.
Fixpoint set_worker (w : nat) (x : worker) (l : list worker) : list worker :=
  match l, w with [], _ => [] | _ :: r, O => x :: r | y :: r, S w' => y :: set_worker w' x r end.
Fixpoint distinct (l : list nat) : bool := match l with [] => true | x :: r => negb (mem x r) && distinct r end.

(** 381-383 _add_inactive_connection *)
Definition add_inactive (fd : nat) (s : pool) : pool :=
  mk_pool (conns s) (next s) (freed s) (if mem fd (polled s) then polled s else fd :: polled s) (pending s) (queue s)
    (workers s) (missed s) (closed s).
(** 355-362 _remove_from_inactive_connection *)
Definition remove_inactive (fd : nat) (s : pool) : pool :=
  mk_pool (conns s) (next s) (freed s) (remove_all fd (polled s)) (pending s) (queue s) (workers s) (missed s) (closed s).
(** 364-379 _drop_connection *)
Definition drop (fd : nat) (s : pool) : pool :=
  match lookup fd (conns s) with
  | None => s
  | Some c => mk_pool (del fd (conns s)) (next s) (remove_all fd (freed s)) (polled s) (pending s) (queue s) (workers s)
                (missed s) (closed s ++ [c])
  end.
(** self._active_connection_queue.put *)
Definition enqueue (fd : nat) (s : pool) : pool :=
  mk_pool (conns s) (next s) (freed s) (polled s) (pending s) (queue s ++ [fd]) (workers s) (missed s) (closed s).
Definition becomes (w : nat) (x : worker) (s : pool) : pool :=
  mk_pool (conns s) (next s) (freed s) (polled s) (pending s) (queue s) (set_worker w x (workers s)) (missed s) (closed s).
Definition with_pending (l : list (nat * bool)) (s : pool) : pool :=
  mk_pool (conns s) (next s) (freed s) (polled s) l (queue s) (workers s) (missed s) (closed s).

Inductive event :=
  | Accept (fd : nat)              (* 482-496 with the descriptor the system gives out *)
  | Poll (l : list (nat * bool))   (* 409 *)
  | Handle                         (* one round of the loop 387-400 *)
  | Take (w : nat)                 (* 447-451 *)
  | Begin (w : nat)                (* one round of the loop 422-424 up to the call of poll, or 436-437 at its end *)
  | End_ (w : nat) (a : answer)    (* poll comes back, 424-435 *)
  | CloseItself (w : nat).         (* while being served the connection closes its socket, as on a request to close *)

(** None: the event cannot happen in this state *)
Definition step (batch : nat) (e : event) (s : pool) : option pool :=
  match e with
  | Accept fd =>
      if mem fd (map fst (conns s)) && negb (mem fd (freed s)) then None
      else Some (add_inactive fd
             (mk_pool ((fd, next s) :: del fd (conns s)) (S (next s)) (remove_all fd (freed s)) (polled s) (pending s)
                (queue s) (workers s) (missed s) (closed s)))
  | Poll l =>
      match pending s with
      | [] => if forallb (fun x => mem (fst x) (polled s)) l && distinct (map fst l) then Some (with_pending l s) else None
      | _ => None
      end
  | Handle =>
      match pending s with
      | [] => None
      | (fd, err) :: l =>
          let s1 := remove_inactive fd (with_pending l s) in
          Some (if err then drop fd s1 else enqueue fd s1)
      end
  | Take w =>
      match nth_error (workers s) w, queue s with
      | Some Idle, fd :: q =>
          let s1 := mk_pool (conns s) (next s) (freed s) (polled s) (pending s) q (workers s) (missed s) (closed s) in
          Some (if Nat.eqb fd 0 then s1 else becomes w (Holding fd batch) s1)      (* 449: if fd *)
      | _, _ => None
      end
  | Begin w =>
      match nth_error (workers s) w with
      | Some (Holding fd 0) => Some (becomes w Idle (enqueue fd s))
      | Some (Holding fd (S n)) =>
          match lookup fd (conns s) with
          | Some c => Some (becomes w (Inside fd c n) s)
          | None =>
              let s1 := becomes w Idle (enqueue fd s) in
              Some (mk_pool (conns s1) (next s1) (freed s1) (polled s1) (pending s1) (queue s1) (workers s1) true (closed s1))
          end
      | _ => None
      end
  | End_ w a =>
      match nth_error (workers s) w with
      | Some (Inside fd c n) =>
          Some match a with
               | Served => becomes w (Holding fd n) s
               | Nothing => becomes w Idle (add_inactive fd s)
               | Eof => becomes w Idle (drop fd s)
               | Fails => becomes w Idle (enqueue fd s)
               end
      | _ => None
      end
  | CloseItself w =>
      match nth_error (workers s) w with
      | Some (Inside fd c n) =>
          Some (mk_pool (conns s) (next s) (fd :: freed s) (polled s) (pending s) (queue s) (workers s) (missed s) (closed s))
      | _ => None
      end
  end.
Fixpoint run (batch : nat) (l : list event) (s : pool) : option pool :=
  match l with [] => Some s | e :: r => match step batch e s with None => None | Some s' => run batch r s' end end.
(** 306-340: so many workers, nothing accepted yet *)
Definition start (nworkers : nat) : pool := mk_pool [] 0 [] [] [] [] (repeat Idle nworkers) false [].
