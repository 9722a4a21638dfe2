(** * The service for remote sessions: plainbox/impl/session/assistant2.py 50-326

    Calls may come from several connections at once and jobs run in a thread of their own.  A
    call that waits for something (for the lock, for the end of a job) is two steps; anything
    between two waits is one.  The session assistant underneath (AssistantModel.v, AsrunModel.v)
    is what each event says it answered.  Left out: the log, get_jobs_repr, the lock that is never
    used (_operator_lock), keys (SudoModel.v), a line that cannot be decoded, two calls of
    monitor_job at the same time, and the application blob. *)
From Coq Require Import String Ascii List Bool Arith ZArith.
From Verif Require Import ScanModel Rfc822Model OriginModel SymbolModel.
Import ListNotations.
Local Open Scope nat_scope.
Local Open Scope list_scope.

(** 42-47; two of them are never used *)
Inductive phase := Idle | Started | Bootstrapped | Running.
Definition phase_eqb (a b : phase) : bool :=
  match a, b with
  | Idle, Idle | Started, Started | Bootstrapped, Bootstrapped | Running, Running => true
  | _, _ => false
  end.
Definition phase_text (p : phase) : text :=
  match p with
  | Idle => T "idle" | Started => T "started" | Bootstrapped => T "bootstrapped" | Running => T "running"
  end.

(** A result: its outcome, its comments and the rest *)
Record result := mk_result { r_outcome : text; r_comments : option text; r_rest : text }.

(** 82-106 BackgroundExecutor: the job and, once the thread is over, the builder, or None if
    there was an exception *)
Record exec := mk_exec { x_job : text; x_end : option (option result) }.
Definition x_alive (x : exec) : bool := match x_end x with None => true | Some _ => false end.

(** job.plugin, job.tr_purpose() and job.user *)
Record jobinfo := mk_jobinfo { i_plugin : text; i_purpose : text; i_user : option text }.

(** Where the generator of a call of run_job stands: not started, stopped at one of its two
    yields, waiting for the lock, or over *)
Inductive where_ := New | Told (j : jobinfo) | Asked (j : jobinfo) | Waiting | Over.
Record gen := mk_gen { g_job : text; g_at : where_ }.

(** A call of finish_job: the job and the executor that it read before it began to wait, and
    whether it is over *)
Record fin := mk_fin { f_job : option text; f_exec : nat; f_over : bool }.

(** What use_job_result was called with: by finish_job, and by resume_last *)
Inductive fed := Fed (job : option text) (r : result) | Resumed (job : text) (r : result).

Record svc := mk_svc {
  s_state : phase;                              (* _state *)
  s_locked : bool;                              (* _session_change_lock *)
  s_execs : list exec;                          (* every executor that was started *)
  s_be : option nat;                            (* _be *)
  s_gens : list gen;                            (* every generator that run_job returned *)
  s_fins : list fin;                            (* every call of finish_job *)
  s_count : nat;                                (* _jobs_count *)
  s_index : Z;                                  (* _job_index *)
  s_cur : option text;                          (* _currently_running_job *)
  s_plans : option (list (text * option text)); (* _available_testplans *)
  s_pw : option text;                           (* _sudo_password *)
  s_queue : list text;                          (* buffered_ui._queue *)
  s_fed : list fed                              (* results given to the session *)
}.
(** 113-137 *)
Definition service : svc := mk_svc Idle false [] None [] [] 0 0%Z None None None [] [].

Definition set_state p s := mk_svc p (s_locked s) (s_execs s) (s_be s) (s_gens s) (s_fins s) (s_count s) (s_index s) (s_cur s) (s_plans s) (s_pw s) (s_queue s) (s_fed s).
Definition set_locked b s := mk_svc (s_state s) b (s_execs s) (s_be s) (s_gens s) (s_fins s) (s_count s) (s_index s) (s_cur s) (s_plans s) (s_pw s) (s_queue s) (s_fed s).
Definition set_execs l s := mk_svc (s_state s) (s_locked s) l (s_be s) (s_gens s) (s_fins s) (s_count s) (s_index s) (s_cur s) (s_plans s) (s_pw s) (s_queue s) (s_fed s).
Definition set_be o s := mk_svc (s_state s) (s_locked s) (s_execs s) o (s_gens s) (s_fins s) (s_count s) (s_index s) (s_cur s) (s_plans s) (s_pw s) (s_queue s) (s_fed s).
Definition set_gens l s := mk_svc (s_state s) (s_locked s) (s_execs s) (s_be s) l (s_fins s) (s_count s) (s_index s) (s_cur s) (s_plans s) (s_pw s) (s_queue s) (s_fed s).
Definition set_fins l s := mk_svc (s_state s) (s_locked s) (s_execs s) (s_be s) (s_gens s) l (s_count s) (s_index s) (s_cur s) (s_plans s) (s_pw s) (s_queue s) (s_fed s).
Definition set_count n s := mk_svc (s_state s) (s_locked s) (s_execs s) (s_be s) (s_gens s) (s_fins s) n (s_index s) (s_cur s) (s_plans s) (s_pw s) (s_queue s) (s_fed s).
Definition set_job i c s := mk_svc (s_state s) (s_locked s) (s_execs s) (s_be s) (s_gens s) (s_fins s) (s_count s) i c (s_plans s) (s_pw s) (s_queue s) (s_fed s).
Definition set_plans o s := mk_svc (s_state s) (s_locked s) (s_execs s) (s_be s) (s_gens s) (s_fins s) (s_count s) (s_index s) (s_cur s) o (s_pw s) (s_queue s) (s_fed s).
Definition set_pw o s := mk_svc (s_state s) (s_locked s) (s_execs s) (s_be s) (s_gens s) (s_fins s) (s_count s) (s_index s) (s_cur s) (s_plans s) o (s_queue s) (s_fed s).
Definition set_queue l s := mk_svc (s_state s) (s_locked s) (s_execs s) (s_be s) (s_gens s) (s_fins s) (s_count s) (s_index s) (s_cur s) (s_plans s) (s_pw s) l (s_fed s).
Definition set_fed l s := mk_svc (s_state s) (s_locked s) (s_execs s) (s_be s) (s_gens s) (s_fins s) (s_count s) (s_index s) (s_cur s) (s_plans s) (s_pw s) (s_queue s) l.
Definition set_gen g x s := set_gens (set_nth g x (s_gens s)) s.

(** What resume_last finds: nothing, something that cannot be resumed, or a session, the name of
    the job that was running and what use_job_result does with it *)
Inductive use := Use_ok | Use_key_error | Use_raises.
Inductive candidate := No_session | Cannot_resume | Session_ (running : option text) (u : use).

(** What happens: calls with what the session assistant answers (None: it raises), and steps of
    what goes on *)
Inductive event :=
| Start_session (plans : option (list (text * option text)))
| Bootstrap (static : option (list text))
| Run_job (job : text)
| Next (g : nat) (todo : option (list text)) (info : option jobinfo)
| Lock_acquired (g : nat)
| Line (x : nat) (l : text)
| Job_over (x : nat) (r : option result)
| Monitor_job
| Whats_up
| Finish_job
| Finish_waited (f : nat) (todo : option (list text))
| Save_password (cyphertext : text)
| Resume_last (c : candidate)
| Finalize_session (ok : bool).

Inductive payload := Nothing | Progress (index : Z) (count : nat) (job : option text) | Plans (l : list (text * option text)).
Inductive answer :=
| Returns
| Returns_plans (l : list (text * option text))
| Returns_jobs (l : list text)
| Returns_gen (g : nat)
| Yields_purpose (purpose : text)
| Yields_sudo_input
| Stops                                        (* StopIteration: the job was started *)
| Blocks
| Is_running (output : text)
| Is_done (outcome : text)
| Is_up (p : phase) (d : payload)
| Refused (message : text)                     (* AssertionError of allowed_when *)
| Raises                                       (* any other exception *)
| Exits (job : text)                           (* SystemExit *)
| Goes_on                                      (* a step that is not an answer *)
| Cannot_happen.

(** 143-151 *)
Definition allowed_when (p : phase) (s : svc) (f : svc * answer) : svc * answer :=
  if phase_eqb (s_state s) p then f
  else (s, Refused (T "expected " ++ phase_text (s_state s) ++ T ", is " ++ phase_text p)).

(** sorted(..., key=lambda x: x[1]), 161-162; None if two names cannot be compared *)
Definition name_lt (a b : text * option text) : bool :=
  match snd a, snd b with Some x, Some y => text_lt x y | _, _ => false end.
Fixpoint insert_plan (x : text * option text) (l : list (text * option text)) : list (text * option text) :=
  match l with
  | [] => [x]
  | y :: r => if name_lt y x then y :: insert_plan x r else x :: l
  end.
Definition sort_plans (l : list (text * option text)) : option (list (text * option text)) :=
  if (2 <=? length l) && existsb (fun p => match snd p with None => true | Some _ => false end) l then None
  else Some (fold_right insert_plan [] l).

(** 197-198 and 89-90: the end of the generator; the lock, and what is done with it *)
Definition launch (g : nat) (job : text) (s : svc) : svc * answer :=
  (set_gen g (mk_gen job Over) (set_be (Some (length (s_execs s))) (set_execs (s_execs s ++ [mk_exec job None]) (set_locked true s))), Stops).
Definition background (g : nat) (job : text) (s : svc) : svc * answer :=
  let s := set_state Running s in
  if s_locked s then (set_gen g (mk_gen job Waiting) s, Blocks) else launch g job s.
(** Whether an optional text is true *)
Definition given_text (o : option text) : bool := match o with Some (_ :: _) => true | _ => false end.
(** 191-198 *)
Definition ask_password (g : nat) (job : text) (i : jobinfo) (s : svc) : svc * answer :=
  if given_text (i_user i) && negb (given_text (s_pw s)) then (set_gen g (mk_gen job (Asked i)) s, Yields_sudo_input)
  else background g job s.
Definition interactive_plugins : list text := [T "manual"; T "user-interact-verify"; T "user-interact"].
(** 182-198 *)
Definition next (g : nat) (todo : option (list text)) (info : option jobinfo) (s : svc) : svc * answer :=
  match nth_error (s_gens s) g with
  | None => (s, Cannot_happen)
  | Some x =>
      match g_at x with
      | Over => (s, Stops)
      | Waiting => (s, Raises)                 (* generator already executing *)
      | New =>
          match todo with
          | None => (set_gen g (mk_gen (g_job x) Over) s, Raises)
          | Some l =>
              let s := set_job (Z.of_nat (s_count s) - Z.of_nat (length l) + 1)%Z (Some (g_job x)) s in
              match info with
              | None => (set_gen g (mk_gen (g_job x) Over) s, Raises)
              | Some i =>
                  if existsb (text_eqb (i_plugin i)) interactive_plugins then
                    (set_gen g (mk_gen (g_job x) (Told i)) s, Yields_purpose (i_purpose i))
                  else ask_password g (g_job x) i s
              end
          end
      | Told i => ask_password g (g_job x) i s
      | Asked _ =>
          match s_pw s with
          | None => (set_gen g (mk_gen (g_job x) Over) s, Raises)
          | Some _ => background g (g_job x) s
          end
      end
  end.

Definition alive (k : nat) (s : svc) : bool :=
  match nth_error (s_execs s) k with Some x => x_alive x | None => false end.

(** 200-217 and 69-74 *)
Definition monitor_job (s : svc) : svc * answer :=
  match s_be s with
  | None => (s, Raises)
  | Some k =>
      match nth_error (s_execs s) k with
      | None => (s, Cannot_happen)
      | Some x =>
          match x_end x with
          | None => (set_queue [] s, Is_running (concat (s_queue s)))
          | Some (Some r) => (s, Is_done (r_outcome r))
          | Some None => (s, Raises)
          end
      end
  end.
(** 219-233 *)
Definition whats_up (s : svc) : svc * answer :=
  match s_state s with
  | Running => (s, Is_up Running (Progress (s_index s) (s_count s) (s_cur s)))
  | Started => match s_plans s with Some l => (s, Is_up Started (Plans l)) | None => (s, Raises) end
  | p => (s, Is_up p Nothing)
  end.
Definition over_fin (f : nat) (x : fin) (s : svc) : svc :=
  set_fins (set_nth f (mk_fin (f_job x) (f_exec x) true) (s_fins s)) s.
(** 257-265, after the wait of 93-98.  [todo] is None if use_job_result raises; when it does not,
    get_dynamic_todo_list, which is allowed whenever use_job_result is, does not either *)
Definition finish_waited (f : nat) (todo : option (list text)) (s : svc) : svc * answer :=
  match nth_error (s_fins s) f with
  | None => (s, Cannot_happen)
  | Some x =>
      if f_over x then (s, Cannot_happen)
      else
        match nth_error (s_execs s) (f_exec x) with
        | None => (s, Cannot_happen)
        | Some e =>
            match x_end e with
            | None => (s, Cannot_happen)       (* still waiting *)
            | Some None => (over_fin f x s, Raises)
            | Some (Some r) =>
                match todo with
                | None => (over_fin f x s, Raises)
                | Some l =>
                    let s := over_fin f x (set_fed (s_fed s ++ [Fed (f_job x) r]) s) in
                    if s_locked s then
                      (set_state (match l with [] => Idle | _ => Bootstrapped end) (set_locked false s), Returns)
                    else (s, Raises)           (* RuntimeError: release unlocked lock *)
                end
            end
        end
  end.
(** 308-311 *)
Definition resumed_result : result := mk_result (T "pass") (Some (T "Passed after resuming execution")) [].
(** 304-321 *)
Definition resume_last (c : candidate) (s : svc) : svc * answer :=
  match c with
  | No_session => (s, Raises)
  | Cannot_resume => (s, Raises)
  | Session_ running u =>
      match running with
      | Some (a :: n) =>
          match u with
          | Use_ok => (set_state Bootstrapped (set_fed (s_fed s ++ [Resumed (a :: n) resumed_result]) s), Returns)
          | Use_key_error => (s, Exits (a :: n))
          | Use_raises => (s, Raises)
          end
      | _ => (set_state Bootstrapped s, Returns)
      end
  end.

Definition step (s : svc) (e : event) : svc * answer :=
  match e with
  | Start_session plans =>                     (* 153-163 *)
      allowed_when Idle s
        match plans with
        | None => (s, Raises)
        | Some l =>
            match sort_plans l with
            | None => (set_state Started s, Raises)
            | Some l' => (set_plans (Some l') (set_state Started s), Returns_plans l')
            end
        end
  | Bootstrap static =>                        (* 165-174 *)
      allowed_when Started s
        match static with
        | None => (s, Raises)
        | Some l => (set_state Bootstrapped (set_count (length l) s), Returns_jobs l)
        end
  | Run_job job =>                             (* 176-177: the body runs at the first next() *)
      allowed_when Bootstrapped s (set_gens (s_gens s ++ [mk_gen job New]) s, Returns_gen (length (s_gens s)))
  | Next g todo info => next g todo info s
  | Lock_acquired g =>                         (* 89, once the lock is free *)
      match nth_error (s_gens s) g with
      | Some x =>
          match g_at x with
          | Waiting => if s_locked s then (s, Cannot_happen) else launch g (g_job x) s
          | _ => (s, Cannot_happen)
          end
      | None => (s, Cannot_happen)
      end
  | Line k l =>                                (* 59-60 *)
      if alive k s then (set_queue (s_queue s ++ [l]) s, Goes_on) else (s, Cannot_happen)
  | Job_over k r =>                            (* 100-102 *)
      match nth_error (s_execs s) k with
      | Some x => if x_alive x then (set_execs (set_nth k (mk_exec (x_job x) (Some r)) (s_execs s)) s, Goes_on) else (s, Cannot_happen)
      | None => (s, Cannot_happen)
      end
  | Monitor_job => allowed_when Running s (monitor_job s)
  | Whats_up => whats_up s
  | Finish_job =>                              (* 257-260, up to the wait *)
      match s_be s with
      | None => (s, Raises)
      | Some k => (set_fins (s_fins s ++ [mk_fin (s_cur s) k false]) s, Goes_on)
      end
  | Finish_waited f todo => finish_waited f todo s
  | Save_password c => (set_pw (Some c) s, Returns)     (* 248-250 *)
  | Resume_last c => resume_last c s
  | Finalize_session ok => if ok then (set_state Idle s, Returns) else (s, Raises)   (* 323-325 *)
  end.

Fixpoint run (s : svc) (l : list event) : svc * list answer :=
  match l with
  | [] => (s, [])
  | e :: r => let (s1, a) := step s e in let (s2, b) := run s1 r in (s2, a :: b)
  end.
Definition after (l : list event) : svc := fst (run service l).
