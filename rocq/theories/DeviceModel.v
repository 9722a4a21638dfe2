(** * The units of a session: device contexts and session managers

    /repo/plainbox/impl/session/state.py 195-262, 361-468, 503-530 (the device
    context), 747-753, 794-803, 1038-1110, 1183-1214 (units of the session
    state) and /repo/plainbox/impl/session/manager.py 96-200, 283-300, 398-466
    (device contexts and test plans of a session manager).

    Simplified: recomputing readiness, applying overrides and propagating test
    plans work; identifiers and checksums are numbers; listeners of signals
    only watch.  Results and run lists are not here (SessionModel); overrides
    are in TestplanModel; what the job makes further jobs of in SiblingsModel. *)
From Coq Require Import List Bool Arith.
Import ListNotations.

(** What a unit is: a job, another unit with an identifier (categories, test
    plans, exporters, manifest entries), a template (has the attribute id but
    is no UnitWithId, template.py 81, 177) or a unit without any identifier
    (files, packaging meta-data) *)
Inductive what := AJob (i : nat) | AUnit (kind : nat) (i : nat) | ATemplate | ABare (kind : nat).

(** A unit; [u_obj] tells objects apart, [u_sum] is the checksum, which does
    not depend on the provider (unit.py 810-830).  Units are equal when their
    checksums are (unit.py 451-457). *)
Record unit := mk_unit { u_obj : nat; u_sum : nat; u_what : what }.
Definition unit_eqb (a b : unit) : bool := u_sum a =? u_sum b.
Definition is_job (u : unit) : bool := match u_what u with AJob _ => true | _ => false end.
Definition with_id (u : unit) : option nat :=
  match u_what u with AJob i | AUnit _ i => Some i | _ => None end.

(** A unit and the units that adding it to a session makes (state.py 1111-1181:
    only jobs make any, and only jobs) *)
Inductive tree := Tree (u : unit) (children : list tree).
Definition root (t : tree) : unit := match t with Tree u _ => u end.

(** What listeners of the context's signals see *)
Inductive event := Added (u : unit) | Removed (u : unit) | Provider (p : nat).

Definition table := nat -> option unit.
Definition set (k : nat) (u : unit) (m : table) : table := fun x => if x =? k then Some u else m x.
Definition unset (k : nat) (m : table) : table := fun x => if x =? k then None else m x.

Record context := mk_context {
  units : list unit;       (* unit_list, shared with the session state *)
  jobs : list unit;        (* job_list *)
  job_map : table;         (* the jobs of job_state_map *)
  id_map : table;          (* _unit_id_map *)
  sums : list nat;         (* _already_added_checksums *)
  providers : list nat;    (* provider_list *)
  log : list event
}.

(** state.py 243-251 *)
Definition fresh : context := mk_context [] [] (fun _ => None) (fun _ => None) [] [] [].

Inductive exn := Value_error | Key_error | Attribute_error | Duplicate_error (existing new : unit).

(** state.py 503-510 on_unit_added *)
Definition on_unit_added (u : unit) (c : context) : context :=
  mk_context (units c) (jobs c) (job_map c)
    (match with_id u with Some i => set i u (id_map c) | None => id_map c end)
    (sums c) (providers c) (log c ++ [Added u]).

(** state.py 1080-1083 _add_other_unit *)
Definition add_other (u : unit) (c : context) : context :=
  on_unit_added u (mk_context (units c ++ [u]) (jobs c) (job_map c) (id_map c) (sums c) (providers c) (log c)).

(** state.py 1085-1109 _add_job_unit *)
Fixpoint add_job (t : tree) (c : context) : context * option exn :=
  match t with
  | Tree u children =>
      let fix add_children (l : list tree) (c : context) : context * option exn :=
        match l with
        | [] => (c, None)
        | t :: r =>
            match add_job t c with
            | (c, None) => add_children r c
            | (c, Some x) => (c, Some x)
            end
        end in
      let i := match with_id u with Some i => i | None => 0 end in
      match job_map c i with
      | None =>
          add_children children
            (on_unit_added u
               (mk_context (units c ++ [u]) (jobs c ++ [u]) (set i u (job_map c)) (id_map c)
                  (sums c) (providers c) (log c)))
      | Some existing =>
          if unit_eqb u existing then add_children children c
          else (c, Some (Duplicate_error existing u))
      end
  end.

(** state.py 1038-1078 SessionState.add_unit *)
Definition state_add (t : tree) (c : context) : context * option exn :=
  if is_job (root t) then add_job t c else (add_other (root t) c, None).

Definition mem (x : nat) (l : list nat) : bool := existsb (Nat.eqb x) l.

(** state.py 431-450 SessionDeviceContext.add_unit; the message of the
    exception needs the attribute id *)
Definition add_unit (t : tree) (c : context) : context * option exn :=
  let u := root t in
  if mem (u_sum u) (sums c) then
    (c, Some (match u_what u with ABare _ => Attribute_error | _ => Value_error end))
  else
    state_add t
      (mk_context (units c) (jobs c) (job_map c) (id_map c) (u_sum u :: sums c) (providers c) (log c)).

(** list.remove *)
Fixpoint remove_first (u : unit) (l : list unit) : list unit :=
  match l with
  | [] => []
  | x :: r => if unit_eqb x u then r else x :: remove_first u r
  end.
Definition present (u : unit) (l : list unit) : bool := existsb (fun x => unit_eqb x u) l.

(** state.py 523-530 on_unit_removed: listeners are told after the table is changed *)
Definition on_unit_removed (u : unit) (c : context) : context * option exn :=
  match with_id u with
  | Some i =>
      match id_map c i with
      | Some _ =>
          (mk_context (units c) (jobs c) (job_map c) (unset i (id_map c)) (sums c) (providers c) (log c ++ [Removed u]), None)
      | None => (c, Some Key_error)
      end
  | None =>
      (mk_context (units c) (jobs c) (job_map c) (id_map c) (sums c) (providers c) (log c ++ [Removed u]), None)
  end.

(** state.py 1183-1214 SessionState.remove_unit *)
Definition state_remove (u : unit) (c : context) : context * option exn :=
  if present u (units c) then
    match on_unit_removed u
            (mk_context (remove_first u (units c)) (jobs c) (job_map c) (id_map c) (sums c) (providers c) (log c)) with
    | (c, Some x) => (c, Some x)
    | (c, None) =>
        match u_what u with
        | AJob i =>
            if present u (jobs c) then
              let c := mk_context (units c) (remove_first u (jobs c)) (job_map c) (id_map c) (sums c) (providers c) (log c) in
              match job_map c i with
              | Some _ =>
                  (mk_context (units c) (jobs c) (unset i (job_map c)) (id_map c) (sums c) (providers c) (log c), None)
              | None => (c, Some Key_error)
              end
            else (c, Some Value_error)
        | _ => (c, None)
        end
    end
  else (c, Some Value_error).

(** state.py 452-468 SessionDeviceContext.remove_unit *)
Definition remove_unit (u : unit) (c : context) : context * option exn :=
  if present u (units c) then
    if mem (u_sum u) (sums c) then
      state_remove u
        (mk_context (units c) (jobs c) (job_map c) (id_map c)
           (filter (fun s => negb (s =? u_sum u)) (sums c)) (providers c) (log c))
    else (c, Some Key_error)
  else (c, Some Value_error).

(** state.py 426-428, the loop *)
Fixpoint add_units (ts : list tree) (c : context) : context * option exn :=
  match ts with
  | [] => (c, None)
  | t :: r =>
      match add_unit t c with
      | (c, None) => add_units r c
      | (c, Some x) => (c, Some x)
      end
  end.

(** state.py 400-429 add_provider; a provider is a number and its units *)
Definition add_provider (p : nat) (ts : list tree) (c : context) : context * option exn :=
  if mem p (providers c) then (c, Some Value_error)
  else
    add_units ts
      (mk_context (units c) (jobs c) (job_map c) (id_map c) (sums c) (providers c ++ [p]) (log c ++ [Provider p])).

(** state.py 470-490 get_unit; None is KeyError.  A kind is None for jobs *)
Definition kind_of (u : unit) : option nat := match u_what u with AUnit k _ | ABare k => Some k | _ => None end.
Definition same_kind (a b : option nat) : bool :=
  match a, b with Some x, Some y => x =? y | None, None => true | _, _ => false end.
Definition get_unit (i : nat) (kind : option (option nat)) (c : context) : option unit :=
  match id_map c i with
  | None => None
  | Some u =>
      match kind with
      | None => Some u
      | Some k => if same_kind (kind_of u) k then Some u else None
      end
  end.

(** What an application and the session itself do to the units *)
Inductive op :=
| AddUnit (t : tree)
| RemoveUnit (u : unit)
| AddProvider (p : nat) (ts : list tree)
| SessionAdds (t : tree)         (* ctrl.py 303-324: units made from templates *)
| SessionRemoves (u : unit).     (* state.remove_unit called directly *)
Definition do_op (o : op) (c : context) : context * option exn :=
  match o with
  | AddUnit t => add_unit t c
  | RemoveUnit u => remove_unit u c
  | AddProvider p ts => add_provider p ts c
  | SessionAdds t => state_add t c
  | SessionRemoves u => state_remove u c
  end.
Fixpoint run (ops : list op) (c : context) : context :=
  match ops with [] => c | o :: r => run r (fst (do_op o c)) end.

(** ** A context for an existing session state *)

(** state.py 794-798: the state of a list of units in which no two jobs clash
    and 252-264: the context made from it, [provider_of] being unit.provider *)
Fixpoint index (f : unit -> option nat) (us : list unit) (m : table) : table :=
  match us with
  | [] => m
  | u :: r => index f r (match f u with Some i => set i u m | None => m end)
  end.
Definition job_id (u : unit) : option nat := match u_what u with AJob i => Some i | _ => None end.
Definition from_state (us : list unit) (provider_of : unit -> nat) : context :=
  mk_context us (filter is_job us) (index job_id us (fun _ => None)) (index with_id us (fun _ => None))
    (map u_sum us) (nodup Nat.eq_dec (map provider_of us)) [].

(** ** Session managers *)

(** The device contexts that take part, the test plans of the session and the
    test plans of every context *)
Record manager := mk_manager { contexts : list nat; plans : list nat; plans_of : nat -> list nat }.

(** manager.py 460-466 _propagate_test_plans, state.py 361-383 *)
Definition propagate (m : manager) : manager :=
  mk_manager (contexts m) (plans m) (fun k => if mem k (contexts m) then plans m else plans_of m k).

(** manager.py 398-422 add_device_context; all devices are None, so any other
    context is for the same device *)
Definition add_context (k : nat) (m : manager) : manager * option exn :=
  match contexts m with
  | _ :: _ => (m, Some Value_error)
  | [] => (propagate (mk_manager (contexts m ++ [k]) (plans m) (plans_of m)), None)
  end.
(** manager.py 434-449 remove_device_context *)
Definition remove_context (k : nat) (m : manager) : manager * option exn :=
  if mem k (contexts m) then
    (propagate (mk_manager (remove Nat.eq_dec k (contexts m)) (plans m) (plans_of m)), None)
  else (m, Some Value_error).
(** manager.py 145-169 test_plans; the filter unique refuses repetitions *)
Fixpoint distinct (l : list nat) : bool := match l with [] => true | x :: r => negb (mem x r) && distinct r end.
Definition set_plans (l : list nat) (m : manager) : manager * option exn :=
  if distinct l then (propagate (mk_manager (contexts m) l (plans_of m)), None) else (m, Some Value_error).

(** manager.py 96-103, 117-133: at most one context at first; 196-281 make the
    manager without contexts or with a new one *)
Definition create (ks : list nat) (m_plans : nat -> list nat) : option manager :=
  match ks with
  | _ :: _ :: _ => None
  | _ => Some (mk_manager ks [] m_plans)
  end.
Inductive mop := AddContext (k : nat) | RemoveContext (k : nat) | SetPlans (l : list nat).
Definition do_mop (o : mop) (m : manager) : manager * option exn :=
  match o with AddContext k => add_context k m | RemoveContext k => remove_context k m | SetPlans l => set_plans l m end.
Fixpoint mrun (ops : list mop) (m : manager) : manager :=
  match ops with [] => m | o :: r => mrun r (fst (do_mop o m)) end.
