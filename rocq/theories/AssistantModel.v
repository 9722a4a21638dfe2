(** The usage protocol of the session assistant:
    plainbox/impl/session/assistant.py:94-1648 with
    plainbox/impl/developer.py:108-218 and plainbox/impl/decorators.py:100-152.

    What is modelled: for every public method, the set of allowed calls before
    and after it, every exception point at which that set may differ, the
    session metadata flags and the few attributes that later calls depend on.
    Everything else a method does (reading and writing storage, solving
    dependencies, executing commands) is an arbitrary choice given with the call:
    the call says whether that work succeeded, and the theorems quantify over
    all calls.  Simplification: user interface objects and signal listeners
    do not call back into the assistant while one of its methods runs. *)
From Coq Require Import String List Bool Arith.
Import ListNotations.
Open Scope list_scope.

(** The public methods that check the protocol. *)
Inductive meth :=
| m_configure_application_restart | m_use_alternate_restart_strategy
| m_use_alternate_repository | m_use_alternate_configuration
| m_use_alternate_execution_controllers | m_select_providers
| m_get_old_sessions | m_delete_sessions | m_start_new_session
| m_resume_session | m_get_resumable_sessions | m_get_session_id
| m_get_session_dir | m_get_test_plans | m_select_test_plan | m_bootstrap
| m_hand_pick_jobs | m_get_bootstrap_todo_list | m_finish_bootstrap
| m_use_alternate_selection | m_filter_jobs_by_categories
| m_remove_all_filters | m_get_job_state | m_get_job | m_get_test_plan
| m_get_category | m_get_participating_categories | m_get_mandatory_jobs
| m_get_static_todo_list | m_get_dynamic_todo_list | m_run_job
| m_use_job_result | m_finalize_session | m_export_to_transport
| m_export_to_file | m_export_to_stream | m_get_ubuntu_sso_oauth_transport
| m_clear_cache.

Definition meth_dec (a b : meth) : {a = b} + {a <> b}.
Proof. decide equality. Defined.

Definition allowed_set := list meth.
Definition is_allowed (m : meth) (s : allowed_set) : bool :=
  if in_dec meth_dec m s then true else false.
(** [allowed_calls[m] = ...] *)
Definition allow (m : meth) (s : allowed_set) : allowed_set :=
  if in_dec meth_dec m s then s else s ++ [m].
(** [del allowed_calls[m]] *)
Definition disallow (m : meth) (s : allowed_set) : allowed_set := remove meth_dec m s.

(** SessionMetaData.flags, state of the flags this class uses
    (session/state.py: FLAG_INCOMPLETE, FLAG_SUBMITTED, FLAG_BOOTSTRAPPING,
    FLAG_TESTPLANLESS). *)
Record mflags := mk_mflags {
  f_incomplete : bool; f_submitted : bool; f_bootstrapping : bool; f_testplanless : bool }.
(** {'bootstrapping'}, {'incomplete'}, {'incomplete', 'testplanless'} *)
Definition flags_bootstrapping := mk_mflags false false true false.
Definition flags_incomplete := mk_mflags true false false false.
Definition flags_hand_picked := mk_mflags true false false true.

(** A provider: its identity, namespace == com.canonical.plainbox, name. *)
Record provider := mk_provider { p_id : nat; p_plainbox : bool; p_name : string }.

Record sa := mk_sa {
  a_allowed : allowed_set;
  (** SA_RESTARTABLE was given *)
  a_restartable : bool;
  (** _restart_strategy is not None *)
  a_strategy : bool;
  (** _restart_cmd_callback is set *)
  a_callback : bool;
  (** _selected_providers *)
  a_selected : list provider;
  (** _metadata.flags; None while there is no session *)
  a_meta : option mflags;
  (** _manager.test_plans is not empty *)
  a_plan : bool;
  (** some get_resumable_sessions() iterator was started *)
  a_iter : bool }.

Definition set_allowed (x : allowed_set) (s : sa) : sa :=
  mk_sa x (a_restartable s) (a_strategy s) (a_callback s) (a_selected s) (a_meta s) (a_plan s) (a_iter s).
Definition set_meta (x : option mflags) (s : sa) : sa :=
  mk_sa (a_allowed s) (a_restartable s) (a_strategy s) (a_callback s) (a_selected s) x (a_plan s) (a_iter s).
Definition set_plan (x : bool) (s : sa) : sa :=
  mk_sa (a_allowed s) (a_restartable s) (a_strategy s) (a_callback s) (a_selected s) (a_meta s) x (a_iter s).
Definition set_iter (x : bool) (s : sa) : sa :=
  mk_sa (a_allowed s) (a_restartable s) (a_strategy s) (a_callback s) (a_selected s) (a_meta s) (a_plan s) x.
Definition set_selected (x : list provider) (s : sa) : sa :=
  mk_sa (a_allowed s) (a_restartable s) (a_strategy s) (a_callback s) x (a_meta s) (a_plan s) (a_iter s).
Definition set_strategy (x : bool) (s : sa) : sa :=
  mk_sa (a_allowed s) (a_restartable s) x (a_callback s) (a_selected s) (a_meta s) (a_plan s) (a_iter s).
Definition set_callback (x : bool) (s : sa) : sa :=
  mk_sa (a_allowed s) (a_restartable s) (a_strategy s) x (a_selected s) (a_meta s) (a_plan s) (a_iter s).

(** How a call ends. *)
Inductive outcome :=
| Returned
(** finalize_session on a session that is not flagged incomplete: returns, but
    logs and does nothing (1458-1462) *)
| Ignored
(** UnexpectedMethodCall from the check of the called method *)
| Rejected
(** UnexpectedMethodCall from the check of a method that the called method
    itself calls *)
| Tripped
(** AttributeError: there is no session object (None) to work with *)
| NoSession
(** any other exception *)
| Failed.

(** __init__, 130-206 *)
Definition sa_init (restartable : bool) : sa :=
  mk_sa ([m_use_alternate_repository; m_use_alternate_configuration;
          m_use_alternate_execution_controllers; m_select_providers;
          m_get_old_sessions; m_delete_sessions] ++
         (if restartable
          then [m_configure_application_restart; m_use_alternate_restart_strategy] else []))
        restartable false false [] None false false.

(** _get_allowed_calls_in_normal_state, 1620-1648 *)
Definition normal_state : allowed_set :=
  [m_get_job_state; m_get_job; m_get_test_plan; m_get_category;
   m_get_participating_categories; m_get_mandatory_jobs;
   m_filter_jobs_by_categories; m_remove_all_filters; m_get_static_todo_list;
   m_get_dynamic_todo_list; m_run_job; m_use_alternate_selection;
   m_hand_pick_jobs; m_use_job_result; m_export_to_transport;
   m_export_to_file; m_export_to_stream; m_finalize_session;
   m_get_session_id; m_get_session_dir; m_finish_bootstrap].

(** developer.py:171-218: enforce.  The check looks at the code of the method
    that called enforce, so it also applies to calls from other methods. *)
Definition enforce (m : meth) (s : sa) (body : sa -> outcome * sa) : outcome * sa :=
  if is_allowed m (a_allowed s) then body s else (Rejected, s).

(** A call made by another method: its rejection is an exception there. *)
Definition nested (r : outcome * sa) (k : sa -> outcome * sa) : outcome * sa :=
  match r with
  | (Returned, s) => k s
  | (Ignored, s) => k s
  | (Rejected, s) => (Tripped, s)
  | (o, s) => (o, s)
  end.

(** The work of a method that needs the session: [ok] says whether it
    succeeded. *)
Definition session_work (s : sa) (ok : bool) (k : sa -> outcome * sa) : outcome * sa :=
  match a_meta s with
  | None => (NoSession, s)
  | Some _ => if ok then k s else (Failed, s)
  end.
Definition ret (s : sa) : outcome * sa := (Returned, s).

(** select_providers, 424-467: list.remove on objects compared by identity *)
Fixpoint remove_provider (p : provider) (l : list provider) : list provider :=
  match l with
  | [] => []
  | q :: r => if Nat.eqb (p_id p) (p_id q) then r else q :: remove_provider p r
  end.

Section Matching.
(** provider.name == pat or fnmatch.fnmatchcase(provider.name, pat) *)
Variable matches : string -> string -> bool.

(** The inner loops, 437-441 and 446-454: iterate over a copy, moving the
    matching providers to the selection. *)
Fixpoint move_matching (pred : provider -> bool) (copy candidates selected : list provider)
  : list provider * list provider :=
  match copy with
  | [] => (candidates, selected)
  | p :: r =>
      if pred p then move_matching pred r (remove_provider p candidates) (selected ++ [p])
      else move_matching pred r candidates selected
  end.

(** 443-456; the boolean is false when ValueError was raised *)
Fixpoint match_patterns (pats : list string) (candidates selected : list provider)
  : list provider * bool :=
  match pats with
  | [] => (selected, true)
  | pat :: r =>
      let '(c, s) := move_matching (fun p => matches pat (p_name p)) candidates candidates selected in
      if existsb (fun p => matches pat (p_name p)) candidates
      then match_patterns r c s
      else (s, false)
  end.

Definition select (available : list provider) (pats : list string) (selected : list provider)
  : list provider * bool :=
  let '(c, s) := move_matching p_plainbox available available selected in
  match_patterns pats c s.
End Matching.

(** session/state.py:400-404, add_provider refuses a provider it already has;
    start_new_session adds the selected ones in order (568-573). *)
Fixpoint add_providers (l : list provider) (have : list nat) : bool :=
  match l with
  | [] => true
  | p :: r =>
      if existsb (Nat.eqb (p_id p)) have then false else add_providers r (p_id p :: have)
  end.

(** Where start_new_session fails: before anything changed, after the manager
    was replaced (564-573), or after the metadata was (574-581). *)
Inductive start_result := StartOk | StartFailsEarly | StartFailsInContext | StartFailsLate.
(** Where resume_session fails: unknown identifier or unusable data
    (615-617), or later (618-641).  [fl] are the flags of the stored session. *)
Inductive resume_result := ResumeOk | ResumeFailsEarly | ResumeFailsLate.

(** What happens while one job runs (1283-1370): [r_before] and [r_after] say
    whether everything before and after the calls made for a noreturn job
    succeeded; [r_noreturn] says that the job can start and is a noreturn job. *)
Record run_world := mk_run { r_before : bool; r_noreturn : bool; r_after : bool }.

(** One job of the bootstrap loop, 861-866. *)
Record boot_job := mk_boot { b_done : bool; b_run : run_world; b_use : bool }.

(** The methods that other methods call. *)

(** 769-770 *)
Definition do_get_session_dir (s : sa) := enforce m_get_session_dir s (fun s => session_work s true ret).
(** 746-747 *)
Definition do_get_session_id (s : sa) := enforce m_get_session_id s (fun s => session_work s true ret).
(** 1197-1198 *)
Definition do_get_static_todo_list (s : sa) := enforce m_get_static_todo_list s (fun s => session_work s true ret).
(** 1083-1088: the permission is given before the job is looked up *)
Definition do_get_job (s : sa) (ok : bool) :=
  enforce m_get_job s (fun s =>
    session_work (set_allowed (allow m_use_job_result (a_allowed s)) s) ok ret).
(** 990-994 *)
Definition do_use_alternate_selection (s : sa) (ok : bool) :=
  enforce m_use_alternate_selection s (fun s =>
    nested (do_get_static_todo_list s) (fun s => session_work s ok ret)).

(** 1282-1376 *)
Definition do_run_job (s : sa) (w : run_world) :=
  enforce m_run_job s (fun s =>
    let finish s :=
      session_work s (r_after w) (fun s =>
        ret (set_allowed (allow m_use_job_result (disallow m_run_job (a_allowed s))) s)) in
    session_work s (r_before w) (fun s =>
      if r_noreturn w then
        nested (do_get_session_dir s) (fun s =>
          if a_callback s then nested (do_get_session_id s) finish else finish s)
      else finish s)).

(** 1405-1422 *)
Definition do_use_job_result (s : sa) (ok : bool) :=
  enforce m_use_job_result s (fun s =>
    session_work s ok (fun s =>
      ret (set_allowed (allow m_run_job (disallow m_use_job_result (a_allowed s))) s))).

(** 861-866 *)
Fixpoint boot_loop (jobs : list boot_job) (s : sa) (k : sa -> outcome * sa) : outcome * sa :=
  match jobs with
  | [] => k s
  | j :: r =>
      if b_done j then boot_loop r s k
      else
        let s := set_allowed (allow m_run_job (a_allowed s)) s in
        nested (do_run_job s (b_run j)) (fun s =>
        nested (do_use_job_result s (b_use j)) (fun s =>
        boot_loop r s k))
  end.

(** 1017-1019: get_job for every job of the list, [false] for one that is not
    found *)
Fixpoint get_jobs (found : list bool) (s : sa) (k : sa -> outcome * sa) : outcome * sa :=
  match found with
  | [] => k s
  | b :: r => nested (do_get_job s b) (fun s => get_jobs r s k)
  end.

(** Calls, with the result of the work they do. *)
Inductive call :=
| ConfigureApplicationRestart (detected : bool)
| UseAlternateRestartStrategy
| UseAlternateRepository
| UseAlternateConfiguration
| UseAlternateExecutionControllers
| SelectProviders (available : list provider) (pats : list string)
(** the first step of the iterator that get_old_sessions() returns *)
| GetOldSessions (ok : bool)
| DeleteSessions (ok : bool)
| StartNewSession (r : start_result)
(** the first step of an iterator returned by get_resumable_sessions();
    [yields]: it found a candidate *)
| GetResumableSessions (yields : bool)
(** a later step of such an iterator, however old *)
| NextResumableSession (yields : bool)
| ResumeSession (fl : mflags) (r : resume_result)
| UpdateAppBlob (ok : bool)
| GetSummary
| GetSessionId | GetSessionDir | GetTestPlans
| SelectTestPlan (ok : bool)
| Bootstrap (first : bool) (jobs : list boot_job) (second checkpoint : bool)
| HandPickJobs (ok : bool)
| GetBootstrapTodoList (ok : bool)
| FinishBootstrap (ok checkpoint : bool)
| UseAlternateSelection (ok : bool)
| FilterJobsByCategories (found : list bool) (ok : bool)
| RemoveAllFilters (ok : bool)
| GetJobState (ok : bool) | GetJob (ok : bool) | GetTestPlan (ok : bool) | GetCategory (ok : bool)
| GetParticipatingCategories (ok : bool) | GetMandatoryJobs (ok : bool)
| GetStaticTodoList | GetDynamicTodoList
| RunJob (w : run_world)
| UseJobResult (ok : bool)
| FinalizeSession (checkpoint : bool)
| ExportToTransport (sent checkpoint : bool)
| ExportToFile (ok : bool)
| ExportToStream (written checkpoint : bool)
| GetUbuntuSsoOauthTransport (ok : bool)
| ClearCache (ok : bool).

(** 1522-1524 and 1591-1593 *)
Definition mark_submitted (s : sa) (checkpoint : bool) : outcome * sa :=
  match a_meta s with
  | None => (NoSession, s)
  | Some f =>
      if f_submitted f then (Returned, s)
      else
        let s := set_meta (Some (mk_mflags (f_incomplete f) true (f_bootstrapping f) (f_testplanless f))) s in
        if checkpoint then (Returned, s) else (Failed, s)
  end.

Section Calls.
Variable matches : string -> string -> bool.

Definition step (s : sa) (c : call) : outcome * sa :=
  match c with
  | ConfigureApplicationRestart detected =>                      (* 242-251 *)
      enforce m_configure_application_restart s (fun s =>
        if a_strategy s || detected then
          ret (set_allowed
                 (disallow m_use_alternate_restart_strategy
                    (disallow m_configure_application_restart (a_allowed s)))
                 (set_callback true (set_strategy true s)))
        else (Failed, s))
  | UseAlternateRestartStrategy =>                               (* 285-288 *)
      enforce m_use_alternate_restart_strategy s (fun s =>
        ret (set_allowed (disallow m_use_alternate_restart_strategy (a_allowed s))
               (set_strategy true s)))
  | UseAlternateRepository =>                                    (* 312-317 *)
      enforce m_use_alternate_repository s (fun s =>
        ret (set_allowed (disallow m_use_alternate_repository (a_allowed s)) s))
  | UseAlternateConfiguration =>                                 (* 336-340 *)
      enforce m_use_alternate_configuration s (fun s =>
        ret (set_allowed (disallow m_use_alternate_configuration (a_allowed s)) s))
  | UseAlternateExecutionControllers =>                          (* 369-373 *)
      enforce m_use_alternate_execution_controllers s (fun s =>
        ret (set_allowed (disallow m_use_alternate_execution_controllers (a_allowed s)) s))
  | SelectProviders available pats =>                            (* 424-467 *)
      enforce m_select_providers s (fun s =>
        let '(sel, ok) := select matches available pats (a_selected s) in
        let s := set_selected sel s in
        if ok then
          ret (set_allowed
                 (allow m_clear_cache (allow m_get_resumable_sessions
                    (allow m_start_new_session (disallow m_select_providers (a_allowed s))))) s)
        else (Failed, s))
  | GetOldSessions ok =>                                         (* 506-519 *)
      enforce m_get_old_sessions s (fun s => if ok then ret s else (Failed, s))
  | DeleteSessions ok =>                                         (* 537-540 *)
      enforce m_delete_sessions s (fun s => if ok then ret s else (Failed, s))
  | StartNewSession r =>                                         (* 565-591 *)
      enforce m_start_new_session s (fun s =>
        match r with
        | StartFailsEarly => (Failed, s)
        | _ =>
            let s := set_plan false s in
            if add_providers (a_selected s) [] then
              match r with
              | StartFailsInContext => (Failed, s)
              | StartFailsLate => (Failed, set_meta (Some flags_bootstrapping) s)
              | _ =>
                  ret (set_allowed
                         [m_get_test_plans; m_get_test_plan; m_select_test_plan;
                          m_get_session_id; m_get_session_dir; m_hand_pick_jobs]
                         (set_meta (Some flags_bootstrapping) s))
              end
            else (Failed, s)
        end)
  | GetResumableSessions yields =>                               (* 670-689 *)
      enforce m_get_resumable_sessions s (fun s =>
        let s := set_iter true s in
        if yields then ret (set_allowed (allow m_resume_session (a_allowed s)) s)
        else ret s)
  | NextResumableSession yields =>                               (* 674-689 *)
      if a_iter s then
        if yields then ret (set_allowed (allow m_resume_session (a_allowed s)) s)
        else ret s
      else (Failed, s)
  | ResumeSession fl r =>                                        (* 614-648 *)
      enforce m_resume_session s (fun s =>
        match r with
        | ResumeFailsEarly => (Failed, s)
        | ResumeFailsLate => (Failed, set_plan false (set_meta (Some fl) s))
        | ResumeOk =>
            let s := set_plan false (set_meta (Some fl) s) in
            if f_testplanless fl then ret (set_allowed normal_state s)
            else ret (set_allowed [m_select_test_plan] s)
        end)
  | UpdateAppBlob ok => session_work s ok ret                    (* 699-700, no check *)
  | GetSummary => session_work s true ret                        (* 1432-1440, no check *)
  | GetSessionId => do_get_session_id s
  | GetSessionDir => do_get_session_dir s
  | GetTestPlans =>                                              (* 789-791 *)
      enforce m_get_test_plans s (fun s => session_work s true ret)
  | SelectTestPlan ok =>                                         (* 814-821 *)
      enforce m_select_test_plan s (fun s =>
        session_work s ok (fun s =>
          ret (set_allowed [m_bootstrap; m_get_bootstrap_todo_list] (set_plan true s))))
  | Bootstrap first jobs second checkpoint =>                    (* 850-878 *)
      enforce m_bootstrap s (fun s =>
        session_work s first (fun s =>
        boot_loop jobs s (fun s =>
        session_work s second (fun s =>
          let s := set_meta (Some flags_incomplete) (set_allowed normal_state s) in
          if checkpoint then ret s else (Failed, s)))))
  | HandPickJobs ok =>                                           (* 899-908 *)
      enforce m_hand_pick_jobs s (fun s =>
        session_work s ok (fun s =>
          ret (set_allowed normal_state (set_meta (Some flags_hand_picked) s))))
  | GetBootstrapTodoList ok =>                                   (* 924-933 *)
      enforce m_get_bootstrap_todo_list s (fun s =>
        session_work s ok (fun s => ret (set_allowed normal_state s)))
  | FinishBootstrap ok checkpoint =>                             (* 951-963 *)
      enforce m_finish_bootstrap s (fun s =>
        session_work s ok (fun s =>
          let s := set_meta (Some flags_incomplete) (set_allowed normal_state s) in
          if checkpoint then ret s else (Failed, s)))
  | UseAlternateSelection ok => do_use_alternate_selection s ok
  | FilterJobsByCategories found ok =>                           (* 1016-1020 *)
      enforce m_filter_jobs_by_categories s (fun s =>
        nested (do_get_static_todo_list s) (fun s =>
        get_jobs found s (fun s =>
        nested (do_use_alternate_selection s ok) ret)))
  | RemoveAllFilters ok =>                                       (* 1035-1039 *)
      enforce m_remove_all_filters s (fun s => session_work s ok ret)
  | GetJobState ok => enforce m_get_job_state s (fun s => session_work s ok ret)   (* 1060-1062 *)
  | GetJob ok => do_get_job s ok
  | GetTestPlan ok => enforce m_get_test_plan s (fun s => session_work s ok ret)   (* 1109-1110 *)
  | GetCategory ok => enforce m_get_category s (fun s => session_work s ok ret)    (* 1131-1132 *)
  | GetParticipatingCategories ok =>                             (* 1151-1155 *)
      enforce m_get_participating_categories s (fun s => session_work s (a_plan s && ok) ret)
  | GetMandatoryJobs ok =>                                       (* 1169-1173 *)
      enforce m_get_mandatory_jobs s (fun s => session_work s (a_plan s && ok) ret)
  | GetStaticTodoList => do_get_static_todo_list s
  | GetDynamicTodoList =>                                        (* 1233-1239 *)
      enforce m_get_dynamic_todo_list s (fun s => session_work s true ret)
  | RunJob w => do_run_job s w
  | UseJobResult ok => do_use_job_result s ok
  | FinalizeSession checkpoint =>                                (* 1457-1479 *)
      enforce m_finalize_session s (fun s =>
        match a_meta s with
        | None => (NoSession, s)
        | Some f =>
            if f_incomplete f then
              let s := set_meta (Some (mk_mflags false (f_submitted f) (f_bootstrapping f) (f_testplanless f))) s in
              if checkpoint then
                ret (set_allowed
                       [m_finalize_session; m_export_to_transport; m_export_to_file;
                        m_export_to_stream; m_get_resumable_sessions; m_start_new_session;
                        m_get_old_sessions; m_delete_sessions] s)
              else (Failed, s)
            else (Ignored, s)
        end)
  | ExportToTransport sent checkpoint =>                         (* 1515-1524 *)
      enforce m_export_to_transport s (fun s =>
        session_work s sent (fun s => mark_submitted s checkpoint))
  | ExportToFile ok =>                                           (* 1551-1563 *)
      enforce m_export_to_file s (fun s => session_work s ok ret)
  | ExportToStream written checkpoint =>                         (* 1588-1593 *)
      enforce m_export_to_stream s (fun s =>
        session_work s written (fun s => mark_submitted s checkpoint))
  | GetUbuntuSsoOauthTransport ok =>                             (* 1611-1613 *)
      enforce m_get_ubuntu_sso_oauth_transport s (fun s => if ok then ret s else (Failed, s))
  | ClearCache ok =>                                             (* 1616-1618 *)
      enforce m_clear_cache s (fun s => if ok then ret s else (Failed, s))
  end.

(** A history: what was called and how each call ended. *)
Fixpoint run (s : sa) (cs : list call) : list (call * outcome) * sa :=
  match cs with
  | [] => ([], s)
  | c :: r =>
      let '(o, s1) := step s c in
      let '(h, s2) := run s1 r in
      ((c, o) :: h, s2)
  end.
End Calls.
