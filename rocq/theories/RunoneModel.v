(** * Running one job if it can be run: plainbox/impl/applogic.py 51-80 with the description of readiness of
      plainbox/impl/session/jobs.py 192-211 and 364-375 *)
From Coq Require Import String List Bool ZArith.
From Verif Require Import Base JobModel SessionModel.
Import ListNotations.
Open Scope string_scope.
Open Scope list_scope.

Section Runone.
  Variable eval_expr : expr -> list (list resource) -> bool.
  Variable records_of : result -> list resource.
  (** repr() of a text *)
  Variable repr : string -> string.

  (** jobs.py 192-211 JobReadinessInhibitor.__str__, not translated *)
  Definition inhibitor_text (i : inhibitor) : string :=
    match i with
    | Undesired => "undesired"
    | PendingDep d => "required dependency " ++ repr (j_id d) ++ " did not run yet"
    | FailedDep d => "required dependency " ++ repr (j_id d) ++ " has failed"
    | PendingResource _ e =>
        "resource expression " ++ repr (e_text e) ++
        " could not be evaluated because the resource it depends on did not run yet"
    | FailedResource _ e => "resource expression " ++ repr (e_text e) ++ " evaluates to false"
    end%string.
  (** jobs.py 368-375 get_readiness_description *)
  Definition readiness_description (js : jstate) : string :=
    match js_inhibitors js with
    | [] => "job can be started"
    | l => ("job cannot be started: " ++ String.concat ", " (map inhibitor_text l))%string
    end.

  (** applogic.py 65-72: the loop over the inhibitors; [inl] is the KeyError of a related job that is not known *)
  Fixpoint refusal (s : state) (l : list inhibitor) (so_far : outcome) : exn + outcome :=
    match l with
    | [] => inr so_far
    | FailedDep d :: l' =>
        match state_of s (j_id d) with
        | inl x => inl x
        | inr js => refusal s l' (match r_outcome (js_result js) with Some OSkip => OSkip | _ => so_far end)
        end
    | _ :: l' => refusal s l' so_far
    end.
  (** applogic.py 57-76: the job state, whether the runner was asked, and the result. [run] is runner.run_job. *)
  Definition one_result (run : job -> jstate -> result) (s : state) (j : job) : exn + (jstate * bool * result) :=
    match state_of s (j_id j) with
    | inl x => inl x
    | inr js =>
        if can_start js then inr (js, true, run j js)
        else match refusal s (js_inhibitors js) ONotSupported with
             | inl x => inl x
             | inr o => inr (js, false, mk_result (Some o)
                          (mk_rdata None (Some (readiness_description js)) None (MemLog [])))
             end
    end.
  (** applogic.py 51-80 run_job_if_possible; [generated] is what the result of a resource job generates *)
  Definition run_job_if_possible (run : job -> jstate -> result) (update : bool) (generated : list jtree)
      (j : job) (s : state) : state * (exn + (bool * result)) :=
    match one_result run s j with
    | inl x => (s, inl x)
    | inr (_, ran, r) =>
        if update then
          match update_job_result eval_expr records_of j r generated s with
          | (s', Some x) => (s', inl x)
          | (s', None) => (s', inr (ran, r))
          end
        else (s, inr (ran, r))
    end.
  (** A caller that does so for one job after the other and stops at an exception *)
  Fixpoint run_each (run : job -> jstate -> result) (l : list job) (s : state) : state * (exn + list (bool * result)) :=
    match l with
    | [] => (s, inr [])
    | j :: l' =>
        match run_job_if_possible run true [] j s with
        | (s', inl x) => (s', inl x)
        | (s', inr y) => match run_each run l' s' with
                         | (s'', inl x) => (s'', inl x)
                         | (s'', inr ys) => (s'', inr (y :: ys))
                         end
        end
    end.
End Runone.
