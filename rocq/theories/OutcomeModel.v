(** Session summaries: plainbox/impl/session/state.py:945-980 and 1282-1427. *)
From Coq Require Import String List Bool ZArith.
From Verif Require Import Base JobModel SessionModel.
Import ListNotations.
Open Scope string_scope.
Open Scope list_scope.

(** What the summaries read from one entry of the job state map: its key, the
    effective category, the plugin of the job, the outcome of the result and
    the effective certification status. *)
Record entry := mk_entry {
  en_id : name;
  en_category : name;
  en_plugin : name;
  en_outcome : option outcome;
  en_cert : name
}.

(** Reading the key of a dictionary indexed by outcomes. *)
Fixpoint oget (o : outcome) (d : list (outcome * nat)) : option nat :=
  match d with
  | [] => None
  | (o', n) :: d' => if outcome_beq o o' then Some n else oget o d'
  end.

(** [stats[o] += 1] on a defaultdict(int) *)
Fixpoint oinc (o : outcome) (d : list (outcome * nat)) : list (outcome * nat) :=
  match d with
  | [] => [(o, 1)]
  | (o', n) :: d' => if outcome_beq o o' then (o', S n) :: d' else (o', n) :: oinc o d'
  end.

(** plainbox/impl/session/state.py:1282-1298 get_outcome_stats *)
Definition get_outcome_stats (l : list entry) : list (outcome * nat) :=
  fold_left (fun stats e =>
    match en_outcome e with None => stats | Some o => oinc o stats end) l [].

(** plainbox/impl/session/state.py:1300-1314 category_map.  [units] are the
    category units of the session as (id, translated name). *)
Definition category_map (units : list (name * string)) (l : list entry) : dict string :=
  let wanted :=
    map en_category
      (filter (fun e =>
         (match en_outcome e with None => false | Some _ => true end
          && negb (smem (en_plugin e) ["resource"; "attachment"]))%bool) l) in
  fold_left (fun m u => if smem (fst u) wanted then dset (fst u) (snd u) m else m) units [].

(** The three-way update shared by the loops of lines 1330-1346, 1360-1374 and
    1386-1400. *)
Definition combine (acc : outcome) (child : option outcome) : outcome :=
  match child with
  | Some OFail | Some OCrash => OFail
  | _ =>
      if (match child with Some OPass => true | _ => false end
          && negb (outcome_beq acc OFail))%bool
      then OPass
      else if negb (outcome_beq acc OPass || outcome_beq acc OFail)%bool then OSkip
      else acc
  end.

(** plainbox/impl/session/state.py:1316-1347 category_outcome_map *)
Definition category_outcome_map (l : list entry) : dict outcome :=
  let wanted :=
    map en_category
      (filter (fun e => match en_outcome e with None => false | Some _ => true end) l) in
  fold_left (fun m e =>
    if smem (en_category e) wanted then
      let m1 := if dmem (en_category e) m then m else dset (en_category e) OSkip m in
      match dget (en_category e) m1 with
      | Some acc => dset (en_category e) (combine acc (en_outcome e)) m1
      | None => m1
      end
    else m) l [].

(** plainbox/impl/session/state.py:1349-1401 resource_global_outcome
    ([plugin] = "resource") and attachment_global_outcome ([plugin] =
    "attachment"). *)
Definition plugin_global_outcome (plugin : name) (l : list entry) : outcome :=
  fold_left (fun acc e =>
    if (negb (String.eqb (en_plugin e) plugin)
        || match en_outcome e with None => true | Some _ => false end)%bool
    then acc
    else combine acc (en_outcome e)) l OSkip.

(** plainbox/impl/session/state.py:1403-1427 get_certification_status_map *)
Definition get_certification_status_map (outcomes : list (option outcome))
    (statuses : list name) (l : list entry) : list entry :=
  filter (fun e =>
    (existsb (fun o => match o, en_outcome e with
                       | None, None => true
                       | Some a, Some b => outcome_beq a b
                       | _, _ => false
                       end) outcomes
     && smem (en_cert e) statuses)%bool) l.

Section Duration.
  (** Seconds; Python floats or ints, of which only 0 and + are used. *)
  Variable seconds : Type.
  Variable zero : seconds.
  Variable add : seconds -> seconds -> seconds.

  (** A job of the run list: automated (plainbox/impl/unit/job.py:570-575),
      estimated_duration (425-464) and whether it has a command. *)
  Record timed := mk_timed {
    t_automated : bool;
    t_estimate : option seconds;
    t_command : bool
  }.

  (** plainbox/impl/session/state.py:966-980, the loop of
      get_estimated_duration *)
  Definition duration_step (overhead : seconds) (acc : option seconds * option seconds)
      (j : timed) : option seconds * option seconds :=
    let (automated, manual) := acc in
    match t_automated j, automated, manual with
    | true, Some a, _ =>
        match t_estimate j with
        | Some d => (Some (add a d), manual)
        | None => (None, manual)
        end
    | true, None, _ => acc
    | false, _, Some m =>
        let m := add m overhead in
        match t_estimate j with
        | Some d => (automated, Some (add m d))
        | None => if t_command j then (automated, None) else (automated, Some m)
        end
    | false, _, None => acc
    end.

  (** plainbox/impl/session/state.py:945-980 get_estimated_duration *)
  Definition get_estimated_duration (overhead : seconds) (run_list : list timed)
      : option seconds * option seconds :=
    fold_left (duration_step overhead) run_list (Some zero, Some zero).
End Duration.
