(** What session summaries should say. *)
From Coq Require Import String List Bool.
From Verif Require Import Base JobModel SessionModel OutcomeModel.
Import ListNotations.
Open Scope list_scope.

(** [verdict l o]: [o] is the overall outcome of the outcomes [l]: a failure or
    crash makes it a failure, otherwise a pass makes it a pass, otherwise it is
    a skip. *)
Definition verdict (l : list (option outcome)) (o : outcome) : Prop :=
  ((In (Some OFail) l \/ In (Some OCrash) l) /\ o = OFail) \/
  (~ In (Some OFail) l /\ ~ In (Some OCrash) l /\ In (Some OPass) l /\ o = OPass) \/
  (~ In (Some OFail) l /\ ~ In (Some OCrash) l /\ ~ In (Some OPass) l /\ o = OSkip).

(** The outcomes of the jobs of a category. *)
Definition outcomes_in_category (c : name) (l : list entry) : list (option outcome) :=
  map en_outcome (filter (fun e => String.eqb (en_category e) c) l).

(** The outcomes of the jobs of one plugin that ran. *)
Definition outcomes_of_plugin (p : name) (l : list entry) : list (option outcome) :=
  map en_outcome (filter (fun e => String.eqb (en_plugin e) p) l).

(** How many jobs ended with an outcome. *)
Definition occurrences (o : outcome) (l : list entry) : nat :=
  length (filter (fun e => match en_outcome e with
                           | Some x => outcome_beq x o | None => false end) l).
