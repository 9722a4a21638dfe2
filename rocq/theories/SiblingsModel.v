(** * Jobs made from a job: plainbox/impl/session/state.py 1111-1181

    Adding a job to a session also adds its siblings and its copies that run after a suspend.
    Here is the sequence of jobs that are added; what adding one does to the session is in
    SessionModel.v.  The values of overrides are texts. *)
From Coq Require Import Ascii List Bool Arith.
From Verif Require Import ScanModel JsonModel Rfc822Model XparseModel FieldsModel.
Import ListNotations.
Open Scope char_scope.
Local Open Scope nat_scope.
Open Scope list_scope.

Definition k_siblings : text := ["s"; "i"; "b"; "l"; "i"; "n"; "g"; "s"].
Definition w_after : text := ["a"; "l"; "s"; "o"; "-"; "a"; "f"; "t"; "e"; "r"; "-"; "s"; "u"; "s"; "p"; "e"; "n"; "d"].
Definition w_manual : text := w_after ++ ["-"; "m"; "a"; "n"; "u"; "a"; "l"].
Definition w_prefix : text := ["a"; "f"; "t"; "e"; "r"; "-"; "s"; "u"; "s"; "p"; "e"; "n"; "d"; "-"].
Definition w_prefix_manual : text := w_prefix ++ ["m"; "a"; "n"; "u"; "a"; "l"; "-"].
Definition w_suffix : text := [" "; "a"; "f"; "t"; "e"; "r"; " "; "s"; "u"; "s"; "p"; "e"; "n"; "d"; " "; "("; "S"; "3"; ")"].
Definition w_suspend : text :=
  ["c"; "o"; "m"; "."; "c"; "a"; "n"; "o"; "n"; "i"; "c"; "a"; "l"; "."; "c"; "e"; "r"; "t"; "i"; "f"; "i"; "c"; "a"; "t"; "i"; "o"; "n"; ":"; ":";
   "s"; "u"; "s"; "p"; "e"; "n"; "d"; "/"; "s"; "u"; "s"; "p"; "e"; "n"; "d"; "_"; "a"; "d"; "v"; "a"; "n"; "c"; "e"; "d"].
Definition w_suspend_auto : text := w_suspend ++ ["_"; "a"; "u"; "t"; "o"].
Definition w_None : text := ["N"; "o"; "n"; "e"].

(** str.endswith *)
Definition ends_with (suffix t : text) : bool := match drop_prefix (rev suffix) (rev t) with Some _ => true | None => false end.
(** str.replace with the empty text: from left to right, each occurrence of the pattern is
    left out; [skip] characters of an occurrence are still to be left out *)
Fixpoint leave_out (pat : text) (skip : nat) (t : text) : text :=
  match t with
  | [] => []
  | c :: r =>
      match skip with
      | S k => leave_out pat k r
      | 0 => match drop_prefix pat t with
             | Some _ => leave_out pat (length pat - 1) r
             | None => c :: leave_out pat 0 r
             end
      end
  end.

(** The overrides in the field: json.loads gives a list of objects; anything else raises *)
Fixpoint strings (kvs : list (text * json)) : option (list (text * text)) :=
  match kvs with
  | [] => Some []
  | (k, JStr v) :: r => match strings r with Some l => Some ((k, v) :: l) | None => None end
  | _ => None
  end.
Fixpoint objects (l : list json) : list (list (text * text)) * bool :=
  match l with
  | [] => ([], true)
  | JObj kvs :: r =>
      match strings kvs with
      | Some o => let (os, ok) := objects r in (o :: os, ok)
      | None => ([], false)
      end
  | _ => ([], false)
  end.
Definition overrides (t : text) : list (list (text * text)) * bool :=
  match loads t with Some (JList l) => objects l | _ => ([], false) end.

Section Siblings.
  Variable P : Type.
  Variable vformat : P -> text -> text + fault.
  Variable render : option P -> text -> text.
  Notation unit_ := (unit_ P).

  (** JobDefinition(data, ..., provider=new_job.provider, parameters=new_job.parameters):
      1118-1126 and elsewhere; the raw data is the data (unit.py 415-416) *)
  Definition made (u : unit_) (data : list (text * text)) : unit_ := mk_unit P data data (f_provider _ u) (f_params _ u).
  (** 1114-1117 *)
  Definition inherited (u : unit_) : list (text * text) := filter (fun kv => negb (ends_with k_siblings (fst kv))) (f_data _ u).
  (** 1113-1126 *)
  Definition sibling (u : unit_) (o : list (text * text)) : unit_ :=
    made u (fold_left (fun d kv => tset (fst kv) (snd kv) d) o (inherited u)).
  (** str.format of what may be None *)
  Definition shown (o : option text) : text := match o with Some t => t | None => w_None end.
  (** 1129-1154 and 1156-1181 *)
  Definition copy (manual : bool) (u : unit_) : unit_ + fault :=
    let data := inherited u in
    match tget k_flags data with
    | None => inr (Key_error k_flags)
    | Some flags =>
        let data := tset k_flags (leave_out w_manual 0 (leave_out w_after 0 flags)) data in
        rbind (partial_id P vformat render u) (fun i =>
        let data := tset k_id ((if manual then w_prefix_manual else w_prefix) ++ shown i) data in
        rbind (summary P vformat render u) (fun s =>
        let data := tset (UNDERSCORE :: k_summary) (shown s ++ w_suffix) data in
        rbind (record_value P vformat render u k_depends None) (fun d =>
        rbind (job_id P vformat render u) (fun full =>
        rbind match d with
              | Some (_ :: _) =>
                  match tget k_depends data with
                  | Some t => inl (t ++ " " :: shown full)
                  | None => inr (Key_error k_depends)
                  end
              | _ => inl (shown full)
              end (fun t =>
        inl (made u (tset k_depends (t ++ " " :: (if manual then w_suspend else w_suspend_auto)) data)))))))
    end.

  (** The jobs made from one job, in order, and how it ends if not well *)
  Definition siblings_of (u : unit_) : list unit_ * option fault :=
    match record_value P vformat render u k_siblings None with
    | inr e => ([], Some e)
    | inl (Some (_ :: _)) =>
        match translated_value P vformat render u k_siblings None with
        | inl (Some t) => let (os, ok) := overrides t in (map (sibling u) os, if ok then None else Some Other_error)
        | inl None => ([], Some Other_error)
        | inr e => ([], Some e)
        end
    | inl _ => ([], None)
    end.
  Definition copy_of (manual : bool) (u : unit_) : list unit_ * option fault :=
    match flag_set P vformat render u with
    | inr e => ([], Some e)
    | inl fl =>
        if existsb (text_eqb (if manual then w_manual else w_after)) fl
        then match copy manual u with inl c => ([c], None) | inr e => ([], Some e) end
        else ([], None)
    end.
  Definition andthen (a b : list unit_ * option fault) : list unit_ * option fault :=
    match a with (l, None) => (l ++ fst b, snd b) | _ => a end.
  Definition children (u : unit_) : list unit_ * option fault :=
    andthen (siblings_of u) (andthen (copy_of false u) (copy_of true u)).

  (** _add_job_unit and _add_job_siblings_unit call each other: the jobs that are added, in
      order.  [Deep] is a recursion that is deeper than the fuel. *)
  Inductive ending := Well | Fails (e : fault) | Deep.
  Fixpoint adds (fuel : nat) (u : unit_) : list unit_ * ending :=
    match fuel with
    | 0 => ([], Deep)
    | S n =>
        let fix all (l : list unit_) (last : option fault) : list unit_ * ending :=
          match l with
          | [] => ([], match last with None => Well | Some e => Fails e end)
          | c :: r =>
              match adds n c with
              | (a, Well) => let (b, e) := all r last in (a ++ b, e)
              | (a, e) => (a, e)
              end
          end in
        let (l, e) := all (fst (children u)) (snd (children u)) in (u :: l, e)
    end.
End Siblings.
