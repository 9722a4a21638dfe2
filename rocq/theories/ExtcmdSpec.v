(** What a delegate should see of the output of a command. *)
From Coq Require Import Ascii List Bool ZArith.
From Verif Require Import ExtcmdModel.
Import ListNotations.
Open Scope list_scope.

(** The data delivered for one stream, in order. *)
Definition data_of (x : stream) (l : list event) : list bytes :=
  flat_map (fun e => match e with
                     | Data y d => if stream_eqb x y then [d] else []
                     | _ => []
                     end) l.

(** [lines_of t l]: [l] are the lines of the text [t]: each ends with a newline
    and contains no other one, except that the last may lack its newline. *)
Inductive lines_of : bytes -> list bytes -> Prop :=
| lo_nil : lines_of [] []
| lo_last l : l <> [] -> ~ In NL l -> lines_of l [l]
| lo_line l t ls : ~ In NL l -> lines_of t ls -> lines_of (l ++ NL :: t) ((l ++ [NL]) :: ls).

(** How the output of one stream is cut up: into lines, or into single bytes. *)
Definition cut (chunked : bool) (t : bytes) (l : list bytes) : Prop :=
  if chunked then l = map (fun b => [b]) t else lines_of t l.

(** The notification at the end. *)
Definition final_event (rc : Z) : event :=
  if (rc <? 0)%Z then AbnormalEnd (- rc) else Ended rc.

(** A notification about data or about an interrupt. *)
Definition in_between (e : event) : Prop :=
  match e with Data _ _ | Interrupt => True | _ => False end.
