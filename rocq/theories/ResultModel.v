(** * Results and their builders: /repo/plainbox/impl/result.py 210-372

    True and False are the integers 1 and 0. *)
From Coq Require Import String Ascii List Bool Arith NArith ZArith.
From Verif Require Import ScanModel Rfc822Model JsonModel IniModel Utf8Model.
Import ListNotations.
Local Open Scope nat_scope.
Local Open Scope list_scope.

Inductive value :=
| VNone
| VStr (t : ustr)
| VInt (z : Z)
| VFloat (t : text)
| VList (l : list value)
| VTuple (l : list value).

(** ** Builders *)

(** 214-231: the fields; None is UNSET *)
Record builder := mk_builder {
  b_outcome : option value;
  b_duration : option value;
  b_comments : option value;
  b_return_code : option value;
  b_io_log : option value;
  b_filename : option value
}.
Definition empty_builder := mk_builder None None None None None None.

Definition is_str (v : value) : bool := match v with VStr _ => true | _ => false end.
Definition is_int (v : value) : bool := match v with VInt _ => true | _ => false end.
Definition is_float (v : value) : bool := match v with VFloat _ => true | _ => false end.
Definition is_tuple (v : value) : bool := match v with VTuple _ => true | _ => false end.
Definition is_tuples (v : value) : bool := match v with VList l => forallb is_tuple l | _ => false end.
(** the assign filters; None is TypeError *)
Definition check (ok : value -> bool) (v : option value) : bool :=
  match v with None => true | Some v => ok v end.

Inductive attr := A_outcome | A_duration | A_comments | A_return_code | A_io_log | A_filename.
Definition attr_of (name : text) : option attr :=
  if text_eqb name (T "outcome") then Some A_outcome
  else if text_eqb name (T "execution_duration") then Some A_duration
  else if text_eqb name (T "comments") then Some A_comments
  else if text_eqb name (T "return_code") then Some A_return_code
  else if text_eqb name (T "io_log") then Some A_io_log
  else if text_eqb name (T "io_log_filename") then Some A_filename
  else None.
(** Field.__set__ (/repo/plainbox/impl/pod.py 318-346) with the filters of the class *)
Definition set_attr (a : attr) (v : option value) (b : builder) : option builder :=
  match b with
  | mk_builder o d c r l f =>
      match a with
      | A_outcome => if check is_str v then Some (mk_builder v d c r l f) else None
      | A_duration => if check is_float v then Some (mk_builder o v c r l f) else None
      | A_comments => if check is_str v then Some (mk_builder o d v r l f) else None
      | A_return_code => if check is_int v then Some (mk_builder o d c v l f) else None
      | A_io_log => if check is_tuples v then Some (mk_builder o d c r v f) else None
      | A_filename => if check is_str v then Some (mk_builder o d c r l v) else None
      end
  end.
(** JobResultBuilder with the data as keyword arguments, pod.py 391-416; None is TypeError *)
Fixpoint init_builder (data : list (text * value)) (b : builder) : option builder :=
  match data with
  | [] => Some b
  | (k, v) :: r =>
      match attr_of k with
      | None => None
      | Some a => match set_attr a (Some v) b with Some b' => init_builder r b' | None => None end
      end
  end.
(** setattr(builder, name, value): an unknown name becomes a plain attribute that nobody
    reads *)
Definition setattr_builder (k : text) (v : option value) (b : builder) : option builder :=
  match attr_of k with None => Some b | Some a => set_attr a v b end.
Fixpoint setattr_all (kw : list (text * option value)) (b : builder) : option builder :=
  match kw with
  | [] => Some b
  | (k, v) :: r => match setattr_builder k v b with Some b' => setattr_all r b' | None => None end
  end.

Definition NEWLINE : N := 10%N.
(** 233-242 add_comment *)
Definition add_comment (comment : ustr) (b : builder) : option builder :=
  match b_comments b with
  | None => set_attr A_comments (Some (VStr comment)) b
  | Some (VStr t) => set_attr A_comments (Some (VStr (t ++ NEWLINE :: comment))) b
  | Some _ => None
  end.

(** pod.py 465-476 as_dict *)
Definition item (name : text) (v : option value) : list (text * value) :=
  match v with Some v => [(name, v)] | None => [] end.
Definition as_dict (b : builder) : tdict value :=
  item (T "outcome") (b_outcome b) ++ item (T "execution_duration") (b_duration b) ++
  item (T "comments") (b_comments b) ++ item (T "return_code") (b_return_code b) ++
  item (T "io_log") (b_io_log b) ++ item (T "io_log_filename") (b_filename b).

(** ** Results *)

Inductive result_class := Memory | Disk.
Record result := mk_result { r_class : result_class; r_data : tdict value }.

(** 271-287 __init__ *)
Definition boring (v : value) : bool := match v with VNone => true | VList [] => true | _ => false end.
Definition make_result (c : result_class) (data : tdict value) : result :=
  mk_result c (filter (fun kv => negb (boring (snd kv))) data).

(** 244-262 get_result; None is ValueError *)
Definition get_result (b : builder) : option result :=
  match b_filename b, b_io_log b with
  | Some _, Some _ => None
  | Some _, None => Some (make_result Disk (as_dict b))
  | None, _ => Some (make_result Memory (as_dict b))
  end.
(** 289-294 get_builder *)
Definition get_builder (r : result) (kw : list (text * option value)) : option builder :=
  match init_builder (r_data r) empty_builder with Some b => setattr_all kw b | None => None end.

(** ANSI_ESCAPE_SEQ_RE_STR, 63: the length of a match at the beginning.  The three sets
    of characters are disjoint, so there is one way to match. *)
Local Open Scope N_scope.
Definition param (c : N) : bool := (48 <=? c) && (c <=? 63).
Definition inter (c : N) : bool := (32 <=? c) && (c <=? 47).
Definition final (c : N) : bool := (64 <=? c) && (c <=? 126).
Local Close Scope N_scope.
Fixpoint match_inter (t : ustr) : option nat :=
  match t with
  | [] => None
  | c :: r => if inter c then option_map S (match_inter r) else if final c then Some 1 else None
  end.
Fixpoint match_param (t : ustr) : option nat :=
  match t with
  | [] => None
  | c :: r => if param c then option_map S (match_param r) else match_inter t
  end.
Definition match_escape (t : ustr) : option nat :=
  match t with
  | c :: r =>
      if N.eqb c 155 then option_map S (match_param r)
      else if N.eqb c 27 then
        match r with
        | d :: r' => if N.eqb d 91 then option_map (fun n => S (S n)) (match_param r') else None
        | [] => None
        end
      else None
  | [] => None
  end.
(** re.sub with the empty text *)
Fixpoint remove_escapes (skip : nat) (t : ustr) : ustr :=
  match t with
  | [] => []
  | c :: r =>
      match skip with
      | S n => remove_escapes n r
      | 0 => match match_escape t with
             | Some n => remove_escapes (n - 1) r
             | None => c :: remove_escapes 0 r
             end
      end
  end.

(** 312-371: the properties; None is None *)
Definition get_data (r : result) (k : text) : option value := tget k (r_data r).
Definition r_outcome (r : result) : option value := get_data r (T "outcome").
Definition r_duration (r : result) : option value := get_data r (T "execution_duration").
Definition r_return_code (r : result) : option value := get_data r (T "return_code").
Definition r_filename (r : result) : option value := get_data r (T "io_log_filename").
Definition r_io_log (r : result) : option value := get_data r (T "io_log").
(** comments; the data holds texts there *)
Definition r_comments (r : result) : option value :=
  match get_data r (T "comments") with
  | Some (VStr t) => Some (VStr (remove_escapes 0 t))
  | o => o
  end.
(** 432-446 *)
Definition is_hollow (r : result) : bool := match r_data r with [] => true | _ => false end.
