(** Resource programs: plainbox/impl/resource.py. *)
From Coq Require Import String Ascii List Bool Arith.
Import ListNotations.
Open Scope string_scope.
Open Scope list_scope.

(** ** Syntax trees (the ast module)

    Classes of nodes other than Name and Call.  [Cmpop] and [Boolop] stand for
    all subclasses of ast.cmpop and ast.boolop (with the name of the subclass),
    [Other] for every class that is not named in the white list, such as
    operator, unaryop, Subscript, Lambda, NameConstant. *)
Inductive cls :=
| Module | Expr | Attribute (attr : string) | BinOp | BoolOp | Compare | List_ | Num (n : nat) | Str (s : string)
| Tuple | UnaryOp | Cmpop (op : string) | Boolop (op : string) | Load | Other (name : string).

(** A node with its child nodes in the order of ast.iter_fields; the context of a
    Name, which visit_Name does not look at, is left out. *)
Inductive node :=
| Name (id : string)
| Call (func : node) (args : list node)
| Node (c : cls) (children : list node).

(** 349-377 _allowed_node_cls_list *)
Definition allowed (c : cls) : bool := match c with Other _ => false | _ => true end.

(** 340-345 _allowed_call_func_list *)
Definition allowed_calls : list string := ["len"; "bool"; "int"; "float"].

Definition mem (x : string) (l : list string) : bool := existsb (String.eqb x) l.

(** What the analysis of an expression may raise. *)
Inductive problem := CodeNotAllowed (n : node) | NoAttribute | NoResources | SyntaxErr | PySyntaxErr.

(** 399-446: visiting a node with the ids seen so far *)
Fixpoint visit (n : node) (seen : list string) {struct n} : list string + problem :=
  match n with
  | Name id => inl (if mem id seen then seen else seen ++ [id])          (* 399-409 *)
  | Call f args =>                                                        (* 411-422 *)
      match f with
      | Name id => if mem id allowed_calls then inl seen else inr (CodeNotAllowed n)
      | _ => inr NoAttribute   (* node.func.id: AttributeError *)
      end
  | Node c children =>                                                    (* 424-444 *)
      if allowed c then
        (fix visit_list (l : list node) (seen : list string) : list string + problem :=
           match l with
           | [] => inl seen
           | x :: r =>
               match visit x seen with
               | inl seen' => visit_list r seen'
               | inr p => inr p
               end
           end) children seen
      else inr (CodeNotAllowed n)
  end.

(** ** Expressions *)

(** A line of a program as python reads it: no syntax tree, or the statements of
    the module and whether the text is a tuple without parentheses. *)
Inductive source := BadSyntax | Source (body : list node) (bare_tuple : bool).

(** 627-650 _analyze *)
Definition analyze (src : source) : list string + problem :=
  match src with
  | BadSyntax => inr SyntaxErr
  | Source body _ =>
      match visit (Node Module body) [] with
      | inr p => inr p
      | inl [] => inr NoResources
      | inl ids => inl ids
      end
  end.

(** 507-514: the id of an alias *)
Fixpoint imported (alias : string) (imports : list (string * string)) : string :=
  match imports with
  | [] => alias
  | (id, a) :: r => if String.eqb a alias then id else imported alias r
  end.

(** sub in text *)
Fixpoint contains (sub text : string) : bool :=
  (String.prefix sub text || match text with EmptyString => false | String _ r => contains sub r end)%bool.

(** "{}::{}".format *)
Definition qualify (ns id : string) : string := String.append ns (String.append "::" id).

(** 550-555 resource_id_list, for one id *)
Definition qualified (ns : option string) (id : string) : string :=
  match ns with
  | None => id
  | Some n => if negb (contains "::" id) && negb (String.eqb n "") then qualify n id else id
  end.

Record expression := mk_expression {
  e_aliases : list string;        (* _resource_alias_list *)
  e_ids : list string;            (* resource_id_list *)
  e_body : option node            (* the body of _lambda; None if it is a tuple and not a function *)
}.

(** 493-517 ResourceExpression.  The text of the lambda (516-517) is only one
    expression if the text is one statement; a tuple without parentheses makes
    a tuple of a lambda and other things. *)
Definition make_expression (ns : option string) (imports : list (string * string)) (src : source)
  : expression + problem :=
  match analyze src with
  | inr p => inr p
  | inl aliases =>
      let ids := map (fun a => qualified ns (imported a imports)) aliases in
      match src with
      | Source [Node Expr [b]] false => inl (mk_expression aliases ids (Some b))
      | Source [Node Expr [b]] true => inl (mk_expression aliases ids None)
      | _ => inr PySyntaxErr
      end
  end.

(** 202-215 ResourceProgram, from the lines that are not blank *)
Fixpoint make_program (ns : option string) (imports : list (string * string)) (lines : list source)
  : list expression + problem :=
  match lines with
  | [] => inl []
  | src :: r =>
      match make_expression ns imports src with
      | inr p => inr p
      | inl e => match make_program ns imports r with inr p => inr p | inl es => inl (e :: es) end
      end
  end.

(** 223-232 required_resources, as a list *)
Definition required_resources (es : list expression) : list string := flat_map e_ids es.

(** ** Evaluation *)

Section Eval.
  (** Values and what python does with them; None when an exception is raised. *)
  Variable value : Type.
  Variable truth : value -> bool.
  Variable constant : cls -> option value.                    (* numbers and strings *)
  Variable attribute : value -> string -> option value.
  Variable compare : string -> value -> value -> option value.
  Variable sequence : cls -> list value -> option value.      (* lists and tuples *)
  Variable call : string -> list value -> option value.
  Variable global : string -> option value.

  (** [eval env n]: n evaluated with the names in [env] bound.  Chained
      comparisons and boolean operators stop as soon as the result is known. *)
  Fixpoint eval (env : list (string * value)) (n : node) {struct n} : option value :=
    match n with
    | Name id =>
        match find (fun p => String.eqb id (fst p)) env with
        | Some (_, v) => Some v
        | None => global id
        end
    | Call (Name f) args =>
        match (fix go (l : list node) : option (list value) :=
                 match l with
                 | [] => Some []
                 | x :: r => match eval env x with
                             | None => None
                             | Some v => match go r with None => None | Some vs => Some (v :: vs) end
                             end
                 end) args with
        | None => None
        | Some vs => call f vs
        end
    | Call _ _ => None
    | Node (Attribute a) (x :: _) => match eval env x with Some v => attribute v a | None => None end
    | Node BoolOp (Node (Boolop op) _ :: xs) =>
        (fix go (l : list node) : option value :=
           match l with
           | [] => None
           | x :: r => match eval env x with
                       | None => None
                       | Some v => match r with
                                   | [] => Some v
                                   | _ => if Bool.eqb (truth v) (String.eqb op "Or") then Some v else go r
                                   end
                       end
           end) xs
    | Node Compare (x :: rest) =>
        (* left, the operators, the other operands; they alternate here *)
        match eval env x with
        | None => None
        | Some v =>
            (fix go (l : list node) (left : value) (acc : value) : option value :=
               match l with
               | Node (Cmpop op) _ :: y :: r =>
                   match eval env y with
                   | None => None
                   | Some w =>
                       match compare op left w with
                       | None => None
                       | Some b => if truth b then go r w b else Some b
                       end
                   end
               | _ => Some acc
               end) rest v v
        end
    | Node List_ xs =>
        match (fix go (l : list node) : option (list value) :=
                 match l with
                 | [] => Some []
                 | x :: r => match eval env x with
                             | None => None
                             | Some v => match go r with None => None | Some vs => Some (v :: vs) end
                             end
                 end) xs with
        | None => None
        | Some vs => sequence List_ vs
        end
    | Node Tuple xs =>
        match (fix go (l : list node) : option (list value) :=
                 match l with
                 | [] => Some []
                 | x :: r => match eval env x with
                             | None => None
                             | Some v => match go r with None => None | Some vs => Some (v :: vs) end
                             end
                 end) xs with
        | None => None
        | Some vs => sequence Tuple vs
        end
    | Node c _ => constant c
    end.

  (** itertools.product *)
  Fixpoint product (ls : list (list value)) : list (list value) :=
    match ls with
    | [] => [[]]
    | l :: r => flat_map (fun x => map (cons x) (product r)) l
    end.

  (** self._lambda of a list of values, 607 *)
  Definition apply_lambda (e : expression) (pack : list value) : option value :=
    match e_body e with
    | None => None     (* a tuple is not callable: TypeError *)
    | Some b => if Nat.eqb (length pack) (length (e_aliases e)) then eval (combine (e_aliases e) pack) b else None
    end.

  (** 589-625 evaluate: the first true result; exceptions are like false *)
  Fixpoint try_packs (e : expression) (packs : list (list value)) : bool :=
    match packs with
    | [] => false
    | p :: r =>
        match apply_lambda e p with
        | None => try_packs e r
        | Some v => if truth v then true else try_packs e r
        end
    end.
  Definition evaluate (e : expression) (lists : list (list value)) : bool := try_packs e (product lists).

  (** Resource maps, from ids to lists of records. *)
  Definition rmap := list (string * list value).
  Fixpoint lookup (m : rmap) (id : string) : option (list value) :=
    match m with
    | [] => None
    | (k, l) :: r => if String.eqb k id then Some l else lookup r id
    end.
  Definition lookup0 (m : rmap) (id : string) : list value :=
    match lookup m id with Some l => l | None => [] end.

  Inductive verdict := Holds | Cannot (e : expression) (id : string) | Failed (e : expression).

  (** 234-261 evaluate_or_raise: 247-251 *)
  Fixpoint missing_id (m : rmap) (ids : list string) : option string :=
    match ids with
    | [] => None
    | i :: r => match lookup m i with None => Some i | Some _ => missing_id m r end
    end.
  Fixpoint check_ids (m : rmap) (es : list expression) : option (expression * string) :=
    match es with
    | [] => None
    | e :: r => match missing_id m (e_ids e) with Some i => Some (e, i) | None => check_ids m r end
    end.
  (** 253-260 *)
  Fixpoint evaluate_all (m : rmap) (es : list expression) : verdict :=
    match es with
    | [] => Holds
    | e :: r => if evaluate e (map (lookup0 m) (e_ids e)) then evaluate_all m r else Failed e
    end.
  Definition evaluate_or_raise (m : rmap) (es : list expression) : verdict :=
    match check_ids m es with
    | Some (e, i) => Cannot e i
    | None => evaluate_all m es
    end.
End Eval.

(** ** Import statements *)

(** 671-697 one line, from its words; None stands for ValueError.  The check for
    a namespace with two colons comes before the check of the third word. *)
Definition parse_import (parts : list string) : option (string * string) :=
  match parts with
  | [p0; ns; p2; job] | [p0; ns; p2; job; _; _] =>
      if negb (String.eqb p0 "from") then None
      else if contains "::" ns then None
      else if negb (String.eqb p2 "import") then None
      else if contains "::" job then None
      else match parts with
           | [_; _; _; _; p4; alias] => if negb (String.eqb p4 "as") then None else Some (qualify ns job, alias)
           | _ => Some (qualify ns job, job)
           end
  | _ => None
  end.
(** 652-697 all lines, when the generator is exhausted *)
Fixpoint parse_imports (lines : list (list string)) : option (list (string * string)) :=
  match lines with
  | [] => Some []
  | l :: r =>
      match parse_import l with
      | None => None
      | Some x => match parse_imports r with None => None | Some xs => Some (x :: xs) end
      end
  end.
