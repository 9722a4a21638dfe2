(** * Exceptions that are sent to the other side: plainbox/vendor/rpyc/core/vinegar.py
    (the branches for Python 3) *)
From Coq Require Import String Ascii List Bool Arith NArith ZArith.
From Verif Require Import Utf8Model BrineModel.
Import ListNotations.
Local Open Scope list_scope.

(** Notation for texts *)
Definition U (s : string) : ustr := map N_of_ascii (list_ascii_of_string s).
(** == on texts *)
Fixpoint ueqb (a b : ustr) : bool :=
  match a, b with [], [] => true | x :: a, y :: b => N.eqb x y && ueqb a b | _, _ => false end.

(** Classes, and what can be found in modules: [c_exception] is issubclass(cls, BaseException) *)
Record class := Class { c_module : ustr; c_name : ustr; c_exception : bool }.
Inductive thing := A_class (c : class) | A_thing.
(** What raised an exception.  [e_dir] are the names of dir(val), with what getattr gives, where
    None is AttributeError; [e_stop]: its class is StopIteration *)
Record exception := Exception_ { e_stop : bool; e_class : class; e_args : list val; e_dir : list (ustr * option val) }.

Section Sides.
  Variable repr : val -> ustr.                                   (* repr() *)

  (** 63-67, 76-77: a value, or its repr if it cannot be sent *)
  Definition simple (v : val) : val := if dumpable v then v else VStr (repr v).
  (** 61-78 the loop of dump over dir(val) *)
  Fixpoint gather (args : list val) (dir : list (ustr * option val)) : list val * list val :=
    match dir with
    | [] => ([], [])
    | (name, got) :: r =>
        let (xs, attrs) := gather args r in
        if ueqb name (U "args") then (map simple args ++ xs, attrs)
        else if match name with c :: _ => N.eqb c (N_of_ascii "_") | [] => false end
                || ueqb name (U "_remote_tb") || ueqb name (U "with_traceback") then (xs, attrs)
        else match got with
             | None => (xs, attrs)
             | Some v => (xs, VTuple [VStr name; simple v] :: attrs)
             end
    end.
  (** 49-79 dump; [formatted] is the text of the traceback *)
  Definition dump_exception (local_traceback : bool) (formatted : ustr) (e : exception) : val :=
    if e_stop e then VInt 1
    else
      let tb := if local_traceback then formatted else U "<traceback denied>" in
      let (args, attrs) := gather (e_args e) (e_dir e) in
      VTuple [VTuple [VStr (c_module (e_class e)); VStr (c_name (e_class e))]; VTuple args; VTuple attrs; VStr tb].

  (** ** Loading *)
  (** What a module has *)
  Definition module := ustr -> option thing.
  (** The process that loads: sys.modules, the modules that it was made to import, and the names of
      the generic classes in the order of their creation *)
  Record world := World { w_modules : list (ustr * module); w_imports : list ustr; w_generic : list ustr }.
  Variable importable : ustr -> option module.                   (* __import__; None when it fails *)
  Variable builtins : module.                                    (* the module builtins *)
  Variable settable : option class -> ustr -> val -> bool.       (* setattr() does not raise *)

  (** Looking up a name *)
  Fixpoint get {A} (k : ustr) (l : list (ustr * A)) : option A :=
    match l with [] => None | (x, a) :: r => if ueqb x k then Some a else get k r end.

  (** What is returned: an exception of a class that there is, or of the generic class number n *)
  Inductive kind := Real (c : class) | Generic (n : nat).
  Record loaded := Loaded { l_kind : kind; l_args : list val; l_attrs : list (ustr * val); l_tb : val }.
  Inductive outcome := Got (x : loaded) | Got_stop | Got_text (t : ustr) | Fails.

  (** 109-113: importing the module *)
  Definition do_import (custom : bool) (m : ustr) (w : world) : world :=
    match get m (w_modules w) with
    | Some _ => w
    | None => if custom then
                World (match importable m with Some x => (m, x) :: w_modules w | None => w_modules w end) (w_imports w ++ [m]) (w_generic w)
              else w
    end.
  (** 115-126: the class, if it may be made *)
  Definition find_class (instantiate : bool) (m c : ustr) (w : world) : option class :=
    let found :=
      if instantiate then match get m (w_modules w) with Some x => x c | None => None end
      else if ueqb m (U "builtins") then builtins c else None in
    match found with Some (A_class k) => if c_exception k then Some k else None | _ => None end.
  (** 136-146: the generic class of a name *)
  Fixpoint position (x : ustr) (l : list ustr) : option nat :=
    match l with [] => None | y :: r => if ueqb y x then Some 0 else match position x r with Some n => Some (S n) | None => None end end.
  Definition generic (m c : ustr) (w : world) : world * nat :=
    let full := m ++ U "." ++ c in
    match position full (w_generic w) with
    | Some n => (w, n)
    | None => (World (w_modules w) (w_imports w) (w_generic w ++ [full]), length (w_generic w))
    end.
  (** 157-158: setattr for each; the last of several counts.  None when it cannot be unpacked or set *)
  Fixpoint set_all (k : option class) (attrs : list val) (got : list (ustr * val)) : option (list (ustr * val)) :=
    match attrs with
    | [] => Some got
    | VTuple [VStr n; v] :: r => if settable k n v then set_all k r ((n, v) :: got) else None
    | _ :: _ => None
    end.
  (** 103-160 load.  Arguments that are not a tuple, and names that are not texts, are taken for
      mistakes, as is a class that cannot be made without arguments. *)
  Definition load_exception (import_custom instantiate : bool) (v : val) (w : world) : world * outcome :=
    match v with
    | VInt 1 => (w, Got_stop)
    | VStr t => (w, Got_text t)
    | VTuple [VTuple [VStr m; VStr c]; VTuple args; VTuple attrs; tb] =>
        let w1 := do_import import_custom m w in
        match find_class instantiate m c w1 with
        | Some k =>
            (w1, match set_all (Some k) attrs [] with Some l => Got (Loaded (Real k) args l tb) | None => Fails end)
        | None =>
            let (w2, n) := generic m c w1 in
            (w2, match set_all None attrs [] with Some l => Got (Loaded (Generic n) args l tb) | None => Fails end)
        end
    | _ => (w, Fails)
    end.
End Sides.
