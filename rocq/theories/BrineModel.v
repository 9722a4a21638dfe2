(** * Values as bytes: /repo/plainbox/vendor/rpyc/core/brine.py

    The Python 3 half of the module ([is_py3k], lib/compat.py 8).  Texts are lists of
    code points, byte strings are lists of characters.  RecursionError on deeply nested
    values, MemoryError, and the limit on the digits of numbers of later versions of
    CPython are not modelled. *)
From Coq Require Import String Ascii List Bool Arith NArith ZArith.
From Verif Require Import ScanModel Rfc822Model JsonModel IologModel IniModel Utf8Model ConfigModel.
Import ListNotations.
Local Open Scope N_scope.
Local Open Scope list_scope.

(** An object, as far as the module looks at it.  A float is its IEEE 754 bit pattern,
    a complex number two of them, a frozenset the list of its elements in the order it
    is iterated in; [VOther] is an object of any other type, also of a subclass of one
    of those types (type(obj) is the key of the registry, 202). *)
Inductive val :=
| VNone | VNotImplemented | VEllipsis
| VBool (b : bool) | VInt (z : Z) | VFloat (x : N) | VComplex (x y : N)
| VBytes (s : bytes) | VStr (t : ustr)
| VTuple (l : list val) | VFset (l : list val) | VSlice (a b c : val)
| VOther (n : nat).

Inductive exn := TypeError | ValueError | AttributeError | StructError | UnicodeEncodeError | UnicodeDecodeError.
Inductive res (A : Type) := Ok (a : A) | Raised (e : exn) | Out_of_fuel.
Arguments Ok {A}. Arguments Raised {A}. Arguments Out_of_fuel {A}.
Definition bind {A B} (a : res A) (f : A -> res B) : res B :=
  match a with Ok a => f a | Raised e => Raised e | Out_of_fuel => Out_of_fuel end.

(** ** Numbers of a fixed size: struct with "!", the most significant byte first *)
Definition byte (n : N) : ascii := ascii_of_N n.
Fixpoint pack (k : nat) (n : N) : bytes :=
  match k with O => [] | S k => pack k (n / 256) ++ [byte (n mod 256)] end.
Definition unpack_all (s : bytes) : N := fold_left (fun n c => n * 256 + N_of_ascii c) s 0.
(** Struct.pack raises struct.error when the number does not fit, Struct.unpack when
    there are not exactly that many bytes *)
Definition pack_size (k : nat) (n : N) : res bytes :=
  if n <? 256 ^ N.of_nat k then Ok (pack k n) else Raised StructError.
Definition unpack_size (k : nat) (s : bytes) : res N :=
  if Nat.eqb (length s) k then Ok (unpack_all s) else Raised StructError.

(** ** Tags, 25-52 *)
Definition TAG_NONE := byte 0. Definition TAG_EMPTY_STR := byte 1. Definition TAG_EMPTY_TUPLE := byte 2.
Definition TAG_TRUE := byte 3. Definition TAG_FALSE := byte 4. Definition TAG_NOT_IMPLEMENTED := byte 5.
Definition TAG_ELLIPSIS := byte 6. Definition TAG_UNICODE := byte 8. Definition TAG_LONG := byte 9.
Definition TAG_STR1 := byte 10. Definition TAG_STR2 := byte 11. Definition TAG_STR3 := byte 12.
Definition TAG_STR4 := byte 13. Definition TAG_STR_L1 := byte 14. Definition TAG_STR_L4 := byte 15.
Definition TAG_TUP1 := byte 16. Definition TAG_TUP2 := byte 17. Definition TAG_TUP3 := byte 18.
Definition TAG_TUP4 := byte 19. Definition TAG_TUP_L1 := byte 20. Definition TAG_TUP_L4 := byte 21.
Definition TAG_INT_L1 := byte 22. Definition TAG_INT_L4 := byte 23. Definition TAG_FLOAT := byte 24.
Definition TAG_SLICE := byte 25. Definition TAG_FSET := byte 26. Definition TAG_COMPLEX := byte 27.

(** IMM_INTS, 53-54, and IMM_INTS_LOADER, 65: the numbers with a byte of their own *)
Definition imm_int (z : Z) : option ascii :=
  if ((-48 <=? z) && (z <? 160))%Z then Some (byte (Z.to_N (z + 80))) else None.
Definition imm_loader (c : ascii) : option Z :=
  let n := N_of_ascii c in
  if (32 <=? n) && (n <? 240) then Some (Z.of_N n - 80)%Z else None.

(** ** Writing *)

(** str.encode("utf8"): None is UnicodeEncodeError *)
Definition encode_char (c : N) : option bytes :=
  if c <? 128 then Some [byte c]
  else if c <? 2048 then Some [byte (192 + c / 64); byte (128 + c mod 64)]
  else if (55296 <=? c) && (c <? 57344) then None
  else if c <? 65536 then Some [byte (224 + c / 4096); byte (128 + (c / 64) mod 64); byte (128 + c mod 64)]
  else Some [byte (240 + c / 262144); byte (128 + (c / 4096) mod 64); byte (128 + (c / 64) mod 64); byte (128 + c mod 64)].
Fixpoint encode (t : ustr) : option bytes :=
  match t with
  | [] => Some []
  | c :: t => match encode_char c, encode t with Some a, Some b => Some (a ++ b) | _, _ => None end
  end.

(** _dump_int, 105-115 *)
Definition dump_int (z : Z) : res bytes :=
  match imm_int z with
  | Some c => Ok [c]
  | None =>
      let obj := int_str z in
      let l := N.of_nat (length obj) in
      if l <? 256 then bind (pack_size 1 l) (fun p => Ok (TAG_INT_L1 :: p ++ obj))
      else bind (pack_size 4 l) (fun p => Ok (TAG_INT_L4 :: p ++ obj))
  end.
(** _dump_bytes, 126-142 *)
Definition dump_bytes (s : bytes) : res bytes :=
  let l := N.of_nat (length s) in
  if l =? 0 then Ok [TAG_EMPTY_STR]
  else if l =? 1 then Ok (TAG_STR1 :: s)
  else if l =? 2 then Ok (TAG_STR2 :: s)
  else if l =? 3 then Ok (TAG_STR3 :: s)
  else if l =? 4 then Ok (TAG_STR4 :: s)
  else if l <? 256 then bind (pack_size 1 l) (fun p => Ok (TAG_STR_L1 :: p ++ s))
  else bind (pack_size 4 l) (fun p => Ok (TAG_STR_L4 :: p ++ s)).
(** the beginning of _dump_tuple, 180-194 *)
Definition dump_tuple_head (n : nat) : res bytes :=
  let l := N.of_nat n in
  if l =? 0 then Ok [TAG_EMPTY_TUPLE]
  else if l =? 1 then Ok [TAG_TUP1]
  else if l =? 2 then Ok [TAG_TUP2]
  else if l =? 3 then Ok [TAG_TUP3]
  else if l =? 4 then Ok [TAG_TUP4]
  else if l <? 256 then bind (pack_size 1 l) (fun p => Ok (TAG_TUP_L1 :: p))
  else bind (pack_size 4 l) (fun p => Ok (TAG_TUP_L4 :: p)).

(** _dump and the functions it dispatches to, 76-103, 117-123, 144-147, 178-202, and
    dump, 334-343.  The pieces are appended to a list and joined at the end. *)
Fixpoint dump (v : val) : res bytes :=
  let items := fix items (l : list val) : res bytes :=
    match l with
    | [] => Ok []
    | x :: l => bind (dump x) (fun a => bind (items l) (fun b => Ok (a ++ b)))
    end in
  match v with
  | VNone => Ok [TAG_NONE]
  | VNotImplemented => Ok [TAG_NOT_IMPLEMENTED]
  | VEllipsis => Ok [TAG_ELLIPSIS]
  | VBool b => Ok [if b then TAG_TRUE else TAG_FALSE]
  | VSlice a b c =>
      bind (dump_tuple_head 3) (fun h => bind (dump a) (fun x => bind (dump b) (fun y => bind (dump c) (fun z =>
        Ok (TAG_SLICE :: h ++ x ++ y ++ z)))))
  | VFset l => bind (dump_tuple_head (length l)) (fun h => bind (items l) (fun s => Ok (TAG_FSET :: h ++ s)))
  | VInt z => dump_int z
  | VFloat x => bind (pack_size 8 x) (fun p => Ok (TAG_FLOAT :: p))
  | VComplex x y => bind (pack_size 8 x) (fun p => bind (pack_size 8 y) (fun q => Ok (TAG_COMPLEX :: p ++ q)))
  | VBytes s => dump_bytes s
  | VStr t => match encode t with Some s => bind (dump_bytes s) (fun d => Ok (TAG_UNICODE :: d)) | None => Raised UnicodeEncodeError end
  | VTuple l => bind (dump_tuple_head (length l)) (fun h => bind (items l) (fun s => Ok (h ++ s)))
  | VOther _ => Raised TypeError
  end.

(** dumpable, 355-374 *)
Fixpoint dumpable (v : val) : bool :=
  match v with
  | VNone | VInt _ | VBool _ | VFloat _ | VBytes _ | VStr _ | VComplex _ _ | VNotImplemented | VEllipsis => true
  | VTuple l | VFset l => forallb dumpable l
  | VSlice a b c => dumpable a && dumpable b && dumpable c
  | VOther _ => false
  end.

(** ** Reading *)

(** BytesIO.read: fewer bytes when there are not that many *)
Definition read (n : N) (s : bytes) : bytes * bytes :=
  let k := N.to_nat (N.min n (N.of_nat (length s))) in (firstn k s, skipn k s).

Section Load.
  (** whether two objects count as one element of a set, and the order in which a set
      of them is iterated *)
  Variable same_element : val -> val -> bool.
  Variable order : list val -> list val.
  (** whether slices can be elements of sets (they can from CPython 3.12 on) *)
  Variable slices_hash : bool.
  (** int(obj) for an object that was loaded *)
  Variable to_integer : val -> res val.

  (** hash(obj) does not raise TypeError *)
  Fixpoint hashable (v : val) : bool :=
    match v with
    | VTuple l => forallb hashable l
    | VSlice a b c => slices_hash && hashable a && hashable b && hashable c
    | _ => true
    end.
  (** iter(obj): TypeError when it is not iterable *)
  Definition elements (v : val) : res (list val) :=
    match v with
    | VTuple l | VFset l => Ok l
    | VBytes s => Ok (map (fun c => VInt (Z.of_N (N_of_ascii c))) s)
    | VStr t => Ok (map (fun c => VStr [c]) t)
    | _ => Raised TypeError
    end.
  (** frozenset(iterable): an element that is there already is not added *)
  Fixpoint distinct (seen l : list val) : list val :=
    match l with
    | [] => []
    | x :: l => if existsb (fun y => same_element y x) seen then distinct seen l else x :: distinct (seen ++ [x]) l
    end.
  Definition frozenset (l : list val) : res val :=
    if forallb hashable l then Ok (VFset (order (distinct [] l))) else Raised TypeError.

  (** _load_int_l1, _load_int_l4, 316-323 *)
  Definition load_int (k : nat) (s : bytes) : res (val * bytes) :=
    let (h, s) := read (N.of_nat k) s in
    bind (unpack_size k h) (fun l =>
    let (d, s) := read l s in
    match to_int d with Some z => Ok (VInt z, s) | None => Raised ValueError end).
  (** _load_str_l1, _load_str_l4, 266-273 *)
  Definition load_bytes (k : nat) (s : bytes) : res (val * bytes) :=
    let (h, s) := read (N.of_nat k) s in
    bind (unpack_size k h) (fun l => let (d, s) := read l s in Ok (VBytes d, s)).

  (** _load and the functions it dispatches to, 207-329; [load_items] is _load called
      so many times.  A tag that is not known, or none, is TypeError, as None is called. *)
  Fixpoint load_stream (fuel : nat) (s : bytes) : res (val * bytes) :=
    match fuel with
    | O => Out_of_fuel
    | S fuel =>
        let tuple l s := bind (load_items fuel l s) (fun '(l, s) => Ok (VTuple l, s)) in
        let sized_tuple k s :=
          let (h, s) := read (N.of_nat k) s in bind (unpack_size k h) (fun l => tuple l s) in
        match s with
        | [] => Raised TypeError
        | tag :: s =>
            match imm_loader tag with
            | Some z => Ok (VInt z, s)
            | None =>
                let is c := Ascii.eqb tag c in
                if is TAG_NONE then Ok (VNone, s)
                else if is TAG_NOT_IMPLEMENTED then Ok (VNotImplemented, s)
                else if is TAG_ELLIPSIS then Ok (VEllipsis, s)
                else if is TAG_TRUE then Ok (VBool true, s)
                else if is TAG_FALSE then Ok (VBool false, s)
                else if is TAG_EMPTY_TUPLE then Ok (VTuple [], s)
                else if is TAG_EMPTY_STR then Ok (VBytes [], s)
                else if is TAG_LONG then
                  bind (load_stream fuel s) (fun '(obj, s) => bind (to_integer obj) (fun z => Ok (z, s)))
                else if is TAG_FLOAT then
                  let (d, s) := read 8 s in bind (unpack_size 8 d) (fun x => Ok (VFloat x, s))
                else if is TAG_COMPLEX then
                  let (d, s) := read 16 s in
                  bind (unpack_size 16 d) (fun _ => Ok (VComplex (unpack_all (firstn 8 d)) (unpack_all (skipn 8 d)), s))
                else if is TAG_STR1 then let (d, s) := read 1 s in Ok (VBytes d, s)
                else if is TAG_STR2 then let (d, s) := read 2 s in Ok (VBytes d, s)
                else if is TAG_STR3 then let (d, s) := read 3 s in Ok (VBytes d, s)
                else if is TAG_STR4 then let (d, s) := read 4 s in Ok (VBytes d, s)
                else if is TAG_STR_L1 then load_bytes 1 s
                else if is TAG_STR_L4 then load_bytes 4 s
                else if is TAG_UNICODE then
                  bind (load_stream fuel s) (fun '(obj, s) =>
                    match obj with
                    | VBytes d => match fst (decode true true true d) with Some t => Ok (VStr t, s) | None => Raised UnicodeDecodeError end
                    | _ => Raised AttributeError
                    end)
                else if is TAG_TUP1 then tuple 1 s
                else if is TAG_TUP2 then tuple 2 s
                else if is TAG_TUP3 then tuple 3 s
                else if is TAG_TUP4 then tuple 4 s
                else if is TAG_TUP_L1 then sized_tuple 1%nat s
                else if is TAG_TUP_L4 then sized_tuple 4%nat s
                else if is TAG_SLICE then
                  bind (load_stream fuel s) (fun '(obj, s) => bind (elements obj) (fun l =>
                    match l with [a; b; c] => Ok (VSlice a b c, s) | _ => Raised ValueError end))
                else if is TAG_FSET then
                  bind (load_stream fuel s) (fun '(obj, s) => bind (elements obj) (fun l => bind (frozenset l) (fun v => Ok (v, s))))
                else if is TAG_INT_L1 then load_int 1 s
                else if is TAG_INT_L4 then load_int 4 s
                else Raised TypeError
            end
        end
    end
  with load_items (fuel : nat) (n : N) (s : bytes) : res (list val * bytes) :=
    match fuel with
    | O => Out_of_fuel
    | S fuel =>
        if n =? 0 then Ok ([], s)
        else bind (load_stream fuel s) (fun '(v, s) => bind (load_items fuel (n - 1) s) (fun '(l, s) => Ok (v :: l, s)))
    end.
  (** load, 345-353, with enough fuel *)
  Definition load (s : bytes) : res val :=
    bind (load_stream (2 * length s + 2) s) (fun '(v, _) => Ok v).
End Load.
