(** * What the other side of a connection may read, set, delete and run:
      plainbox/vendor/rpyc/core/protocol.py and core/service.py *)
From Coq Require Import String Ascii List Bool Arith.
From Verif Require Import ScanModel Rfc822Model IniModel.
Import ListNotations.
Local Open Scope list_scope.

Definition L (s : string) : text := list_ascii_of_string s.

(** protocol.py 21-61 DEFAULT_CONFIG: the entries that decide about attributes and pickling *)
Record config := {
  allow_safe_attrs : bool;
  allow_exposed_attrs : bool;
  allow_public_attrs : bool;
  allow_all_attrs : bool;
  safe_attrs : list text;
  exposed_prefix : text;
  allow_getattr : bool;
  allow_setattr : bool;
  allow_delattr : bool;
  allow_pickle : bool
}.
(** protocol.py 27-43 *)
Definition default_safe : list text := map L
  ["__abs__"; "__add__"; "__and__"; "__bool__"; "__cmp__"; "__contains__";
   "__delitem__"; "__delslice__"; "__div__"; "__divmod__"; "__doc__";
   "__eq__"; "__float__"; "__floordiv__"; "__ge__"; "__getitem__";
   "__getslice__"; "__gt__"; "__hash__"; "__hex__"; "__iadd__"; "__iand__";
   "__idiv__"; "__ifloordiv__"; "__ilshift__"; "__imod__"; "__imul__";
   "__index__"; "__int__"; "__invert__"; "__ior__"; "__ipow__"; "__irshift__";
   "__isub__"; "__iter__"; "__itruediv__"; "__ixor__"; "__le__"; "__len__";
   "__long__"; "__lshift__"; "__lt__"; "__mod__"; "__mul__"; "__ne__";
   "__neg__"; "__new__"; "__nonzero__"; "__oct__"; "__or__"; "__pos__";
   "__pow__"; "__radd__"; "__rand__"; "__rdiv__"; "__rdivmod__"; "__repr__";
   "__rfloordiv__"; "__rlshift__"; "__rmod__"; "__rmul__"; "__ror__";
   "__rpow__"; "__rrshift__"; "__rshift__"; "__rsub__"; "__rtruediv__";
   "__rxor__"; "__setitem__"; "__setslice__"; "__str__"; "__sub__";
   "__truediv__"; "__xor__"; "next"; "__length_hint__"; "__enter__";
   "__exit__"; "__next__"]%string.
(** protocol.py 21-61 *)
Definition default_config : config := {|
  allow_safe_attrs := true; allow_exposed_attrs := true; allow_public_attrs := false; allow_all_attrs := false;
  safe_attrs := default_safe; exposed_prefix := L "exposed_"; allow_getattr := true; allow_setattr := false;
  allow_delattr := false; allow_pickle := false |}.
(** service.py 131-140: what SlaveService.on_connect changes (its entries about exceptions are left out:
    they decide nothing here) *)
Definition slave_connects (c : config) : config := {|
  allow_safe_attrs := allow_safe_attrs c; allow_exposed_attrs := allow_exposed_attrs c;
  allow_public_attrs := allow_public_attrs c; allow_all_attrs := true; safe_attrs := safe_attrs c;
  exposed_prefix := exposed_prefix c; allow_getattr := true; allow_setattr := true; allow_delattr := true;
  allow_pickle := true |}.

(** Values are opaque, told apart by a number. Attributes as an association list: the first entry of a name counts.
    Attributes computed by the object itself (properties, __getattr__) are not modelled. *)
Definition val := nat.
Definition attrs := list (text * val).
Fixpoint find_attr (n : text) (a : attrs) : option val :=
  match a with [] => None | (k, v) :: r => if text_eqb n k then Some v else find_attr n r end.
Definition has_attr (n : text) (a : attrs) : bool := match find_attr n a with Some _ => true | None => false end.
Definition del_attr (n : text) (a : attrs) : attrs := filter (fun kv => negb (text_eqb n (fst kv))) a.
Definition set_attr (n : text) (v : val) (a : attrs) : attrs := (n, v) :: del_attr n a.

Inductive exn := TypeError | DecodeError | KeyError | AttributeError | ValueError.
Inductive answer := Value (v : val) | Done | Ran (v : val) (args : list val) | Pickled (oid : nat)
                  | Names (l : list text) | Raised (e : exn).

(** getattr, delattr, setattr on an object without hooks of its own; deleting what is not there is an error *)
Inductive op := Get | Set_ (v : val) | Del.
Definition plain (o : op) (n : text) (a : attrs) : attrs * answer :=
  match o with
  | Get => (a, match find_attr n a with Some v => Value v | None => Raised AttributeError end)
  | Set_ v => (set_attr n v a, Done)
  | Del => if has_attr n a then (del_attr n a, Done) else (a, Raised AttributeError)
  end.

(** An object: its class and its attributes *)
Record obj := { o_class : nat; o_attrs : attrs }.
(** The name that came over the wire: text, bytes with what decoding them as utf8 gives, or anything else *)
Inductive wire := WText (t : text) | WBytes (decoded : option text) | WOther.

(** service.py 67-70 Service._rpyc_delattr, _rpyc_setattr *)
Definition denied (n : text) (a : attrs) : attrs * answer := (a, Raised AttributeError).

Section Access.
Variable hook : nat -> op -> option (text -> attrs -> attrs * answer).   (* type(obj)._rpyc_getattr and so on *)
Variable c : config.

(** protocol.py 562-576 _check_attr; the empty text stands for False too, both are refused *)
Definition exposed_form (n : text) : text := if tprefix (exposed_prefix c) n then n else exposed_prefix c ++ n.
Definition check_attr (a : attrs) (n : text) : text :=
  if allow_exposed_attrs c && has_attr (exposed_form n) a then exposed_form n
  else if allow_all_attrs c then n
  else if allow_safe_attrs c && existsb (text_eqb n) (safe_attrs c) then n
  else if allow_public_attrs c && negb (tprefix (L "_") n) then n
  else [].
(** The configuration entry each operation needs: 629-634 *)
Definition param (o : op) : bool :=
  match o with Get => allow_getattr c | Set_ _ => allow_setattr c | Del => allow_delattr c end.
(** 579-583 *)
Definition name_of (w : wire) : text + exn :=
  match w with
  | WBytes (Some t) => inl t
  | WBytes None => inr DecodeError
  | WText t => inl t
  | WOther => inr TypeError
  end.
(** 588-596 *)
Definition access (o : op) (n : text) (b : obj) : attrs * answer :=
  match hook (o_class b) o with
  | Some h => h n (o_attrs b)
  | None =>
    let n2 := check_attr (o_attrs b) n in
    if negb (param o) || match n2 with [] => true | _ => false end then (o_attrs b, Raised AttributeError)
    else plain o n2 (o_attrs b)
  end.

(** The objects the other side holds references to: self._local_objects *)
Definition heap := list (nat * obj).
Fixpoint find_obj (i : nat) (h : heap) : option obj :=
  match h with [] => None | (k, b) :: r => if Nat.eqb i k then Some b else find_obj i r end.
Fixpoint put_attrs (i : nat) (a : attrs) (h : heap) : heap :=
  match h with
  | [] => []
  | (k, b) :: r => if Nat.eqb i k then (k, {| o_class := o_class b; o_attrs := a |}) :: r else (k, b) :: put_attrs i a r
  end.
(** 578-596 _access_attr: the name is looked at before the object is *)
Definition access_attr (i : nat) (w : wire) (o : op) (h : heap) : heap * answer :=
  match name_of w with
  | inr e => (h, Raised e)
  | inl n => match find_obj i h with
             | None => (h, Raised KeyError)
             | Some b => let (a, r) := access o n b in (put_attrs i a h, r)
             end
  end.

(** The requests of the other side that are about attributes, 623-640. What running a value does is not modelled,
    only that it is run and with which arguments. *)
Inductive request :=
| RGet (i : nat) (w : wire) | RSet (i : nat) (w : wire) (v : val) | RDel (i : nat) (w : wire)
| RCallAttr (i : nat) (w : wire) (args : list val) | RPickle (i : nat) | RDir (i : nat).
Definition handle (r : request) (h : heap) : heap * answer :=
  match r with
  | RGet i w => access_attr i w Get h                                       (* 629-630 *)
  | RSet i w v => access_attr i w (Set_ v) h                                (* 633-634 *)
  | RDel i w => access_attr i w Del h                                       (* 631-632 *)
  | RCallAttr i w args => match access_attr i w Get h with                  (* 635-636 *)
                          | (h', Value v) => (h', Ran v args)
                          | x => x
                          end
  | RPickle i => if allow_pickle c                                          (* 637-640 *)
                 then match find_obj i h with Some _ => (h, Pickled i) | None => (h, Raised KeyError) end
                 else (h, Raised ValueError)
  | RDir i => match find_obj i h with                                       (* 625-626 *)
              | Some b => (h, Names (map fst (o_attrs b)))
              | None => (h, Raised KeyError)
              end
  end.
Fixpoint serve (l : list request) (h : heap) : heap * list answer :=
  match l with
  | [] => (h, [])
  | r :: l' => let (h', x) := handle r h in let (h'', xs) := serve l' h' in (h'', x :: xs)
  end.
End Access.

(** service.py 72-85 get_service_aliases, get_service_name *)
Definition upper1 (x : ascii) : ascii :=
  let n := nat_of_ascii x in if Nat.leb 97 n && Nat.leb n 122 then ascii_of_nat (n - 32) else x.
Definition upper (t : text) : text := map upper1 t.       (* ASCII letters only *)
Definition ends_with (s t : text) : bool := tprefix (rev s) (rev t).
Definition aliases (class_name : text) (given : list text) : list text :=
  match given with
  | _ :: _ => map upper given
  | [] => let n := upper class_name in
          [if ends_with (L "SERVICE") n then firstn (List.length n - 7) n else n]
  end.
Definition service_name (class_name : text) (given : list text) : text := hd [] (aliases class_name given).

(** service.py 96-118 ModuleNamespace: [fetch] is asked at most once for what it has once given *)
Inductive key := KName (t : text) | KTuple (l : list text).
Fixpoint join_dots (l : list text) : text :=
  match l with [] => [] | [x] => x | x :: r => x ++ L "." ++ join_dots r end.
Definition key_name (k : key) : text := match k with KName t => t | KTuple l => join_dots l end.
(** The cache, and every name asked of the other side, in order. An answer None is an ImportError. *)
Record space := { cache : attrs; asked : list text }.
Definition get_item (k : key) (answer : option val) (s : space) : space * option val :=
  let n := key_name k in
  match find_attr n (cache s) with
  | Some v => (s, Some v)
  | None => match answer with
            | Some v => ({| cache := (n, v) :: cache s; asked := asked s ++ [n] |}, Some v)
            | None => ({| cache := cache s; asked := asked s ++ [n] |}, None)
            end
  end.
Definition contains (k : key) (answer : option val) (s : space) : space * bool :=
  let (s', r) := get_item k answer s in (s', match r with Some _ => true | None => false end).
Inductive lookup := LGet (k : key) (answer : option val) | LIn (k : key) (answer : option val).
Definition look (l : lookup) (s : space) : space :=
  match l with LGet k a => fst (get_item k a s) | LIn k a => fst (contains k a s) end.
Definition looks (l : list lookup) : space := fold_left (fun s x => look x s) l {| cache := []; asked := [] |}.
