(** What each listener of a command should be told. *)
From Coq Require Import String Ascii List Bool Arith NArith ZArith.
From Verif Require Import ScanModel Rfc822Model JsonModel IologModel IniModel Utf8Spec Utf8Model SheetModel SheetSpec DelegateModel.
Import ListNotations.
Local Open Scope nat_scope.
Local Open Scope list_scope.

(** The delegates of the application in a composition, from left to right, each with
    the callbacks its data goes through. *)
Definition member : Type := nat * (kind -> bool) * list callback.
Inductive members : delegate -> list member -> Prop :=
| m_own i has : members (Own i has) [(i, has, [])]
| m_none : members (Chain []) []
| m_more d l a b : members d a -> members (Chain l) b -> members (Chain (d :: l)) (a ++ b)
| m_through f d l : members d l -> members (Transform f d) (map (fun m => (fst m, f :: snd m)) l).

(** Data on its way through callbacks; None when one raises. *)
Inductive carried (s : stream) : list callback -> payload -> option payload -> Prop :=
| c_end p : carried s [] p (Some p)
| c_next f fs p q r : f s p = Some q -> carried s fs q r -> carried s (f :: fs) p r
| c_raise f fs p : f s p = None -> carried s (f :: fs) p None.
(** What becomes of a notification: a notification, an exception, or nothing. *)
Inductive fate := Told (e : event) | Raised | Dropped.
Inductive becomes (fs : list callback) : event -> fate -> Prop :=
| b_begin : becomes fs Begin (Told Begin)
| b_end c : becomes fs (End_ c) (Told (End_ c))
| b_abnormal c : becomes fs (Abnormal c) (Told (Abnormal c))
| b_line s p q : carried s fs p (Some q) -> becomes fs (Line s p) (Told (Line s q))
| b_line_raise s p : carried s fs p None -> becomes fs (Line s p) Raised
| b_chunk s p q : carried s fs p (Some q) -> becomes fs (Chunk s p) (Told (Chunk s q))
| b_chunk_raise s p : carried s fs p None -> becomes fs (Chunk s p) Raised
| b_interrupt : fs = [] -> becomes fs Interrupt (Told Interrupt)
| b_no_interrupt : fs <> [] -> becomes fs Interrupt Dropped.

(** Telling them one after the other, until there is an exception. *)
Inductive telling (fails : nat -> event -> bool) (e : event) : list member -> list (nat * event) -> bool -> Prop :=
| t_all : telling fails e [] [] true
| t_told i has fs e' r l ok : becomes fs e (Told e') -> has (kind_of e') = true -> fails i e' = false ->
    telling fails e r l ok -> telling fails e ((i, has, fs) :: r) ((i, e') :: l) ok
| t_fails i has fs e' r : becomes fs e (Told e') -> has (kind_of e') = true -> fails i e' = true ->
    telling fails e ((i, has, fs) :: r) [(i, e')] false
| t_lacks i has fs e' r l ok : becomes fs e (Told e') -> has (kind_of e') = false ->
    telling fails e r l ok -> telling fails e ((i, has, fs) :: r) l ok
| t_dropped i has fs r l ok : becomes fs e Dropped -> telling fails e r l ok -> telling fails e ((i, has, fs) :: r) l ok
| t_raised i has fs r : becomes fs e Raised -> telling fails e ((i, has, fs) :: r) [] false.

(** No chain is empty. *)
Inductive inhabited : delegate -> Prop :=
| i_own i has : inhabited (Own i has)
| i_chain l : l <> [] -> Forall inhabited l -> inhabited (Chain l)
| i_through f d : inhabited d -> inhabited (Transform f d).

(** What one delegate was told. *)
Definition told_to (i : nat) (l : list (nat * event)) : list event :=
  map snd (filter (fun x => Nat.eqb (fst x) i) l).

(** The bytes of a stream in a sequence of notifications. *)
Inductive output_of (s : stream) : list event -> text -> Prop :=
| o_nil : output_of s [] []
| o_line b r t : output_of s r t -> output_of s (Line s (B b) :: r) (b ++ t)
| o_other s' b r t : s' <> s -> output_of s r t -> output_of s (Line s' (B b) :: r) t
| o_interrupt r t : output_of s r t -> output_of s (Interrupt :: r) t.

(** Lines that are text, the number of each among the lines of its stream, and what is
    shown of it. *)
Definition is_text (b : bytes) : Prop := exists t, Forall scalar t /\ b = utf8_text t.
Definition occurrences (s : stream) (l : list (stream * bytes)) : nat :=
  length (filter (fun x => match fst x, s with Out, Out | Err, Err => true | _, _ => false end) l).
(** How a line looks: "(job id, <stdout:00001>) text". *)
Definition looks (prompt : ustr) (before : list (stream * bytes)) (l : stream * bytes) (u : ustr) : Prop :=
  exists t v, Forall scalar t /\ snd l = utf8_text t /\ trimmed t v /\
    u = map N_of_ascii (T "(job ") ++ prompt
          ++ map N_of_ascii (match fst l with Out => T ", <stdout:" | Err => T ", <stderr:" end)
          ++ map N_of_ascii (five (S (occurrences (fst l) before)) ++ T ">) ") ++ v.
