(** * What the listeners of a command are told:
    /repo/plainbox/vendor/extcmd/__init__.py 323-428 and 629-850,
    /repo/plainbox/impl/runner.py 97-190

    A listener (delegate) of a command is one of the application, which may lack methods
    (SafeDelegate) and may raise exceptions, or one that passes notifications on.  The
    data of a line or chunk is bytes or, once decoded, text.  Not modelled: Redirect,
    which writes each line to a stream as CommandOutputWriter does, and Python 2. *)
From Coq Require Import String Ascii Decimal DecimalString List Bool Arith NArith ZArith.
From Verif Require Import ScanModel Rfc822Model JsonModel IologModel IniModel Utf8Spec Utf8Model SheetModel RepoModel.
Import ListNotations.
Local Open Scope nat_scope.
Local Open Scope list_scope.

Inductive stream := Out | Err.
Inductive payload := B (s : bytes) | U (t : ustr).
Inductive event :=
| Begin
| Line (s : stream) (p : payload)
| Chunk (s : stream) (p : payload)
| End_ (code : Z)
| Abnormal (signal : Z)
| Interrupt.
Inductive kind := KBegin | KLine | KChunk | KEnd | KAbnormal | KInterrupt.
Definition kind_of (e : event) : kind :=
  match e with Begin => KBegin | Line _ _ => KLine | Chunk _ _ => KChunk | End_ _ => KEnd | Abnormal _ => KAbnormal | Interrupt => KInterrupt end.
(** a callback of Transform, None: it raises an exception *)
Definition callback := stream -> payload -> option payload.

Inductive delegate :=
| Own (i : nat) (has : kind -> bool)
| Chain (l : list delegate)
| Transform (f : callback) (d : delegate).

(** 781-800 _decode, 810-830 _encode; text has the method encode, and bytes decode, only *)
Definition decode_callback : callback := fun _ p =>
  match p with
  | B s => match fst (decode true true true s) with Some t => Some (U t) | None => None end
  | U _ => None
  end.
Definition encode_callback : callback := fun _ p =>
  match p with
  | U t => if forallb (fun c => (c <? 55296)%N || (57343 <? c)%N && (c <? 1114112)%N) t then Some (B (utf8_text t)) else None
  | B _ => None
  end.

Section Notify.
  (** which notifications make a delegate of the application raise an exception *)
  Variable fails : nat -> event -> bool.
  (** What is called, in this order, and whether there was no exception.  An exception
      leaves all loops. *)
  Fixpoint notify (d : delegate) (e : event) : list (nat * event) * bool :=
    match d with
    (** 362-428 *)
    | Own i has => if has (kind_of e) then ([(i, e)], negb (fails i e)) else ([], true)
    (** 651-689 *)
    | Chain l =>
        (fix go (l : list delegate) : list (nat * event) * bool :=
           match l with
           | [] => ([], true)
           | d' :: r =>
               let x := notify d' e in
               if snd x then let y := go r in (fst x ++ fst y, snd y) else x
           end) l
    (** 750-778; on_interrupt is that of DelegateBase, 357-360, and does nothing *)
    | Transform f d' =>
        match e with
        | Line s p => match f s p with Some q => notify d' (Line s q) | None => ([], false) end
        | Chunk s p => match f s p with Some q => notify d' (Chunk s q) | None => ([], false) end
        | Interrupt => ([], true)
        | _ => notify d' e
        end
    end.
End Notify.

(** ** runner.py 97-155: the output of a command as files; None: not open *)
Record writer := mk_writer { w_stdout : text; w_stderr : text; w_open : bool }.
Definition write (w : writer) (e : event) : writer :=
  match e with
  | Begin => mk_writer [] [] true
  | Line Out (B s) => mk_writer (w_stdout w ++ s) (w_stderr w) (w_open w)
  | Line Err (B s) => mk_writer (w_stdout w) (w_stderr w ++ s) (w_open w)
  | End_ _ | Abnormal _ => mk_writer (w_stdout w) (w_stderr w) false
  | _ => w
  end.
Definition write_all (w : writer) (l : list event) : writer := fold_left write l w.

(** ** runner.py 157-190: the output as printed lines *)
Definition ascii_ustr (t : text) : ustr := map N_of_ascii t.
Definition stream_name (s : stream) : text := match s with Out => T "stdout" | Err => T "stderr" end.
(** {:05} *)
Definition five (n : nat) : text := let t := decimal n in repeat "0"%char (5 - length t) ++ t.
Definition shown (prompt : ustr) (s : stream) (n : nat) (t : ustr) : ustr :=
  ascii_ustr (T "(job ") ++ prompt ++ ascii_ustr (T ", <" ++ stream_name s ++ T ":" ++ five n ++ T ">) ") ++ t.
Record printer := mk_printer { pr_out : nat; pr_err : nat; pr_abort : bool; pr_lines : list ustr }.
Definition print (prompt : ustr) (p : printer) (l : stream * bytes) : printer :=
  if pr_abort p then p
  else
    let n := S (match fst l with Out => pr_out p | Err => pr_err p end) in
    let o := match fst l with Out => n | Err => pr_out p end in
    let r := match fst l with Out => pr_err p | Err => n end in
    match fst (decode true true true (snd l)) with
    | Some t => mk_printer o r false (pr_lines p ++ [shown prompt (fst l) n (urstrip t)])
    | None => mk_printer o r true (pr_lines p)
    end.
Definition print_all (prompt : ustr) (l : list (stream * bytes)) : list ustr :=
  pr_lines (fold_left (print prompt) l (mk_printer 0 0 false [])).
