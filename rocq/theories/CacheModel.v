(** The cache of results of resource jobs: plainbox/impl/jobcache.py.

    The file system is a map from paths to nodes.  What the code asks the
    operating system to do is a program of calls; every call can fail or be
    interrupted half way.  Results are dictionaries of JSON values (JsonModel;
    ensure_ascii=False only changes how characters from 127 up are written). *)
From Coq Require Import String Ascii List Bool Arith.
From Verif Require Import ScanModel Rfc822Model JsonModel IniModel.
Import ListNotations.
Local Open Scope nat_scope.
Local Open Scope list_scope.

Definition path := text.
Definition SLASH : ascii := "/"%char.

(** ** File system *)

Inductive node := NFile (content : text) | NDir.
Definition fs := path -> option node.

Definition set_node (p : path) (n : option node) (f : fs) : fs :=
  fun q => if text_eqb q p then n else f q.

(** os.path.join of a directory and a name *)
Definition join (d : path) (name : text) : path := d ++ SLASH :: name.

(** os.path.basename: what is after the last slash *)
Fixpoint basename_from (acc p : text) : text :=
  match p with
  | [] => rev acc
  | c :: r => if Ascii.eqb c SLASH then basename_from [] r else basename_from (c :: acc) r
  end.
Definition basename (p : path) : text := basename_from [] p.

(** p is d or somewhere below it *)
Definition below (d p : path) : bool := tprefix (d ++ [SLASH]) p.
Definition within (d p : path) : bool := text_eqb p d || below d p.

(** ** Calls *)

Inductive call :=
| CExists (p : path)
| CRmtree (p : path)
| CMakedirs (top p : path)      (* makedirs(p), with the directory above it *)
| CCopy (src dst : path)        (* shutil.copyfile *)
| CWrite (p : path) (data : text).  (* open(p, 'wb') and write *)

Inductive reply := RYes | RNo | RFail.

(** A part of a tree is removed, the directory itself last. *)
Definition removed_some (d : path) (f f' : fs) : Prop :=
  (forall p, f' p = f p \/ within d p = true /\ f' p = None) /\
  (f' d = f d \/ forall p, within d p = true -> f' p = None).
(** A beginning of some data is in a file. *)
Definition written_some (p : path) (data : text) (f f' : fs) : Prop :=
  (forall q, f' q = f q) \/
  exists a b, data = a ++ b /\ forall q, f' q = set_node p (Some (NFile a)) f q.

(** What can be in the file system while a call runs (if the program is killed
    then, that is what stays), also when it fails. *)
Definition during (c : call) (f f' : fs) : Prop :=
  match c with
  | CExists _ => forall q, f' q = f q
  | CRmtree p => removed_some p f f'
  | CMakedirs top p => forall q, f' q = f q \/ (q = top \/ q = p) /\ f q = None /\ f' q = Some NDir
  | CCopy src dst =>
      (forall q, f' q = f q) \/ exists data, f src = Some (NFile data) /\ written_some dst data f f'
  | CWrite p data => written_some p data f f'
  end.

(** What a call that succeeds does. *)
Definition success (c : call) (f f' : fs) (r : reply) : Prop :=
  match c with
  | CExists p => (forall q, f' q = f q) /\ r = match f p with Some _ => RYes | None => RNo end
  | CRmtree p => (forall q, f' q = if within p q then None else f q) /\ r = RYes
  | CMakedirs top p => f p = None /\ r = RYes /\
      forall q, f' q = if text_eqb q p then Some NDir
                       else if text_eqb q top then match f top with Some n => Some n | None => Some NDir end
                       else f q
  | CCopy src dst => r = RYes /\
      exists data, f src = Some (NFile data) /\ forall q, f' q = set_node dst (Some (NFile data)) f q
  | CWrite p data => r = RYes /\ forall q, f' q = set_node p (Some (NFile data)) f q
  end.

(** ** Programs *)

Inductive prog (A : Type) :=
| Ret (x : A)
| Call (c : call) (k : reply -> prog A).
Arguments Ret {A} x.
Arguments Call {A} c k.

Inductive ending (A : Type) := Returned (x : A) | Killed.
Arguments Returned {A} x.
Arguments Killed {A}.

Inductive exec {A} : prog A -> fs -> fs -> ending A -> Prop :=
| x_ret x f : exec (Ret x) f f (Returned x)
| x_killed c k f f' : during c f f' -> exec (Call c k) f f' Killed
| x_success c k f f1 r f' e : success c f f1 r -> exec (k r) f1 f' e -> exec (Call c k) f f' e
| x_failure c k f f1 f' e : during c f f1 -> exec (k RFail) f1 f' e -> exec (Call c k) f f' e.

(** ** Results *)

Definition result := tdict json.
Definition LOG : text := T "io_log_filename".
Definition RESULT : text := T "result.json".

(** result['io_log_filename'] used as a file name; None is the KeyError or
    TypeError otherwise (numbers, which open takes for descriptors, are not
    modelled) *)
Definition log_of (r : result) : option path :=
  match tget LOG r with Some (JStr p) => Some p | _ => None end.

(** sort_keys=True *)
Fixpoint insert_field (x : text * json) (l : result) : result :=
  match l with
  | [] => [x]
  | y :: r => if text_leb (fst x) (fst y) then x :: l else y :: insert_field x r
  end.
Definition sort_fields (r : result) : result := fold_right insert_field [] r.
(** 121-127: json.dumps(...).encode *)
Definition encode (r : result) : text := dumps (JObj (sort_fields r)).

(** ** The cache *)

Definition cache := tdict result.

(** The outcome of _store: the entry that is kept in memory, if it got that far;
    an exception. *)
Inductive stored := Kept (r : result) | NotKept | Raised.

(** 103-134 _store *)
Definition store (root k : text) (r : result) : prog stored :=
  let dir := join root k in
  let rest :=
    Call (CMakedirs root dir) (fun m =>
      match m with
      | RFail => Ret Raised
      | _ =>
          match log_of r with
          | None => Ret Raised
          | Some src =>
              match basename src with
              | [] => Ret Raised        (* copying to a directory *)
              | b =>
                  let dst := join dir b in
                  Call (CCopy src dst) (fun m =>
                    match m with
                    | RFail => Ret Raised
                    | _ =>
                        let r' := tset LOG (JStr dst) r in
                        Call (CWrite (join dir RESULT) (encode r')) (fun m =>
                          match m with
                          | RFail => Ret Raised
                          | _ => Ret (Kept r')
                          end)
                    end)
              end
          end
      end) in
  Call (CExists dir) (fun m =>
    match m with
    | RYes => Call (CRmtree dir) (fun m => match m with RFail => Ret NotKept | _ => rest end)
    | _ => rest
    end).

(** 71-87 _try_load_cache_entry; None is the AttributeError of the misspelt
    logger.warrning, 87 *)
Definition try_load (f : fs) (dir : path) (c : cache) : option cache :=
  match f (join dir RESULT) with
  | Some (NFile data) =>
      match loads data with
      | Some (JObj entry) =>
          match log_of entry with
          | Some p =>
              match f p with
              | Some _ => Some (tset (basename dir) entry c)
              | None => Some c
              end
          | None => None
          end
      | _ => None
      end
  | _ => None
  end.

(** 54-57 load, of the directories that os.walk lists; the entries loaded so far
    and whether it returns *)
Fixpoint load (f : fs) (dirs : list path) (c : cache) : cache * bool :=
  match dirs with
  | [] => (c, true)
  | d :: r => match try_load f d c with Some c' => load f r c' | None => (c, false) end
  end.

(** os.walk(root): every directory below root is listed, in any order. *)
Definition walks (f : fs) (root : path) (dirs : list path) : Prop :=
  forall d, In d dirs <-> f d = Some NDir /\ below root d = true.

(** 46-52 clear: every directory directly below root is removed if possible
    (deeper ones go with them; what os.walk then does with them is not modelled) *)
Fixpoint clear (dirs : list path) : prog unit :=
  match dirs with
  | [] => Ret tt
  | d :: r => Call (CRmtree d) (fun _ => clear r)
  end.

(** 59-69 get: the result, of the memory or computed; the computed one is stored
    and returned as it was (a copy is stored, 65) *)
Definition cached (k : text) (c : cache) : option result := tget k c.
Definition remember (k : text) (s : stored) (c : cache) : cache :=
  match s with Kept r => tset k r c | _ => c end.
