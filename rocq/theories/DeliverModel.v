(** * Getting the results out: /repo/plainbox/impl/transport.py 60-255,
    impl/exporter/__init__.py 338-380, impl/commands/inv_run.py 413-424 and 865-893,
    impl/commands/inv_session.py 157-173, impl/session/assistant.py 1482-1594

    What the exporter produced is a sequence of bytes here; how it is produced is in
    JsonModel, ExportModel and the others.  Characters of texts that are printed are code
    points. *)
From Coq Require Import String Ascii List Bool Arith NArith.
From Verif Require Import ScanModel Rfc822Model JsonModel IologModel IniModel ExportModel Utf8Model.
Import ListNotations.
Local Open Scope nat_scope.
Local Open Scope list_scope.

(** ** What happens outside *)
Inductive event :=
| Printed (t : ustr)                (** text handed to standard output or standard error *)
| Emptied (p : text)                (** a file opened with mode wb *)
| Appended (p : text) (s : bytes)   (** bytes that reached a file *)
| Posted (url : text) (s : bytes)   (** a request handed to requests.post *)
| Reported                          (** print(str(exc)) *)
| Marked                            (** the submitted flag added to the metadata *)
| Saved.                            (** manager.checkpoint() *)

Inductive exn :=
| TransportErr | UnicodeDecodeErr | AttributeErr | KeyErr | OSErr
| RequestErr.                       (** any other exception of the requests library *)
Inductive outcome := Done | Raised (e : exn).
Definition trace : Type := list event * outcome.
(** one thing after the other, unless the first one raised *)
Definition before (a b : trace) : trace :=
  match snd a with
  | Done => (fst a ++ fst b, snd b)
  | Raised e => (fst a, Raised e)
  end.
Definition just (e : event) : trace := ([e], Done).
Definition failing (e : exn) : trace := ([], Raised e).

(** ** shutil.copyfileobj: what each read returns; None is the length -1 *)
Fixpoint pieces (fuel n : nat) (s : bytes) : list bytes :=
  match fuel, s with
  | O, _ | _, [] => []
  | S f, _ => firstn n s :: pieces f n (skipn n s)
  end.
Definition reads_of (size : option nat) (s : bytes) : list bytes :=
  match size with
  | None => match s with [] => [] | _ => [s] end
  | Some n => pieces (length s) n s
  end.

(** impl/exporter/__init__.py 361-380 ByteStringStreamTranslator.write; [same] is whether
    the encoding of the stream is the expected one (or not known), which is UTF-8 in all
    uses.  The text is what the stream gets. *)
Definition translated (same : bool) (s : bytes) : option ustr :=
  if same then fst (decode true true true s)
  else Some (filter (fun c => N.ltb c 128) (map N_of_ascii s)).
Fixpoint copy_text (same : bool) (l : list bytes) : trace :=
  match l with
  | [] => ([], Done)
  | s :: r =>
      match translated same s with
      | Some t => before (just (Printed t)) (copy_text same r)
      | None => failing UnicodeDecodeErr
      end
  end.
(** copying into a file; [room] is how many bytes the disk still takes, None when there
    is no end to it; a write that does not fit leaves what did fit.  (Python buffers the
    writes and the error can come at close, which is inside the same call.) *)
Fixpoint copy_file (p : text) (room : option nat) (l : list bytes) : trace :=
  match l with
  | [] => ([], Done)
  | s :: r =>
      match room with
      | None => before (just (Appended p s)) (copy_file p None r)
      | Some k =>
          if length s <=? k then before (just (Appended p s)) (copy_file p (Some (k - length s)) r)
          else ([Appended p (firstn k s)], Raised OSErr)
      end
  end.

(** ** Transports *)
(** what is given to send *)
Inductive data := Bytes (s : bytes) | Stream (s : bytes).
Definition content (d : data) : bytes := match d with Bytes s | Stream s => s end.

(** what requests.post and the server do *)
Inductive response :=
| Timeout | InvalidSchema | NoConnection
| OtherError                        (** MissingSchema, TooManyRedirects, SSL trouble on writing, ... *)
| NoResponse                        (** None, which the code checks for *)
| Status (n : N).
(** requests.Response.raise_for_status *)
Definition status_raises (n : N) : bool := ((400 <=? n) && (n <? 600))%N.

(** transport.py 130-166 _OAuthTransport.send; the header is the signature, not modelled *)
Definition oauth_keys : list text :=
  [T "consumer_key"; T "consumer_secret"; T "token_key"; T "token_secret"].
Definition has_key (d : list (text * text)) (k : text) : bool := existsb (fun kv => text_eqb (fst kv) k) d.
Definition oauth_send (url : text) (creds : list (text * text)) (r : response) (d : data) : trace :=
  if negb (match creds with [] => true | _ => forallb (has_key creds) oauth_keys end) then failing KeyErr
  else before (just (Posted url (content d)))
    (match r with
     | Timeout | InvalidSchema | NoConnection => failing TransportErr
     | OtherError => failing RequestErr
     | NoResponse => failing AttributeErr
     | Status n => if status_raises n then failing TransportErr else ([], Done)
     end).
(** transport.py 181-215 StreamTransport.send; its stream always is UTF-8 *)
Definition stream_send (d : data) : trace :=
  match d with
  | Bytes _ => failing AttributeErr
  | Stream s => copy_text true (reads_of None s)
  end.
(** transport.py 223-243 FileTransport.send; [buffer] is the buffer size of copyfileobj *)
Definition file_send (buffer : nat) (p : text) (opens : bool) (room : option nat) (d : data) : trace :=
  if negb opens then failing OSErr
  else before (just (Emptied p))
    (match d with
     | Bytes _ => failing AttributeErr
     | Stream s => copy_file p room (reads_of (Some buffer) s)
     end).
Inductive transport :=
| OAuth (url : text) (creds : list (text * text)) (r : response)
| ToStream
| ToFile (p : text) (opens : bool) (room : option nat).
Definition send (buffer : nat) (t : transport) (d : data) : trace :=
  match t with
  | OAuth url creds r => oauth_send url creds r d
  | ToStream => stream_send d
  | ToFile p opens room => file_send buffer p opens room d
  end.

(** ** transport.py 84-108 TransportBase.__init__: the options; None is ValueError.  A dict
    comprehension keeps the last value of a key at its first place. *)
Fixpoint split_comma (t : text) : list text :=
  match t with
  | [] => [[]]
  | c :: r =>
      if Ascii.eqb c ","%char then [] :: split_comma r
      else match split_comma r with
           | p :: ps => (c :: p) :: ps
           | [] => [[c]]
           end
  end.
Fixpoint split_once (t : text) : option (text * text) :=
  match t with
  | [] => None
  | c :: r =>
      if Ascii.eqb c "="%char then Some ([], r)
      else match split_once r with
           | Some (k, v) => Some (c :: k, v)
           | None => None
           end
  end.
Fixpoint put (d : list (text * text)) (k v : text) : list (text * text) :=
  match d with
  | [] => [(k, v)]
  | (k', v') :: r => if text_eqb k' k then (k', v) :: r else (k', v') :: put r k v
  end.
Fixpoint put_all (d : list (text * text)) (l : list text) : option (list (text * text)) :=
  match l with
  | [] => Some d
  | p :: r =>
      match split_once p with
      | Some (k, v) => put_all (put d k v) r
      | None => None
      end
  end.
Definition parse_options (o : option text) : option (list (text * text)) :=
  match o with
  | None | Some [] => Some []
  | Some s =>
      if existsb (Ascii.eqb "="%char) s then
        match put_all [] (split_comma s) with
        | Some [] => None
        | r => r
        end
      else None
  end.

(** ** plainbox run *)
(** inv_run.py 881-893 _save_results, inv_session.py 162-173; the file was opened by
    argparse (cmd_run.py 75-79) *)
Inductive output := Stdout (same : bool) | OutFile (p : text) (room : option nat).
Definition header : ustr := map N_of_ascii (T "Results").
Definition save_results (buffer : nat) (o : output) (s : bytes) : trace :=
  match o with
  | Stdout same => before (just (Printed header)) (copy_text same (reads_of (Some buffer) s))
  | OutFile p room => copy_file p room (reads_of (Some buffer) s)
  end.
(** inv_run.py 865-879 export_and_send_results *)
Definition export_and_send (buffer : nat) (o : output) (t : option transport) (s : bytes) : trace :=
  before (save_results buffer o s)
    (match t with
     | None => ([], Done)
     | Some t =>
         match send buffer t (Bytes s) with
         | (ev, Raised TransportErr) => (ev ++ [Reported], Done)
         | r => r
         end
     end).
(** inv_run.py 418-421: the end of a run *)
Definition end_of_run (buffer : nat) (o : output) (t : option transport) (s : bytes) : trace :=
  before (export_and_send buffer o t s) ([Marked; Saved], Done).
(** a whole run: argparse opens the output file, jobs run, the end; [finished] is whether
    the run got to its end *)
Definition whole_run (buffer : nat) (o : output) (t : option transport) (s : bytes) (finished : bool) : trace :=
  before (match o with Stdout _ => ([], Done) | OutFile p _ => just (Emptied p) end)
    (if finished then end_of_run buffer o t s else ([], Done)).

(** ** SessionAssistant *)
(** assistant.py 1591-1593 and 1515-1517; [marked] is whether the flag was there *)
Definition mark (marked : bool) : trace := if marked then ([], Done) else ([Marked; Saved], Done).
(** assistant.py 1482-1518 export_to_transport *)
Definition export_to_transport (buffer : nat) (t : transport) (marked : bool) (s : bytes) : trace :=
  before (send buffer t (Stream s)) (mark marked).
(** assistant.py 1520-1561 export_to_file; the exporter writes the pieces [l] *)
Definition export_to_file (p : text) (opens : bool) (room : option nat) (l : list bytes) : trace :=
  if opens then before (just (Emptied p)) (copy_file p room l) else failing OSErr.
(** assistant.py 1563-1594 export_to_stream, with a stream that takes bytes and is a file *)
Definition export_to_stream (p : text) (room : option nat) (marked : bool) (l : list bytes) : trace :=
  before (copy_file p room l) (mark marked).
