(** * Passwords for remote sessions: plainbox/impl/secure/sudo_broker.py and
    plainbox/impl/session/assistant2.py 244-255

    The RSA keys of Crypto.PublicKey are parameters: what matters of them is stated where it is
    needed.  Left out: collecting garbage, and getpass. *)
From Coq Require Import List Bool Ascii.
From Verif Require Import ScanModel Rfc822Model.
Import ListNotations.
Local Open Scope list_scope.

Definition bytes := text.

Section Keys.
  Variable key : Type.
  Variable pub : Type.
  Variable publickey : key -> pub.
  Variable export_pub : pub -> bytes.                   (* publickey().exportKey() *)
  Variable import_pub : bytes -> option pub.            (* RSA.importKey; None: ValueError *)
  Variable encrypt : pub -> bytes -> bytes.             (* the first item of the tuple *)
  Variable decrypt : key -> bytes -> option bytes.      (* None: an exception *)
  Variable export_key : key -> bytes -> bytes.          (* exportKey('PEM', passphrase) *)
  Variable import_key : bytes -> bytes -> option key.   (* importKey(pem, passphrase) *)
  Variable hexdigest : bytes -> text.                   (* hashlib.sha512(...).hexdigest() *)
  Variable encode_stdin : text -> option bytes.         (* .encode(sys.stdin.encoding) *)
  Variable encode_utf8 : text -> bytes.
  Variable decode_utf8 : bytes -> option text.

  Definition rbind {A B} (o : option A) (f : A -> option B) : option B := match o with Some x => f x | None => None end.

  (** 43-69 EphemeralKey: the key, or None once it was used *)
  Definition ephemeral := option key.
  Definition eph_public (e : ephemeral) : option bytes := option_map (fun k => export_pub (publickey k)) e.
  Definition eph_decrypt (c : bytes) (e : ephemeral) : option bytes * ephemeral :=
    match e with
    | None => (None, e)
    | Some k => match decrypt k c with Some p => (Some p, None) | None => (None, e) end
    end.

  (** 72-105 SudoBroker; [fresh] is RSA.generate *)
  Definition broker := key.
  Definition new_broker (fresh : key) (pem : option bytes) (passphrase : bytes) : option broker :=
    match pem with Some ((_ :: _) as d) => import_key d passphrase | _ => Some fresh end.
  Definition get_master_pem (passphrase : bytes) (b : broker) : bytes := export_key b passphrase.
  Definition master_public (b : broker) : bytes := export_pub (publickey b).
  Definition decrypt_password (c : bytes) (b : broker) : option text := rbind (decrypt b c) decode_utf8.

  (** 108-153 SudoProvider; [p_asked] counts the questions to the user *)
  Record provider := mk_provider { p_pub : pub; p_pass : option bytes; p_phrase : option text; p_asked : nat }.
  Definition new_provider (master : bytes) : option provider :=
    option_map (fun p => mk_provider p None None 0) (import_pub master).
  (** 121-133; [pw] is what the user types.  The answer is false if there was an exception *)
  Definition ask_for_password (pw : text) (p : provider) : provider * bool :=
    match encode_stdin pw with
    | None => (mk_provider (p_pub p) (p_pass p) (p_phrase p) (S (p_asked p)), false)
    | Some b => (mk_provider (p_pub p) (Some (encrypt (p_pub p) b)) (Some (hexdigest b)) (S (p_asked p)), true)
    end.
  (** 135-139: a tuple of one item is true, whatever the item is *)
  Definition encrypted_password (pw : text) (p : provider) : provider * option bytes :=
    match p_pass p with
    | Some c => (p, Some c)
    | None => let (p', ok) := ask_for_password pw p in (p', if ok then p_pass p' else None)
    end.
  (** 141-153: None is AttributeError when there is no passphrase, or an unusable key *)
  Definition get_master_passphrase (temp_key : bytes) (p : provider) : option bytes :=
    rbind (import_pub temp_key) (fun k => option_map (fun h => encrypt k (encode_utf8 h)) (p_phrase p)).

  (** assistant2.py 252-255: None is AssertionError or an exception of the broker.  What was saved is
      the tuple that the provider gave, so it is true whatever its item is *)
  Definition get_decrypted_password (stored : option bytes) (b : broker) : option text :=
    rbind stored (fun c => decrypt_password c b).

  (** Calls of a provider: questions, readings of the password, and of the passphrase *)
  Inductive call := Ask (typed : text) | Read (typed : text) | Passphrase (temp_key : bytes).
  Definition provider_step (p : provider) (c : call) : provider * option bytes :=
    match c with
    | Ask pw => let (p', _) := ask_for_password pw p in (p', None)
    | Read pw => encrypted_password pw p
    | Passphrase k => (p, get_master_passphrase k p)
    end.
  Fixpoint provider_run (p : provider) (l : list call) : provider * list (option bytes) :=
    match l with
    | [] => (p, [])
    | c :: r => let (p1, a) := provider_step p c in let (p2, b) := provider_run p1 r in (p2, a :: b)
    end.
End Keys.
