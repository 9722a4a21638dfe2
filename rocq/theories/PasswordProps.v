(** * C87: passwords for remote sessions arrive, and one key serves once *)
From Coq Require Import List Bool Ascii Arith Lia.
From Verif Require Import ScanModel Rfc822Model PasswordModel.
Import ListNotations.
Local Open Scope list_scope.

Section Keys.
  Variable key : Type.
  Variable pub : Type.
  Variable publickey : key -> pub.
  Variable export_pub : pub -> bytes.
  Variable import_pub : bytes -> option pub.
  Variable encrypt : pub -> bytes -> bytes.
  Variable decrypt : key -> bytes -> option bytes.
  Variable export_key : key -> bytes -> bytes.
  Variable import_key : bytes -> bytes -> option key.
  Variable hexdigest : bytes -> text.
  Variable encode_stdin : text -> option bytes.
  Variable encode_utf8 : text -> bytes.
  Variable decode_utf8 : bytes -> option text.

  (** What is expected of keys and encodings *)
  Hypothesis import_export : forall p, import_pub (export_pub p) = Some p.
  Hypothesis decrypt_encrypt : forall k m, decrypt k (encrypt (publickey k) m) = Some m.
  Hypothesis import_pem : forall k phrase, import_key (export_key k phrase) phrase = Some k.
  Hypothesis pem_not_empty : forall k phrase, export_key k phrase <> [].
  (** The terminal of the user is in UTF-8 *)
  Hypothesis utf8_terminal : forall t b, encode_stdin t = Some b -> decode_utf8 b = Some t.

  Notation new_provider := (new_provider pub import_pub).
  Notation encrypted_password := (encrypted_password pub encrypt hexdigest encode_stdin).
  Notation provider_run := (provider_run pub import_pub encrypt hexdigest encode_stdin encode_utf8).
  Notation provider_step := (provider_step pub import_pub encrypt hexdigest encode_stdin encode_utf8).
  Notation get_master_passphrase := (get_master_passphrase pub import_pub encrypt encode_utf8).
  Notation master_public := (master_public key pub publickey export_pub).
  Notation decrypted := (get_decrypted_password key decrypt decode_utf8).
  Notation new_broker := (new_broker key import_key).
  Notation eph_decrypt := (eph_decrypt key decrypt).
  Notation eph_public := (eph_public key pub publickey export_pub).

  (** What was last typed, and how often the user was asked: the specification.  A question that
      fails because the terminal cannot encode the answer keeps the previous password. *)
  Definition typed_by (last : option text) (c : call) : option text :=
    match c with
    | Ask pw => match encode_stdin pw with Some _ => Some pw | None => last end
    | Read pw => match last with Some _ => last | None => match encode_stdin pw with Some _ => Some pw | None => None end end
    | Passphrase _ => last
    end.
  Definition questions (last : option text) (c : call) : nat :=
    match c with Ask _ => 1 | Read _ => match last with Some _ => 0 | None => 1 end | Passphrase _ => 0 end.
  Fixpoint typed (last : option text) (l : list call) : option text :=
    match l with [] => last | c :: r => typed (typed_by last c) r end.
  Fixpoint asked (last : option text) (l : list call) : nat :=
    match l with [] => 0 | c :: r => questions last c + asked (typed_by last c) r end.

  (** The password of a provider belongs to the last thing typed *)
  Definition holds (b : key) (last : option text) (p : provider pub) : Prop :=
    p_pub _ p = publickey b /\
    match last with
    | None => p_pass _ p = None /\ p_phrase _ p = None
    | Some t => exists d, encode_stdin t = Some d /\ p_pass _ p = Some (encrypt (publickey b) d) /\ p_phrase _ p = Some (hexdigest d)
    end.
  Lemma ask_holds b last p pw : holds b last p ->
    holds b (typed_by last (Ask pw)) (fst (ask_for_password pub encrypt hexdigest encode_stdin pw p)) /\
    p_asked _ (fst (ask_for_password pub encrypt hexdigest encode_stdin pw p)) = S (p_asked _ p).
  Proof.
    intros [P H]. unfold ask_for_password. cbn [typed_by]. destruct (encode_stdin pw) as [d|] eqn:E; cbn [fst p_asked]; split; auto.
    - split; [exact P|]. exists d. cbn. rewrite P. auto.
    - split; [exact P|]. exact H.
  Qed.
  Lemma step_holds b last p c : holds b last p ->
    holds b (typed_by last c) (fst (provider_step p c)) /\ p_asked _ (fst (provider_step p c)) = questions last c + p_asked _ p.
  Proof.
    intros H. destruct c as [pw|pw|k]; cbn [PasswordModel.provider_step questions].
    - pose proof (ask_holds b last p pw H) as K. destruct (ask_for_password _ _ _ _ _ _) as [p' ok]. exact K.
    - unfold PasswordModel.encrypted_password. destruct H as [P H]. destruct last as [t|].
      + destruct H as (d & E & F & G). rewrite F. cbn [fst]. split; [|reflexivity]. split; [exact P|]. now exists d.
      + destruct H as [F G]. rewrite F. pose proof (ask_holds b None p pw (conj P (conj F G))) as K.
        destruct (ask_for_password _ _ _ _ _ _) as [p' ok]. exact K.
    - cbn [fst]. auto.
  Qed.
  Lemma run_holds b l : forall last p, holds b last p ->
    holds b (typed last l) (fst (provider_run p l)) /\ p_asked _ (fst (provider_run p l)) = asked last l + p_asked _ p.
  Proof.
    induction l as [|c l IH]; intros last p H; [cbn; auto|]. cbn [PasswordModel.provider_run typed asked].
    destruct (step_holds b last p c H) as [A B]. destruct (provider_step p c) as [p1 a]. cbn [fst] in *. specialize (IH _ _ A).
    destruct (provider_run p1 l) as [p2 o]. cbn [fst] in *. destruct IH as [C D]. split; [exact C|]. lia.
  Qed.

  (** Whatever was asked and read before, the password that a provider gives arrives at the broker
      as the user typed it last; the user is asked again only if told to *)
  Theorem C87_arrives b p l pw : new_provider (master_public b) = Some p ->
    let read := encrypted_password pw (fst (provider_run p l)) in
    match snd read with Some c => decrypted (Some c) b | None => None end = typed None (l ++ [Read pw]) /\
    p_asked _ (fst read) = asked None (l ++ [Read pw]).
  Proof.
    intros N. unfold PasswordModel.new_provider, PasswordModel.master_public in N. rewrite import_export in N. injection N as <-.
    assert (H0 : holds b None (mk_provider _ (publickey b) None None 0)) by (split; auto).
    destruct (run_holds b l None _ H0) as [H A]. set (p' := fst (provider_run _ l)) in *. clearbody p'. cbn [p_asked] in A.
    pose proof (step_holds b _ p' (Read pw) H) as [K Q]. cbn [PasswordModel.provider_step] in K, Q. cbv zeta. split.
    - assert (G : forall last, typed last (l ++ [Read pw]) = typed_by (typed last l) (Read pw)).
      { clear. induction l as [|x l IH]; intros last; cbn [typed app]; [reflexivity|apply IH]. }
      rewrite G. assert (S : snd (encrypted_password pw p') = None \/ snd (encrypted_password pw p') = p_pass _ (fst (encrypted_password pw p'))).
      { unfold PasswordModel.encrypted_password. destruct (p_pass _ p') eqn:F; [right; cbn; congruence|].
        destruct (ask_for_password _ _ _ _ _ _) as [q ok]. cbn. destruct ok; auto. }
      destruct K as [P K]. destruct S as [S|S].
      + rewrite S. revert S. unfold PasswordModel.encrypted_password. destruct H as [_ H]. cbn [typed_by].
        destruct (typed None l) as [t|]; [destruct H as (d & D & F & _); now rewrite F|]. destruct H as [F _]. rewrite F.
        unfold ask_for_password. destruct (encode_stdin pw); cbn; [discriminate|reflexivity].
      + rewrite S. destruct (typed_by (typed None l) (Read pw)) as [t|]; [|destruct K as [K _]; now rewrite K].
        destruct K as (d & D & F & _). rewrite F. unfold PasswordModel.get_decrypted_password, decrypt_password. cbn [rbind].
        rewrite decrypt_encrypt. cbn. now apply utf8_terminal.
    - rewrite Q, A. clear. assert (G : forall last, questions (typed last l) (Read pw) + (asked last l + 0) = asked last (l ++ [Read pw])).
      { induction l as [|x l IH]; intros last; cbn [typed asked app]; [lia|]. rewrite <- IH. lia. }
      apply G.
  Qed.
  (** Reading the password asks the user at most once, however often it is read *)
  Theorem C87_asked_once b p l : new_provider (master_public b) = Some p ->
    (forall c, In c l -> match c with Ask _ => False | Read pw => encode_stdin pw <> None | Passphrase _ => True end) ->
    p_asked _ (fst (provider_run p l)) <= 1.
  Proof.
    intros N R. unfold PasswordModel.new_provider, PasswordModel.master_public in N. rewrite import_export in N. injection N as <-.
    assert (H0 : holds b None (mk_provider _ (publickey b) None None 0)) by (split; auto).
    destruct (run_holds b l None _ H0) as [_ ->]. cbn [p_asked]. clear H0.
    assert (Z : forall t, asked (Some t) l = 0).
    { induction l as [|c l IH]; intros t; [reflexivity|]. cbn [asked]. pose proof (R c (or_introl eq_refl)).
      destruct c; [contradiction| |]; cbn; apply IH; intros; apply R; now right. }
    induction l as [|c l IH]; [cbn; lia|]. cbn [asked]. pose proof (R c (or_introl eq_refl)) as C.
    assert (Z' : forall t, asked (Some t) l = 0).
    { intros t. specialize (Z t). cbn [asked] in Z. destruct c; [contradiction| |]; cbn in Z; exact Z. }
    destruct c as [pw|pw|k]; [contradiction| |]; cbn [questions typed_by].
    - destruct (encode_stdin pw); [rewrite Z'; lia|congruence].
    - cbn. apply IH; auto. intros c K. apply R. now right.
  Qed.

  (** The master key comes back in a new broker: with the passphrase that the provider sends for a
      key that serves once, the exported key is imported, and the password is read as before *)
  Theorem C87_brought_back b p l e pw c w f : new_provider (master_public b) = Some p ->
    let p' := fst (provider_run p l) in
    eph_public (Some e) = Some f -> get_master_passphrase f p' = Some w ->
    exists phrase, fst (eph_decrypt w (Some e)) = Some phrase /\
      (exists t d, typed None l = Some t /\ encode_stdin t = Some d /\ phrase = encode_utf8 (hexdigest d)) /\
      forall fresh, exists b', new_broker fresh (Some (get_master_pem key export_key phrase b)) phrase = Some b' /\
        (snd (encrypted_password pw p') = Some c -> decrypted (Some c) b' = decrypted (Some c) b).
  Proof.
    intros N p' F W. unfold PasswordModel.new_provider, PasswordModel.master_public in N. rewrite import_export in N. injection N as <-.
    assert (H0 : holds b None (mk_provider _ (publickey b) None None 0)) by (split; auto).
    destruct (run_holds b l None _ H0) as [H _]. fold p' in H. clearbody p'.
    cbn in F. injection F as <-. unfold PasswordModel.get_master_passphrase in W. rewrite import_export in W. cbn [rbind] in W.
    destruct H as [P H]. destruct (typed None l) as [t|] eqn:T; [|destruct H as [_ H]; rewrite H in W; discriminate].
    destruct H as (d & D & _ & H). rewrite H in W. cbn in W. injection W as <-.
    exists (encode_utf8 (hexdigest d)). unfold PasswordModel.eph_decrypt. rewrite decrypt_encrypt. cbn [fst]. split; [reflexivity|].
    split; [now exists t, d|]. intros fresh. exists b. unfold PasswordModel.new_broker, get_master_pem.
    destruct (export_key b _) as [|x r] eqn:X; [now destruct (pem_not_empty _ _ X)|]. rewrite <- X, import_pem. auto.
  Qed.
  (** Without a password there is no passphrase *)
  Theorem C87_no_passphrase_refuted b p f : new_provider (master_public b) = Some p -> get_master_passphrase f p = None.
  Proof.
    intros N. unfold PasswordModel.new_provider, PasswordModel.master_public in N. rewrite import_export in N. injection N as <-.
    unfold PasswordModel.get_master_passphrase. now destruct (import_pub f).
  Qed.
End Keys.
Print Assumptions C87_arrives.
Print Assumptions C87_asked_once.
Print Assumptions C87_brought_back.
Print Assumptions C87_no_passphrase_refuted.

Section Once.
  Variables (key pub : Type) (publickey : key -> pub) (export_pub : pub -> bytes) (decrypt : key -> bytes -> option bytes).
  Fixpoint decrypts (e : ephemeral key) (l : list bytes) : list (option bytes) :=
    match l with [] => [] | c :: r => let (a, e') := eph_decrypt key decrypt c e in a :: decrypts e' r end.
  Lemma used_up l : forall a, In a (decrypts None l) -> a = None.
  Proof. induction l as [|c l IH]; intros a; cbn; [tauto|]. intros [<-|H]; auto. Qed.
  (** Of all the messages given to a temporary key, at most one is decrypted: the first that can be;
      after that the key is of no use *)
  Theorem C87_key_serves_once k l :
    (exists l1 c l2 m, l = l1 ++ c :: l2 /\ (forall x, In x l1 -> decrypt k x = None) /\ decrypt k c = Some m /\
       decrypts (Some k) l = map (fun _ => None) l1 ++ Some m :: map (fun _ => None) l2 /\
       eph_public key pub publickey export_pub (snd (eph_decrypt key decrypt c (Some k))) = None) \/
    (forall x, In x l -> decrypt k x = None) /\ decrypts (Some k) l = map (fun _ => None) l.
  Proof.
    induction l as [|c l IH]; [right; split; [intros x []|reflexivity]|]. cbn [decrypts eph_decrypt].
    destruct (decrypt k c) as [m|] eqn:D.
    - left. exists [], c, l, m. rewrite D. repeat match goal with |- _ /\ _ => split end; auto; [intros x []|]. cbn. f_equal.
      clear. induction l as [|c l IH]; [reflexivity|]. cbn. now rewrite IH.
    - destruct IH as [(l1 & c' & l2 & m & -> & A & B & C & E)|[A B]].
      + left. exists (c :: l1), c', l2, m. repeat match goal with |- _ /\ _ => split end; auto.
        * intros x [<-|X]; auto.
        * cbn. now rewrite C.
      + right. split; [intros x [<-|X]; auto|]. cbn. now rewrite B.
  Qed.
End Once.
Print Assumptions C87_key_serves_once.

(** A toy of a key: a message is encrypted by putting the key before it *)
Definition toy_decrypt (k : ascii) (c : bytes) : option bytes := match c with x :: m => if Ascii.eqb x k then Some m else None | [] => None end.
Example C87_case_keys : forall k m, toy_decrypt k (k :: m) = Some m.
Proof. intros k m. cbn. now rewrite Ascii.eqb_refl. Qed.
Example C87_case_once : decrypts ascii toy_decrypt (Some "k"%char) [["x"%char]; ["k"; "a"]%char; ["k"; "b"]%char] = [None; Some ["a"%char]; None].
Proof. reflexivity. Qed.
(** A reading after a question that failed asks again; a reading after a reading does not *)
Example C87_case_asked :
  let enc := fun t : text => match t with "?"%char :: _ => None | _ => Some t end in
  typed enc None [Read ["?"%char]; Read ["a"%char]; Read ["b"%char]] = Some ["a"%char] /\
  asked enc None [Read ["?"%char]; Read ["a"%char]; Read ["b"%char]] = 2 /\
  typed enc None [Read ["a"%char]; Ask ["b"%char]; Read ["c"%char]] = Some ["b"%char] /\
  asked enc None [Read ["a"%char]; Ask ["b"%char]; Read ["c"%char]] = 2.
Proof. cbn. auto. Qed.
(** All that is expected of keys can be met at once *)
Example C87_case_arrives :
  let publickey := fun k : ascii => k in let export_pub := fun p : ascii => [p] in
  let import_pub := fun b : bytes => match b with [p] => Some p | _ => None end in
  let encrypt := fun (p : ascii) (m : bytes) => p :: m in
  let export_key := fun (k : ascii) (phrase : bytes) => k :: phrase in
  let import_key := fun (d phrase : bytes) => match d with k :: _ => Some k | [] => None end in
  (forall p, import_pub (export_pub p) = Some p) /\ (forall k m, toy_decrypt k (encrypt (publickey k) m) = Some m) /\
  (forall k phrase, import_key (export_key k phrase) phrase = Some k) /\ (forall k phrase, export_key k phrase <> []) /\
  exists p, new_provider ascii import_pub (master_public ascii ascii publickey export_pub "k"%char) = Some p /\
    snd (encrypted_password ascii encrypt (fun d => d) Some ["s"; "e"]%char p) = Some ["k"; "s"; "e"]%char /\
    get_decrypted_password ascii toy_decrypt Some (Some ["k"; "s"; "e"]%char) "k"%char = Some ["s"; "e"]%char.
Proof.
  cbn. repeat match goal with |- _ /\ _ => split end; try reflexivity; try discriminate.
  - intros k m. now rewrite Ascii.eqb_refl.
  - eexists. split; [reflexivity|]. split; reflexivity.
Qed.
