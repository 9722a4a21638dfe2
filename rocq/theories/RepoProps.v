(** * C66: stored sessions *)
From Coq Require Import DecimalString DecimalNat DecimalFacts String Ascii List Bool Arith Lia Sorted Permutation.
From Verif Require Import ScanModel Rfc822Model Rfc822Spec Rfc822Proofs IniModel ExportModel ExportProps CacheModel CacheProofs RunnerModel PluginModel PluginProps RepoModel RepoSpec.
Import ListNotations.
Local Open Scope nat_scope.
Local Open Scope list_scope.

(** ** Names *)

Lemma noslash_basename n : ~ In "/"%char n -> basename n = n.
Proof. intros H. unfold basename. now rewrite basename_from_plain. Qed.
Lemma id_of_dir id : good_id id -> ~ In "/"%char id -> storage_id (session_dir id) = id.
Proof.
  intros (c & r & -> & C) N. unfold storage_id. rewrite noslash_basename.
  - unfold splitext_root, session_dir. change (T ".session") with ("."%char :: T "session"). rewrite last_dot_app by (vm_compute; intuition discriminate).
    cbn [existsb]. replace (Ascii.eqb c "."%char) with false by (symmetry; now apply Ascii.eqb_neq). reflexivity.
  - unfold session_dir. intros X. apply in_app_or in X as [X|X]; [now apply N|]. vm_compute in X. intuition discriminate.
Qed.
(** The identifier of a session is the name of its directory without the ending, wherever
    the repository is *)
Theorem C66_identifiers base id : good_id id -> ~ In "/"%char id -> storage_id (pjoin base (session_dir id)) = id.
Proof.
  intros G N. rewrite <- (id_of_dir id) at 2 by assumption. unfold storage_id. f_equal. destruct G as (c & r & -> & C).
  unfold pjoin, session_dir. cbn [app]. destruct (Ascii.eqb c SLASH) eqn:E; [reflexivity|]. destruct base as [|b base]; [reflexivity|].
  assert (NS : ~ In SLASH (c :: r ++ T ".session")).
  { intros [X|X]; [subst c; rewrite Ascii.eqb_refl in E; discriminate|]. apply in_app_or in X as [X|X]; [apply N; now right|]. vm_compute in X. intuition discriminate. }
  assert (B : basename (c :: r ++ T ".session") = c :: r ++ T ".session") by now apply noslash_basename. rewrite B.
  destruct (ends_slash (b :: base)) eqn:S.
  - assert (exists q, b :: base = q ++ [SLASH]) as (q & ->).
    { clear -S. revert b S. induction base as [|x base IH]; intros b S; [cbn in S; apply Ascii.eqb_eq in S as ->; now exists []|].
      destruct (IH x S) as (q & Q). exists (b :: q). cbn. now rewrite Q. }
    unfold basename. rewrite <- app_assoc. cbn [app]. now rewrite basename_from_app, basename_from_plain.
  - unfold basename. rewrite basename_from_app. now rewrite basename_from_plain.
Qed.
Print Assumptions C66_identifiers.

Lemma session_name n : negb (starts_with "."%char n) && ends_with SUFFIX n = true <-> exists id, n = session_dir id /\ good_id id.
Proof.
  rewrite andb_true_iff, negb_true_iff, ends_with_spec. split.
  - intros [A (s & ->)]. exists s. split; [reflexivity|]. destruct s as [|c s]; [discriminate|]. exists c, s. split; [reflexivity|]. intros ->. discriminate.
  - intros (id & -> & c & r & -> & C). split; [unfold session_dir; cbn [app starts_with]; apply Ascii.eqb_neq; congruence|]. now eexists.
Qed.

(** ** Listing *)

Lemma insert_perm e l : Permutation (insert e l) (e :: l).
Proof.
  induction l as [|x l IH]; cbn [insert]; [constructor; constructor|]. destruct (Nat.leb (mtime x) (mtime e)); [reflexivity|].
  rewrite IH. constructor.
Qed.
Lemma sort_perm l : Permutation (sort_entries l) l.
Proof. induction l as [|e l IH]; cbn; [constructor|]. rewrite insert_perm. now constructor. Qed.
Definition later (a b : entry) : Prop := mtime b <= mtime a.
Lemma insert_sorted e l : StronglySorted later l -> StronglySorted later (insert e l).
Proof.
  induction l as [|x l IH]; intros H; cbn [insert]; [constructor; constructor|]. inversion H as [|? ? A B]; subst.
  destruct (Nat.leb_spec (mtime x) (mtime e)).
  - constructor; [assumption|]. constructor; [assumption|]. eapply Forall_impl; [|exact B]. unfold later. intros; lia.
  - constructor; [now apply IH|]. rewrite Forall_forall in *. intros y Y. apply (Permutation_in _ (insert_perm e l)) in Y as [<-|Y]; [unfold later; lia|auto].
Qed.
Lemma sort_sorted l : StronglySorted later (sort_entries l).
Proof. induction l as [|e l IH]; cbn; [constructor|]. now apply insert_sorted. Qed.
Lemma sorted_filter {A} (R : A -> A -> Prop) f l : StronglySorted R l -> StronglySorted R (filter f l).
Proof.
  induction 1 as [|a l H IH F]; cbn; [constructor|]. destruct (f a); [|assumption]. constructor; [assumption|].
  rewrite Forall_forall in *. intros y Y. apply filter_In in Y as [Y _]. auto.
Qed.
Lemma no_error l : readable l -> first_error l = None.
Proof.
  induction l as [|e l IH]; intros H; [reflexivity|]. cbn. destruct (H e (or_introl eq_refl)) as (t & ->). apply IH. intros x X. apply H. now right.
Qed.
Lemma named_once l x y : NoDup (map e_name l) -> In x l -> In y l -> e_name x = e_name y -> x = y.
Proof.
  induction l as [|e l IH]; intros H X Y E; [destruct X|]. cbn in H. inversion H as [|? ? A B]; subst.
  destruct X as [->|X], Y as [->|Y]; [reflexivity| | |now apply IH].
  - exfalso. apply A. rewrite E. now apply in_map.
  - exfalso. apply A. rewrite <- E. now apply in_map.
Qed.

(** All sessions are listed, nothing else is, each once, the youngest first *)
Theorem C66_listing l : directory l -> readable l -> exists names, get_storage_list (inr l) = inr names /\ NoDup names /\
  (forall n, In n names <-> exists id, n = session_dir id /\ stored l id) /\ youngest_first l names.
Proof.
  intros [ND NS] R. exists (map e_name (filter is_session (sort_entries l))). unfold get_storage_list. rewrite no_error by assumption. split; [reflexivity|].
  assert (NDS : NoDup (map e_name (sort_entries l))) by (eapply Permutation_NoDup; [apply Permutation_map, Permutation_sym, sort_perm|assumption]).
  split; [|split].
  - clear -NDS. induction (sort_entries l) as [|e r IH]; cbn; [constructor|]. cbn in NDS. inversion NDS as [|? ? A B]; subst.
    destruct (is_session e); [|now apply IH]. cbn. constructor; [|now apply IH]. intros X. apply A. apply in_map_iff in X as (y & <- & Y). apply in_map. now apply filter_In in Y as [Y _].
  - intros n. rewrite in_map_iff. split.
    + intros (e & <- & I). apply filter_In in I as [I S]. unfold is_session in S. apply andb_prop in S as [S D]. apply session_name in S as (id & E & G).
      exists id. split; [exact E|]. split; [exact G|]. exists e. split; [now apply (Permutation_in _ (sort_perm l))|]. now split.
    + intros (id & -> & G & e & I & E & D). exists e. split; [exact E|]. apply filter_In. split; [now apply (Permutation_in _ (Permutation_sym (sort_perm l)))|].
      unfold is_session. rewrite D, andb_true_r. apply session_name. eauto.
  - unfold youngest_first. pose proof (sorted_filter later is_session _ (sort_sorted l)) as H.
    assert (SUB : forall e, In e (filter is_session (sort_entries l)) -> In e l) by (intros e I; apply filter_In in I as [I _]; now apply (Permutation_in _ (sort_perm l))).
    induction H as [|a r H IH F]; cbn; [constructor|]. constructor; [apply IH; intros e I; apply SUB; now right|].
    rewrite Forall_forall in *. intros n I. apply in_map_iff in I as (b & <- & I). specialize (F b I). intros x y s t X Y EX EY SX SY.
    assert (x = a) by (apply (named_once l); auto; apply SUB; now left). assert (y = b) by (apply (named_once l); auto; apply SUB; now right). subst.
    unfold later, mtime in F. rewrite SX, SY in F. exact F.
Qed.
Print Assumptions C66_listing.

(** One thing that cannot be looked at hides all sessions *)
Theorem C66_dangling_link_refuted : exists l, directory l /\ stored l (T "run-1") /\ get_storage_list (inr l) = inr [].
Proof.
  exists [mk_entry (T "run-1.session") true (inr 5); mk_entry (T "latest") false (inl ENOENT)]. split; [|split].
  - split; [repeat constructor; cbn; intuition discriminate|]. intros e [<-|[<-|[]]]; vm_compute; intuition discriminate.
  - split; [exists "r"%char, (T "un-1"); split; [reflexivity|discriminate]|]. eexists. split; [now left|]. now split.
  - reflexivity.
Qed.
Print Assumptions C66_dangling_link_refuted.

(** ** Looking up *)

Lemma stored_noslash l id : directory l -> stored l id -> ~ In "/"%char id.
Proof. intros [_ NS] [_ (e & I & E & _)] X. apply (NS e I). rewrite E. unfold session_dir. apply in_or_app. now left. Qed.
Theorem C66_lookup l names id n : directory l -> readable l -> get_storage_list (inr l) = inr names ->
  (lookup_storage id names = Some n <-> n = session_dir id /\ stored l id).
Proof.
  intros D R G. destruct (C66_listing l D R) as (names' & G' & ND & IN & _). assert (names' = names) by congruence. subst names'. unfold lookup_storage. split.
  - intros F. apply find_some in F as [I E]. apply text_eqb_eq in E. apply IN in I as (id' & -> & S). rewrite id_of_dir in E by (apply S || now apply (stored_noslash l)). subst. now split.
  - intros [-> S]. destruct (find (fun n => text_eqb (storage_id n) id) names) as [m|] eqn:F.
    + apply find_some in F as [I E]. apply text_eqb_eq in E. apply IN in I as (id' & -> & S'). rewrite id_of_dir in E by (apply S' || now apply (stored_noslash l)). now subst.
    + exfalso. assert (I : In (session_dir id) names) by (apply IN; eauto). apply (find_none _ _ F) in I. rewrite id_of_dir in I by (apply S || now apply (stored_noslash l)).
      now rewrite text_eqb_refl in I.
Qed.
Print Assumptions C66_lookup.

(** ** New sessions *)

Lemma to_uint_some n : Nat.to_uint n <> Decimal.Nil.
Proof. intros E. pose proof (f_equal Nat.of_uint E) as F. rewrite DecimalNat.Unsigned.of_to in F. cbn in F. subst n. discriminate. Qed.
Lemma decimal_inj a b : decimal a = decimal b -> a = b.
Proof.
  unfold decimal, T. intros H. apply (f_equal string_of_list_ascii) in H. rewrite !string_of_list_ascii_of_string in H.
  apply (f_equal NilZero.uint_of_string) in H. rewrite !NilZero.usu in H.
  - injection H as H. now apply DecimalNat.Unsigned.to_uint_inj.
  - apply to_uint_some.
  - apply to_uint_some.
Qed.
Lemma candidate_inj prefix timestamp a b : candidate_name prefix timestamp a = candidate_name prefix timestamp b -> a = b.
Proof.
  unfold candidate_name. intros H. apply app_inv_head in H. apply app_inv_head in H. apply app_inv_tail in H.
  destruct a, b; try reflexivity; try discriminate. apply app_inv_head in H. apply app_inv_tail in H. now apply decimal_inj.
Qed.
Lemma visible_present n l : readable l -> visible n l = present n l.
Proof.
  intros R. unfold visible, present. induction l as [|e l IH]; [reflexivity|]. cbn. destruct (R e (or_introl eq_refl)) as (t & ->). rewrite andb_true_r. f_equal. apply IH. intros x X. apply R. now right.
Qed.
Lemma present_spec n l : present n l = true <-> exists e, In e l /\ e_name e = n.
Proof.
  unfold present. rewrite existsb_exists. split; intros (e & I & E); exists e; (split; [exact I|]); now apply text_eqb_eq.
Qed.
Lemma create_from_spec prefix timestamp now l : readable l -> forall fuel k,
  (exists m, k <= m /\ m < k + fuel /\ present (candidate_name prefix timestamp m) l = false) ->
  exists m, create_from fuel k prefix timestamp now l = Created (candidate_name prefix timestamp m) (l ++ [mk_entry (candidate_name prefix timestamp m) true (inr now)]) /\
    k <= m /\ present (candidate_name prefix timestamp m) l = false /\ forall j, k <= j -> j < m -> present (candidate_name prefix timestamp j) l = true.
Proof.
  intros R. induction fuel as [|fuel IH]; intros k (m & L & U & P); [lia|]. cbn [create_from]. cbv zeta. rewrite visible_present by assumption.
  destruct (present (candidate_name prefix timestamp k) l) eqn:E.
  - destruct (IH (S k)) as (m' & A & B & C & D). { exists m. split; [|split; [lia|assumption]]. assert (m <> k) by congruence. lia. }
    exists m'. split; [exact A|]. split; [lia|]. split; [exact C|]. intros j J1 J2. destruct (Nat.eq_dec j k) as [->|N]; [assumption|apply D; lia].
  - exists k. split; [reflexivity|]. split; [lia|]. split; [assumption|]. intros; lia.
Qed.
Lemma some_name_free prefix timestamp l : exists m, m <= length l /\ present (candidate_name prefix timestamp m) l = false.
Proof.
  destruct (existsb (fun m => negb (present (candidate_name prefix timestamp m) l)) (seq 0 (S (length l)))) eqn:E.
  - apply existsb_exists in E as (m & I & N). apply in_seq in I. exists m. split; [lia|]. now apply negb_true_iff.
  - exfalso. assert (A : forall m, In m (seq 0 (S (length l))) -> present (candidate_name prefix timestamp m) l = true).
    { intros m I. destruct (present (candidate_name prefix timestamp m) l) eqn:P; [reflexivity|]. assert (X : existsb (fun m => negb (present (candidate_name prefix timestamp m) l)) (seq 0 (S (length l))) = true); [|congruence].
      apply existsb_exists. exists m. split; [exact I|]. now rewrite P. }
    assert (INC : incl (map (candidate_name prefix timestamp) (seq 0 (S (length l)))) (map e_name l)).
    { intros n I. apply in_map_iff in I as (m & <- & I). apply A in I. apply present_spec in I as (e & I & E'). rewrite <- E'. now apply in_map. }
    apply NoDup_incl_length in INC; [rewrite !map_length, seq_length in INC; lia|].
    assert (ND : NoDup (seq 0 (S (length l)))) by apply seq_NoDup. clear -ND. induction ND as [|x s N ND IH]; cbn; constructor; [|assumption].
    intros X. apply in_map_iff in X as (y & E & I). apply candidate_inj in E. now subst.
Qed.
(** Making a session never fails when it is done alone: it takes the first name that
    nothing has, and that is a new directory.  It can be found under its name, unless
    that begins with a dot *)
Theorem C66_new_session fuel prefix timestamp now l : directory l -> readable l -> length l < fuel -> ~ In "/"%char timestamp ->
  exists k l', create fuel prefix timestamp now l = Created (candidate_name prefix timestamp k) l' /\
    (forall e, In e l -> e_name e <> candidate_name prefix timestamp k) /\
    (forall j, j < k -> exists e, In e l /\ e_name e = candidate_name prefix timestamp j) /\
    l' = l ++ [mk_entry (candidate_name prefix timestamp k) true (inr now)] /\ directory l' /\ readable l' /\
    forall id, candidate_name prefix timestamp k = session_dir id -> good_id id -> stored l' id.
Proof.
  intros D R F NS. destruct (some_name_free prefix timestamp l) as (m & M & P).
  destruct (create_from_spec prefix timestamp now l R fuel 0) as (k & C & _ & N & B); [exists m; split; [lia|]; split; [lia|assumption]|].
  exists k. eexists. split; [exact C|].
  assert (NEW : forall e, In e l -> e_name e <> candidate_name prefix timestamp k).
  { intros e I E. assert (X : present (candidate_name prefix timestamp k) l = true) by (apply present_spec; eauto). congruence. }
  split; [exact NEW|]. split; [intros j J; apply present_spec, B; lia|]. split; [reflexivity|]. split; [|split].
  - split.
    + rewrite map_app. cbn. apply (Permutation_NoDup (l := candidate_name prefix timestamp k :: map e_name l)); [apply Permutation_cons_append|].
      constructor; [|apply D]. intros X. apply in_map_iff in X as (e & E & I). now apply (NEW e I).
    + intros e I. apply in_app_or in I as [I|[<-|[]]]; [now apply D|]. cbn. unfold candidate_name.
      assert (SL : ~ In "/"%char (slugify prefix)).
      { unfold slugify. intros X. apply in_map_iff in X as (c & E & _). destruct (valid_char c) eqn:V; [subst c; discriminate|discriminate]. }
      assert (DC : forall n, ~ In "/"%char (decimal n)).
      { intros n. unfold decimal, T. generalize (Nat.to_uint n). intros u. assert (Q : ~ In "/"%char (list_ascii_of_string (NilEmpty.string_of_uint u))).
        { induction u; cbn; auto; intros [X|X]; try discriminate; auto. }
        unfold NilZero.string_of_uint. destruct u; try exact Q. cbn. intuition discriminate. }
      intros X. apply in_app_or in X as [X|X]; [auto|]. apply in_app_or in X as [X|X]; [auto|]. apply in_app_or in X as [X|X]; [|vm_compute in X; intuition discriminate].
      destruct k as [|k]; [destruct X|]. apply in_app_or in X as [X|X]; [vm_compute in X; intuition discriminate|]. apply in_app_or in X as [X|X]; [now apply DC in X|vm_compute in X; intuition discriminate].
  - intros e I. apply in_app_or in I as [I|[<-|[]]]; [now apply R|]. now exists now.
  - intros id E G. split; [exact G|]. eexists. split; [apply in_or_app; right; now left|]. now split.
Qed.
Print Assumptions C66_new_session.
(** Whatever is there, also what cannot be looked at: a session never gets a directory
    that exists.  It fails only on something that exists and cannot be seen *)
Theorem C66_never_shared fuel prefix timestamp now l :
  match create fuel prefix timestamp now l with
  | Created n l' => (forall e, In e l -> e_name e <> n) /\ l' = l ++ [mk_entry n true (inr now)]
  | File_exists n => exists e, In e l /\ e_name e = n /\ forall t, e_stat e <> inr t
  | Out_of_fuel => True
  end.
Proof.
  unfold create. generalize 0. induction fuel as [|fuel IH]; intros k; cbn [create_from]; [exact I|].
  destruct (visible (candidate_name prefix timestamp k) l) eqn:V; [apply IH|]. destruct (present (candidate_name prefix timestamp k) l) eqn:P.
  - apply present_spec in P as (e & Ie & E). exists e. split; [exact Ie|]. split; [exact E|]. intros t St. unfold visible in V.
    assert (X : existsb (fun e => text_eqb (e_name e) (candidate_name prefix timestamp k) && match e_stat e with inr _ => true | inl _ => false end) l = true); [|congruence].
    apply existsb_exists. exists e. split; [exact Ie|]. rewrite E, St, text_eqb_refl. reflexivity.
  - split; [|reflexivity]. intros e Ie E. assert (X : present (candidate_name prefix timestamp k) l = true) by (apply present_spec; eauto). congruence.
Qed.
Print Assumptions C66_never_shared.
(** A repository that does not exist yet has no sessions; other errors are reported *)
Theorem C66_no_repository_yet x : get_storage_list (inl x) = (if match x with ENOENT => true | _ => false end then inr [] else inl x).
Proof. now destruct x. Qed.
Print Assumptions C66_no_repository_yet.
(** A title that begins with a dot makes a session that is never listed *)
Theorem C66_hidden_title_refuted : exists title timestamp l n, create 5 (title ++ T "-") timestamp 7 [] = Created n l /\ get_storage_list (inr l) = inr [].
Proof. exists (T ".net tests"), (T "2016-01-01T00.00.00"). eexists. eexists. split; reflexivity. Qed.
Print Assumptions C66_hidden_title_refuted.

(** ** At the same time *)

Section Together.
  Variable calls : nat -> nat -> text.
  Variable start : list entry.
  Hypothesis START : readable start.
  Definition holds (w : world) (i k : nat) : Prop := w_who w i = Has k.
  Record fine (w : world) : Prop := {
    fine_read : readable (w_dir w);
    fine_here : forall i k, w_who w i = Has k -> present (calls i k) (w_dir w) = true;
    fine_one : forall i j k m, w_who w i = Has k -> w_who w j = Has m -> calls i k = calls j m -> i = j;
    fine_make : forall i k, w_who w i = Making k -> present (calls i k) (w_dir w) = true -> exists j m, w_who w j = Has m /\ calls j m = calls i k;
    fine_stop : forall i k, w_who w i = Stopped k -> exists j m, j <> i /\ (w_who w j = Has m \/ w_who w j = Removed m) /\ calls j m = calls i k }.
  Lemma set_same i c w : set_who i c w i = c. Proof. unfold set_who. now rewrite Nat.eqb_refl. Qed.
  Lemma set_other i j c w : j <> i -> set_who i c w j = w j. Proof. intros N. unfold set_who. now apply Nat.eqb_neq in N as ->. Qed.
  Lemma present_app n l e : present n (l ++ [e]) = present n l || text_eqb (e_name e) n.
  Proof. unfold present. rewrite existsb_app. cbn. now rewrite orb_false_r. Qed.
  (** Steps that change one program, which had no session *)
  Lemma who_has i c w : (forall k, w i <> Has k) -> (forall k, w i <> Removed k) -> forall j m, (w j = Has m \/ w j = Removed m) -> set_who i c w j = w j.
  Proof. intros A B j m H. apply set_other. intros ->. destruct H as [H|H]; [now apply A in H|now apply B in H]. Qed.
  Lemma fine_step w w' : fine w -> step calls w w' -> fine w'.
  Proof.
    intros [RD HE ON MK ST] S. destruct S as [i k w L V|i k w L V|i k w t M P|i k w M P|n w who W]; constructor; cbn [w_dir w_who].
    - exact RD.
    - intros j m H. destruct (Nat.eq_dec j i) as [->|N]; [now rewrite set_same in H|rewrite set_other in H by assumption; auto].
    - intros a b x y A B. destruct (Nat.eq_dec a i) as [->|Na]; [now rewrite set_same in A|]. destruct (Nat.eq_dec b i) as [->|Nb]; [now rewrite set_same in B|].
      rewrite set_other in A, B by assumption. eauto.
    - intros j m H Q. destruct (Nat.eq_dec j i) as [->|N]; [now rewrite set_same in H|rewrite set_other in H by assumption].
      destruct (MK _ _ H Q) as (a & b & A & B). exists a, b. split; [|exact B]. rewrite (who_has i _ (w_who w) ltac:(intros; congruence) ltac:(intros; congruence) a b); auto.
    - intros j m H. destruct (Nat.eq_dec j i) as [->|N]; [now rewrite set_same in H|rewrite set_other in H by assumption].
      destruct (ST _ _ H) as (a & b & NE & A & B). exists a, b. split; [exact NE|]. split; [|exact B]. rewrite (who_has i _ (w_who w) ltac:(intros; congruence) ltac:(intros; congruence) a b); auto.
    - exact RD.
    - intros j m H. destruct (Nat.eq_dec j i) as [->|N]; [now rewrite set_same in H|rewrite set_other in H by assumption; auto].
    - intros a b x y A B. destruct (Nat.eq_dec a i) as [->|Na]; [now rewrite set_same in A|]. destruct (Nat.eq_dec b i) as [->|Nb]; [now rewrite set_same in B|].
      rewrite set_other in A, B by assumption. eauto.
    - intros j m H Q. destruct (Nat.eq_dec j i) as [->|N].
      + rewrite set_same in H. injection H as <-. rewrite visible_present in V by exact RD. congruence.
      + rewrite set_other in H by assumption.
        destruct (MK _ _ H Q) as (a & b & A & B). exists a, b. split; [|exact B]. rewrite (who_has i _ (w_who w) ltac:(intros; congruence) ltac:(intros; congruence) a b); auto.
    - intros j m H. destruct (Nat.eq_dec j i) as [->|N]; [now rewrite set_same in H|rewrite set_other in H by assumption].
      destruct (ST _ _ H) as (a & b & NE & A & B). exists a, b. split; [exact NE|]. split; [|exact B]. rewrite (who_has i _ (w_who w) ltac:(intros; congruence) ltac:(intros; congruence) a b); auto.
    - intros e I. apply in_app_or in I as [I|[<-|[]]]; [auto|]. now exists t.
    - intros j m H. rewrite present_app. cbn [e_name]. destruct (Nat.eq_dec j i) as [->|N].
      + rewrite set_same in H. injection H as <-. rewrite text_eqb_refl. apply orb_true_r.
      + rewrite set_other in H by assumption. now rewrite (HE _ _ H).
    - intros a b x y A B E. destruct (Nat.eq_dec a i) as [->|Na], (Nat.eq_dec b i) as [->|Nb]; [reflexivity| | |].
      + rewrite set_same in A. injection A as <-. rewrite set_other in B by assumption. apply HE in B. rewrite <- E in B. congruence.
      + rewrite set_same in B. injection B as <-. rewrite set_other in A by assumption. apply HE in A. rewrite E in A. congruence.
      + rewrite set_other in A, B by assumption. eauto.
    - intros j m H Q. destruct (Nat.eq_dec j i) as [->|N]; [now rewrite set_same in H|]. rewrite set_other in H by assumption. rewrite present_app in Q. cbn [e_name] in Q.
      apply orb_prop in Q as [Q|Q].
      + destruct (MK _ _ H Q) as (a & b & A & B). exists a, b. split; [|exact B]. rewrite (who_has i _ (w_who w) ltac:(intros; congruence) ltac:(intros; congruence) a b); auto.
      + apply text_eqb_eq in Q. exists i, k. split; [apply set_same|exact Q].
    - intros j m H. destruct (Nat.eq_dec j i) as [->|N]; [now rewrite set_same in H|rewrite set_other in H by assumption].
      destruct (ST _ _ H) as (a & b & NE & A & B). exists a, b. split; [exact NE|]. split; [|exact B]. rewrite (who_has i _ (w_who w) ltac:(intros; congruence) ltac:(intros; congruence) a b); auto.
    - exact RD.
    - intros j m H. destruct (Nat.eq_dec j i) as [->|N]; [now rewrite set_same in H|rewrite set_other in H by assumption; auto].
    - intros a b x y A B. destruct (Nat.eq_dec a i) as [->|Na]; [now rewrite set_same in A|]. destruct (Nat.eq_dec b i) as [->|Nb]; [now rewrite set_same in B|].
      rewrite set_other in A, B by assumption. eauto.
    - intros j m H Q. destruct (Nat.eq_dec j i) as [->|N]; [now rewrite set_same in H|rewrite set_other in H by assumption].
      destruct (MK _ _ H Q) as (a & b & A & B). exists a, b. split; [|exact B]. rewrite (who_has i _ (w_who w) ltac:(intros; congruence) ltac:(intros; congruence) a b); auto.
    - intros j m H. destruct (Nat.eq_dec j i) as [->|N].
      + rewrite set_same in H. injection H as <-. destruct (MK _ _ M P) as (a & b & A & B). exists a, b. split; [congruence|]. split; [|exact B]. left. rewrite set_other by congruence. exact A.
      + rewrite set_other in H by assumption.
        destruct (ST _ _ H) as (a & b & NE & A & B). exists a, b. split; [exact NE|]. split; [|exact B]. rewrite (who_has i _ (w_who w) ltac:(intros; congruence) ltac:(intros; congruence) a b); auto.
    - intros e I. apply filter_In in I as [I _]. auto.
    - intros j m H. rewrite W in H. destruct (w_who w j) as [x|x|x|x|x] eqn:E; try discriminate. destruct (text_eqb (calls j x) n) eqn:Q; [discriminate|]. injection H as <-.
      apply HE in E. apply present_spec in E as (e & I & E). apply present_spec. exists e. split; [|exact E]. apply filter_In. split; [exact I|]. rewrite E, Q. reflexivity.
    - intros a b x y A B. rewrite W in A, B. destruct (w_who w a) as [?|?|xa|?|?] eqn:Ea; try discriminate. destruct (w_who w b) as [?|?|xb|?|?] eqn:Eb; try discriminate.
      destruct (text_eqb (calls a xa) n); [discriminate|]. destruct (text_eqb (calls b xb) n); [discriminate|]. injection A as <-. injection B as <-. eauto.
    - intros j m H Q. assert (H' : w_who w j = Making m).
      { rewrite W in H. destruct (w_who w j) as [?|?|x|?|?]; try discriminate; [exact H|]. destruct (text_eqb (calls j x) n); discriminate. }
      apply present_spec in Q as (e & I & E). apply filter_In in I as [I NE]. destruct (MK _ _ H') as (a & b & A & B); [apply present_spec; eauto|].
      exists a, b. split; [|exact B]. rewrite W, A. rewrite B, <- E. apply negb_true_iff in NE. now rewrite NE.
    - intros j m H. assert (H' : w_who w j = Stopped m).
      { rewrite W in H. destruct (w_who w j) as [?|?|x|?|?]; try discriminate; [|exact H]. destruct (text_eqb (calls j x) n); discriminate. }
      destruct (ST _ _ H') as (a & b & NE & A & B). exists a, b. split; [exact NE|]. split; [|exact B]. rewrite W. destruct A as [A|A]; rewrite A; [|now right].
      destruct (text_eqb (calls a b) n); [now right|now left].
  Qed.

  (** However many programs make sessions at the same time, and whatever is removed:
      no two have the same directory, and each has its own until it is removed.  One is
      stopped by an error only if another was given the same name *)
  Theorem C66_one_each w : steps calls (mk_world start (fun _ => Looking 0)) w ->
    (forall i j k m, w_who w i = Has k -> w_who w j = Has m -> calls i k = calls j m -> i = j) /\
    (forall i k, w_who w i = Has k -> exists e, In e (w_dir w) /\ e_name e = calls i k) /\
    (forall i k, w_who w i = Stopped k -> exists j m, j <> i /\ (w_who w j = Has m \/ w_who w j = Removed m) /\ calls j m = calls i k).
  Proof.
    intros S. remember (mk_world start (fun _ => Looking 0)) as w0.
    assert (F : fine w).
    { induction S as [w|w w' w'' S IH ST]; [subst w|eapply fine_step; eauto]. constructor; cbn; try discriminate. exact START. }
    split; [apply F|]. split; [intros i k H; apply present_spec; now apply F|apply F].
  Qed.
End Together.
Print Assumptions C66_one_each.
(** Two programs started in the same second: one of them fails *)
Theorem C66_same_second_refuted : exists calls w, (forall i, calls i = candidate_name (T "pbox-") (T "2016-01-01T00.00.00")) /\
  steps calls (mk_world [] (fun _ => Looking 0)) w /\ w_who w 0 = Has 0 /\ w_who w 1 = Stopped 0.
Proof.
  exists (fun _ => candidate_name (T "pbox-") (T "2016-01-01T00.00.00")). eexists. split; [reflexivity|]. split; [|split].
  - eapply Go; [eapply Go; [eapply Go; [eapply Go; [apply Stay|]|]|]|].
    + apply (Look _ 0 0); reflexivity.
    + apply (Look _ 1 0); reflexivity.
    + apply (Make _ 0 0 _ 9); reflexivity.
    + apply (Fail _ 1 0); reflexivity.
  - reflexivity.
  - reflexivity.
Qed.
Print Assumptions C66_same_second_refuted.

(** ** Removing sessions *)

Lemma session_dir_inj a b : session_dir a = session_dir b -> a = b.
Proof. unfold session_dir. apply app_inv_tail. Qed.
Lemma in_remove removable n l e : In e (remove_storage removable n l) <-> In e l /\ ~ (e_name e = n /\ removable n = true).
Proof.
  unfold remove_storage. destruct (removable n).
  - rewrite filter_In, negb_true_iff. split; intros [A B]; (split; [exact A|]).
    + intros [E _]. apply text_eqb_eq in E. congruence.
    + destruct (text_eqb (e_name e) n) eqn:E; [|reflexivity]. apply text_eqb_eq in E. exfalso. now apply B.
  - split; [intros A; split; [exact A|intros [_ X]; discriminate]|tauto].
Qed.
Lemma nodup_map_filter f (l : list entry) : NoDup (map e_name l) -> NoDup (map e_name (filter f l)).
Proof.
  induction l as [|e l IH]; cbn; intros N; [constructor|]. inversion N as [|? ? A B]; subst. destruct (f e); [|now apply IH]. cbn. constructor; [|now apply IH].
  intros X. apply A. apply in_map_iff in X as (y & <- & Y). apply in_map. now apply filter_In in Y as [Y _].
Qed.
Lemma remove_keeps removable n l : directory l -> readable l -> directory (remove_storage removable n l) /\ readable (remove_storage removable n l).
Proof.
  intros [A B] R. split; [split|].
  - unfold remove_storage. destruct (removable n); [now apply nodup_map_filter|assumption].
  - intros e I. apply in_remove in I as [I _]. auto.
  - intros e I. apply in_remove in I as [I _]. auto.
Qed.
Lemma remove_all_keeps removable ns : forall l, directory l -> readable l -> directory (remove_all removable ns l) /\ readable (remove_all removable ns l).
Proof. induction ns as [|n ns IH]; intros l D R; [now split|]. cbn. apply IH; now apply remove_keeps. Qed.
Lemma in_remove_all removable ns : forall l e, In e (remove_all removable ns l) <-> In e l /\ ~ (In (e_name e) ns /\ removable (e_name e) = true).
Proof.
  induction ns as [|n ns IH]; intros l e; [cbn; tauto|]. cbn [remove_all fold_left]. change (fold_left _ ns ?x) with (remove_all removable ns x). rewrite IH, in_remove. cbn [In]. split.
  - intros [[A B] C]. split; [exact A|]. intros [[E|E] R]; [apply B; subst; now split|apply C; now split].
  - intros [A B]. split; [split; [exact A|]|]; intros [E R]; apply B; [subst; tauto|tauto].
Qed.
(** What deleting sessions leaves: everything else *)
Definition but (l : list entry) (doomed : text -> Prop) (l' : list entry) : Prop :=
  forall e, In e l' <-> In e l /\ ~ exists id, doomed id /\ stored l id /\ e_name e = session_dir id.
Theorem C66_deleting removable ids l : directory l -> readable l ->
  exists l', delete_sessions removable ids l = (l', None) /\ but l (fun id => In id ids /\ removable (session_dir id) = true) l' /\ directory l' /\ readable l'.
Proof.
  intros D R. destruct (C66_listing l D R) as (names & G & ND & IN & _). unfold delete_sessions. rewrite G. eexists. split; [reflexivity|]. split; [|now apply remove_all_keeps].
  intros e. rewrite in_remove_all, filter_In. split; intros [A B]; (split; [exact A|]).
  - intros (id & [I RM] & S & E). apply B. rewrite E. split; [|exact RM]. split; [apply IN; eauto|]. rewrite id_of_dir by (apply S || now apply (stored_noslash l)).
    unfold tmem. apply existsb_exists. exists id. split; [exact I|apply text_eqb_refl].
  - intros [[N I] RM]. apply IN in N as (id & E & S). apply B. exists id. rewrite E in I, RM. rewrite id_of_dir in I by (apply S || now apply (stored_noslash l)).
    unfold tmem in I. apply existsb_exists in I as (x & I & X). apply text_eqb_eq in X. subst x. exact (conj (conj I RM) (conj S E)).
Qed.
Print Assumptions C66_deleting.

Lemma stored_remove removable id0 l id : id <> id0 -> (stored (remove_storage removable (session_dir id0) l) id <-> stored l id).
Proof.
  intros NE. unfold stored. split; intros [G (e & I & E & D)]; (split; [exact G|]); exists e; (split; [|now split]).
  - now apply in_remove in I as [I _].
  - apply in_remove. split; [exact I|]. intros [X _]. rewrite E in X. now apply session_dir_inj in X.
Qed.
(** The command: the same, and it says which of them existed *)
Theorem C66_removing removable ids : forall l, directory l -> readable l -> NoDup ids ->
  exists l' out, remove_session removable ids l = (l', out, None) /\ but l (fun id => In id ids /\ removable (session_dir id) = true) l' /\
    Forall2 (fun id o => o = Session_removed id /\ stored l id \/ o = No_such_session id /\ ~ stored l id) ids out.
Proof.
  induction ids as [|id ids IH]; intros l D R ND.
  - exists l, []. split; [reflexivity|]. split; [|constructor]. intros e. split; [|tauto]. intros A. split; [exact A|]. intros (x & [[] _] & _).
  - inversion ND as [|? ? NI ND']; subst. destruct (C66_listing l D R) as (names & G & _). cbn [remove_session]. rewrite G.
    destruct (lookup_storage id names) as [n|] eqn:L.
    + pose proof (proj1 (C66_lookup l names id n D R G) L) as [-> S]. destruct (remove_keeps removable (session_dir id) l D R) as [D' R'].
      destruct (IH _ D' R' ND') as (l' & out & E & B & F). rewrite E. exists l', (Session_removed id :: out). split; [reflexivity|]. split.
      * intros e. rewrite (B e), in_remove. split.
        -- intros [[A X] Y]. split; [exact A|]. intros (y & [[<-|I] RM] & S' & Q); [apply X; now rewrite Q|]. apply Y. exists y. split; [now split|]. split; [|exact Q]. apply stored_remove; [congruence|exact S'].
        -- intros [A X]. split; [split; [exact A|]|].
           ++ intros [Q RM]. apply X. exists id. split; [split; [now left|exact RM]|]. now split.
           ++ intros (y & [I RM] & S' & Q). apply X. exists y. split; [split; [now right|exact RM]|]. split; [|exact Q]. apply stored_remove in S'; [exact S'|congruence].
      * constructor; [left; now split|]. clear -F NI. induction F as [|a b x y H F IH]; [constructor|]. constructor; [|apply IH; intros Q; apply NI; now right].
        destruct H as [[-> S]|[-> S]]; [left|right]; (split; [reflexivity|]); rewrite stored_remove in S by (intros ->; apply NI; now left); exact S.
    + assert (NS : ~ stored l id). { intros S. pose proof (proj2 (C66_lookup l names id (session_dir id) D R G) (conj eq_refl S)). congruence. }
      destruct (IH _ D R ND') as (l' & out & E & B & F). rewrite E. exists l', (No_such_session id :: out). split; [reflexivity|]. split.
      * intros e. rewrite (B e). split; intros [A X]; (split; [exact A|]); intros (y & [I RM] & S & Q); apply X; exists y; (split; [|now split]); (split; [|exact RM]).
        -- destruct I as [<-|I]; [contradiction|exact I].
        -- now right.
      * constructor; [right; now split|exact F].
Qed.
Print Assumptions C66_removing.
(** It says so even if nothing was removed *)
Theorem C66_not_removed_refuted : exists removable l, stored l (T "run-1") /\ remove_session removable [T "run-1"] l = (l, [Session_removed (T "run-1")], None).
Proof.
  exists (fun _ => false), [mk_entry (T "run-1.session") true (inr 5)]. split; [|reflexivity].
  split; [exists "r"%char, (T "un-1"); split; [reflexivity|discriminate]|]. eexists. split; [now left|]. now split.
Qed.
Print Assumptions C66_not_removed_refuted.

(** ** Sessions worth resuming *)

Lemma same_text_eq a b : same_text a b = true <-> a = b.
Proof.
  destruct a as [a|], b as [b|]; cbn; try (split; [discriminate|discriminate]); [|tauto]. rewrite text_eqb_eq. split; [now intros ->|congruence].
Qed.
Lemma tmem_in (x : text) l : tmem x l = true <-> In x l.
Proof.
  unfold tmem. rewrite existsb_exists. split; [intros (y & I & E); apply text_eqb_eq in E; now subst|intros I; exists x; split; [exact I|apply text_eqb_refl]].
Qed.
Section Stored.
  Variable load : text -> errno + text.
  Variable peek : text -> option metadata.
  Lemma keep_spec wanted names : loadable load names -> exists k, keep load peek wanted names = (k, None) /\
    (forall n m, In (n, m) k <-> In n names /\ wanted m = true /\ exists data, load n = inr data /\ data <> [] /\ peek data = Some m) /\
    (forall R : text -> text -> Prop, StronglySorted R names -> StronglySorted R (map fst k)) /\ (NoDup names -> NoDup (map fst k)) /\ incl (map fst k) names.
  Proof.
    induction names as [|n names IH]; intros L.
    - exists []. split; [reflexivity|]. split; [intros n m; cbn; tauto|]. split; [constructor|]. split; [auto|]. intros x [].
    - destruct IH as (k & E & I & S & ND & INC); [intros x X; apply L; now right|]. destruct (L n (or_introl eq_refl)) as (data & D). cbn [keep]. rewrite D.
      assert (SKIP : (forall m, data <> [] -> peek data = Some m -> wanted m = true -> False) ->
        (forall x m, In (x, m) k <-> In x (n :: names) /\ wanted m = true /\ exists data, load x = inr data /\ data <> [] /\ peek data = Some m)).
      { intros NO x m. rewrite I. split.
        - intros (A & B & C). split; [now right|]. now split.
        - intros ([<-|A] & B & d & C1 & C2 & C3); [exfalso; rewrite D in C1; injection C1 as <-; now apply (NO m)|]. split; [exact A|]. split; [exact B|]. eauto. }
      assert (TAIL : forall R : text -> text -> Prop, StronglySorted R (n :: names) -> StronglySorted R (map fst k)) by (intros R Q; inversion Q; auto).
      assert (TAIL2 : NoDup (n :: names) -> NoDup (map fst k)) by (intros Q; inversion Q; auto).
      assert (TAIL3 : incl (map fst k) (n :: names)) by (intros x X; right; now apply INC).
      destruct data as [|c data]; [exists k; split; [exact E|]; split; [apply SKIP; congruence|now repeat split]|].
      destruct (peek (c :: data)) as [m|] eqn:P; [|exists k; split; [exact E|]; split; [apply SKIP; congruence|now repeat split]].
      destruct (wanted m) eqn:W; [|exists k; split; [exact E|]; split; [apply SKIP; intros m' _ X Y; congruence|now repeat split]].
      rewrite E. exists ((n, m) :: k). split; [reflexivity|]. split; [|split; [|split]].
      + intros x m'. cbn [In]. rewrite I. split.
        * intros [X|(A & B & C)]; [injection X as <- <-; split; [now left|]; split; [exact W|]; exists (c :: data); now split|]. split; [now right|]. now split.
        * intros ([<-|A] & B & d & C1 & C2 & C3); [left; rewrite D in C1; injection C1 as <-; rewrite P in C3; now injection C3 as <-|right]. split; [exact A|]. split; [exact B|]. eauto.
      + intros R Q. inversion Q as [|? ? Q1 Q2]; subst. cbn. constructor; [now apply S|]. rewrite Forall_forall in *. intros x X. apply Q2. now apply INC.
      + intros Q. inversion Q as [|? ? Q1 Q2]; subst. cbn. constructor; [|now apply ND]. intros X. apply Q1. now apply INC.
      + intros x [<-|X]; [now left|right; now apply INC].
  Qed.

  Variable l : list entry.
  Hypothesis D : directory l.
  Hypothesis R : readable l.
  Variable names : list text.
  Hypothesis LIST : get_storage_list (inr l) = inr names.
  Hypothesis LOAD : loadable load names.
  Lemma kept wanted : exists k, keep load peek wanted names = (k, None) /\
    (forall n m, In (n, m) k <-> exists id, n = session_dir id /\ stored l id /\ about load peek id m /\ wanted m = true) /\
    youngest_first l (map fst k) /\ NoDup (map fst k).
  Proof.
    destruct (keep_spec wanted names LOAD) as (k & E & I & S & ND & INC). destruct (C66_listing l D R) as (names' & G & N & IN & Y). assert (names' = names) by congruence. subst names'.
    exists k. split; [exact E|]. split; [|split; [now apply S|now apply ND]]. intros n m. rewrite I, IN. split.
    - intros ((id & -> & ST) & W & X). exists id. split; [reflexivity|]. split; [exact ST|]. split; [exact X|exact W].
    - intros (id & -> & ST & X & W). split; [eauto|]. split; [exact W|exact X].
  Qed.
  (** plainbox run offers exactly the incomplete sessions of the same command line, the
      youngest first *)
  Theorem C66_offered_by_run title : exists k, resume_candidates load peek title names = (k, None) /\
    (forall n, In n k <-> exists id m, n = session_dir id /\ stored l id /\ about load peek id m /\
       m_app m = Some (T "plainbox") /\ m_title m = Some title /\ In (T "incomplete") (m_flags m)) /\ youngest_first l k /\ NoDup k.
  Proof.
    unfold resume_candidates. destruct (kept (fun m => same_text (m_app m) (Some (T "plainbox")) && same_text (m_title m) (Some title) && tmem INCOMPLETE (m_flags m))) as (k & E & I & Y & ND).
    rewrite E. exists (map fst k). split; [reflexivity|]. split; [|now split]. intros n. rewrite in_map_iff. split.
    - intros ([n' m] & <- & X). apply I in X as (id & -> & S & A & W). exists id, m. cbn. apply andb_prop in W as [W F]. apply andb_prop in W as [W1 W2].
      apply same_text_eq in W1, W2. apply tmem_in in F. exact (conj eq_refl (conj S (conj A (conj W1 (conj W2 F))))).
    - intros (id & m & -> & S & A & W1 & W2 & F). exists (session_dir id, m). split; [reflexivity|]. apply I. exists id. split; [reflexivity|]. split; [exact S|]. split; [exact A|].
      apply same_text_eq in W1, W2. apply tmem_in in F. unfold INCOMPLETE. now rewrite W1, W2, F.
  Qed.
  (** Applications are offered their own incomplete sessions, the youngest first, and each
      of these, and nothing else, can be picked *)
  Theorem C66_offered_to_applications app : exists k, resumable_sessions load peek app names = (k, None) /\
    (forall id m, In (id, m) k <-> stored l id /\ about load peek id m /\ m_app m = app /\ In (T "incomplete") (m_flags m)) /\
    youngest_first l (map (fun e => session_dir (fst e)) k) /\ NoDup (map fst k) /\
    forall id n, resume_choice load peek app id names = Some n <-> n = session_dir id /\ In id (map fst k).
  Proof.
    unfold resumable_sessions, resume_choice. destruct (kept (fun m => same_text (m_app m) app && tmem INCOMPLETE (m_flags m))) as (k & E & I & Y & ND).
    rewrite E. cbn [fst]. exists (map (fun e => (storage_id (fst e), snd e)) k). split; [reflexivity|].
    assert (ID : forall e, In e k -> session_dir (storage_id (fst e)) = fst e).
    { intros [n m] X. apply I in X as (id & -> & S & _). cbn. rewrite id_of_dir; [reflexivity|apply S|now apply (stored_noslash l)]. }
    split; [|split; [|split]].
    - intros id m. rewrite in_map_iff. split.
      + intros ([n' m'] & X & Q). injection X as <- <-. apply I in Q as (id' & -> & S & A & W). cbn. rewrite id_of_dir by (apply S || now apply (stored_noslash l)).
        apply andb_prop in W as [W F]. apply same_text_eq in W. apply tmem_in in F. exact (conj S (conj A (conj W F))).
      + intros (S & A & W & F). exists (session_dir id, m). cbn. rewrite id_of_dir by (apply S || now apply (stored_noslash l)). split; [reflexivity|]. apply I. exists id.
        split; [reflexivity|]. split; [exact S|]. split; [exact A|]. apply same_text_eq in W. apply tmem_in in F. unfold INCOMPLETE. now rewrite W, F.
    - rewrite map_map. cbn. rewrite (map_ext_in _ fst) by exact ID. exact Y.
    - rewrite map_map. cbn. apply (NoDup_map_inv session_dir). rewrite map_map. rewrite (map_ext_in _ fst) by exact ID. exact ND.
    - intros id n. assert (KEY : forall n, In n (map fst k) -> storage_id n = id <-> n = session_dir id).
      { intros x X. apply in_map_iff in X as (e & <- & X). split; [intros <-; symmetry; now apply ID|intros Q]. apply session_dir_inj. now rewrite ID. }
      rewrite map_map. cbn. split.
      + intros F. apply find_some in F as [X Q]. apply text_eqb_eq in Q. apply in_rev in X. split; [now apply KEY|]. apply in_map_iff in X as (e & <- & X). rewrite <- Q. now apply (in_map (fun e => storage_id (fst e))).
      + intros [-> X]. apply in_map_iff in X as (e & Q & X). assert (IN : In (session_dir id) (map fst k)) by (rewrite <- Q, ID by exact X; now apply in_map).
        destruct (find (fun n => text_eqb (storage_id n) id) (rev (map fst k))) as [n|] eqn:F.
        * apply find_some in F as [X' Q']. apply text_eqb_eq in Q'. apply in_rev in X'. f_equal. now apply KEY.
        * exfalso. apply in_rev in IN. apply (find_none _ _ F) in IN. apply in_rev in IN || idtac. rewrite (proj2 (KEY (session_dir id) ltac:(rewrite <- Q, ID by exact X; now apply in_map)) eq_refl), text_eqb_refl in IN. discriminate.
  Qed.
  Theorem C66_old app flags allow : exists k, old_sessions load peek app flags allow names = (k, None) /\
    forall id fl, In (id, fl) k <-> exists m, stored l id /\ about load peek id m /\ m_app m = app /\ m_flags m = fl /\ (allow = true /\ fl = [] \/ exists f, In f fl /\ In f flags).
  Proof.
    unfold old_sessions. destruct (kept (fun m => same_text (m_app m) app && ((allow && match m_flags m with [] => true | _ => false end) || existsb (fun f => tmem f flags) (m_flags m)))) as (k & E & I & _ & _).
    rewrite E. eexists. split; [reflexivity|]. intros id fl. rewrite in_map_iff.
    assert (COND : forall m, (allow && match m_flags m with [] => true | _ => false end) || existsb (fun f => tmem f flags) (m_flags m) = true <-> (allow = true /\ m_flags m = [] \/ exists f, In f (m_flags m) /\ In f flags)).
    { intros m. rewrite orb_true_iff, andb_true_iff, existsb_exists. split.
      - intros [[A B]|(f & A & B)]; [left; split; [exact A|now destruct (m_flags m)]|right; exists f; split; [exact A|now apply tmem_in]].
      - intros [[A B]|(f & A & B)]; [left; rewrite B; now split|right; exists f; split; [exact A|now apply tmem_in]]. }
    split.
    - intros ([n m] & X & Q). injection X as <- <-. apply I in Q as (id' & -> & S & A & W). apply andb_prop in W as [W F]. apply same_text_eq in W. apply COND in F. exists m. cbn.
      rewrite id_of_dir by (apply S || now apply (stored_noslash l)). split; [exact S|]. split; [exact A|]. split; [exact W|]. split; [reflexivity|exact F].
    - intros (m & S & A & W & <- & F). exists (session_dir id, m). cbn. rewrite id_of_dir by (apply S || now apply (stored_noslash l)). split; [reflexivity|]. apply I. exists id.
      split; [reflexivity|]. split; [exact S|]. split; [exact A|]. apply same_text_eq in W. apply COND in F. now rewrite W, F.
  Qed.
  (** Deleting all old sessions leaves those that can be resumed, and those of other
      applications *)
  Theorem C66_cleaning_up removable app k l' : old_sessions load peek app [T "submitted"; T "bootstrapping"] true names = (k, None) ->
    delete_sessions removable (map fst k) l = (l', None) ->
    forall id m, stored l id -> about load peek id m ->
      m_app m <> app \/ In (T "incomplete") (m_flags m) /\ ~ In (T "submitted") (m_flags m) /\ ~ In (T "bootstrapping") (m_flags m) -> stored l' id.
  Proof.
    intros O DEL id m S A H. destruct (C66_old app [T "submitted"; T "bootstrapping"] true) as (k' & O' & I). assert (k' = k) by congruence. subst k'.
    destruct (C66_deleting removable (map fst k) l D R) as (l'' & DEL' & B & _). assert (l'' = l') by congruence. subst l''.
    destruct S as [G (e & IN & E & DD)]. split; [exact G|]. exists e. split; [|now split]. apply B. split; [exact IN|]. intros (y & [Y _] & _ & Q).
    assert (y = id) by (apply session_dir_inj; congruence). subst y. apply in_map_iff in Y as ([y fl] & <- & Y). apply I in Y as (m' & _ & (d & A1 & A2 & A3) & W & <- & F).
    cbn [fst] in *. destruct A as (d' & A1' & A2' & A3'). assert (d' = d) by congruence. subst d'. assert (m' = m) by congruence. subst m'.
    destruct H as [H|(H1 & H2 & H3)]; [contradiction|]. destruct F as [[_ F]|(f & F1 & [<-|[<-|[]]])]; [rewrite F in H1; destruct H1|contradiction|contradiction].
  Qed.
End Stored.
Print Assumptions C66_offered_by_run.
Print Assumptions C66_offered_to_applications.
Print Assumptions C66_old.
Print Assumptions C66_cleaning_up.
(** A session that cannot be read ends the search *)
Theorem C66_unreadable_refuted : exists load peek m, about load peek (T "b") m /\ m_app m = Some (T "plainbox") /\ m_title m = Some (T "plainbox run") /\ In (T "incomplete") (m_flags m) /\
  resume_candidates load peek (T "plainbox run") [session_dir (T "a"); session_dir (T "b")] = ([], Some EOTHER).
Proof.
  exists (fun n => if text_eqb n (session_dir (T "a")) then inl EOTHER else inr (T "data")), (fun _ => Some (mk_metadata (Some (T "plainbox")) (Some (T "plainbox run")) [T "incomplete"])). eexists.
  split; [exists (T "data"); split; [reflexivity|]; split; [discriminate|reflexivity]|]. cbn. auto.
Qed.
Print Assumptions C66_unreadable_refuted.

(** ** The dialogue *)

Section Dialogue.
  Variable pick : text -> option choice.
  Variable loads : text -> bool.
  Variable erase : text -> option bool.
  Variable fresh : option bool.
  Notation past := (passed pick loads).
  Lemma ask_spec l : match snd (ask pick loads erase l) with
    | Some (Resumed s) => exists a b, l = a ++ s :: b /\ Forall past a /\ pick s = Some Resume /\ loads s = true
    | Some Fresh => exists a s b, l = a ++ s :: b /\ Forall past a /\ (pick s = Some New \/ pick s = None)
    | Some Not_resumed => False
    | None => Forall past l
    end.
  Proof.
    induction l as [|s l IH]; cbn [ask]; [constructor|].
    assert (STEP : past s -> match snd (ask pick loads erase l) with
      | Some (Resumed s') => exists a b, s :: l = a ++ s' :: b /\ Forall past a /\ pick s' = Some Resume /\ loads s' = true
      | Some Fresh => exists a s' b, s :: l = a ++ s' :: b /\ Forall past a /\ (pick s' = Some New \/ pick s' = None)
      | Some Not_resumed => False
      | None => Forall past (s :: l)
      end).
    { intros P. destruct (snd (ask pick loads erase l)) as [[s'| |]|]; [| |exact IH|now constructor].
      - destruct IH as (a & b & -> & F & H). exists (s :: a), b. split; [reflexivity|]. split; [now constructor|exact H].
      - destruct IH as (a & s' & b & -> & F & H). exists (s :: a), s', b. split; [reflexivity|]. split; [now constructor|exact H]. }
    destruct (pick s) as [[| |]|] eqn:P.
    - destruct (loads s) eqn:L; [cbn; exists [], l; now repeat split|]. destruct (ask pick loads erase l) as [er e]. cbn [snd] in *. apply STEP. right. now split.
    - apply STEP. now left.
    - cbn. exists [], s, l. split; [reflexivity|]. split; [constructor|now left].
    - cbn. exists [], s, l. split; [reflexivity|]. split; [constructor|now right].
  Qed.
  Lemma same_split (P : text -> Prop) a s b : forall a' s' b', a ++ s :: b = a' ++ s' :: b' -> Forall P a -> Forall P a' -> ~ P s -> ~ P s' -> s = s' /\ a = a'.
  Proof.
    induction a as [|x a IH]; intros [|x' a'] s' b' E F F' N N'; cbn in E; injection E as E1 E2.
    - now split.
    - inversion F'; subst. contradiction.
    - inversion F; subst. contradiction.
    - subst x'. inversion F; inversion F'; subst. destruct (IH _ _ _ E2) as [-> ->]; auto.
  Qed.
  Lemma decisive s : pick s = Some Resume /\ loads s = true \/ pick s = Some New \/ pick s = None -> ~ past s.
  Proof. intros H [P|[P L]]; destruct H as [[A B]|[A|A]]; congruence. Qed.
  Lemma no_decisive a s b : Forall past (a ++ s :: b) -> ~ past s -> False.
  Proof. intros F N. apply Forall_app in F as [_ F]. inversion F. contradiction. Qed.
  (** A session is resumed if and only if it is the first that was not declined, and it could
      be; a new one is started if and only if the user wants one or there is nothing to resume;
      the program ends otherwise *)
  Theorem C66_dialogue l :
    (forall s, snd (maybe_resume_session pick loads erase fresh l) = Resumed s <->
       exists a b, l = a ++ s :: b /\ Forall past a /\ pick s = Some Resume /\ loads s = true) /\
    (snd (maybe_resume_session pick loads erase fresh l) = Fresh <->
       (exists a s b, l = a ++ s :: b /\ Forall past a /\ (pick s = Some New \/ pick s = None)) \/ Forall past l /\ (l = [] \/ fresh = Some true)) /\
    (snd (maybe_resume_session pick loads erase fresh l) = Not_resumed <-> Forall past l /\ l <> [] /\ fresh <> Some true).
  Proof.
    unfold maybe_resume_session. pose proof (ask_spec l) as H. destruct (ask pick loads erase l) as [er e]. cbn [snd] in *. destruct e as [[s| |]|].
    - destruct H as (a & b & E & F & P & L). assert (DS : ~ past s) by (apply decisive; now left). split; [|split].
      + intros s'. split; [intros Q; injection Q as <-; now exists a, b|]. intros (a' & b' & E' & F' & P' & L'). f_equal.
        rewrite E in E'. apply (same_split past) in E' as [-> _]; auto. apply decisive. now left.
      + split; [discriminate|]. intros [(a' & s' & b' & E' & F' & P')|[F' _]].
        * rewrite E in E'. apply (same_split past) in E' as [-> _]; auto; [destruct P'; congruence|]. apply decisive. now right.
        * exfalso. rewrite E in F'. now apply no_decisive in F'.
      + split; [discriminate|]. intros [F' _]. exfalso. rewrite E in F'. now apply no_decisive in F'.
    - destruct H as (a & s & b & E & F & P). assert (DS : ~ past s) by (apply decisive; now right). split; [|split].
      + intros s'. split; [discriminate|]. intros (a' & b' & E' & F' & P' & L'). rewrite E in E'. apply (same_split past) in E' as [-> _]; auto; [destruct P; congruence|]. apply decisive. now left.
      + split; [intros _; left; now exists a, s, b|reflexivity].
      + split; [discriminate|]. intros [F' _]. exfalso. rewrite E in F'. now apply no_decisive in F'.
    - destruct H.
    - assert (NO : forall a s b, l = a ++ s :: b -> pick s = Some Resume /\ loads s = true \/ pick s = Some New \/ pick s = None -> False).
      { intros a s b E Q. rewrite E in H. now apply no_decisive in H; [|apply decisive]. }
      split; [|split].
      + intros s. split; [destruct l; [discriminate|destruct fresh as [[|]|]; discriminate]|]. intros (a & b & E & _ & Q). exfalso. apply (NO a s b E). now left.
      + split.
        * intros Q. right. split; [exact H|]. destruct l; [now left|right]. destruct fresh as [[|]|]; congruence.
        * intros [(a & s & b & E & _ & Q)|[_ Q]]; [exfalso; apply (NO a s b E); now right|]. destruct Q as [->| ->]; [reflexivity|]. now destruct l.
      + split.
        * intros Q. split; [exact H|]. destruct l; [discriminate|]. split; [discriminate|]. destruct fresh as [[|]|]; congruence.
        * intros (_ & NE & NF). destruct l; [congruence|]. destruct fresh as [[|]|]; congruence.
  Qed.
  (** Sessions are erased only if the user wanted to resume them, they could not be, and
      the user agreed *)
  Theorem C66_erasing l s : In s (fst (maybe_resume_session pick loads erase fresh l)) -> In s l /\ pick s = Some Resume /\ loads s = false /\ erase s = Some true.
  Proof.
    unfold maybe_resume_session. destruct (ask pick loads erase l) as [er e] eqn:E. cbn [fst]. revert er e E. induction l as [|x l IH]; cbn [ask]; intros er e E I.
    - injection E as <- <-. destruct I.
    - assert (GO : forall er' e', ask pick loads erase l = (er', e') -> In s er' -> In s (x :: l) /\ pick s = Some Resume /\ loads s = false /\ erase s = Some true).
      { intros er' e' E' I'. destruct (IH _ _ E' I') as [A B]. split; [now right|exact B]. }
      destruct (pick x) as [[| |]|] eqn:P; [|eauto|injection E as <- <-; destruct I|injection E as <- <-; destruct I].
      destruct (loads x) eqn:L; [injection E as <- <-; destruct I|]. destruct (ask pick loads erase l) as [er' e'] eqn:E'. injection E as <- <-.
      destruct (erase x) as [[|]|] eqn:ER; [destruct I as [<-|I]; [split; [now left|]; now repeat split|]|..]; eauto.
  Qed.
End Dialogue.
Print Assumptions C66_dialogue.
Print Assumptions C66_erasing.

(** ** Where sessions are *)

(** The place that was asked for, the cache of the user, or a temporary directory if something
      else is there or it cannot be written to *)
Theorem C66_location variable cache abspath home exists_ isdir writable temporary :
  let wanted := match variable with
                | Some d => abspath d
                | None => match cache with Some (c :: t) => pjoin (pjoin (c :: t) (T "plainbox")) (T "sessions") | _ => pjoin (pjoin (pjoin home (T ".cache")) (T "plainbox")) (T "sessions") end
                end in
  let result := default_location variable cache abspath home exists_ isdir writable temporary in
  (exists_ wanted = true -> isdir wanted = true /\ writable wanted = true) /\ result = wanted \/
  exists_ wanted = true /\ (isdir wanted = false \/ writable wanted = false) /\ result = temporary.
Proof.
  cbv zeta. unfold default_location. cbv zeta. destruct variable as [d|].
  - destruct (exists_ (abspath d)), (isdir (abspath d)), (writable (abspath d)); cbn; auto; left; split; auto; discriminate.
  - destruct cache as [[|c t]|]; match goal with |- context [exists_ ?w] => destruct (exists_ w), (isdir w), (writable w) end; cbn; auto; left; split; auto; discriminate.
Qed.
Print Assumptions C66_location.
Example C66_case_location : default_location None (Some []) (fun d => d) (T "/home/u") (fun _ => false) (fun _ => false) (fun _ => false) (T "/tmp/x") = T "/home/u/.cache/plainbox/sessions".
Proof. reflexivity. Qed.

(** ** A repository *)

Definition example_repo : list entry :=
  [mk_entry (T "old.session") true (inr 3); mk_entry (T "README") false (inr 9); mk_entry (T "new.session") true (inr 7);
   mk_entry (T ".hidden.session") true (inr 8); mk_entry (T "link.session") false (inr 8)].
Example C66_case_repo : directory example_repo /\ readable example_repo /\ get_storage_list (inr example_repo) = inr [T "new.session"; T "old.session"] /\
  stored example_repo (T "old") /\ stored example_repo (T "new").
Proof.
  split; [split; [repeat constructor; cbn; intuition discriminate|intros e [<-|[<-|[<-|[<-|[<-|[]]]]]]; vm_compute; intuition discriminate]|].
  split; [intros e [<-|[<-|[<-|[<-|[<-|[]]]]]]; eexists; reflexivity|]. split; [vm_compute; reflexivity|].
  split; (split; [eexists; eexists; split; [reflexivity|discriminate]|]).
  - exists (mk_entry (T "old.session") true (inr 3)). split; [now left|]. now split.
  - exists (mk_entry (T "new.session") true (inr 7)). split; [right; right; now left|]. now split.
Qed.
Example C66_case_sessions : exists load peek, loadable load [T "new.session"; T "old.session"] /\
  resumable_sessions load peek (Some (T "app")) [T "new.session"; T "old.session"] = ([(T "old", mk_metadata (Some (T "app")) None [T "incomplete"])], None) /\
  old_sessions load peek (Some (T "app")) [T "submitted"; T "bootstrapping"] true [T "new.session"; T "old.session"] = ([(T "new", [T "submitted"])], None).
Proof.
  exists (fun n => inr n), (fun n => Some (mk_metadata (Some (T "app")) None [if text_eqb n (T "new.session") then T "submitted" else T "incomplete"])).
  split; [intros n _; now exists n|]. split; vm_compute; reflexivity.
Qed.
Example C66_case_new : create 9 (T "my tests-") (T "2016-01-01T00.00.00") 11 [mk_entry (T "my_tests-2016-01-01T00.00.00.session") true (inr 3)] =
  Created (T "my_tests-2016-01-01T00.00.00_(1).session") [mk_entry (T "my_tests-2016-01-01T00.00.00.session") true (inr 3); mk_entry (T "my_tests-2016-01-01T00.00.00_(1).session") true (inr 11)].
Proof. vm_compute. reflexivity. Qed.
Example C66_case_dialogue : maybe_resume_session (fun n => if text_eqb n (T "a") then Some Next else Some Resume) (fun n => text_eqb n (T "c")) (fun _ => Some true) None
  [T "a"; T "b"; T "c"; T "d"] = ([T "b"], Resumed (T "c")).
Proof. reflexivity. Qed.
