From Coq Require Import Ascii List Bool Arith Lia.
From Verif Require Import ScanModel ScanSpec.
Import ListNotations.
Open Scope char_scope.
Open Scope list_scope.

Lemma skipn_cons_nth {A} (l : list A) n x r :
  skipn n l = x :: r -> nth_error l n = Some x /\ skipn (S n) l = r.
Proof.
  revert n. induction l as [|y l IH]; intros [|n] H; simpl in *; try discriminate.
  - injection H as -> ->. auto.
  - apply IH in H. exact H.
Qed.
Lemma skipn_nil_nth {A} (l : list A) n : skipn n l = [] -> nth_error l n = None /\ length l <= n.
Proof.
  revert n. induction l as [|y l IH]; intros [|n] H; simpl in *; try discriminate; auto with arith.
  apply IH in H as [? ?]. split; [auto|lia].
Qed.
Lemma skipn_app_len {A} (l : list A) n a b :
  skipn n l = a ++ b -> skipn (n + length a) l = b.
Proof.
  revert n. induction a as [|x a IH]; intros n H; simpl in *.
  - now rewrite Nat.add_0_r.
  - destruct (skipn_cons_nth _ _ _ _ H) as [_ H']. rewrite Nat.add_succ_r. apply (IH (S n)). exact H'.
Qed.
Lemma skipn_len {A} (l : list A) n r : skipn n l = r -> r <> [] -> length l = n + length r.
Proof.
  intros H Hr. pose proof (skipn_length n l). rewrite H in H0.
  destruct r; [congruence|]. simpl in *. lia.
Qed.

(** The character at a position, NUL at the end. *)
Definition peek (t : text) : ascii := match t with [] => NUL | c :: _ => c end.

Lemma next_char_at t p r : skipn p t = r -> p <= length t -> next_char t p = (peek r, S p).
Proof.
  intros H L. unfold next_char. destruct r as [|c r].
  - destruct (skipn_nil_nth _ _ H) as [-> ?]. simpl. f_equal. lia.
  - destruct (skipn_cons_nth _ _ _ _ H) as [-> _]. reflexivity.
Qed.
Lemma next_char_past t p : length t <= p -> next_char t p = (NUL, S (length t)).
Proof. intros L. unfold next_char. now rewrite (proj2 (nth_error_None t p) L). Qed.

(** ** Runs *)

Lemma forward_step f t p st lex stk c p' :
  st <> S_ERROR -> next_char t p = (c, p') ->
  forward (S f) t p st lex stk =
  forward f t p' (next_state_for st c) (c :: lex) (st :: if is_accepting st then [] else stk).
Proof. intros H E. destruct st; try congruence; cbn [forward]; rewrite E; reflexivity. Qed.

Lemma forward_error f t p lex stk : forward f t p S_ERROR lex stk = Some (p, lex, stk).
Proof. destruct f; reflexivity. Qed.


Lemma forward_stay_acc t st : is_accepting st = true -> forall s f p lex stk r,
  Forall (fun c => next_state_for st c = st) s ->
  skipn p t = s ++ r -> p <= length t ->
  next_state_for st (peek r) = S_ERROR ->
  forward (length s + S f) t p st lex stk =
  Some (S (p + length s), peek r :: rev s ++ lex, [st]).
Proof.
  intros A. assert (Hst : st <> S_ERROR) by (destruct st; simpl in A; congruence).
  induction s as [|c s IH]; intros f p lex stk r F E L N.
  - cbn [length Nat.add app rev]. simpl in E.
    rewrite (forward_step _ _ _ _ _ _ _ _ Hst (next_char_at _ _ _ E L)), N, A.
    rewrite forward_error, Nat.add_0_r. reflexivity.
  - cbn [length Nat.add]. apply Forall_cons_iff in F as [Fc F].
    rewrite (forward_step _ _ _ _ _ _ _ _ Hst (next_char_at _ _ _ E L)).
    cbn [peek app]. rewrite Fc.
    pose proof (skipn_len _ _ _ E ltac:(discriminate)) as Len. cbn in Len.
    destruct (skipn_cons_nth _ _ _ _ E) as [_ E'].
    rewrite (IH f (S p) (c :: lex) _ r F E' ltac:(lia) N).
    cbn [rev]. rewrite <- app_assoc. cbn [app].
    replace (S (S p + length s)) with (S (p + S (length s))) by lia. reflexivity.
Qed.

Lemma forward_stay_inner t st : is_accepting st = false -> st <> S_ERROR -> forall s f p lex stk r,
  Forall (fun c => next_state_for st c = st) s ->
  skipn p t = s ++ r -> p <= length t ->
  forward (length s + f) t p st lex stk =
  forward f t (p + length s) st (rev s ++ lex) (repeat st (length s) ++ stk).
Proof.
  intros A Hst.
  induction s as [|c s IH]; intros f p lex stk r F E L.
  - cbn. now rewrite Nat.add_0_r.
  - cbn [length Nat.add]. apply Forall_cons_iff in F as [Fc F].
    rewrite (forward_step _ _ _ _ _ _ _ _ Hst (next_char_at _ _ _ E L)), A.
    cbn [peek app]. rewrite Fc.
    pose proof (skipn_len _ _ _ E ltac:(discriminate)) as Len. cbn in Len.
    destruct (skipn_cons_nth _ _ _ _ E) as [_ E'].
    rewrite (IH f (S p) (c :: lex) _ r F E' ltac:(lia)).
    cbn [rev]. rewrite <- app_assoc. cbn [app].
    replace (S p + length s) with (p + S (length s)) by lia. f_equal.
    cbn [repeat]. change (st :: stk) with ([st] ++ stk). rewrite app_assoc.
    f_equal. clear. induction (length s); simpl; congruence.
Qed.

(** ** One token per piece *)

Definition nul_free (t : text) : Prop := ~ In NUL t.
Lemma nul_free_app a b : nul_free (a ++ b) <-> nul_free a /\ nul_free b.
Proof. unfold nul_free. rewrite in_app_iff. tauto. Qed.
Lemma nul_free_cons c b : nul_free (c :: b) <-> c <> NUL /\ nul_free b.
Proof. unfold nul_free. simpl. intuition congruence. Qed.

Lemma strip_nul_free l : nul_free l -> strip_nul (rev l) = rev l.
Proof.
  intros H. assert (nul_free (rev l)) as H' by (unfold nul_free in *; now rewrite <- in_rev).
  destruct (rev l) as [|c r]; auto. simpl.
  apply nul_free_cons in H' as [H' _]. destruct (Ascii.eqb_spec c NUL); congruence.
Qed.

Lemma raw_accepting t p st s r x pos stk :
  forward (length t - p + 3) t p S_START [] [S_BAD] = Some (S pos, x :: rev s, st :: stk) ->
  is_accepting st = true -> nul_free s -> r = pos ->
  get_raw_token t p = Done (token_of_state st, Some (modify_lexeme st s), r).
Proof.
  intros F A N ->. unfold get_raw_token. rewrite F. cbn [backward is_accepting orb tl].
  assert (backward st (rev s) pos stk = Some (st, rev s, pos)) as -> by (destruct st; simpl in A; try discriminate A; destruct stk; reflexivity).
  rewrite A, strip_nul_free by exact N. rewrite rev_involutive. reflexivity.
Qed.

Lemma start_state c : next_state_for S_START c <> S_ERROR.
Proof. unfold next_state_for. repeat match goal with |- context [if ?b then _ else _] => destruct b end; discriminate. Qed.

(** First step. *)
Lemma first_step t p r f : skipn p t = r -> p <= length t ->
  forward (S f) t p S_START [] [S_BAD] =
  forward f t (S p) (next_state_for S_START (peek r)) [peek r] [S_START; S_BAD].
Proof. intros E L. apply (forward_step _ _ _ S_START _ _ _ _ ltac:(discriminate) (next_char_at _ _ _ E L)). Qed.

Lemma fuel_split (t : text) p (c : ascii) s r : skipn p t = (c :: s) ++ r ->
  length t - p + 3 = S (length s + S (S (S (length r)))).
Proof.
  intros E. assert (length t = p + length ((c :: s) ++ r)) as -> by (apply (skipn_len _ _ _ E); discriminate).
  rewrite app_length. cbn [length]. lia.
Qed.

Lemma skip_le {A} (t : list A) p r : skipn p t = r -> r <> [] -> p <= length t.
Proof. intros E N. rewrite (skipn_len _ _ _ E N). lia. Qed.

(** Spaces and bare words: an accepting state that loops. *)
Lemma raw_loop t p c s r st :
  skipn p t = (c :: s) ++ r -> nul_free (c :: s) -> is_accepting st = true ->
  next_state_for S_START c = st -> Forall (fun d => next_state_for st d = st) s ->
  next_state_for st (peek r) = S_ERROR ->
  get_raw_token t p = Done (token_of_state st, Some (modify_lexeme st (c :: s)), p + length (c :: s)).
Proof.
  intros E N A F1 F2 F3.
  pose proof (skip_le _ _ _ E ltac:(discriminate)) as L.
  eapply raw_accepting; [|exact A|exact N|reflexivity].
  rewrite (fuel_split _ _ _ _ _ E), (first_step _ _ _ _ E L).
  cbn [peek app]. rewrite F1.
  pose proof (skipn_len _ _ _ E ltac:(discriminate)) as Len. cbn in Len.
  destruct (skipn_cons_nth _ _ _ _ E) as [_ E'].
  rewrite (forward_stay_acc t st A s _ (S p) _ _ r F2 E' ltac:(lia) F3).
  cbn [rev length]. rewrite Nat.add_succ_r. reflexivity.
Qed.

Lemma isspace_nul c : isspace c = true -> c <> NUL.
Proof. intros H ->. discriminate. Qed.

Lemma raw_space t p s r :
  skipn p t = s ++ r -> s <> [] -> nul_free s -> Forall (fun c => isspace c = true) s ->
  ~ starts (fun c => isspace c = true) r ->
  get_raw_token t p = Done (SPACE, Some s, p + length s).
Proof.
  intros E N NF F S. destruct s as [|c s]; [congruence|].
  apply Forall_cons_iff in F as [Fc F].
  apply (raw_loop t p c s r S_SPACE E NF eq_refl).
  - simpl. now rewrite Fc.
  - eapply Forall_impl; [|exact F]. intros d Hd. simpl. now rewrite Hd.
  - destruct r as [|d r]; simpl; auto. simpl in S. destruct (isspace d); congruence.
Qed.

Lemma word_step c : next_state_for S_BARE_WORD c = S_ERROR <-> (ends_word c \/ c = NUL).
Proof.
  unfold ends_word. simpl.
  destruct (isspace c); simpl; [intuition|].
  destruct (Ascii.eqb_spec c NUL); simpl; [intuition|].
  destruct (Ascii.eqb_spec c "#"); simpl; [intuition|].
  destruct (Ascii.eqb_spec c ","); simpl; [intuition|].
  destruct (Ascii.eqb_spec c "="); simpl; [intuition|].
  split; [discriminate|]. intuition congruence.
Qed.
Lemma word_stay c : ~ ends_word c -> c <> NUL -> next_state_for S_BARE_WORD c = S_BARE_WORD.
Proof.
  intros H N. destruct (next_state_for S_BARE_WORD c) eqn:E; try reflexivity; exfalso;
    try (apply word_step in E; tauto); simpl in E;
    destruct (isspace c || Ascii.eqb c NUL || Ascii.eqb c "#" || Ascii.eqb c "," || Ascii.eqb c "=")%bool;
    discriminate.
Qed.
Lemma word_start c : ~ ends_word c -> c <> NUL -> c <> DQ -> next_state_for S_START c = S_BARE_WORD.
Proof.
  unfold ends_word. intros H N D. unfold next_state_for.
  destruct (isspace c); [exfalso; tauto|].
  destruct (Ascii.eqb_spec c NUL); [congruence|].
  destruct (Ascii.eqb_spec c "#"); [exfalso; tauto|].
  destruct (Ascii.eqb_spec c DQ); [congruence|].
  destruct (Ascii.eqb_spec c ","); [exfalso; tauto|].
  destruct (Ascii.eqb_spec c "="); [exfalso; tauto|].
  reflexivity.
Qed.

Lemma raw_word t p w r :
  skipn p t = w ++ r -> w <> [] -> nul_free w -> Forall (fun c => ~ ends_word c) w ->
  ~ starts (eq DQ) w -> (r = [] \/ starts ends_word r) ->
  get_raw_token t p = Done (WORD, Some w, p + length w).
Proof.
  intros E N NF F Q R. destruct w as [|c s]; [congruence|].
  pose proof NF as NF0. apply nul_free_cons in NF as [Nc Ns].
  apply Forall_cons_iff in F as [Fc F]. simpl in Q.
  apply (raw_loop t p c s r S_BARE_WORD E NF0 eq_refl).
  - apply word_start; auto.
  - rewrite Forall_forall in *. intros d Hd. apply word_stay; [auto|]. intros ->. contradiction.
  - apply word_step. destruct r as [|d r]; simpl; [auto|].
    destruct R as [R|R]; [discriminate|]. simpl in R. auto.
Qed.

(** A final character that leads to an accepting state without successors. *)
Lemma forward_last t p r f lex stk st :
  skipn p t = r -> p <= length t -> is_accepting st = true ->
  (forall c, next_state_for st c = S_ERROR) ->
  forward (S f) t p st lex stk = Some (S p, peek r :: lex, [st]).
Proof.
  intros E L A N.
  rewrite (forward_step _ _ _ st _ _ _ _ ltac:(destruct st; simpl in A; congruence) (next_char_at _ _ _ E L)).
  rewrite N, A, forward_error. reflexivity.
Qed.
Lemma forward_last_past t p f lex stk st :
  length t <= p -> is_accepting st = true ->
  (forall c, next_state_for st c = S_ERROR) ->
  forward (S f) t p st lex stk = Some (S (length t), NUL :: lex, [st]).
Proof.
  intros L A N.
  rewrite (forward_step _ _ _ st _ _ _ _ ltac:(destruct st; simpl in A; congruence) (next_char_past _ _ L)).
  rewrite N, A, forward_error. reflexivity.
Qed.

Lemma raw_single t p c r st :
  skipn p t = c :: r -> c <> NUL -> next_state_for S_START c = st -> is_accepting st = true ->
  (forall d, next_state_for st d = S_ERROR) ->
  get_raw_token t p = Done (token_of_state st, Some (modify_lexeme st [c]), S p).
Proof.
  intros E N F A X.
  pose proof (skip_le _ _ _ E ltac:(discriminate)) as L.
  pose proof (skipn_len _ _ _ E ltac:(discriminate)) as Len. cbn in Len.
  destruct (skipn_cons_nth _ _ _ _ E) as [_ E'].
  eapply raw_accepting; [|exact A| |reflexivity].
  - rewrite (fuel_split t p c [] r E), (first_step _ _ _ _ E L).
    cbn [peek]. rewrite F. cbn [length Nat.add].
    rewrite (forward_last _ _ r _ _ _ _ E' ltac:(lia) A X). reflexivity.
  - intros [H|[]]. congruence.
Qed.

Lemma raw_eof t p : length t <= p ->
  get_raw_token t p = Done (EOF, Some [], length t).
Proof.
  intros L. unfold get_raw_token. replace (length t - p + 3) with 3 by lia.
  rewrite (forward_step _ _ _ S_START _ _ _ _ ltac:(discriminate) (next_char_past _ _ L)).
  change (next_state_for S_START NUL) with S_EOF.
  rewrite (forward_last_past t (S (length t)) _ _ _ S_EOF ltac:(lia) eq_refl ltac:(reflexivity)).
  reflexivity.
Qed.

Lemma raw_inner t p c w r d st st' :
  skipn p t = (c :: w) ++ d :: r -> nul_free ((c :: w) ++ [d]) ->
  next_state_for S_START c = st -> is_accepting st = false -> st <> S_ERROR ->
  Forall (fun x => next_state_for st x = st) w ->
  next_state_for st d = st' -> is_accepting st' = true ->
  (forall x, next_state_for st' x = S_ERROR) ->
  get_raw_token t p =
  Done (token_of_state st', Some (modify_lexeme st' ((c :: w) ++ [d])), p + length ((c :: w) ++ [d])).
Proof.
  intros E N F A NE FW FD A' X.
  pose proof (skip_le _ _ _ E ltac:(discriminate)) as L.
  pose proof (skipn_len _ _ _ E ltac:(discriminate)) as Len. cbn in Len. rewrite app_length in Len. cbn in Len.
  destruct (skipn_cons_nth _ _ _ _ E) as [_ E'].
  pose proof (skipn_app_len _ _ _ _ E') as E2.
  destruct (skipn_cons_nth _ _ _ _ E2) as [_ E3].
  eapply raw_accepting; [|exact A'|exact N|reflexivity].
  rewrite (fuel_split t p c w (d :: r) E), (first_step _ _ _ _ E L).
  cbn [peek app]. rewrite F.
  rewrite (forward_stay_inner _ _ A NE w _ _ _ _ _ FW E' ltac:(lia)).
  rewrite (forward_step _ _ _ _ _ _ _ _ NE (next_char_at _ _ _ E2 ltac:(lia))).
  cbn [peek]. rewrite FD, A. cbn [length].
  rewrite (forward_last _ _ r _ _ _ _ E3 ltac:(lia) A' X).
  rewrite app_length. cbn [length].
  replace (p + S (length w + 1)) with (S (S p + length w)) by lia.
  replace (c :: w ++ [d]) with ((c :: w) ++ [d]) by reflexivity.
  rewrite rev_app_distr. cbn [rev app]. reflexivity.
Qed.

Lemma removelast_last {A} (l : list A) x : removelast (l ++ [x]) = l.
Proof. apply removelast_last. Qed.

Lemma raw_quoted t p w r :
  skipn p t = written (IQuoted w) ++ r -> nul_free w -> ~ In DQ w ->
  get_raw_token t p = Done (WORD, Some w, p + length (written (IQuoted w))).
Proof.
  cbn [written]. intros E N Q.
  assert (E0 : skipn p t = (DQ :: w) ++ DQ :: r).
  { rewrite E. change (DQ :: w ++ [DQ]) with ((DQ :: w) ++ [DQ]). rewrite <- app_assoc. reflexivity. }
  rewrite (raw_inner t p DQ w r DQ S_QUOTED_WORD_INNER S_QUOTED_WORD_END E0); try reflexivity; try discriminate.
  - cbn [modify_lexeme app tl token_of_state]. rewrite removelast_last. reflexivity.
  - apply nul_free_app. split; [apply nul_free_cons; split; [discriminate|exact N]|].
    intros [H|[]]. discriminate.
  - apply Forall_forall. intros x Hx. simpl.
    destruct (Ascii.eqb_spec x DQ) as [->|]; [contradiction|].
    destruct (Ascii.eqb_spec x NUL) as [->|]; [contradiction|reflexivity].
Qed.

Lemma comment_stay c : ~ In NL c -> nul_free c ->
  Forall (fun x => next_state_for S_COMMENT_INNER x = S_COMMENT_INNER) c.
Proof.
  intros Q N. apply Forall_forall. intros x Hx. simpl.
  destruct (Ascii.eqb_spec x NL) as [->|]; [contradiction|].
  destruct (Ascii.eqb_spec x NUL) as [->|]; [contradiction|reflexivity].
Qed.

Lemma raw_comment t p c r :
  skipn p t = written (IComment c) ++ r -> nul_free c -> ~ In NL c ->
  get_raw_token t p = Done (COMMENT, Some (written (IComment c)), p + length (written (IComment c))).
Proof.
  cbn [written]. intros E N Q.
  assert (E0 : skipn p t = ("#" :: c) ++ NL :: r).
  { rewrite E. change ("#" :: c ++ [NL]) with (("#" :: c) ++ [NL]). rewrite <- app_assoc. reflexivity. }
  rewrite (raw_inner t p "#" c r NL S_COMMENT_INNER S_COMMENT_END E0); try reflexivity; try discriminate.
  - apply nul_free_app. split; [apply nul_free_cons; split; [discriminate|exact N]|].
    intros [H|[]]. discriminate.
  - apply comment_stay; auto.
Qed.

Lemma raw_last_comment t p c :
  skipn p t = "#" :: c -> nul_free c -> ~ In NL c ->
  get_raw_token t p = Done (COMMENT, Some ("#" :: c), length t).
Proof.
  intros E N Q.
  pose proof (skip_le _ _ _ E ltac:(discriminate)) as L.
  pose proof (skipn_len _ _ _ E ltac:(discriminate)) as Len. cbn in Len.
  assert (E0 : skipn p t = ("#" :: c) ++ []) by (now rewrite app_nil_r).
  destruct (skipn_cons_nth _ _ _ _ E0) as [_ E'].
  pose proof (skipn_app_len _ _ _ _ E') as E2.
  unfold get_raw_token.
  rewrite (fuel_split t p "#" c [] E0), (first_step _ _ _ _ E L). cbn [peek].
  change (next_state_for S_START "#") with S_COMMENT_INNER.
  rewrite (forward_stay_inner t S_COMMENT_INNER eq_refl ltac:(discriminate) c _ _ _ _ _ (comment_stay c Q N) E' ltac:(lia)).
  rewrite (forward_step _ _ _ S_COMMENT_INNER _ _ _ _ ltac:(discriminate) (next_char_at _ _ _ E2 ltac:(lia))).
  cbn [peek]. change (next_state_for S_COMMENT_INNER NUL) with S_COMMENT_END.
  rewrite forward_last_past; [|lia|reflexivity|reflexivity].
  cbn [backward is_accepting orb tl modify_lexeme token_of_state strip_nul].
  change (Ascii.eqb NUL NUL) with true. cbv iota.
  replace (rev c ++ ["#"]) with (rev ("#" :: c)) by reflexivity.
  rewrite strip_nul_free, rev_involutive; [reflexivity|].
  apply nul_free_cons. split; [discriminate|exact N].
Qed.

Lemma backward_long k : forall lex pos stk,
  backward S_QUOTED_WORD_INNER lex pos (repeat S_QUOTED_WORD_INNER k ++ stk) =
  if Nat.ltb pos k then None else
  backward S_QUOTED_WORD_INNER (skipn k lex) (pos - k) stk.
Proof.
  induction k as [|k IH]; intros lex pos stk.
  - cbn [repeat app]. rewrite Nat.sub_0_r. reflexivity.
  - cbn [repeat app backward is_accepting orb].
    destruct pos as [|pos]; [reflexivity|].
    rewrite IH. change (Nat.ltb (S pos) (S k)) with (Nat.ltb pos k).
    destruct (Nat.ltb pos k); [reflexivity|]. f_equal. destruct lex; cbn; [destruct k|]; reflexivity.
Qed.

Lemma raw_unclosed t p r :
  skipn p t = DQ :: r -> nul_free r -> ~ In DQ r ->
  get_raw_token t p =
  match p with 0 => AssertionFailed | S p' => Done (INVALID, None, p') end.
Proof.
  intros E N Q.
  pose proof (skip_le _ _ _ E ltac:(discriminate)) as L.
  pose proof (skipn_len _ _ _ E ltac:(discriminate)) as Len. cbn in Len.
  assert (E0 : skipn p t = (DQ :: r) ++ []) by (now rewrite app_nil_r).
  destruct (skipn_cons_nth _ _ _ _ E0) as [_ E'].
  pose proof (skipn_app_len _ _ _ _ E') as E2.
  unfold get_raw_token.
  rewrite (fuel_split t p DQ r [] E0), (first_step _ _ _ _ E L). cbn [peek].
  change (next_state_for S_START DQ) with S_QUOTED_WORD_INNER.
  assert (St : Forall (fun x => next_state_for S_QUOTED_WORD_INNER x = S_QUOTED_WORD_INNER) r).
  { apply Forall_forall. intros x Hx. simpl.
    destruct (Ascii.eqb_spec x DQ) as [->|]; [contradiction|].
    destruct (Ascii.eqb_spec x NUL) as [->|]; [contradiction|reflexivity]. }
  rewrite (forward_stay_inner t S_QUOTED_WORD_INNER eq_refl ltac:(discriminate) r _ _ _ _ _ St E' ltac:(lia)).
  rewrite (forward_step _ _ _ S_QUOTED_WORD_INNER _ _ _ _ ltac:(discriminate) (next_char_at _ _ _ E2 ltac:(lia))).
  cbn [peek]. change (next_state_for S_QUOTED_WORD_INNER NUL) with S_ERROR.
  rewrite forward_error. cbn [is_accepting].
  cbn [backward is_accepting orb].
  rewrite backward_long.
  destruct (Nat.ltb_spec (S p + length r) (length r)) as [H|H]; [lia|].
  replace (S p + length r - length r) with (S p) by lia.
  cbn [backward is_accepting orb].
  destruct p as [|p]; [reflexivity|].
  cbn. reflexivity.
Qed.

(** ** Whole texts *)

Definition here (i : item) (t : text) (p : nat) (r : text) : Prop :=
  get_raw_token t p = Done (fst (token_for i), snd (token_for i), p + length (written i)).

Lemma pieces_step u i l rest : pieces u (i :: l) rest -> nul_free u ->
  exists v, u = written i ++ v /\ pieces v l rest /\ nul_free v /\
    (forall t p, skipn p t = u -> here i t p v).
Proof.
  intros P N. inversion P; subst; unfold here; cbn [token_for fst snd written] in *.
  - exists t. apply nul_free_app in N as [Ns Nt]. repeat split; auto. intros t0 p E.
    eapply raw_space; eauto.
  - exists t. apply nul_free_app in N as [Ns Nt]. repeat split; auto. intros t0 p E.
    eapply raw_word; eauto.
  - exists t. apply nul_free_app in N as [Ns Nt]. repeat split; auto. intros t0 p E.
    apply nul_free_cons in Ns as [_ Ns]. apply nul_free_app in Ns as [Ns _].
    eapply raw_quoted; eauto.
  - exists t. apply nul_free_app in N as [Ns Nt]. repeat split; auto. intros t0 p E.
    apply nul_free_cons in Ns as [_ Ns]. apply nul_free_app in Ns as [Ns _].
    eapply raw_comment; eauto.
  - exists []. rewrite app_nil_r. repeat split; auto. constructor. intros [].
    intros t p E. apply nul_free_cons in N as [_ N].
    rewrite (raw_last_comment t p c E N) by assumption.
    rewrite (skipn_len _ _ _ E) by discriminate. reflexivity.
  - exists t. apply nul_free_cons in N as [_ N]. repeat split; auto. intros t0 p E.
    rewrite (raw_single t0 p "," t S_COMMA E); try reflexivity; try discriminate.
    cbn. now rewrite Nat.add_1_r.
  - exists t. apply nul_free_cons in N as [_ N]. repeat split; auto. intros t0 p E.
    rewrite (raw_single t0 p "=" t S_EQUALS E); try reflexivity; try discriminate.
    cbn. now rewrite Nat.add_1_r.
Qed.

Lemma pieces_rest u rest : pieces u [] rest -> u = rest /\ (rest = [] \/ exists r, rest = DQ :: r /\ ~ In DQ r).
Proof. intros P. inversion P; subst; eauto. Qed.

Lemma written_pos u i l rest : pieces u (i :: l) rest -> length (written i) > 0.
Proof.
  intros P; inversion P; subst; cbn; try lia; destruct s || destruct w; cbn; try congruence; lia.
Qed.

Lemma pieces_text u l rest : pieces u l rest -> u = concat (map written l) ++ rest.
Proof.
  induction 1; cbn [map concat app]; auto.
  - now rewrite IHpieces, app_assoc at 1.
  - now rewrite IHpieces, app_assoc at 1.
  - rewrite IHpieces at 1. now rewrite app_assoc.
  - rewrite IHpieces at 1. now rewrite app_assoc.
  - now rewrite !app_nil_r.
  - now rewrite IHpieces at 1.
  - now rewrite IHpieces at 1.
Qed.

(** Every text has pieces. *)
Lemma span_ex (P : ascii -> bool) (t : text) :
  exists a b, t = a ++ b /\ Forall (fun c => P c = true) a /\ ~ starts (fun c => P c = true) b.
Proof.
  induction t as [|c t (a & b & -> & Fa & Hb)].
  - exists [], []. simpl. auto.
  - destruct (P c) eqn:E.
    + exists (c :: a), b. simpl. auto.
    + exists [], (c :: a ++ b). simpl. repeat split; auto. congruence.
Qed.
Lemma split_ex (x : ascii) (t : text) : In x t -> exists a b, t = a ++ x :: b /\ ~ In x a.
Proof.
  induction t as [|c t IH]; [intros []|].
  destruct (Ascii.eqb_spec c x) as [->|N]; intros H.
  - exists [], t. auto.
  - destruct H as [H|H]; [congruence|]. destruct (IH H) as (a & b & -> & Ha).
    exists (c :: a), b. simpl. intuition.
Qed.

Definition ends_word_b (c : ascii) : bool :=
  (isspace c || Ascii.eqb c "#" || Ascii.eqb c "," || Ascii.eqb c "=")%bool.
Lemma ends_word_iff c : ends_word_b c = true <-> ends_word c.
Proof.
  unfold ends_word_b, ends_word. rewrite !orb_true_iff, !Ascii.eqb_eq. tauto.
Qed.

Lemma pieces_exist_aux n : forall t : text, length t <= n -> exists l rest, pieces t l rest.
Proof.
  induction n as [|n IH]; intros t Hn.
  - destruct t; [|simpl in Hn; lia]. exists [], []. constructor.
  - destruct t as [|c t]; [exists [], []; constructor|]. cbn in Hn.
    destruct (isspace c) eqn:Sp.
    + destruct (span_ex isspace t) as (a & b & -> & Fa & Hb).
      rewrite app_length in Hn. destruct (IH b ltac:(lia)) as (l & rest & P).
      exists (ISpace (c :: a) :: l), rest. apply (p_space (c :: a)); auto. discriminate.
    + destruct (Ascii.eqb_spec c DQ) as [->|ND].
      { destruct (in_dec ascii_dec DQ t) as [I|NI].
        - destruct (split_ex _ _ I) as (a & b & -> & Ha). rewrite app_length in Hn. cbn in Hn.
          destruct (IH b ltac:(lia)) as (l & rest & P).
          exists (IQuoted a :: l), rest.
          replace (DQ :: a ++ DQ :: b) with (written (IQuoted a) ++ b); [now constructor|].
          cbn. rewrite <- app_assoc. reflexivity.
        - exists [], (DQ :: t). now constructor. }
      destruct (Ascii.eqb_spec c "#") as [->|NH].
      { destruct (in_dec ascii_dec NL t) as [I|NI].
        - destruct (split_ex _ _ I) as (a & b & -> & Ha). rewrite app_length in Hn. cbn in Hn.
          destruct (IH b ltac:(lia)) as (l & rest & P).
          exists (IComment a :: l), rest.
          replace ("#" :: a ++ NL :: b) with (written (IComment a) ++ b); [now constructor|].
          cbn. rewrite <- app_assoc. reflexivity.
        - exists [ILastComment t], []. now constructor. }
      destruct (Ascii.eqb_spec c ",") as [->|NC].
      { destruct (IH t ltac:(lia)) as (l & rest & P). exists (IComma :: l), rest. now constructor. }
      destruct (Ascii.eqb_spec c "=") as [->|NE].
      { destruct (IH t ltac:(lia)) as (l & rest & P). exists (IEquals :: l), rest. now constructor. }
      destruct (span_ex (fun x => negb (ends_word_b x)) t) as (a & b & -> & Fa & Hb).
      rewrite app_length in Hn. destruct (IH b ltac:(lia)) as (l & rest & P).
      exists (IWord (c :: a) :: l), rest. apply (p_word (c :: a)); auto; [discriminate| |].
      * constructor.
        -- unfold ends_word. intuition congruence.
        -- eapply Forall_impl; [|exact Fa]. cbn. intros x Hx He. apply ends_word_iff in He. rewrite He in Hx. discriminate.
      * destruct b as [|x b]; [auto|right]. simpl in *. apply ends_word_iff. destruct (ends_word_b x); [reflexivity|exfalso; auto].
Qed.

(** ** All tokens *)

Lemma raw_tokens_pieces t l rest : forall p u f, pieces u l rest -> nul_free u -> skipn p t = u -> p <= length t ->
  rest = [] -> length l < f ->
  raw_tokens f t p = Done (map token_for l ++ [(EOF, Some [])]).
Proof.
  induction l as [|i l IH]; intros p u f P N E L R Hf; (destruct f as [|f]; [lia|]); cbn [raw_tokens].
  - destruct (pieces_rest _ _ P) as [-> _]. subst rest.
    destruct (skipn_nil_nth _ _ R) as [_ H]. rewrite (raw_eof t p H). reflexivity.
  - destruct (pieces_step _ _ _ _ P N) as (v & -> & Pv & Nv & H).
    rewrite (H t p E).
    pose proof (skipn_app_len _ _ _ _ E) as E2.
    assert (Lv : p + length (written i) <= length t).
    { pose proof (written_pos _ _ _ _ P). rewrite (skipn_len _ _ _ E), app_length; [lia|].
      intros X. apply app_eq_nil in X as [X _]. rewrite X in *. cbn in *. lia. }
    rewrite (IH _ v f Pv Nv E2 Lv R) by (cbn in Hf; lia).
    destruct i; reflexivity.
Qed.

Lemma pieces_short u l rest : pieces u l rest -> length l <= length u.
Proof.
  induction 1; cbn; rewrite ?app_length in *; cbn; try lia.
  - destruct s; [congruence|cbn; lia].
  - destruct w; [congruence|cbn; lia].
Qed.

(** ** The scanner that skips white space and comments *)

Definition relevant (i : item) : bool := negb (is_irrelevant (fst (token_for i))).

Lemma get_token_pieces t l rest : forall p u f, pieces u l rest -> nul_free u -> skipn p t = u -> p <= length t ->
  length l < f -> rest = [] ->
  (forallb (fun i => negb (relevant i)) l = true /\ get_token f t p = Done (EOF, Some [], length t)) \/
  (exists l1 i l2 v, l = l1 ++ i :: l2 /\ forallb (fun i => negb (relevant i)) l1 = true /\ relevant i = true /\
     pieces v l2 rest /\ nul_free v /\
     get_token f t p = Done (fst (token_for i), snd (token_for i), length t - length v) /\
     skipn (length t - length v) t = v).
Proof.
  induction l as [|i l IH]; intros p u f P N E L Hf R; (destruct f as [|f]; [lia|]).
  - left. split; auto. destruct (pieces_rest _ _ P) as [-> _]. subst rest.
    destruct (skipn_nil_nth _ _ R) as [_ H]. cbn [get_token]. rewrite (raw_eof t p H). reflexivity.
  - destruct (pieces_step _ _ _ _ P N) as (v & -> & Pv & Nv & H).
    pose proof (H t p E) as G. unfold here in G.
    pose proof (skipn_app_len _ _ _ _ E) as E2.
    assert (Lv : p + length (written i) + length v = length t).
    { pose proof (written_pos _ _ _ _ P). rewrite (skipn_len _ _ _ E), app_length; [lia|].
      intros X. apply app_eq_nil in X as [X _]. rewrite X in *. cbn in *. lia. }
    destruct (is_irrelevant (fst (token_for i))) eqn:Ir.
    + destruct (IH _ v f Pv Nv E2 ltac:(lia) ltac:(cbn in Hf; lia) R) as [[A B]|(l1 & j & l2 & w & -> & A & B & C & D & X & Y)].
      * left. cbn [forallb]. unfold relevant at 1. rewrite Ir. cbn [get_token]. rewrite G, Ir. auto.
      * right. exists (i :: l1), j, l2, w. cbn [forallb app]. unfold relevant at 1. rewrite Ir.
        repeat split; auto. cbn [get_token]. rewrite G, Ir. auto.
    + right. exists [], i, l, v. unfold relevant. rewrite Ir. cbn [app forallb negb].
      replace (length t - length v) with (p + length (written i)) by lia.
      repeat split; auto. cbn [get_token]. rewrite G, Ir. auto.
Qed.

Lemma entries_irrelevant l : forallb (fun i => negb (relevant i)) l = true -> flat_map entry_for l = [].
Proof.
  induction l as [|i l IH]; cbn; auto. intros H. apply andb_true_iff in H as [H1 H2].
  rewrite IH by exact H2. destruct i; cbn in *; try discriminate; reflexivity.
Qed.

Lemma parse_pieces t n : forall l rest p u f, length l <= n -> pieces u l rest -> nul_free u -> skipn p t = u -> p <= length t ->
  length l < f -> rest = [] ->
  parse_words_from f t p = Done (flat_map entry_for l).
Proof.
  induction n as [|n IH]; intros l rest p u f Hn P N E L Hf R; (destruct f as [|f]; [lia|]); cbn [parse_words_from].
  - destruct l; [|cbn in Hn; lia].
    destruct (pieces_rest _ _ P) as [-> _]. subst rest.
    destruct (skipn_nil_nth _ _ R) as [_ H].
    cbn [get_token]. rewrite (raw_eof t p H). reflexivity.
  - assert (Hl : length l < S (length t)).
    { pose proof (pieces_short _ _ _ P). pose proof (skipn_length p t) as X. rewrite E in X. lia. }
    destruct (get_token_pieces t l rest p u (S (length t)) P N E L Hl R)
      as [[A ->]|(l1 & i & l2 & v & -> & A & B & C & D & -> & Y)].
    + now rewrite entries_irrelevant.
    + rewrite flat_map_app, (entries_irrelevant _ A). cbn [app flat_map].
      rewrite app_length in *. cbn in Hn, Hf.
      assert (PP : parse_words_from f t (length t - length v) = Done (flat_map entry_for l2)).
      { apply (IH l2 rest _ v f); auto; lia. }
      destruct i; cbn in B; try discriminate; cbn [token_for fst snd]; rewrite PP; reflexivity.
Qed.

(** ** Termination of one call, for any text and position *)

Lemma forward_stops_after_nul f t p lex stk st :
  forward (S (S f)) t p (next_state_for st NUL) lex stk <> None.
Proof.
  assert (H : next_state_for st NUL = S_EOF \/ next_state_for st NUL = S_COMMENT_END \/ next_state_for st NUL = S_ERROR)
    by (destruct st; cbn; auto).
  destruct (next_char t p) as [c p'] eqn:E.
  destruct H as [->|[->| ->]]; try rewrite forward_error; try discriminate;
    (rewrite (forward_step _ _ _ S_EOF _ _ _ _ ltac:(discriminate) E) || rewrite (forward_step _ _ _ S_COMMENT_END _ _ _ _ ltac:(discriminate) E)); cbn [next_state_for];
    rewrite forward_error; discriminate.
Qed.
Lemma forward_total t : forall k p st lex stk, length t - p <= k ->
  forward (S (S (S k))) t p st lex stk <> None.
Proof.
  induction k as [|k IH]; intros p st lex stk Hk;
    (assert (D : st = S_ERROR \/ st <> S_ERROR) by (destruct st; auto; right; discriminate));
    destruct D as [->|D]; try (rewrite forward_error; discriminate).
  - rewrite (forward_step _ _ _ _ _ _ _ _ D (next_char_past t p ltac:(lia))).
    apply forward_stops_after_nul.
  - destruct (le_lt_dec (length t) p) as [Q|Q].
    + rewrite (forward_step _ _ _ _ _ _ _ _ D (next_char_past t p Q)).
      apply forward_stops_after_nul.
    + destruct (next_char t p) as [c p'] eqn:E.
      assert (p' = S p). { unfold next_char in E. destruct (nth_error t p) eqn:X; [injection E; auto|].
        apply nth_error_None in X. lia. }
      subst p'. rewrite (forward_step _ _ _ _ _ _ _ _ D E). apply IH. lia.
Qed.

Lemma raw_total t p : get_raw_token t p <> OutOfFuel.
Proof.
  unfold get_raw_token. replace (length t - p + 3) with (S (S (S (length t - p)))) by lia.
  destruct (forward _ t p S_START [] [S_BAD]) as [[[a b] c]|] eqn:E.
  - destruct (backward S_ERROR b a c) as [[[x y] z]|]; [|discriminate].
    destruct (is_accepting x); discriminate.
  - exfalso. revert E. apply forward_total. lia.
Qed.
