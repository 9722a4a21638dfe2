(** Lemmas about the statement parsers. *)
From Coq Require Import Ascii List Bool Arith Lia.
From Verif Require Import ScanModel ScanSpec ScanProofs Rfc822Model XparseModel XparseSpec.
Import ListNotations.
Local Open Scope nat_scope.
Open Scope list_scope.

Lemma text_eqb_iff (a b : text) : text_eqb a b = true <-> a = b.
Proof. unfold text_eqb. destruct (list_eq_dec ascii_dec a b); split; intros; auto; discriminate. Qed.

(** The scanner at position [p] of [t] still has the symbols [ss] to deliver;
    [closed] tells whether every quote is closed. *)
Definition ahead (t : text) (p : nat) (ss : list symbol) (closed : bool) : Prop :=
  exists items rest u, pieces u items rest /\ nul_free u /\ skipn p t = u /\ p <= length t /\
    flat_map symbol_of items = ss /\ (closed = true <-> rest = []).

Definition tok_of (s : symbol) : token * option text :=
  match s with
  | W w => (WORD, Some w)
  | Comma => (COMMA, Some [","%char])
  | Equals => (EQUALS, Some ["="%char])
  end.

Lemma get_token_next t items : forall f p u rest,
  pieces u items rest -> nul_free u -> skipn p t = u -> p <= length t -> length items < f ->
  match flat_map symbol_of items with
  | s :: ss =>
      exists p', get_token f t p = Done (tok_of s, p') /\ 0 < p' /\
        exists items' u', pieces u' items' rest /\ nul_free u' /\ skipn p' t = u' /\ p' <= length t /\
          flat_map symbol_of items' = ss
  | [] =>
      (rest = [] -> exists p', get_token f t p = Done (EOF, Some [], p')) /\
      (rest <> [] -> (p = 0 -> items <> []) -> exists p', get_token f t p = Done (INVALID, None, p'))
  end.
Proof.
  induction items as [|i items IH]; intros f p u rest P N E L Hf; (destruct f as [|f]; [lia|]).
  - cbn [flat_map]. destruct (pieces_rest _ _ P) as [-> R]. split.
    + intros ->. destruct (skipn_nil_nth _ _ E) as [_ H]. cbn [get_token]. rewrite (raw_eof t p H).
      cbn. eauto.
    + intros NE Hp. destruct R as [->|(r & -> & Q)]; [congruence|]. cbn [get_token].
      apply nul_free_cons in N as [_ N].
      rewrite (raw_unclosed t p r E N Q). destruct p as [|p].
      * exfalso. now apply Hp.
      * cbn. eauto.
  - destruct (pieces_step _ _ _ _ P N) as (v & -> & Pv & Nv & H).
    pose proof (H t p E) as G. unfold here in G.
    pose proof (skipn_app_len _ _ _ _ E) as E2.
    assert (W0 : length (written i) > 0) by exact (written_pos _ _ _ _ P).
    assert (Lv : p + length (written i) + length v = length t).
    { rewrite (skipn_len _ _ _ E), app_length; [lia|].
      intros X. apply app_eq_nil in X as [X _]. rewrite X in W0. cbn in W0. lia. }
    cbn [length] in Hf.
    specialize (IH f (p + length (written i)) v rest Pv Nv E2 ltac:(lia) ltac:(lia)).
    assert (Irr : is_irrelevant (fst (token_for i)) = true ->
      get_token (S f) t p = get_token f t (p + length (written i))).
    { intros Ir. cbn [get_token]. rewrite G. now rewrite Ir. }
    assert (Rel : is_irrelevant (fst (token_for i)) = false ->
      get_token (S f) t p = Done (token_for i, p + length (written i))).
    { intros Ir. cbn [get_token]. rewrite G, Ir. now destruct (token_for i). }
    assert (Big : 0 < p + length (written i)) by lia.
    destruct i; cbn [flat_map symbol_of app];
      try (rewrite Rel by reflexivity; cbn [token_for tok_of];
           eexists; split; [reflexivity|]; split; [exact Big|];
           exists items, v; repeat split; auto; lia);
      rewrite Irr by reflexivity; destruct (flat_map symbol_of items);
      try exact IH; destruct IH as [I1 I2]; (split; [exact I1|]); intros R _; apply I2; auto; lia.
Qed.

(** One call of the scanner. *)
Lemma next_symbol t p s ss closed : ahead t p (s :: ss) closed ->
  exists p', next t p = Done (tok_of s, p') /\ 0 < p' /\ ahead t p' ss closed.
Proof.
  intros (items & rest & u & P & N & E & L & F & C).
  assert (Hl : length items < S (length t)).
  { pose proof (pieces_short _ _ _ P). pose proof (skipn_length p t) as X. rewrite E in X. lia. }
  pose proof (get_token_next t items (S (length t)) p u rest P N E L Hl) as G. rewrite F in G.
  destruct G as (p' & G1 & G2 & items' & u' & A). exists p'. split; [exact G1|]. split; [exact G2|].
  exists items', rest, u'. intuition.
Qed.

Lemma next_end t p : ahead t p [] true -> exists p', next t p = Done (EOF, Some [], p').
Proof.
  intros (items & rest & u & P & N & E & L & F & C).
  assert (Hl : length items < S (length t)).
  { pose proof (pieces_short _ _ _ P). pose proof (skipn_length p t) as X. rewrite E in X. lia. }
  pose proof (get_token_next t items (S (length t)) p u rest P N E L Hl) as G. rewrite F in G.
  apply G. now apply C.
Qed.

Lemma next_broken t p : 0 < p -> ahead t p [] false -> exists p', next t p = Done (INVALID, None, p').
Proof.
  intros Hp (items & rest & u & P & N & E & L & F & C).
  assert (Hl : length items < S (length t)).
  { pose proof (pieces_short _ _ _ P). pose proof (skipn_length p t) as X. rewrite E in X. lia. }
  pose proof (get_token_next t items (S (length t)) p u rest P N E L Hl) as G. rewrite F in G.
  apply G; [|lia]. intros R. apply C in R. discriminate.
Qed.

(** At the start of the text. *)
Lemma next_broken_start t : ahead t 0 [] false -> ~ bad_start t -> exists p', next t 0 = Done (INVALID, None, p').
Proof.
  intros (items & rest & u & P & N & E & L & F & C) B. cbn in E. subst u.
  assert (Hl : length items < S (length t)).
  { pose proof (pieces_short _ _ _ P). lia. }
  pose proof (get_token_next t items (S (length t)) 0 t rest P N eq_refl L Hl) as G. rewrite F in G.
  apply G.
  - intros R. apply C in R. discriminate.
  - intros _ ->. destruct (pieces_rest _ _ P) as [-> [->|(r & -> & Q)]].
    + destruct C as [_ C]. now discriminate C.
    + apply B. exists r. auto.
Qed.

Lemma next_bad_start t : bad_start t -> ~ In NUL t -> next t 0 = AssertionFailed.
Proof.
  intros (r & -> & Q) N. unfold next. cbn [get_token length].
  rewrite (raw_unclosed (DQ :: r) 0 r eq_refl); auto. intros H. apply N. now right.
Qed.

(** Every text has symbols. *)
Lemma reads_or_broken t : (exists l, reads t l) \/ (exists l, broken t l).
Proof.
  destruct (pieces_exist_aux (length t) t (le_n _)) as (items & rest & P).
  assert (R : rest = [] \/ exists r, rest = DQ :: r).
  { clear -P. induction P; auto. right. eauto. }
  destruct R as [->|(r & ->)].
  - left. eexists. exists items. eauto.
  - right. eexists. exists items, r. eauto.
Qed.

Lemma reads_ahead t l : reads t l -> ~ In NUL t -> ahead t 0 l true.
Proof.
  intros (items & P & <-) N. exists items, [], t. repeat split; auto. lia.
Qed.
Lemma broken_ahead t l : broken t l -> ~ In NUL t -> ahead t 0 l false.
Proof.
  intros (items & r & P & <-) N. exists items, (DQ :: r), t. repeat split; auto; try lia; discriminate.
Qed.

(** What is delivered next, whatever it is. *)
Definition first_lexeme (l : list symbol) (closed : bool) : token * option text :=
  match l with
  | s :: _ => tok_of s
  | [] => if closed then (EOF, Some []) else (INVALID, None)
  end.

Lemma next_first t p l closed : 0 < p -> ahead t p l closed ->
  exists p', next t p = Done (first_lexeme l closed, p') /\
    (forall s ss, l = s :: ss -> 0 < p' /\ ahead t p' ss closed).
Proof.
  intros Hp A. destruct l as [|s ss].
  - destruct closed.
    + destruct (next_end _ _ A) as (p' & E). exists p'. cbn. split; auto; discriminate.
    + destruct (next_broken _ _ Hp A) as (p' & E). exists p'. cbn. split; auto; discriminate.
  - destruct (next_symbol _ _ _ _ _ A) as (p' & E & P & A'). exists p'. cbn. split; auto.
    intros s0 ss0 X. injection X as -> ->. auto.
Qed.

Lemma next_first_start t l closed : ahead t 0 l closed -> ~ bad_start t ->
  exists p', next t 0 = Done (first_lexeme l closed, p') /\
    (forall s ss, l = s :: ss -> 0 < p' /\ ahead t p' ss closed).
Proof.
  intros A B. destruct l as [|s ss].
  - destruct closed.
    + destruct (next_end _ _ A) as (p' & E). exists p'. cbn. split; auto. discriminate.
    + destruct (next_broken_start _ A B) as (p' & E). exists p'. cbn. split; auto. discriminate.
  - destruct (next_symbol _ _ _ _ _ A) as (p' & E & P & A'). exists p'. cbn. split; auto.
    intros s0 ss0 X. injection X as -> ->. auto.
Qed.

(** FieldOverride.parse as a function of the symbols. *)
Definition override_of (l : list symbol) (closed : bool) : (text * text) + problem :=
  match l with
  | W a :: l1 =>
      if text_eqb a kw_apply then
        match l1 with
        | W v :: l2 =>
            match l2 with
            | W b :: l3 =>
                if text_eqb b kw_to then
                  match l3 with
                  | [W p] => if closed then inl (v, p) else inr (Garbage None)
                  | W p :: s :: _ => inr (Garbage (snd (tok_of s)))
                  | _ => inr ExpectedOverridePattern
                  end
                else inr (ExpectedTo (Some b))
            | _ => inr (ExpectedTo (snd (first_lexeme l2 closed)))
            end
        | _ => inr ExpectedOverrideValue
        end
      else inr (ExpectedApply (Some a))
  | _ => inr (ExpectedApply (snd (first_lexeme l closed)))
  end.

Lemma parse_override_ahead t l closed : ahead t 0 l closed -> ~ bad_start t ->
  parse_override t = Done (override_of l closed).
Proof.
  intros A B. unfold parse_override.
  destruct (next_first_start _ _ _ A B) as (p1 & E1 & A1). rewrite E1. cbn [obind].
  destruct l as [|[a| |] l1]; try reflexivity.
  { destruct closed; reflexivity. }
  destruct (A1 _ _ eq_refl) as [P1 A1']. clear A1. cbn [first_lexeme tok_of word_of override_of].
  destruct (text_eqb a kw_apply); [|reflexivity].
  destruct (next_first _ _ _ _ P1 A1') as (p2 & E2 & A2). rewrite E2. cbn [obind].
  destruct l1 as [|[v| |] l2]; try reflexivity.
  { destruct closed; reflexivity. }
  destruct (A2 _ _ eq_refl) as [P2 A2']. clear A2. cbn [first_lexeme tok_of word_of].
  destruct (next_first _ _ _ _ P2 A2') as (p3 & E3 & A3). rewrite E3. cbn [obind].
  destruct l2 as [|[b| |] l3]; try reflexivity.
  { destruct closed; reflexivity. }
  destruct (A3 _ _ eq_refl) as [P3 A3']. clear A3. cbn [first_lexeme tok_of word_of].
  destruct (text_eqb b kw_to); [|reflexivity].
  destruct (next_first _ _ _ _ P3 A3') as (p4 & E4 & A4). rewrite E4. cbn [obind].
  destruct l3 as [|[p| |] l4]; try reflexivity.
  { destruct closed; reflexivity. }
  destruct (A4 _ _ eq_refl) as [P4 A4']. clear A4. cbn [first_lexeme tok_of word_of].
  destruct (next_first _ _ _ _ P4 A4') as (p5 & E5 & _). rewrite E5. cbn [obind].
  destruct l4 as [|s l5]; cbn [first_lexeme]; [destruct closed; reflexivity|].
  destruct s; reflexivity.
Qed.

(** IncludeStmt.parse as a function of the symbols. *)
Fixpoint pairs_from (fuel : nat) (first : bool) (l : list symbol) (closed : bool)
    : option (list (text * text) + problem) :=
  match fuel with
  | 0 => None
  | S fuel =>
      match l with
      | W f :: l1 =>
          match l1 with
          | Equals :: l2 =>
              match l2 with
              | W v :: l3 =>
                  match l3 with
                  | Comma :: l4 =>
                      match pairs_from fuel false l4 closed with
                      | Some (inl r) => Some (inl ((f, v) :: r))
                      | x => x
                      end
                  | [] => if closed then Some (inl [(f, v)]) else Some (inr ExpectedComma)
                  | _ => Some (inr ExpectedComma)
                  end
              | _ => Some (inr ExpectedOverrideValue)
              end
          | _ => Some (inr ExpectedEquals)
          end
      | [] => if (closed && first)%bool then Some (inl []) else Some (inr ExpectedOverrideField)
      | _ => Some (inr ExpectedOverrideField)
      end
  end.

Lemma pairs_total fuel : forall first l closed, length l < fuel -> pairs_from fuel first l closed <> None.
Proof.
  induction fuel as [|fuel IH]; intros first l closed Hl; [lia|]. cbn [pairs_from].
  destruct l as [|[f| |] [|[| |] [|[v| |] [|[| |] l]]]]; try discriminate;
    try (destruct closed; try destruct first; discriminate).
  specialize (IH false l closed). cbn in Hl.
  destruct (pairs_from fuel false l closed) as [[]|]; try discriminate. apply IH. lia.
Qed.

Lemma parse_pairs_ahead t fuel : forall first p l closed, 0 < p -> ahead t p l closed ->
  parse_pairs fuel first t p =
  match pairs_from fuel first l closed with Some r => Done r | None => OutOfFuel end.
Proof.
  induction fuel as [|fuel IH]; intros first p l closed Hp A; [reflexivity|].
  cbn [parse_pairs pairs_from].
  destruct (next_first _ _ _ _ Hp A) as (p1 & E1 & A1). rewrite E1. cbn [obind].
  destruct l as [|[f| |] l1]; try reflexivity.
  { destruct closed, first; reflexivity. }
  destruct (A1 _ _ eq_refl) as [P1 A1']. clear A1. cbn [first_lexeme tok_of word_of].
  destruct (next_first _ _ _ _ P1 A1') as (p2 & E2 & A2). rewrite E2. cbn [obind].
  destruct l1 as [|[b| |] l2]; try reflexivity.
  { destruct closed; reflexivity. }
  destruct (A2 _ _ eq_refl) as [P2 A2']. clear A2. cbn [first_lexeme tok_of word_of].
  destruct (next_first _ _ _ _ P2 A2') as (p3 & E3 & A3). rewrite E3. cbn [obind].
  destruct l2 as [|[v| |] l3]; try reflexivity.
  { destruct closed; reflexivity. }
  destruct (A3 _ _ eq_refl) as [P3 A3']. clear A3. cbn [first_lexeme tok_of word_of].
  destruct (next_first _ _ _ _ P3 A3') as (p4 & E4 & A4). rewrite E4. cbn [obind].
  destruct l3 as [|[b| |] l4]; try reflexivity.
  { destruct closed; reflexivity. }
  destruct (A4 _ _ eq_refl) as [P4 A4']. clear A4. cbn [first_lexeme tok_of word_of].
  rewrite (IH false p4 l4 closed P4 A4').
  destruct (pairs_from fuel false l4 closed) as [[]|]; reflexivity.
Qed.

Lemma ahead_short t p l closed : ahead t p l closed -> length l <= length t.
Proof.
  intros (items & rest & u & P & N & E & L & F & C).
  pose proof (pieces_short _ _ _ P). pose proof (skipn_length p t) as X. rewrite E in X.
  rewrite <- F. assert (length (flat_map symbol_of items) <= length items); [|lia].
  clear. induction items as [|i items IH]; cbn; auto. rewrite app_length. destruct i; cbn; lia.
Qed.

Lemma parse_include_ahead t l closed : ahead t 0 l closed -> ~ bad_start t ->
  parse_include t =
  match l with
  | W p :: l1 =>
      match pairs_from (S (length t)) true l1 closed with
      | Some (inl ov) => Done (inl (p, ov))
      | Some (inr e) => Done (inr e)
      | None => OutOfFuel
      end
  | _ => Done (inr ExpectedPattern)
  end.
Proof.
  intros A B. unfold parse_include.
  destruct (next_first_start _ _ _ A B) as (p1 & E1 & A1). rewrite E1. cbn [obind].
  destruct l as [|[a| |] l1]; try reflexivity.
  { destruct closed; reflexivity. }
  destruct (A1 _ _ eq_refl) as [P1 A1']. clear A1. cbn [first_lexeme tok_of word_of].
  rewrite (parse_pairs_ahead t (S (length t)) true p1 l1 closed P1 A1').
  destruct (pairs_from _ _ _ _) as [[]|]; reflexivity.
Qed.

Lemma pairs_of_cons f v r : r <> [] -> pairs_of ((f, v) :: r) = W f :: Equals :: W v :: Comma :: pairs_of r.
Proof. destruct r; [congruence|reflexivity]. Qed.

Lemma pairs_from_of ov : forall fuel first, length (pairs_of ov) < fuel -> (ov = [] -> first = true) ->
  pairs_from fuel first (pairs_of ov) true = Some (inl ov).
Proof.
  induction ov as [|[f v] ov IH]; intros fuel first Hl Hf.
  - destruct fuel; [cbn in Hl; lia|]. rewrite Hf by reflexivity. reflexivity.
  - destruct ov as [|q ov].
    + destruct fuel as [|fuel]; [cbn in Hl; lia|]. reflexivity.
    + rewrite pairs_of_cons in * by discriminate. cbn [length] in Hl.
      destruct fuel as [|fuel]; [lia|]. cbn [pairs_from]. rewrite (IH fuel false); [reflexivity|lia|discriminate].
Qed.

Lemma pairs_from_inv fuel : forall first l closed ov,
  pairs_from fuel first l closed = Some (inl ov) ->
  closed = true /\ l = pairs_of ov /\ (first = false -> ov <> []).
Proof.
  induction fuel as [|fuel IH]; intros first l closed ov H; [discriminate|]. cbn [pairs_from] in H.
  destruct l as [|[f| |] [|[| |] [|[v| |] [|[| |] l]]]]; try discriminate;
    try (destruct closed; try discriminate; destruct first; discriminate).
  - destruct closed, first; cbn in H; try discriminate. injection H as <-. repeat split; auto; discriminate.
  - destruct closed; try discriminate. injection H as <-. repeat split; auto. intros _. discriminate.
  - destruct (pairs_from fuel false l closed) as [[r|]|] eqn:E; try discriminate. injection H as <-.
    destruct (IH _ _ _ _ E) as (C & -> & NE). split; auto. split; [|discriminate].
    rewrite pairs_of_cons; auto.
Qed.
