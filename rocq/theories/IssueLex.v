(** The shell lexer against its grammar. *)
From Coq Require Import Ascii List Bool Arith Lia.
From Verif Require Import ScanModel Rfc822Model Rfc822Spec Rfc822Proofs IssueModel IssueSpec.
Import ListNotations.
Local Open Scope nat_scope.
Local Open Scope list_scope.

Definition ok_state (s : lstate) : Prop :=
  match s with
  | LQuote q => q = SQ \/ q = DQ
  | LEscape (Some q) => q = DQ
  | _ => True
  end.

(** What the rest of the text must be for a lexer in a state. *)
Definition accepts (s : lstate) (t : text) : Prop :=
  match s with
  | LSpace | LWord => closed t
  | LComment => ~ In NL t \/ exists a r, t = a ++ NL :: r /\ ~ In NL a /\ closed r
  | LQuote q => if Ascii.eqb q SQ then exists a r, t = a ++ SQ :: r /\ ~ In SQ a /\ closed r
                else exists a r, t = a ++ DQ :: r /\ in_double a /\ closed r
  | LEscape None => exists c r, t = c :: r /\ closed r
  | LEscape (Some q) => exists c a r, t = c :: a ++ DQ :: r /\ in_double a /\ closed r
  end.

Section Lexer.
  Variable wordchar : ascii -> bool.
  Hypothesis word_plain : forall c, wordchar c = true -> special c = false.

  Definition next_state (s : lstate) (c : ascii) : lstate :=
    match s with
    | LSpace | LWord =>
        if lex_space c then LSpace
        else if Ascii.eqb c HASH then LComment
        else if Ascii.eqb c BACKSLASH then LEscape None
        else if is_quote c then LQuote c
        else if wordchar c then LWord else LSpace
    | LQuote q =>
        if Ascii.eqb c q then LWord
        else if (Ascii.eqb c BACKSLASH && Ascii.eqb q DQ)%bool then LEscape (Some q) else LQuote q
    | LEscape None => LWord
    | LEscape (Some q) => LQuote q
    | LComment => if Ascii.eqb c NL then LSpace else LComment
    end.
  Definition advance (c : ascii) (l : lexer) : lexer :=
    match l_state l with
    | LComment => if Ascii.eqb c NL then to LSpace l else l
    | _ => lex_char wordchar c l
    end.

  Lemma lex_from_cons l c r : lex_from wordchar l (c :: r) = lex_from wordchar (advance c l) r.
  Proof. unfold advance. cbn [lex_from]. destruct (l_state l); reflexivity. Qed.

  Lemma special_cases c : special c = false <-> c <> SQ /\ c <> DQ /\ c <> BACKSLASH /\ c <> HASH.
  Proof.
    unfold special. rewrite !orb_false_iff, !Ascii.eqb_neq. tauto.
  Qed.
  Lemma quote_not_word c : is_quote c = true -> wordchar c = false.
  Proof.
    unfold is_quote. rewrite orb_true_iff, !Ascii.eqb_eq. intros H. destruct (wordchar c) eqn:E; auto.
    apply word_plain, special_cases in E. destruct H; subst; tauto.
  Qed.
  Lemma quote_not_backslash c : is_quote c = true -> Ascii.eqb c BACKSLASH = false.
  Proof. unfold is_quote. rewrite orb_true_iff, !Ascii.eqb_eq. intros [->| ->]; reflexivity. Qed.

  Lemma emit_if_state l : l_state (emit_if_token l) = l_state l.
  Proof. unfold emit_if_token. destruct (has_token l); reflexivity. Qed.
  Lemma emit_if_lineno l : l_lineno (emit_if_token l) = l_lineno l.
  Proof. unfold emit_if_token. destruct (has_token l); reflexivity. Qed.

  Lemma advance_state c l : l_state (advance c l) = next_state (l_state l) c.
  Proof.
    unfold advance, next_state, lex_char. set (l' := if Ascii.eqb c NL then next_line l else l).
    assert (S : l_state l' = l_state l) by (unfold l'; destruct (Ascii.eqb c NL); reflexivity).
    rewrite S. destruct (l_state l) as [| |q|[q|]|] eqn:E.
    - destruct (lex_space c); [rewrite emit_if_state; exact S|].
      destruct (Ascii.eqb c HASH); [reflexivity|]. destruct (Ascii.eqb c BACKSLASH); [reflexivity|].
      destruct (is_quote c) eqn:Q; [rewrite (quote_not_word c Q); reflexivity|].
      destruct (wordchar c); [reflexivity|exact S].
    - destruct (lex_space c); [rewrite emit_if_state; reflexivity|].
      destruct (Ascii.eqb c HASH); [rewrite emit_if_state; reflexivity|].
      destruct (is_quote c) eqn:Q; [rewrite (quote_not_backslash c Q); reflexivity|].
      destruct (Ascii.eqb c BACKSLASH); [reflexivity|].
      destruct (wordchar c); [exact S|rewrite emit_if_state; reflexivity].
    - destruct (Ascii.eqb c q); [reflexivity|].
      destruct (Ascii.eqb c BACKSLASH && Ascii.eqb q DQ)%bool; [reflexivity|exact S].
    - reflexivity.
    - reflexivity.
    - destruct (Ascii.eqb c NL); [reflexivity|exact E].
  Qed.

  Definition in_comment (s : lstate) : nat := match s with LComment => 1 | _ => 0 end.
  Lemma advance_lineno c l : l_lineno (advance c l) + in_comment (l_state l) =
    l_lineno l + (if Ascii.eqb c NL then 1 else 0) + in_comment (l_state (advance c l)).
  Proof.
    rewrite advance_state. unfold advance, next_state, lex_char.
    set (l' := if Ascii.eqb c NL then next_line l else l).
    assert (S : l_state l' = l_state l) by (unfold l'; destruct (Ascii.eqb c NL); reflexivity).
    assert (N : l_lineno l' = l_lineno l + (if Ascii.eqb c NL then 1 else 0)).
    { unfold l'. destruct (Ascii.eqb c NL); cbn; lia. }
    rewrite S. destruct (l_state l) as [| |q|[q|]|] eqn:E.
    - destruct (lex_space c); [rewrite emit_if_lineno, N; cbn; lia|].
      destruct (Ascii.eqb c HASH); [cbn; rewrite N; cbn; lia|]. destruct (Ascii.eqb c BACKSLASH); [cbn; rewrite N; cbn; lia|].
      destruct (is_quote c) eqn:Q; [rewrite (quote_not_word c Q); cbn; rewrite N; cbn; lia|].
      destruct (wordchar c); cbn; rewrite N; cbn; lia.
    - destruct (lex_space c); [rewrite emit_if_lineno; cbn; rewrite N; cbn; lia|].
      destruct (Ascii.eqb c HASH); [rewrite emit_if_lineno; cbn; rewrite N; cbn; lia|].
      destruct (is_quote c) eqn:Q; [rewrite (quote_not_backslash c Q); cbn; rewrite N; cbn; lia|].
      destruct (Ascii.eqb c BACKSLASH); [cbn; rewrite N; cbn; lia|].
      destruct (wordchar c); [cbn; rewrite N; cbn; lia|rewrite emit_if_lineno; cbn; rewrite N; cbn; lia].
    - destruct (Ascii.eqb c q); [cbn; rewrite N; cbn; lia|].
      destruct (Ascii.eqb c BACKSLASH && Ascii.eqb q DQ)%bool; cbn; rewrite N; cbn; lia.
    - cbn. destruct (negb (Ascii.eqb c BACKSLASH) && negb (Ascii.eqb c q))%bool; cbn; rewrite N; cbn; lia.
    - cbn. rewrite N. lia.
    - destruct (Ascii.eqb c NL); cbn; lia.
  Qed.

  Lemma next_ok s c : ok_state s -> ok_state (next_state s c).
  Proof.
    destruct s as [| |q|[q|]|]; cbn; intros H.
    1,2: destruct (lex_space c); [exact I|]; destruct (Ascii.eqb c HASH); [exact I|];
      destruct (Ascii.eqb c BACKSLASH); [exact I|]; destruct (is_quote c) eqn:Q;
      [unfold is_quote in Q; rewrite orb_true_iff, !Ascii.eqb_eq in Q; exact Q|destruct (wordchar c); exact I].
    - destruct (Ascii.eqb c q); [exact I|].
      destruct (Ascii.eqb c BACKSLASH && Ascii.eqb q DQ)%bool eqn:E; [|exact H].
      cbn. apply andb_prop in E as [_ E]. apply Ascii.eqb_eq in E. exact E.
    - right. exact H.
    - exact I.
    - destruct (Ascii.eqb c NL); exact I.
  Qed.

  Lemma closed_cons c t : closed (c :: t) <->
    special c = false /\ closed t \/
    c = BACKSLASH /\ (exists d r, t = d :: r /\ closed r) \/
    c = SQ /\ (exists a r, t = a ++ SQ :: r /\ ~ In SQ a /\ closed r) \/
    c = DQ /\ (exists a r, t = a ++ DQ :: r /\ in_double a /\ closed r) \/
    c = HASH /\ (~ In NL t \/ exists a r, t = a ++ NL :: r /\ ~ In NL a /\ closed r).
  Proof.
    split.
    - intros H. inversion H; subst.
      + auto.
      + right. left. eauto.
      + right. right. left. eauto 6.
      + right. right. right. left. eauto 6.
      + right. right. right. right. split; [reflexivity|]. right. eauto 6.
      + right. right. right. right. auto.
    - intros [[H1 H2]|[[-> [d [r [-> H]]]]|[[-> [a [r [-> [H1 H2]]]]]|[[-> [a [r [-> [H1 H2]]]]]|[-> [H|[a [r [-> [H1 H2]]]]]]]]]].
      + apply cl_char; auto.
      + apply cl_escape, H.
      + apply cl_single; auto.
      + apply cl_double; auto.
      + apply cl_last_comment, H.
      + apply cl_comment; auto.
  Qed.

  Lemma lex_space_plain c : lex_space c = true -> special c = false.
  Proof.
    unfold lex_space. rewrite !orb_true_iff, !Ascii.eqb_eq. intros [[[->| ->]| ->]| ->]; reflexivity.
  Qed.

  Lemma split_first_char (x : ascii) c t (P : list ascii -> list ascii -> Prop) :
    (exists a r, c :: t = a ++ x :: r /\ P a r) <->
    (c = x /\ P [] t) \/ exists a r, t = a ++ x :: r /\ P (c :: a) r.
  Proof.
    split.
    - intros [[|b a] [r [E H]]]; cbn in E; injection E as -> ->.
      + left. auto.
      + right. eauto.
    - intros [[-> H]|[a [r [-> H]]]].
      + exists [], t. auto.
      + exists (c :: a), r. auto.
  Qed.

  Lemma in_double_cons c a : in_double (c :: a) <->
    c <> DQ /\ c <> BACKSLASH /\ in_double a \/ c = BACKSLASH /\ exists d b, a = d :: b /\ in_double b.
  Proof.
    split.
    - intros H. inversion H; subst; [left; auto|right; eauto].
    - intros [[H1 [H2 H3]]|[-> [d [b [-> H]]]]]; [apply dq_char; auto|apply dq_escape, H].
  Qed.

  Lemma accepts_cons s c t : ok_state s -> accepts s (c :: t) <-> accepts (next_state s c) t.
  Proof.
    intros O. destruct s as [| |q|[q|]|]; cbn [accepts next_state].
    1,2: rewrite closed_cons; destruct (lex_space c) eqn:Sp;
      [apply lex_space_plain in Sp; cbn; split;
        [intros [[_ H]|[[-> _]|[[-> _]|[[-> _]|[-> _]]]]]; [exact H|discriminate..]|intros H; left; auto]|];
      destruct (Ascii.eqb_spec c HASH) as [->|Hh];
      [cbn; split; [intros [[H _]|[[H _]|[[H _]|[[H _]|[_ H]]]]]; [discriminate..|exact H]|intros H; right; right; right; right; auto]|];
      destruct (Ascii.eqb_spec c BACKSLASH) as [->|Hb];
      [cbn; split; [intros [[H _]|[[_ H]|[[H _]|[[H _]|[H _]]]]]; [discriminate|exact H|discriminate..]|intros H; right; left; auto]|];
      destruct (is_quote c) eqn:Q;
      [unfold is_quote in Q; rewrite orb_true_iff, !Ascii.eqb_eq in Q; destruct Q as [->| ->]; cbn;
        (split; [intros [[H _]|[[H _]|[[H H']|[[H H']|[H _]]]]]; first [discriminate | exact H']|intros H])|].
    all: try (right; right; left; split; [reflexivity|exact H]).
    all: try (right; right; right; left; split; [reflexivity|exact H]).
    1,2: assert (Pl : special c = false) by
        (apply special_cases; unfold is_quote in Q; rewrite orb_false_iff, !Ascii.eqb_neq in Q; tauto);
      assert (G : accepts (if wordchar c then LWord else LSpace) t <-> closed t) by (destruct (wordchar c); reflexivity);
      rewrite G; split; [intros [[_ H]|[[-> _]|[[-> _]|[[-> _]|[-> _]]]]]; [exact H|discriminate..]|auto].
    - destruct O as [->| ->].
      + change (Ascii.eqb SQ SQ) with true. change (Ascii.eqb SQ DQ) with false. rewrite andb_false_r. cbv iota.
        rewrite (split_first_char SQ c t (fun a r => ~ In SQ a /\ closed r)).
        destruct (Ascii.eqb_spec c SQ) as [->|Hc]; cbn [accepts].
        * split; [|intros H; left; split; [reflexivity|split; [intros []|exact H]]].
          intros [[_ [_ H]]|[a [r [_ [H _]]]]]; [exact H|]. exfalso. apply H. left. reflexivity.
        * change (Ascii.eqb SQ SQ) with true. cbv iota. split.
          -- intros [[-> _]|[a [r [E [H1 H2]]]]]; [contradiction|]. exists a, r. split; [exact E|]. split; [|exact H2].
             intros Hin. apply H1. right. exact Hin.
          -- intros [a [r [E [H1 H2]]]]. right. exists a, r. split; [exact E|]. split; [|exact H2].
             intros [->|Hin]; [apply Hc; reflexivity|apply H1, Hin].
      + change (Ascii.eqb DQ SQ) with false. change (Ascii.eqb DQ DQ) with true. rewrite andb_true_r. cbv iota.
        rewrite (split_first_char DQ c t (fun a r => in_double a /\ closed r)).
        destruct (Ascii.eqb_spec c DQ) as [->|Hc]; cbn [accepts].
        * split; [|intros H; left; split; [reflexivity|split; [constructor|exact H]]].
          intros [[_ [_ H]]|[a [r [_ [H _]]]]]; [exact H|]. apply in_double_cons in H as [[H _]|[H _]]; [contradiction|discriminate].
        * destruct (Ascii.eqb_spec c BACKSLASH) as [->|Hb]; cbn [accepts].
          -- split.
             ++ intros [[H _]|[a [r [E [H1 H2]]]]]; [contradiction|].
                apply in_double_cons in H1 as [[_ [H _]]|[_ [d [b [-> H1]]]]]; [contradiction|].
                exists d, b, r. auto.
             ++ intros [d [b [r [E [H1 H2]]]]]. right. exists (d :: b), r. split; [exact E|]. split; [|exact H2].
                apply dq_escape, H1.
          -- change (Ascii.eqb DQ SQ) with false. cbv iota. split.
             ++ intros [[H _]|[a [r [E [H1 H2]]]]]; [contradiction|].
                apply in_double_cons in H1 as [[_ [_ H1]]|[H _]]; [|contradiction]. eauto.
             ++ intros [a [r [E [H1 H2]]]]. right. exists a, r. split; [exact E|]. split; [|exact H2].
                apply dq_char; auto.
    - cbn in O. subst q. change (Ascii.eqb DQ SQ) with false. cbv iota. split.
      + intros [d [a [r [E [H1 H2]]]]]. injection E as -> ->. eauto.
      + intros [a [r [E [H1 H2]]]]. exists c, a, r. rewrite E. auto.
    - split.
      + intros [d [r [E H]]]. injection E as -> ->. exact H.
      + intros H. eauto.
    - destruct (Ascii.eqb_spec c NL) as [->|Hc]; cbn [accepts].
      + split.
        * intros [H|[a [r [E [H1 H2]]]]]; [exfalso; apply H; left; reflexivity|].
          destruct a as [|x a]; cbn in E.
          -- assert (E' : t = r) by congruence. subst r. exact H2.
          -- exfalso. apply H1. left. congruence.
        * intros H. right. exists [], t. auto.
      + rewrite (split_first_char NL c t (fun a r => ~ In NL a /\ closed r)). split.
        * intros [H|[[H _]|[a [r [E [H1 H2]]]]]]; [|contradiction|].
          -- left. intros Hin. apply H. right. exact Hin.
          -- right. exists a, r. split; [exact E|]. split; [|exact H2]. intros Hin. apply H1. right. exact Hin.
        * intros [H|[a [r [E [H1 H2]]]]].
          -- left. intros [->|Hin]; [apply Hc; reflexivity|apply H, Hin].
          -- right. right. exists a, r. split; [exact E|]. split; [|exact H2].
             intros [->|Hin]; [apply Hc; reflexivity|apply H1, Hin].
  Qed.

  Lemma accepts_nil s : accepts s [] <-> match s with LQuote _ | LEscape _ => False | _ => True end.
  Proof.
    destruct s as [| |q|[q|]|]; cbn.
    - split; [auto|intros _; constructor].
    - split; [auto|intros _; constructor].
    - destruct (Ascii.eqb q SQ); split; try contradiction; intros [[|x a] [r [E _]]]; discriminate.
    - split; [|contradiction]. intros [c [a [r [E _]]]]. discriminate.
    - split; [|contradiction]. intros [c [r [E _]]]. discriminate.
    - split; [auto|]. intros _. left. intros [].
  Qed.

  Lemma lex_from_done t : forall l, ok_state (l_state l) ->
    (exists toks, lex_from wordchar l t = LexDone toks) <-> accepts (l_state l) t.
  Proof.
    induction t as [|c t IH]; intros l O.
    - rewrite accepts_nil. cbn. unfold lex_end. destruct (l_state l); split; try contradiction; eauto;
        intros [toks H]; discriminate.
    - rewrite lex_from_cons, accepts_cons by exact O. rewrite <- advance_state. apply IH.
      rewrite advance_state. apply next_ok, O.
  Qed.

  Lemma lex_from_error t : forall l p toks n, lex_from wordchar l t = LexError p toks n ->
    n + in_comment (l_state l) = l_lineno l + count_nl t.
  Proof.
    induction t as [|c t IH]; intros l p toks n H.
    - cbn in H. unfold lex_end in H. unfold count_nl. cbn.
      destruct (l_state l); try discriminate; injection H as <- <- <-; cbn; lia.
    - rewrite lex_from_cons in H. apply IH in H. pose proof (advance_lineno c l) as A.
      unfold count_nl in *. cbn [count_occ]. destruct (Ascii.eqb_spec c NL) as [->|Hc].
      + destruct (ascii_dec NL NL) as [_|N]; [lia|contradiction].
      + destruct (ascii_dec c NL) as [N|_]; [contradiction|]. lia.
  Qed.

  (** What is missing. *)
  Lemma lex_from_app t : forall l u, lex_from wordchar l (t ++ u) = lex_from wordchar (fold_left (fun l c => advance c l) t l) u.
  Proof.
    induction t as [|c t IH]; intros l u; [reflexivity|]. cbn [app fold_left]. rewrite lex_from_cons. apply IH.
  Qed.
  Lemma fold_ok t : forall l, ok_state (l_state l) -> ok_state (l_state (fold_left (fun l c => advance c l) t l)).
  Proof.
    induction t as [|c t IH]; intros l O; [exact O|]. cbn. apply IH. rewrite advance_state. apply next_ok, O.
  Qed.
  Lemma lex_open_quote l t toks n : ok_state (l_state l) ->
    lex_from wordchar l t = LexError NoClosingQuotation toks n ->
    exists q, is_quote q = true /\ exists toks', lex_from wordchar l (t ++ [q]) = LexDone toks'.
  Proof.
    intros O. rewrite <- (app_nil_r t) at 1. rewrite lex_from_app. pose proof (fold_ok t l O) as F.
    set (f := fold_left _ t l) in *. cbn. unfold lex_end.
    destruct (l_state f) as [| |q|b|] eqn:E; try discriminate. intros _. exists q.
    split; [destruct F as [->| ->]; reflexivity|].
    rewrite lex_from_app. fold f. apply lex_from_done; [rewrite E; exact F|].
    rewrite E. rewrite accepts_cons by exact F. cbn [next_state]. rewrite Ascii.eqb_refl. constructor.
  Qed.
  Lemma lex_open_escape l t toks n : l_state l = LSpace ->
    lex_from wordchar l t = LexError NoEscapedCharacter toks n -> exists s, t = s ++ [BACKSLASH].
  Proof.
    intros O. rewrite <- (app_nil_r t) at 1. rewrite lex_from_app. cbn. unfold lex_end.
    destruct t as [|x t] using rev_ind; cbn; [rewrite O; discriminate|]. rewrite fold_left_app. cbn.
    rewrite advance_state. set (f := fold_left _ t l). intros H. exists t. f_equal. f_equal.
    destruct (l_state f) as [| |q|[q|]|]; cbn in H.
    1,2: destruct (lex_space x); [discriminate|]; destruct (Ascii.eqb x HASH); [discriminate|];
      destruct (Ascii.eqb_spec x BACKSLASH) as [E|]; [exact E|]; destruct (is_quote x); [discriminate|];
      destruct (wordchar x); discriminate.
    - destruct (Ascii.eqb x q); [discriminate|]. destruct (Ascii.eqb_spec x BACKSLASH) as [E|]; [exact E|discriminate].
    - discriminate.
    - discriminate.
    - destruct (Ascii.eqb x NL); discriminate.
  Qed.

  (** Tokens of a text without special characters. *)
  Definition made (l : lexer) : text := concat (rev (l_out l)) ++ l_token l ++ concat (l_pushed l).
  Definition tidy (l : lexer) : Prop :=
    match l_state l with
    | LSpace => l_token l = [] /\ l_pushed l = [] /\ l_quoted l = false
    | LWord => l_token l <> [] /\ l_pushed l = [] /\ l_quoted l = false
    | _ => False
    end.
  Lemma advance_plain c l : special c = false -> tidy l -> tidy (advance c l) /\
    made (advance c l) = made l ++ (if lex_space c then [] else [c]).
  Proof.
    intros Sp T. assert (D := proj1 (special_cases c) Sp). destruct D as [D1 [D2 [D3 D4]]].
    assert (Q : is_quote c = false) by (unfold is_quote; rewrite orb_false_iff, !Ascii.eqb_neq; auto).
    apply Ascii.eqb_neq in D3, D4.
    unfold advance, lex_char. set (l' := if Ascii.eqb c NL then next_line l else l).
    assert (E : l_state l' = l_state l /\ l_token l' = l_token l /\ l_pushed l' = l_pushed l /\
                l_quoted l' = l_quoted l /\ l_out l' = l_out l).
    { unfold l'. destruct (Ascii.eqb c NL); auto 6. }
    destruct E as [E1 [E2 [E3 [E4 E5]]]]. clearbody l'. unfold tidy in T. unfold made.
    rewrite E1. destruct (l_state l) eqn:S; try contradiction; destruct T as [T1 [T2 T3]]; rewrite Q, D3, D4.
    - destruct (lex_space c).
      + unfold emit_if_token, has_token. rewrite E2, E4, T1, T3. cbn. unfold tidy. rewrite E1, E2, E3, E4, E5, T1, T2, T3.
        rewrite !app_nil_r. auto.
      + destruct (wordchar c).
        * unfold tidy. cbn. rewrite E2, E3, E4, E5, T1, T2, T3. cbn. rewrite !app_nil_r.
          split; [|reflexivity]. split; [discriminate|auto].
        * unfold tidy. cbn. rewrite E1, E2, E3, E5, T1, T2. cbn. rewrite !app_nil_r.
          rewrite concat_app. cbn. rewrite ?app_nil_r. auto.
    - destruct (lex_space c).
      + unfold emit_if_token, has_token. cbn. rewrite E2, E4, T3.
        destruct (l_token l) as [|x tk] eqn:Tk; [contradiction|]. cbn. unfold tidy. cbn.
        rewrite E2, E3, E5, T2. cbn. rewrite concat_app. cbn. rewrite !app_nil_r. auto.
      + destruct (wordchar c).
        * unfold tidy. cbn. rewrite E1, E2, E3, E4, E5, T2, T3. cbn. rewrite !app_nil_r.
          split; [|rewrite app_assoc; reflexivity]. split; [|auto]. destruct (l_token l); discriminate.
        * unfold emit_if_token, has_token. cbn. rewrite E2, E4, T3.
          destruct (l_token l) as [|x tk] eqn:Tk; [contradiction|]. cbn. unfold tidy. cbn.
          rewrite E2, E3, E5, T2. cbn. rewrite !concat_app. cbn. rewrite !app_nil_r.
          split; [auto|]. rewrite <- app_assoc. reflexivity.
  Qed.
  Lemma lex_plain t : forall l, (forall c, In c t -> special c = false) -> tidy l ->
    exists toks, lex_from wordchar l t = LexDone toks /\
      concat toks = made l ++ filter (fun c => negb (lex_space c)) t.
  Proof.
    induction t as [|c t IH]; intros l H T.
    - cbn. unfold lex_end, tidy in *. destruct (l_state l) eqn:S; try contradiction; destruct T as [T1 [T2 T3]];
        eexists; (split; [reflexivity|]); unfold emit_if_token, has_token, made; rewrite T2, T3; cbn.
      + rewrite T1. cbn. rewrite !app_nil_r. reflexivity.
      + destruct (l_token l) as [|x tk] eqn:Tk; [contradiction|]. cbn. rewrite T2, Tk. cbn.
        rewrite concat_app. cbn. rewrite !app_nil_r. reflexivity.
    - rewrite lex_from_cons. destruct (advance_plain c l) as [A1 A2]; [apply H; left; reflexivity|exact T|].
      destruct (IH (advance c l)) as [toks [I1 I2]]; [intros x Hx; apply H; right; exact Hx|exact A1|].
      exists toks. split; [exact I1|]. rewrite I2, A2. cbn [filter].
      destruct (lex_space c); cbn; rewrite <- app_assoc; reflexivity.
  Qed.
End Lexer.
