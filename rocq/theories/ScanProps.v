(** C19, C20: the word scanner and word lists. *)
From Coq Require Import Ascii List Bool Arith Lia.
From Verif Require Import ScanModel ScanSpec ScanProofs.
Import ListNotations.
Open Scope char_scope.
Open Scope list_scope.

(** Every text falls into pieces, possibly followed by a quote that is never
    closed; the pieces put together give back the text. *)
Theorem C19_every_text_has_pieces : forall t : text,
  exists l rest, pieces t l rest /\ t = concat (map written l) ++ rest.
Proof.
  intros t. destruct (pieces_exist_aux (length t) t (le_n _)) as (l & rest & P).
  exists l, rest. split; [exact P|]. exact (pieces_text _ _ _ P).
Qed.
Print Assumptions C19_every_text_has_pieces.

(** When every quote is closed, the scanner returns one token per piece, in
    order, and then the end of file: nothing is skipped or read twice. *)
Theorem C19_tokens_are_the_pieces : forall (t : text) (l : list item),
  ~ In NUL t -> pieces t l [] ->
  raw_tokens (S (length t)) t 0 = Done (map token_for l ++ [(EOF, Some [])]).
Proof.
  intros t l N P.
  apply (raw_tokens_pieces t l [] 0 t); auto with arith.
  pose proof (pieces_short _ _ _ P). lia.
Qed.
Print Assumptions C19_tokens_are_the_pieces.

(** So such a text has only one division into pieces with the same tokens. *)
Theorem C19_same_tokens : forall (t : text) (l l' : list item),
  ~ In NUL t -> pieces t l [] -> pieces t l' [] -> map token_for l = map token_for l'.
Proof.
  intros t l l' N P P'.
  pose proof (C19_tokens_are_the_pieces t l N P) as E.
  rewrite (C19_tokens_are_the_pieces t l' N P') in E. injection E as E.
  now apply app_inj_tail in E as [E _].
Qed.
Print Assumptions C19_same_tokens.

(** At the end of the text the scanner keeps answering end of file. *)
Theorem C19_end_of_file_is_stable : forall (t : text) (p : nat), length t <= p ->
  get_raw_token t p = Done (EOF, Some [], length t).
Proof. exact raw_eof. Qed.
Print Assumptions C19_end_of_file_is_stable.

(** A single call returns for every text and position. *)
Theorem C19_each_call_returns : forall (t : text) (p : nat), get_raw_token t p <> OutOfFuel.
Proof. exact raw_total. Qed.
Print Assumptions C19_each_call_returns.

(** A quote that is never closed: the scanner fails an assertion if it opens the
    text; otherwise it steps back in front of the piece it has just returned. *)
Theorem C19_unclosed_quote : forall (t : text) (p : nat) (r : text),
  skipn p t = DQ :: r -> ~ In NUL r -> ~ In DQ r ->
  get_raw_token t p =
  match p with 0 => AssertionFailed | S p' => Done (INVALID, None, p') end.
Proof. intros t p r E N Q. exact (raw_unclosed t p r E N Q). Qed.
Print Assumptions C19_unclosed_quote.

(** So the claim, for every text, is false: there is a text on which the
    scanner never reaches the end of file. *)
Definition looping : text := ["a"; " "; DQ; "f"; "o"].

Lemma looping_2 f : forall p, p = 1 \/ p = 2 -> raw_tokens f looping p = OutOfFuel.
Proof.
  induction f as [|f IH]; intros p Hp; [reflexivity|].
  cbn [raw_tokens]. destruct Hp as [->| ->].
  - change (get_raw_token looping 1) with (@Done (token * option text * nat) (SPACE, Some [" "], 2)).
    cbv beta iota. rewrite (IH 2) by auto. reflexivity.
  - change (get_raw_token looping 2) with (@Done (token * option text * nat) (INVALID, None, 1)).
    cbv beta iota. rewrite (IH 1) by auto. reflexivity.
Qed.

Theorem C19_all_texts_refuted : exists t : text, ~ In NUL t /\ forall f, raw_tokens f t 0 = OutOfFuel.
Proof.
  exists looping. split.
  - simpl. intros H. repeat (destruct H as [H|H]; [discriminate|]). exact H.
  - intros [|f]; [reflexivity|]. cbn [raw_tokens].
    change (get_raw_token looping 0) with (@Done (token * option text * nat) (WORD, Some ["a"], 1)).
    cbv beta iota. rewrite looping_2 by auto. reflexivity.
Qed.
Print Assumptions C19_all_texts_refuted.

(** A NUL character ends the scan early. *)
Theorem C19_nul_refuted : exists t : text,
  raw_tokens 100 t 0 = Done [(EOF, Some [])] /\ In "a" t.
Proof. exists [NUL; "a"]. split; [vm_compute; reflexivity|simpl; auto]. Qed.
Print Assumptions C19_nul_refuted.

(** The pieces of a non-trivial text (word, space, quoted word, comma, comment). *)
Definition sample_text : text :=
  ["a"; " "; DQ; "b"; " "; "c"; DQ; ","; "#"; "x"; NL; "d"].
Definition sample_items : list item :=
  [IWord ["a"]; ISpace [" "]; IQuoted ["b"; " "; "c"]; IComma; IComment ["x"]; IWord ["d"]].
Example C19_case : ~ In NUL sample_text /\ pieces sample_text sample_items [].
Proof.
  split.
  - simpl. intros H. repeat (destruct H as [H|H]; [discriminate|]). exact H.
  - apply (p_word ["a"]); [discriminate| |simpl; discriminate|right; cbn; left; reflexivity|].
    + repeat constructor. unfold ends_word. intuition discriminate.
    + apply (p_space [" "]); [discriminate|repeat constructor|cbn; discriminate|].
      apply (p_quoted ["b"; " "; "c"]); [simpl; intuition discriminate|].
      apply p_comma. apply (p_comment ["x"]); [simpl; intuition discriminate|].
      apply (p_word ["d"] []); [discriminate| |simpl; discriminate|left; reflexivity|constructor].
      repeat constructor. unfold ends_word. intuition discriminate.
Qed.
Example C19_case_tokens :
  raw_tokens (S (length sample_text)) sample_text 0 =
  Done [(WORD, Some ["a"]); (SPACE, Some [" "]); (WORD, Some ["b"; " "; "c"]); (COMMA, Some [","]);
        (COMMENT, Some ["#"; "x"; NL]); (WORD, Some ["d"]); (EOF, Some [])].
Proof. vm_compute. reflexivity. Qed.

(** ** C20 *)

(** A word list contains exactly the words written, in order, and an error for
    each stray equals sign; white space, commas and comments leave no trace. *)
Theorem C20_words : forall (t : text) (l : list item) (fuel : nat),
  ~ In NUL t -> pieces t l [] -> length t < fuel ->
  parse_words fuel t = Done (flat_map entry_for l).
Proof.
  intros t l f N P H. unfold parse_words.
  apply (parse_pieces t (length l) l [] 0 t f); auto with arith.
  pose proof (pieces_short _ _ _ P). lia.
Qed.
Print Assumptions C20_words.

(** In particular any list of words that contain no quotes can be written by
    quoting each, with any non-empty mix of spaces and commas in between. *)
Definition separator (s : text) : Prop := s <> [] /\ Forall (fun c => isspace c = true \/ c = ",") s.

Inductive quoted_list : text -> list text -> Prop :=
| q_nil : quoted_list [] []
| q_one w : ~ In DQ w -> quoted_list (DQ :: w ++ [DQ]) [w]
| q_cons w s t ws : ~ In DQ w -> separator s -> quoted_list t ws ->
    quoted_list (DQ :: w ++ DQ :: s ++ t) (w :: ws).

Lemma separator_pieces_aux n : forall s t l, length s <= n -> Forall (fun c => isspace c = true \/ c = ",") s ->
  pieces t l [] -> ~ starts (fun c => isspace c = true) t ->
  exists l', pieces (s ++ t) l' [] /\ flat_map entry_for l' = flat_map entry_for l.
Proof.
  induction n as [|n IH]; intros s t l Hn F P Hs.
  - destruct s; [|cbn in Hn; lia]. exists l. auto.
  - destruct s as [|c s]; [exists l; auto|].
    apply Forall_cons_iff in F as [Fc F]. cbn in Hn.
    destruct (isspace c) eqn:E.
    + destruct (span_ex isspace s) as (a & b & -> & Fa & Hb).
      rewrite app_length in Hn. apply Forall_app in F as [_ F].
      destruct (IH b t l ltac:(lia) F P Hs) as (l' & P' & E').
      exists (ISpace (c :: a) :: l'). split; [|exact E'].
      rewrite app_comm_cons, <- app_assoc. apply p_space; auto; [discriminate|].
      destruct b as [|d b]; auto.
    + destruct Fc as [Fc| ->]; [congruence|].
      destruct (IH s t l ltac:(lia) F P Hs) as (l' & P' & E').
      exists (IComma :: l'). split; [now constructor|exact E'].
Qed.

Lemma quoted_list_pieces t ws : quoted_list t ws ->
  exists l, pieces t l [] /\ flat_map entry_for l = map Text ws.
Proof.
  induction 1 as [|w Hw|w s t ws Hw [Hs Fs] H IH].
  - exists []. split; [constructor|reflexivity].
  - exists [IQuoted w]. split; [|reflexivity].
    rewrite <- (app_nil_r (DQ :: w ++ [DQ])). now apply (p_quoted w); [|constructor].
  - destruct IH as (l & P & E).
    assert (Hst : ~ starts (fun c => isspace c = true) t).
    { inversion H; subst; cbn; auto; discriminate. }
    destruct (separator_pieces_aux _ s t l (le_n _) Fs P Hst) as (l' & P' & E').
    exists (IQuoted w :: l'). split.
    + replace (DQ :: w ++ DQ :: s ++ t) with (written (IQuoted w) ++ (s ++ t)); [now constructor|].
      cbn. now rewrite <- app_assoc.
    + cbn. now rewrite E', E.
Qed.

Theorem C20_quoted_words_round_trip : forall (t : text) (ws : list text) (fuel : nat),
  ~ In NUL t -> quoted_list t ws -> length t < fuel ->
  parse_words fuel t = Done (map Text ws).
Proof.
  intros t ws f N Q H. destruct (quoted_list_pieces _ _ Q) as (l & P & <-).
  exact (C20_words t l f N P H).
Qed.
Print Assumptions C20_quoted_words_round_trip.

(** And the same for words written without quotes, separated by white space and
    commas. *)
Inductive bare_list : text -> list text -> Prop :=
| b_nil : bare_list [] []
| b_one w : w <> [] -> Forall (fun c => ~ ends_word c) w -> ~ starts (eq DQ) w -> bare_list w [w]
| b_cons w s t ws : w <> [] -> Forall (fun c => ~ ends_word c) w -> ~ starts (eq DQ) w ->
    separator s -> bare_list t ws -> bare_list (w ++ s ++ t) (w :: ws).

Lemma bare_list_pieces t ws : bare_list t ws ->
  exists l, pieces t l [] /\ flat_map entry_for l = map Text ws.
Proof.
  induction 1 as [|w Nw Fw Qw|w s t ws Nw Fw Qw [Hs Fs] H IH].
  - exists []. split; [constructor|reflexivity].
  - exists [IWord w]. split; [|reflexivity].
    rewrite <- (app_nil_r w) at 1. apply p_word; auto. constructor.
  - destruct IH as (l & P & E).
    assert (Hst : ~ starts (fun c => isspace c = true) t).
    { assert (G : forall v r, v <> [] -> Forall (fun c => ~ ends_word c) v ->
        ~ starts (fun c => isspace c = true) (v ++ r)).
      { intros [|c v] r Nv Fv; [congruence|]. cbn. apply Forall_cons_iff in Fv as [F _].
        intros X. apply F. left. exact X. }
      inversion H; subst; [cbn; auto|rewrite <- (app_nil_r t); auto|auto]. }
    destruct (separator_pieces_aux _ s t l (le_n _) Fs P Hst) as (l' & P' & E').
    exists (IWord w :: l'). split; [|cbn; now rewrite E', E].
    apply p_word; auto. right.
    destruct s as [|c s]; [congruence|]. cbn. apply Forall_cons_iff in Fs as [[F|F] _]; unfold ends_word; auto.
Qed.

Theorem C20_bare_words_round_trip : forall (t : text) (ws : list text) (fuel : nat),
  ~ In NUL t -> bare_list t ws -> length t < fuel ->
  parse_words fuel t = Done (map Text ws).
Proof.
  intros t ws f N Q H. destruct (bare_list_pieces _ _ Q) as (l & P & <-).
  exact (C20_words t l f N P H).
Qed.
Print Assumptions C20_bare_words_round_trip.

Example C20_case : quoted_list [DQ; "a"; " "; DQ; ","; " "; DQ; DQ] [["a"; " "]; []].
Proof.
  apply (q_cons ["a"; " "] [","; " "] [DQ; DQ] [[]]).
  - simpl; intuition discriminate.
  - split; [discriminate|]. repeat (constructor; [auto|]). constructor.
  - apply (q_one []). simpl. tauto.
Qed.
Example C20_case_bare : bare_list ["a"; NL; ","; "b"] [["a"]; ["b"]].
Proof.
  apply (b_cons ["a"] [NL; ","] ["b"] [["b"]]); try discriminate.
  - repeat constructor. unfold ends_word. intuition discriminate.
  - split; [discriminate|]. repeat (constructor; [auto|]). constructor.
  - apply b_one; [discriminate| |simpl; discriminate]. repeat constructor. unfold ends_word. intuition discriminate.
Qed.

(** With a quote that is never closed the parser never returns. *)
Lemma parse_looping f : parse_words_from f looping 1 = OutOfFuel.
Proof.
  induction f as [|f IH]; [reflexivity|].
  cbn [parse_words_from].
  replace (get_token (S (length looping)) looping 1)
    with (@Done (token * option text * nat) (INVALID, None, 1)) by (vm_compute; reflexivity).
  rewrite IH. reflexivity.
Qed.
Theorem C20_unclosed_quote_refuted : exists t : text, forall fuel, parse_words fuel t = OutOfFuel.
Proof.
  exists looping. intros [|f]; [reflexivity|]. unfold parse_words. cbn [parse_words_from].
  replace (get_token (S (length looping)) looping 0)
    with (@Done (token * option text * nat) (WORD, Some ["a"], 1)) by (vm_compute; reflexivity).
  rewrite parse_looping. reflexivity.
Qed.
Print Assumptions C20_unclosed_quote_refuted.
