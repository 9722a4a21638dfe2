(** C70: a validation message points at the place that is wrong. *)
From Coq Require Import String Ascii List Bool Arith Lia.
From Verif Require Import ScanModel Rfc822Model Rfc822Spec Rfc822Proofs Rfc822Origin Rfc822Props
  IssueModel IssueSpec IssueProofs IssueLex.
Import ListNotations.
Local Open Scope nat_scope.
Local Open Scope list_scope.

Lemma tget_in_pair {A} k (d : list (text * A)) v : tget k d = Some v -> In (k, v) d.
Proof.
  induction d as [|[k' v'] d IH]; cbn; [discriminate|]. destruct (text_eqb k k') eqn:E.
  - apply text_eqb_eq in E. intros [= ->]. subst. auto.
  - auto.
Qed.
Lemma tget_nodup {A} k (d : list (text * A)) v : NoDup (map fst d) -> In (k, v) d -> tget k d = Some v.
Proof.
  induction d as [|[k' v'] d IH]; cbn; intros N H; [contradiction|]. inversion_clear N as [|? ? N1 N2].
  destruct H as [H|H].
  - injection H as -> ->. rewrite text_eqb_refl. reflexivity.
  - destruct (text_eqb k k') eqn:E; [|apply IH; auto]. apply text_eqb_eq in E. subst k'.
    exfalso. apply N1. change k with (fst (k, v)). apply in_map, H.
Qed.

Lemma origins_of lines rs r : load lines = inl rs -> In r rs ->
  origin_right lines r /\ value_right lines r.
Proof.
  intros H Hr. split.
  - destruct (C22_origins lines rs H) as [O _]. rewrite Forall_forall in O. apply O, Hr.
  - pose proof (load_values lines rs H) as V. rewrite Forall_forall in V. apply V, Hr.
Qed.

Lemma issue_at src r k st en off m : r_start r = Some st -> r_end r = Some en -> tget k (r_offsets r) = Some off ->
  issue_origin (unit_of_record src r) k m None = Some (one_line src (st + off + m)).
Proof.
  intros S E T. unfold issue_origin. cbn [unit_of_record u_offsets u_origin]. rewrite T, S, E.
  unfold with_offset, mode. cbn [o_start o_end]. replace (st + off + m) with (st + (off + m)) by lia.
  destruct (same_line (Some st) (Some en)); reflexivity.
Qed.

(** A message about a field of a unit points at one line: the line with the name
    of the field, or the line below it when nothing follows the colon. *)
Theorem C70_points_at_the_field : forall lines rs r source k,
  load lines = inl rs -> In r rs -> In k (map fst (r_data r)) ->
  exists st en i first,
    r_start r = Some st /\ r_end r = Some en /\ st <= i <= en /\ key_line lines i k first /\
    issue_origin (unit_of_record source r) k 0 None =
      Some (one_line source (if blank first then S i else i)).
Proof.
  intros lines rs r source k H Hr Hk. destruct (origins_of lines rs r H Hr) as [O _].
  destruct O as [st [en [S [E [B1 [B2 [_ [K F]]]]]]]]. rewrite <- K in Hk.
  destruct (tget k (r_offsets r)) as [off|] eqn:T; [|apply tget_none in T; contradiction].
  destruct (F k off (tget_in_pair _ _ _ T)) as [i [k0 [v0 [F1 [F2 [F3 [F4 [F5 F6]]]]]]]].
  exists st, en, i, v0. split; [exact S|]. split; [exact E|]. split; [exact F1|]. split.
  - split; [lia|]. split; [exact F2|]. split; [exact F3|]. exists k0. auto.
  - rewrite (issue_at source r k st en off 0 S E T). f_equal. f_equal. destruct (blank v0); lia.
Qed.
Print Assumptions C70_points_at_the_field.

(** A message about line [m] of the value of a field points at the line of the
    file that says what line [m] of the value says, if there is no comment line
    among the lines above and the value does not begin with a dot line. *)
Theorem C70_line_in_a_field : forall t rs r source k v m st off,
  load_stream t = inl rs -> In r rs -> tget k (r_data r) = Some v -> v <> [] ->
  m < length (split_nl v) ->
  r_start r = Some st -> tget k (r_offsets r) = Some off ->
  (forall n, st + off <= n <= st + off + m -> comment (line_at (stream_lines t) n) = false) ->
  exists i first en,
    r_end r = Some en /\ key_line (stream_lines t) i k first /\
    st + off = (if blank first then S i else i) /\
    (strip (written_line (stream_lines t) i first (st + off)) <> [DOT] ->
     exists n, issue_origin (unit_of_record source r) k m None = Some (one_line source n) /\
       st <= n <= en /\
       says (written_line (stream_lines t) i first n) (nth m (split_nl v) [])).
Proof.
  intros t rs r source k v m st off H Hr Hv Nv Hm St To HC. unfold load_stream in H.
  set (lines := stream_lines t) in *.
  destruct (origins_of lines rs r H Hr) as [O V].
  destruct (V k off (tget_in_pair _ _ _ To)) as (st' & en & i & j & first & Sr & E & B1 & W & J & P).
  assert (st' = st) by congruence. subst st'.
  destruct W as [W1 [W2 [W3 [W4 W5]]]].
  assert (At : st + off = (if blank first then S i else i)) by (destruct (blank first); lia).
  exists i, first, en. split; [exact E|]. split; [exact W1|]. split; [exact At|]. intros ND.
  exists (st + off + m). split; [apply (issue_at source r k st en off m Sr E To)|].
  (* the value *)
  assert (ND' : NoDup (map fst (r_data r))).
  { assert (N : forall d, In d (map r_data rs) -> NoDup (map fst d)).
    { intros d Hd. pose proof (load_meaning lines) as M. rewrite H in M. cbn in M.
      unfold meaning in M. symmetry in M. pose proof (sequence_in _ _ M d Hd) as Q.
      apply in_map_iff in Q as [b [Q _]]. unfold parse_block in Q.
      destruct (group b) as [[[|x xs] fields]|]; try discriminate.
      destruct (nodupb (map fst fields)) eqn:NB; [|discriminate]. injection Q as <-. apply nodupb_true, NB. }
    apply N. apply in_map, Hr. }
  assert (Ev : v = normalize (concat (parts lines i j first))).
  { rewrite parts_raw. apply (tget_nodup k (r_data r)) in P; [|exact ND']. congruence. }
  assert (W6 : forall q, i < q < j -> comment (line_at lines q) = true \/
     continues (line_at lines q) = true /\ blank (line_at lines q) = false).
  { intros q Hq. destruct (W5 q Hq) as [G|[G1 [G2 _]]]; auto. }
  assert (PP : pieces (parts lines i j first)).
  { apply (pieces_parts lines i j first k); auto. apply stream_pieces. }
  assert (NC : forall n q, i < n -> n <= (if blank first then S i else i) + q -> q <= m -> comment (line_at lines n) = false).
  { intros n q Hn1 Hn2 Hq. apply HC. destruct (blank first); lia. }
  assert (NP : parts lines i j first <> []).
  { intros Q. apply Nv. rewrite Ev, Q. reflexivity. }
  assert (P0 : strip (nth 0 (parts lines i j first) []) = strip (written_line lines i first (st + off)) /\
               (if blank first then S i else i) < j).
  { destruct (parts_nth lines i j first 0 W3 W6) as [Q1 Q2].
    - intros n Hn1 Hn2. apply (NC n 0); auto. lia.
    - destruct (parts lines i j first); [contradiction|cbn; lia].
    - rewrite Nat.add_0_r in Q1, Q2. rewrite At. auto. }
  destruct P0 as [P0 P1].
  assert (Hd0 : hd [] (parts lines i j first) = nth 0 (parts lines i j first) []) by (destruct (parts lines i j first); reflexivity).
  assert (NB : blank (hd [] (parts lines i j first)) = false).
  { unfold parts in *. destruct (blank first) eqn:Bf.
    - rewrite Hd0. destruct (blank (nth 0 ([] ++ conts lines i j) [])) eqn:Q; auto.
      apply strip_nil in Q. rewrite P0 in Q. unfold written_line in Q.
      destruct (Nat.eqb_spec (st + off) i) as [Z|_]; [lia|]. rewrite At in Q.
      destruct (W6 (Datatypes.S i)) as [G|[_ G]]; [lia| |].
      + rewrite (NC (Datatypes.S i) 0) in G; [discriminate|lia|lia|lia].
      + apply strip_nil in Q. congruence.
    - cbn. fold (blank (lstrip first)). rewrite blank_lstrip. exact Bf. }
  destruct (value_lines (parts lines i j first) m PP NB) as [Lm Sm].
  { rewrite Hd0, P0. exact ND. }
  { rewrite <- Ev. exact Hm. }
  rewrite <- Ev in Sm.
  destruct (parts_nth lines i j first m W3 W6) as [Q1 Q2]; [|exact Lm|].
  { intros n Hn1 Hn2. apply (NC n m); auto. }
  rewrite <- At in Q1, Q2. split.
  - split; [lia|]. destruct (Nat.eq_dec (st + off + m) i) as [Z|Z]; [lia|].
    destruct (W5 (st + off + m)) as [G|[_ [_ G]]]; [destruct (blank first); lia| |exact G].
    rewrite HC in G by lia. discriminate.
  - unfold says in *. rewrite Q2 in Sm. exact Sm.
Qed.
Print Assumptions C70_line_in_a_field.

(** A message about a field that the unit does not have points at all the lines
    of the unit. *)
Theorem C70_missing_field : forall lines rs r source k m,
  load lines = inl rs -> In r rs -> ~ In k (map fst (r_data r)) ->
  exists st en, r_start r = Some st /\ r_end r = Some en /\
    issue_origin (unit_of_record source r) k m None = Some (mk_origin source (Some st) (Some en)).
Proof.
  intros lines rs r source k m H Hr Hk. destruct (origins_of lines rs r H Hr) as [O _].
  destruct O as [st [en [S [E [B1 [B2 [_ [K F]]]]]]]]. rewrite <- K in Hk. apply tget_none in Hk.
  exists st, en. split; [exact S|]. split; [exact E|].
  unfold issue_origin. cbn [unit_of_record u_offsets u_origin]. rewrite Hk, S, E.
  destruct (tget (UNDER :: k) (r_offsets r)); reflexivity.
Qed.
Print Assumptions C70_missing_field.

(** A position that the validator itself names is kept as it is. *)
Theorem C70_given_position : forall u k m o, issue_origin u k m (Some o) = Some o.
Proof. reflexivity. Qed.
Print Assumptions C70_given_position.

(** The qualifiers of a test plan say that they come from the line that a message
    about the same line of the field would point at. *)
Theorem C70_same_line_for_qualifiers : forall lines rs r source k m,
  load lines = inl rs -> In r rs -> In k (map fst (r_data r)) ->
  qualifier_origin (unit_of_record source r) k m = issue_origin (unit_of_record source r) k m None /\
  exists n, qualifier_origin (unit_of_record source r) k m = Some (one_line source n).
Proof.
  intros lines rs r source k m H Hr Hk. destruct (origins_of lines rs r H Hr) as [O _].
  destruct O as [st [en [S [E [B1 [B2 [_ [K F]]]]]]]]. rewrite <- K in Hk.
  destruct (tget k (r_offsets r)) as [off|] eqn:T; [|apply tget_none in T; contradiction].
  rewrite (issue_at source r k st en off m S E T).
  assert (Q : qualifier_origin (unit_of_record source r) k m = Some (one_line source (st + off + m))).
  { unfold qualifier_origin. cbn [unit_of_record u_offsets u_origin]. rewrite T, S.
    unfold with_offset, mode, just_line. cbn. rewrite Nat.eqb_refl. cbn. rewrite Nat.eqb_refl. reflexivity. }
  rewrite Q. split; [reflexivity|eauto].
Qed.
Print Assumptions C70_same_line_for_qualifiers.

(** A message about several units points where a message about the first one
    would. *)
Theorem C70_many_units : forall u us k m o, issue_origin_list (u :: us) k m o = issue_origin u k m o.
Proof. reflexivity. Qed.
Print Assumptions C70_many_units.

(** Moving an origin down twice is moving it once, and narrowing it to its first
    line may come before or after. *)
Theorem C70_offsets_add : forall a b o o1 o2,
  with_offset a o = Some o1 -> with_offset b o1 = Some o2 ->
  with_offset (a + b) o = Some o2 /\
  (o_end o <> None -> with_offset a (just_line o) = Some (just_line o1)).
Proof.
  intros a b [src [s|] [e|]] o1 o2; unfold with_offset, mode, just_line; cbn.
  - destruct (Nat.eqb_spec s e) as [->|N]; intros [= <-]; cbn.
    + rewrite Nat.eqb_refl. intros [= <-]. rewrite !Nat.add_assoc, Nat.eqb_refl. auto.
    + destruct (Nat.eqb_spec (s + a) (e + a)) as [N'|_]; [lia|]. intros [= <-].
      rewrite !Nat.add_assoc, Nat.eqb_refl. auto.
  - discriminate.
  - discriminate.
  - intros [= <-]. cbn. intros [= <-]. split; [reflexivity|]. intros N. contradiction.
Qed.
Print Assumptions C70_offsets_add.

(** * Shell programs *)

Definition plain_words (wordchar : ascii -> bool) : Prop :=
  forall c, wordchar c = true -> special c = false.

Lemma has_heredoc_spec t : has_heredoc t = true <-> heredoc t.
Proof.
  induction t as [|a t IH].
  - split; [discriminate|]. intros [x [y E]]. destruct x; discriminate.
  - destruct t as [|b t].
    + split; [discriminate|]. intros [x [y E]]. destruct x as [|? [|? ?]]; discriminate.
    + change (has_heredoc (a :: b :: t)) with ((Ascii.eqb a LT && Ascii.eqb b LT) || has_heredoc (b :: t))%bool.
      rewrite orb_true_iff, andb_true_iff, !Ascii.eqb_eq, IH. split.
      * intros [[-> ->]|[x [y E]]]; [exists [], t; reflexivity|]. exists (a :: x), y. cbn. rewrite E. reflexivity.
      * intros [[|z x] [y E]]; cbn in E.
        -- left. inversion E. auto.
        -- right. exists x, y. inversion E as [[H0 H1]]. exact H1.
Qed.

(** The shell program validator is silent exactly when there is no value, when
    the value has a here document, and when all quotes are closed. *)
Theorem C70_shell_accepts : forall wordchar value, plain_words wordchar ->
  shell_check wordchar value = None <->
  match value with None => True | Some t => heredoc t \/ closed t end.
Proof.
  intros wordchar value W. destruct value as [t|]; [|split; auto]. unfold shell_check.
  rewrite <- has_heredoc_spec. destruct (has_heredoc t); [split; auto|].
  pose proof (lex_from_done wordchar W t (mk_lexer LSpace [] false [] 1 []) I) as D. cbn [l_state accepts] in D.
  fold (lex wordchar t) in D. rewrite <- D. destruct (lex wordchar t) as [toks|p toks n]; split; auto.
  - intros _. right. eauto.
  - discriminate.
  - intros [H|[toks' H]]; discriminate.
Qed.
Print Assumptions C70_shell_accepts.

(** A message of the validator is about the last line of the value; it says that
    a quote is open when one more quote would close it, and that a backslash is
    the last character when it is. *)
Theorem C70_shell_message : forall wordchar t p near offset, plain_words wordchar ->
  shell_check wordchar (Some t) = Some (p, near, offset) ->
  offset = length (split_nl t) - 1 /\
  match p with
  | NoClosingQuotation => exists q, (q = SQ \/ q = DQ) /\ closed (t ++ [q])
  | NoEscapedCharacter => exists s, t = s ++ [BACKSLASH]
  end.
Proof.
  intros wordchar t p near offset W. unfold shell_check. destruct (has_heredoc t); [discriminate|].
  destruct (lex wordchar t) as [toks|p' toks n] eqn:L; [discriminate|]. intros [= -> _ <-].
  unfold lex in L. split.
  - apply lex_from_error in L; [|exact W]. cbn in L. rewrite split_nl_length. lia.
  - destruct p.
    + apply lex_open_quote in L as [q [Q [toks' L]]]; [|exact W|exact I]. exists q. split.
      * unfold is_quote in Q. rewrite orb_true_iff, !Ascii.eqb_eq in Q. exact Q.
      * apply (lex_from_done wordchar W (t ++ [q]) (mk_lexer LSpace [] false [] 1 []) I). eauto.
    + apply lex_open_escape in L; auto.
Qed.
Print Assumptions C70_shell_message.

(** The words of a text without quotes, backslashes and comments are the text
    without its white space. *)
Theorem C70_shell_words : forall wordchar t, plain_words wordchar ->
  (forall c, In c t -> special c = false) ->
  exists tokens, lex wordchar t = LexDone tokens /\
    concat tokens = filter (fun c => negb (lex_space c)) t.
Proof.
  intros wordchar t W H. apply (lex_plain wordchar t (mk_lexer LSpace [] false [] 1 []) H).
  unfold tidy. cbn. auto.
Qed.
Print Assumptions C70_shell_words.

(** A message about the quotes of a command points at the last line of the
    command. *)
Theorem C70_command_line : forall wordchar t rs r source v p near offset st off,
  plain_words wordchar ->
  load_stream t = inl rs -> In r rs -> tget (T "command") (r_data r) = Some v ->
  shell_check wordchar (Some v) = Some (p, near, offset) ->
  r_start r = Some st -> tget (T "command") (r_offsets r) = Some off ->
  (forall n, st + off <= n <= st + off + offset -> comment (line_at (stream_lines t) n) = false) ->
  exists i first,
    key_line (stream_lines t) i (T "command") first /\
    (strip (written_line (stream_lines t) i first (st + off)) <> [DOT] ->
     exists n, issue_origin (unit_of_record source r) (T "command") offset None = Some (one_line source n) /\
       says (written_line (stream_lines t) i first n) (last (split_nl v) [])).
Proof.
  intros wordchar t rs r source v p near offset st off W H Hr Hv Sc St To HC.
  destruct (C70_shell_message wordchar v p near offset W Sc) as [Eo _].
  assert (Nv : v <> []).
  { intros ->. unfold shell_check, lex in Sc. cbn in Sc. discriminate. }
  assert (Hm : offset < length (split_nl v)).
  { pose proof (split_nl_ne v). destruct (split_nl v); [contradiction|]. cbn in *. lia. }
  destruct (C70_line_in_a_field t rs r source _ v offset st off H Hr Hv Nv Hm St To HC) as (i & first & en & _ & K & _ & G).
  exists i, first. split; [exact K|]. intros ND. destruct (G ND) as (n & G1 & _ & G2). exists n.
  split; [exact G1|]. rewrite last_nth, <- Eo. exact G2.
Qed.
Print Assumptions C70_command_line.

(** * Cases and defects *)

(** A unit of two fields, after a comment. *)
Definition unit_text : text :=
  T "# a job" ++ lf ++ T "id: first" ++ lf ++ T "command:" ++ lf ++ T "  echo one" ++ lf ++ T "  echo 'two" ++ lf.
Definition is_letter (c : ascii) : bool :=
  let n := nat_of_ascii c in (Nat.leb 97 n && Nat.leb n 122)%bool.
Lemma letters_plain : plain_words is_letter.
Proof.
  intros c H. apply special_cases. unfold is_letter in H. apply andb_prop in H as [H _]. apply Nat.leb_le in H.
  repeat split; intros ->; vm_compute in H; lia.
Qed.
Definition the_record (t : text) : record := match load_stream t with inl (r :: _) => r | _ => new_record end.
Lemma the_record_in t r rs : load_stream t = inl (r :: rs) -> In (the_record t) (r :: rs).
Proof. intros H. unfold the_record. rewrite H. left. reflexivity. Qed.

Example C70_case_command :
  let r := the_record unit_text in
  load_stream unit_text = inl [r] /\
  tget (T "command") (r_data r) = Some (T "echo one" ++ lf ++ T "echo 'two") /\
  shell_check is_letter (Some (T "echo one" ++ lf ++ T "echo 'two")) =
    Some (NoClosingQuotation, Some (T "echo"), 1) /\
  issue_origin (unit_of_record (T "jobs.pxu") r) (T "command") 1 None = Some (one_line (T "jobs.pxu") 5) /\
  line_at (stream_lines unit_text) 5 = T "  echo 'two" ++ lf /\
  issue_origin (unit_of_record (T "jobs.pxu") r) (T "id") 0 None = Some (one_line (T "jobs.pxu") 2) /\
  issue_origin (unit_of_record (T "jobs.pxu") r) (T "user") 0 None =
    Some (mk_origin (T "jobs.pxu") (Some 2) (Some 5)).
Proof. vm_compute. repeat split; reflexivity. Qed.

Example C70_case_closed :
  closed (T "test -n ""it's \""fine\"""" # isn't it" ++ lf ++ T "echo 'a\' \'").
Proof.
  pose proof (C70_shell_accepts is_letter
    (Some (T "test -n ""it's \""fine\"""" # isn't it" ++ lf ++ T "echo 'a\' \'")) letters_plain) as H.
  destruct (proj1 H) as [Q|Q]; [vm_compute; reflexivity| |exact Q].
  apply has_heredoc_spec in Q. vm_compute in Q. discriminate.
Qed.

(** A message about a field that is marked for translation does not point at the
    line of the field: the name of the field in the file begins with an
    underscore, and the branch that would look it up is never taken. *)
Theorem C70_translatable_field_refuted :
  (forall lines rs r source k m, load lines = inl rs -> In r rs ->
     ~ In k (map fst (r_data r)) -> In (UNDER :: k) (map fst (r_data r)) ->
     exists st en, r_start r = Some st /\ r_end r = Some en /\
       issue_origin (unit_of_record source r) k m None = Some (mk_origin source (Some st) (Some en))) /\
  exists t r rs, load_stream t = inl (r :: rs) /\ In (T "_summary") (map fst (r_data r)) /\
    line_at (stream_lines t) 2 = T "_summary: none." ++ lf /\
    issue_origin (unit_of_record (T "jobs.pxu") r) (T "summary") 0 None <> Some (one_line (T "jobs.pxu") 2).
Proof.
  split.
  - intros. eapply C70_missing_field; eauto.
  - exists (T "id: first" ++ lf ++ T "_summary: none." ++ lf), (the_record (T "id: first" ++ lf ++ T "_summary: none." ++ lf)), [].
    split; [vm_compute; reflexivity|]. split; [right; left; vm_compute; reflexivity|].
    split; [vm_compute; reflexivity|]. vm_compute. congruence.
Qed.
Print Assumptions C70_translatable_field_refuted.

(** A comment line in the middle of a value is not counted: a message about a
    line below it points one line too high. *)
Definition commented_text : text :=
  T "id: first" ++ lf ++ T "command:" ++ lf ++ T "  echo one" ++ lf ++ T "# why not" ++ lf ++ T "  echo 'two" ++ lf.
Theorem C70_comment_in_a_value_refuted :
  exists t r v, load_stream t = inl [r] /\ tget (T "command") (r_data r) = Some v /\
    nth 1 (split_nl v) [] = T "echo 'two" /\
    issue_origin (unit_of_record (T "jobs.pxu") r) (T "command") 1 None = Some (one_line (T "jobs.pxu") 4) /\
    line_at (stream_lines t) 4 = T "# why not" ++ lf.
Proof.
  exists commented_text, (the_record commented_text), (T "echo one" ++ lf ++ T "echo 'two").
  vm_compute. repeat split; reflexivity.
Qed.
Print Assumptions C70_comment_in_a_value_refuted.

(** A value that begins with a dot line loses that line, and messages about its
    lines point one line too high. *)
Definition dotted_text : text :=
  T "id: first" ++ lf ++ T "command:" ++ lf ++ T " ." ++ lf ++ T " echo one" ++ lf ++ T " echo 'two" ++ lf.
Theorem C70_leading_dot_refuted :
  exists t r v, load_stream t = inl [r] /\ tget (T "command") (r_data r) = Some v /\
    nth 1 (split_nl v) [] = T "echo 'two" /\
    issue_origin (unit_of_record (T "jobs.pxu") r) (T "command") 1 None = Some (one_line (T "jobs.pxu") 4) /\
    line_at (stream_lines t) 4 = T " echo one" ++ lf.
Proof.
  exists dotted_text, (the_record dotted_text), (T "echo one" ++ lf ++ T "echo 'two").
  vm_compute. repeat split; reflexivity.
Qed.
Print Assumptions C70_leading_dot_refuted.

(** A message about an empty field points at the line below it, which may belong
    to another field or to nothing. *)
Theorem C70_empty_field_refuted :
  exists t r, load_stream t = inl [r] /\ r_end r = Some 2 /\ length (stream_lines t) = 2 /\
    issue_origin (unit_of_record (T "jobs.pxu") r) (T "command") 0 None = Some (one_line (T "jobs.pxu") 3).
Proof.
  exists (T "id: first" ++ lf ++ T "command:" ++ lf), (the_record (T "id: first" ++ lf ++ T "command:" ++ lf)).
  vm_compute. repeat split; reflexivity.
Qed.
Print Assumptions C70_empty_field_refuted.

(** An open quote goes unnoticed behind a hash within a word, which is no comment
    for a shell, and anywhere in a program with a here document. *)
Theorem C70_every_open_quote_refuted :
  shell_check is_letter (Some (T "test $# = 1 && echo 'two")) = None /\
  shell_check is_letter (Some (T "cat <<END" ++ lf ++ T "END" ++ lf ++ T "echo 'two")) = None /\
  shell_check is_letter (Some (T "test 1 = 1 && echo 'two")) <> None.
Proof. vm_compute. repeat split; congruence. Qed.
Print Assumptions C70_every_open_quote_refuted.

(** The line of an open quote is not the line that the message points at, but the
    last line of the program. *)
Theorem C70_line_of_the_quote_refuted :
  shell_check is_letter (Some (T "echo 'one" ++ lf ++ T "echo two" ++ lf ++ T "echo three")) =
    Some (NoClosingQuotation, Some (T "echo"), 2).
Proof. vm_compute. reflexivity. Qed.
Print Assumptions C70_line_of_the_quote_refuted.
