(** C21 and C22: RFC822-like records. *)
From Coq Require Import String Ascii List Bool Arith Lia Sorted.
From Verif Require Import ScanModel Rfc822Model Rfc822Spec Rfc822Proofs Rfc822Origin Rfc822Dump.
Import ListNotations.
Open Scope list_scope.

Definition T (s : string) : text := list_ascii_of_string s.
Definition lf : text := [NL].

Lemma load_data lines ds : meaning lines = Some ds ->
  exists rs, load lines = inl rs /\ map r_data rs = ds.
Proof.
  rewrite <- load_meaning. destruct (load lines) as [rs|]; [|discriminate]. intros [= <-]. eauto.
Qed.

Lemma dump_stream_end d : Forall (fun kv => good_key (fst kv)) d ->
  stream_lines (dump (as_values d)) = dump_lines d ++ [[NL]].
Proof. intros H. rewrite <- (app_nil_r (dump _)), dump_stream by exact H. reflexivity. Qed.

Lemma good_record_parts d : good_record d ->
  d <> [] /\ NoDup (map fst d) /\ Forall (fun kv => good_key (fst kv)) d /\
  Forall (fun kv => ok_value (snd kv)) d /\ map (fun kv => (fst kv, reread (snd kv))) d = d.
Proof.
  intros [D [ND G]]. rewrite Forall_forall in G. repeat split; auto.
  - apply Forall_forall. intros kv H. apply G, H.
  - apply Forall_forall. intros kv H. apply good_ok, G, H.
  - rewrite <- (map_id d) at 2. apply map_ext_in. intros [k v] H. simpl. f_equal.
    apply reread_good. apply (G (k, v) H).
Qed.

(** ** C21 *)

(** A good record is read back: same keys, values and order. *)
Theorem C21_round_trip : forall d, good_record d ->
  exists r, load_stream (dump (as_values d)) = inl [r] /\ r_data r = d.
Proof.
  intros d G. apply good_record_parts in G as [D [ND [GK [O E]]]].
  unfold load_stream. rewrite dump_stream_end by exact GK.
  pose proof (meaning_dump d D ND GK O) as M. rewrite E in M.
  apply load_data in M as [rs [H1 H2]]. destruct rs as [|r [|? ?]]; try discriminate H2.
  injection H2 as H2. eauto.
Qed.
Print Assumptions C21_round_trip.

(** Exactly the good values are read back. *)
Theorem C21_round_trip_exactly : forall d,
  d <> [] -> NoDup (map fst d) -> Forall (fun kv => good_key (fst kv)) d ->
  ((exists r, load_stream (dump (as_values d)) = inl [r] /\ r_data r = d) <->
   Forall (fun kv => good_value (snd kv)) d).
Proof.
  intros d D ND GK. split.
  - intros [r [L E]]. unfold load_stream in L. rewrite dump_stream_end in L by exact GK.
    assert (S : forall k v, In (k, v) d -> strip v = v).
    { intros k v H. eapply load_stripped; [exact L|left; reflexivity|rewrite E; exact H]. }
    assert (O : Forall (fun kv => ok_value (snd kv)) d).
    { apply Forall_forall. intros [k v] H. simpl. intros N l Hl.
      destruct (blank l) eqn:B; auto. destruct l as [|c l]; auto. exfalso.
      assert (M : meaning (dump_lines d ++ [[NL]]) = None).
      { apply broken_meaning; auto. exists k, v. split; auto. split; [eapply S; eauto|].
        intros K. destruct (K N _ Hl); congruence. }
      rewrite <- load_meaning, L in M. discriminate M. }
    pose proof (meaning_dump d D ND GK O) as M. rewrite <- load_meaning, L in M. simpl in M.
    injection M as M. rewrite E in M.
    apply Forall_forall. intros [k v] H. simpl. apply good_reread.
    + eapply S; eauto.
    + rewrite Forall_forall in O. apply (O _ H).
    + clear -M H. induction d as [|[k' v'] d IH]; [destruct H|].
      simpl in M. injection M as M1 M2. destruct H as [H|H]; [|auto]. injection H as -> ->. auto.
  - intros G. apply C21_round_trip. split; [auto|]. split; [auto|].
    apply Forall_forall. intros kv H. rewrite Forall_forall in *. auto.
Qed.
Print Assumptions C21_round_trip_exactly.

(** The same for text in memory, when no other character ends a line. *)
Theorem C21_round_trip_string : forall d, good_record d ->
  (forall k v, In (k, v) d -> plain_breaks k /\ plain_breaks v) ->
  exists r, load_string (dump (as_values d)) = inl [r] /\ r_data r = d.
Proof.
  intros d G P. unfold load_string. rewrite splitlines_plain; [apply C21_round_trip, G|].
  assert (Pd : forall k v, plain_breaks k -> plain_breaks v -> plain_breaks (dump_field k (VText v))).
  { intros k v Pk Pv. rewrite dump_field_lines. unfold field_lines. destruct (has_nl v).
    - intros c Hc. simpl in Hc. apply in_app_or in Hc as [Hc|Hc].
      + apply in_app_or in Hc as [Hc|[Hc|[Hc|[]]]]; subst; auto; discriminate.
      + apply in_concat in Hc as [l [Hl Hc]]. apply in_map_iff in Hl as [x [<- Hx]].
        apply values_in in Hx.
        assert (Px : plain_breaks x).
        { intros y Hy. apply Pv. rewrite <- (join_split v). clear -Hx Hy.
          induction (split_nl v) as [|z zs IH]; [destruct Hx|]. destruct zs as [|z' zs].
          - destruct Hx as [->|[]]. exact Hy.
          - rewrite join_cons by discriminate. apply in_or_app. destruct Hx as [->|Hx]; auto.
            right. right. auto. }
        rewrite dump_line_enc in Hc. destruct Hc as [<-|Hc]; [discriminate|].
        apply in_app_or in Hc as [Hc|[<-|[]]]; auto.
        unfold enc in Hc. destruct x as [|c0 x]; [destruct Hc as [<-|[]]; discriminate|].
        destruct (text_eqb _ _); auto. destruct Hc as [<-|[<-|[]]]; discriminate.
    - intros c Hc. simpl in Hc. rewrite app_nil_r in Hc.
      apply in_app_or in Hc as [Hc|[Hc|[Hc|Hc]]]; subst; auto; try discriminate.
      apply in_app_or in Hc as [Hc|[Hc|[]]]; subst; auto. }
  intros c Hc. unfold dump, as_values in Hc. apply in_app_or in Hc as [Hc|[<-|[]]]; auto.
  apply in_concat in Hc as [l [Hl Hc]]. apply in_map_iff in Hl as [kv [<- Hkv]].
  apply in_map_iff in Hkv as [[k v] [<- Hkv]]. simpl in Hc. destruct (P k v Hkv). apply (Pd k v); auto.
Qed.
Print Assumptions C21_round_trip_string.

(** Several records written one after another. *)
Theorem C21_many_records : forall ds, Forall good_record ds ->
  exists rs, load_stream (concat (map (fun d => dump (as_values d)) ds)) = inl rs /\ map r_data rs = ds.
Proof.
  intros ds H. unfold load_stream. induction H as [|d ds G H [rs [L E]]].
  - exists []. auto.
  - destruct (C21_round_trip d G) as [r [L1 E1]]. unfold load_stream in L1.
    apply good_record_parts in G as [D [ND [GK [O _]]]].
    rewrite dump_stream_end in L1 by exact GK. rewrite load_concat in L1 by reflexivity.
    cbn [map concat]. rewrite dump_stream by exact GK. rewrite load_concat by reflexivity.
    destruct (load (dump_lines d)) as [r1|]; [|discriminate L1].
    cbn in L1. injection L1 as L1. rewrite app_nil_r in L1. subst r1. rewrite L.
    eexists. split; [reflexivity|]. cbn [app map]. rewrite E1. f_equal.
    rewrite map_map. cbn [shift r_data]. exact E.
Qed.
Print Assumptions C21_many_records.

(** A list is written as its lines. *)
Theorem C21_list_is_lines : forall k (l : list text),
  2 <= length l -> last l [] <> [] -> (forall x, In x l -> ~ In NL x) ->
  dump_field k (VList l) = dump_field k (VText (join_nl l)).
Proof.
  intros k l L H N. rewrite dump_field_lines. unfold field_lines, values.
  assert (N0 : l <> []) by (destruct l; [simpl in L; lia|discriminate]).
  rewrite split_join by auto.
  assert (has_nl (join_nl l) = true) as ->.
  { apply has_nl_true. destruct l as [|a [|b l]]; try (simpl in L; lia).
    rewrite join_cons by discriminate. apply in_or_app. right. left. reflexivity. }
  assert (match last l [] with [] => removelast l | _ => l end = l) as ->
    by (destruct (last l []); [contradiction|reflexivity]).
  unfold dump_field, dump_part. cbn [concat].
  rewrite <- app_assoc. reflexivity.
Qed.
Print Assumptions C21_list_is_lines.

(** What the conditions exclude: a line that is a dot, a blank line that is not
    empty, a value with white space around it, and characters that end lines in
    text that is in memory. *)
Theorem C21_any_value_refuted :
  exists r1 r3,
    load_stream (dump (as_values [(T "k", T "a" ++ lf ++ T "." ++ lf ++ T "b")])) = inl [r1] /\
    r_data r1 = [(T "k", T "a" ++ lf ++ T ".." ++ lf ++ T "b")] /\
    load_stream (dump (as_values [(T "k", T "a" ++ lf ++ T " " ++ lf ++ T "b")])) =
      inr (SyntaxErr 4 UnexpectedMultiLine) /\
    load_stream (dump (as_values [(T "k", T " a ")])) = inl [r3] /\
    r_data r3 = [(T "k", T "a")] /\
    load_string (dump (as_values [(T "k", T "a" ++ [CR] ++ T "b")])) =
      inr (SyntaxErr 2 UnexpectedLine).
Proof.
  eexists. eexists. split; [vm_compute; reflexivity|]. split; [vm_compute; reflexivity|].
  split; [vm_compute; reflexivity|]. split; [vm_compute; reflexivity|]. split; vm_compute; reflexivity.
Qed.
Print Assumptions C21_any_value_refuted.

Definition example_record : list (text * text) :=
  [(T "id", T "some-job"); (T "summary", T "A: b"); (T "empty", []);
   (T "command", T "if x; then" ++ lf ++ lf ++ T "    y.." ++ lf ++ T "# no comment" ++ lf ++ T "fi")].
Lemma good_example : good_record example_record.
Proof.
  assert (K : forall k, text_eqb (strip k) k && negb (existsb (Ascii.eqb COLON) k) &&
              negb (existsb (Ascii.eqb NL) k) && negb (comment k) = true -> good_key k).
  { intros k H. apply andb_true_iff in H as [H H4]. apply andb_true_iff in H as [H H3].
    apply andb_true_iff in H as [H1 H2]. apply text_eqb_eq in H1. apply negb_true_iff in H4.
    apply negb_true_iff in H2, H3. split; auto. split; [|split; auto].
    - intros C. apply not_true_iff_false in H2. apply H2, existsb_exists. exists COLON. auto.
    - intros C. apply not_true_iff_false in H3. apply H3, existsb_exists. exists NL. auto. }
  assert (V : forall v, text_eqb (strip v) v &&
              forallb (fun l => (negb (nonempty l) || negb (blank l)) && text_eqb (undot l) l) (split_nl v) = true ->
              good_value v).
  { intros v H. apply andb_true_iff in H as [H1 H2]. apply text_eqb_eq in H1. split; auto.
    rewrite forallb_forall in H2. intros _ l Hl. specialize (H2 l Hl). apply andb_true_iff in H2 as [H2 H3].
    split.
    - apply orb_true_iff in H2 as [H2|H2]; apply negb_true_iff in H2; auto. destruct l; auto. discriminate.
    - intros [w [Hw ->]]. rewrite undot_dot in H3 by exact Hw. apply text_eqb_eq in H3.
      apply (f_equal (@length ascii)) in H3. rewrite app_length in H3. simpl in H3. lia. }
  split; [discriminate|]. split.
  - apply nodupb_true. vm_compute. reflexivity.
  - repeat (constructor; [split; [apply K|apply V]; vm_compute; reflexivity|]). constructor.
Qed.
Example round_trip_example :
  exists r, load_stream (dump (as_values example_record)) = inl [r] /\ r_data r = example_record.
Proof. apply C21_round_trip, good_example. Qed.

(** ** C22 *)

(** Loading yields records or a syntax error that is on the first line with which
    the text cannot be loaded; that line is neither a comment nor blank. *)
Theorem C22_only_syntax_errors : forall lines e, load lines = inr e ->
  exists n p, e = SyntaxErr n p /\ 1 <= n <= length lines /\
    (exists rs, load (firstn (n - 1) lines) = inl rs) /\
    comment (line_at lines n) = false /\ blank (line_at lines n) = false.
Proof.
  intros lines e H. destruct (gen_error lines 1 new_state e (inv_new 1) H) as [i [p [-> [Hi [R HH]]]]].
  exists (1 + i), p. split; [reflexivity|]. split; [lia|].
  unfold line_at. replace (1 + i - 1) with i by lia. split; [exact R|exact HH].
Qed.
Print Assumptions C22_only_syntax_errors.

(** Every error stays an error however the text goes on. *)
Theorem C22_errors_are_final : forall l1 l2 e, load l1 = inr e -> load (l1 ++ l2) = inr e.
Proof.
  intros l1 l2 e. unfold load. generalize 1 new_state. induction l1 as [|l l1 IH]; intros n s H.
  - discriminate H.
  - cbn [app gen] in *. destruct (step n l s) as [[s' y]|e']; [|exact H].
    destruct (gen (S n) l1 s') as [rs|e'] eqn:E; [discriminate H|]. injection H as ->.
    rewrite (IH _ _ E). reflexivity.
Qed.
Print Assumptions C22_errors_are_final.

(** What is loaded, and whether there is an error, is given by the blocks of the
    text between blank lines. *)
Theorem C22_meaning : forall lines, fields_of (load lines) = meaning lines.
Proof. exact load_meaning. Qed.
Print Assumptions C22_meaning.

(** Two texts with a blank line between them. *)
Theorem C22_concatenation : forall l1 b l2, blank b = true ->
  load (l1 ++ b :: l2) =
  match load l1 with
  | inr e => inr e
  | inl r1 =>
      match load l2 with
      | inr e => inr (shift_error (length l1 + 1) e)
      | inl r2 => inl (r1 ++ map (shift (length l1 + 1)) r2)
      end
  end.
Proof. exact load_concat. Qed.
Print Assumptions C22_concatenation.

(** Comments make no difference, wherever they are. *)
Theorem C22_comments : forall l1 c l2, comment c = true ->
  fields_of (load (l1 ++ c :: l2)) = fields_of (load (l1 ++ l2)).
Proof.
  intros l1 c l2 H. rewrite !load_meaning. unfold meaning. rewrite !filter_app. cbn [filter].
  rewrite H. reflexivity.
Qed.
Print Assumptions C22_comments.

(** Line numbers and field offsets of records point to where they are in the text,
    and the records are in the order of the text. *)
Theorem C22_origins : forall lines rs, load lines = inl rs ->
  Forall (origin_right lines) rs /\ StronglySorted before rs.
Proof.
  intros lines rs H.
  destruct (gen_origin lines lines 1 new_state rs []) as [H1 [H2 _]]; auto; [apply inv_new|apply oinv_new].
Qed.
Print Assumptions C22_origins.

Definition example_text : list text :=
  [T "# comment" ++ lf; T "id: a" ++ lf; T "text:" ++ lf; T "  one" ++ lf; T "# comment" ++ lf; T "   two" ++ lf;
   lf; T "  " ++ lf; T "id: b" ++ lf].
Example load_example :
  load example_text =
  inl [mk_record [(T "id", T "a"); (T "text", T "one" ++ lf ++ T " two")]
                 [(T "id", T "a" ++ lf); (T "text", T " one" ++ lf ++ T "  two" ++ lf)]
                 [(T "id", 0); (T "text", 2)] (Some 2) (Some 6);
       mk_record [(T "id", T "b")] [(T "id", T "b" ++ lf)] [(T "id", 0)] (Some 9) (Some 9)].
Proof. vm_compute. reflexivity. Qed.
Example load_error_example :
  load (example_text ++ [T "id : c"]) = inr (SyntaxErr 10 (DuplicateKey (T "id") (T "b" ++ lf) (T "c"))).
Proof. vm_compute. reflexivity. Qed.
