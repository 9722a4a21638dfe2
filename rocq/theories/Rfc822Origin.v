(** Line numbers of loaded records. *)
From Coq Require Import Ascii List Bool Arith Lia Sorted.
From Verif Require Import ScanModel Rfc822Model Rfc822Spec Rfc822Proofs.
Import ListNotations.
Open Scope list_scope.

Section Origin.
  Variable lines : list text.

  (** The state before line [n]. *)
  Definition oinv (n : nat) (s : state) : Prop :=
    map fst (r_offsets (s_rec s)) = map fst (pend s) /\
    match r_start (s_rec s) with
    | None => r_offsets (s_rec s) = []
    | Some st => exists en, r_end (s_rec s) = Some en /\ 1 <= st <= en /\ en < n /\
        (forall i, st <= i < n -> blank (line_at lines i) = false) /\
        forall k off, In (k, off) (r_offsets (s_rec s)) -> field_at lines st en k off
    end.

  Lemma oinv_new n : oinv n new_state.
  Proof. split; reflexivity. Qed.

  Lemma field_at_later st en en' k off : en <= en' -> field_at lines st en k off -> field_at lines st en' k off.
  Proof. intros H [i [k0 [v0 [H1 HH]]]]. exists i, k0, v0. split; [lia|exact HH]. Qed.

  Lemma comment_not_blank l : comment l = true -> blank l = false.
  Proof.
    intros H. destruct (blank l) eqn:B; auto. apply blank_not_comment in B. congruence.
  Qed.

  Lemma commit_same s : r_offsets (s_rec (commit s)) = r_offsets (s_rec s) /\
    r_start (s_rec (commit s)) = r_start (s_rec s) /\ r_end (s_rec (commit s)) = r_end (s_rec s).
  Proof. unfold commit. destruct (s_key s); auto. Qed.

  Lemma oinv_record n s : inv n s -> oinv n s -> n <= S (length lines) -> pend s <> [] ->
    origin_right lines (s_rec (commit s)) /\
    (exists e, r_end (s_rec (commit s)) = Some e /\ e < n) /\ r_start (s_rec (commit s)) = r_start (s_rec s).
  Proof.
    intros I [O1 O2] Hn P. destruct (commit_same s) as [C1 [C2 C3]].
    unfold origin_right. rewrite C1, C2, C3.
    destruct (r_start (s_rec s)) as [st|] eqn:E.
    - destruct O2 as [en [E1 [E2 [E3 [E4 E5]]]]]. split; [|eauto]. exists st, en.
      split; [auto|]. split; [auto|]. split; [exact E2|]. split; [lia|]. split.
      + intros i Hi. apply E4. lia.
      + split; [exact O1|]. exact E5.
    - rewrite O2 in O1. destruct (pend s); [contradiction|discriminate O1].
  Qed.

  Lemma after_key_shape n k v s :
    exists st, st = match r_start (s_rec s) with Some x => x | None => n end /\
    r_start (s_rec (after_key n k v s)) = Some st /\
    r_end (s_rec (after_key n k v s)) = Some n /\
    r_offsets (s_rec (after_key n k v s)) =
      tset (strip k) (n - st + (if blank v then 1 else 0)) (r_offsets (s_rec s)).
  Proof.
    unfold after_key. destruct (commit_same (set_start n s)) as [C1 [C2 C3]].
    rewrite strip_nil_case, blank_lstrip.
    exists (match r_start (s_rec s) with Some x => x | None => n end). split; [reflexivity|].
    assert (E : r_start (s_rec (commit (set_start n s))) =
                Some (match r_start (s_rec s) with Some x => x | None => n end)).
    { rewrite C2. simpl. destruct (r_start (s_rec s)); reflexivity. }
    destruct (blank v); cbn [set_end set_offset s_rec r_start r_end r_offsets]; rewrite E, C1;
      cbn [set_start s_rec r_offsets]; rewrite ?Nat.add_0_r; auto.
  Qed.

  Lemma step_oinv n l s s' y : inv n s -> oinv n s -> 1 <= n -> line_at lines n = l ->
    step n l s = inl (s', y) ->
    oinv (S n) s' /\
    match y with
    | Some r => s' = new_state /\ r = s_rec (commit s) /\ pend s <> []
    | None => s' = new_state \/ r_start (s_rec s') = r_start (s_rec s) \/
              r_start (s_rec s) = None /\ r_start (s_rec s') = Some n
    end.
  Proof.
    intros I [O1 O2] Hn L. rewrite step_cases by exact I.
    destruct (comment l) eqn:Hc.
    { intros [= <- <-]. split; [|auto]. split; [exact O1|].
      destruct (r_start (s_rec s)) as [st|]; auto. destruct O2 as [en [E1 [E2 [E3 [E4 E5]]]]].
      exists en. repeat (split; [auto; lia|]). split; auto. intros i Hi.
      destruct (Nat.eq_dec i n) as [->|Hne]; [|apply E4; lia]. rewrite L. apply comment_not_blank, Hc. }
    destruct (blank l) eqn:Hb.
    { intros [= <- <-]. split; [apply oinv_new|].
      destruct (pend s) eqn:E; cbn [nonempty]; auto. split; auto. split; auto. discriminate. }
    destruct (continues l) eqn:Hk.
    { destruct (s_key s) as [k|] eqn:Ek; [|discriminate]. intros [= <- <-].
      split; [|auto].
      split.
      - unfold after_cont, pend, commit. cbn. rewrite Ek. cbn. rewrite O1. unfold pend, commit. rewrite Ek. cbn.
        apply tset_keys. reflexivity.
      - cbn. pose proof (inv_start n s I) as St. rewrite Ek in St.
        destruct (r_start (s_rec s)) as [st|]; [|exfalso; apply St; [left; discriminate|reflexivity]].
        destruct O2 as [en [E1 [E2 [E3 [E4 E5]]]]]. exists n. split; [auto|]. split; [lia|]. split; [lia|].
        split.
        + intros i Hi. destruct (Nat.eq_dec i n) as [->|Hne]; [congruence|apply E4; lia].
        + intros k' off Hin. eapply field_at_later; [|apply E5; eauto]. lia. }
    destruct (split_colon l) as [[k v]|] eqn:Es; [|discriminate].
    destruct in_dec as [H|H]; [discriminate|]. intros [= <- <-].
    destruct (after_key_shape n k v s) as [st [Est [S1 [S2 S3]]]].
    destruct (inv_after_key n k v s I H) as [I' [K1 [K2 K3]]].
    rewrite S1. split.
    2:{ destruct (r_start (s_rec s)) as [x|]; subst; auto. }
    assert (F : ~ In (strip k) (map fst (r_offsets (s_rec s)))) by (rewrite O1; exact H).
    split.
    - rewrite S3, tset_fresh by exact F. rewrite (pend_some (S n) _ (strip k)) by auto.
      rewrite K3, !map_app, O1. reflexivity.
    - rewrite S1. exists n. split; [exact S2|].
      assert (B : 1 <= st <= n).
      { destruct (r_start (s_rec s)) as [x|]; [destruct O2 as [en [E1 [E2 [E3 _]]]]; lia|lia]. }
      split; [exact B|]. split; [lia|]. split.
      + intros i Hi. destruct (Nat.eq_dec i n) as [->|Hne]; [congruence|].
        destruct (r_start (s_rec s)) as [x|]; [|lia]. destruct O2 as [en [E1 [E2 [E3 [E4 E5]]]]].
        apply E4. lia.
      + intros k' off Hin. rewrite S3, tset_fresh in Hin by exact F. apply in_app_or in Hin as [Hin|Hin].
        * destruct (r_start (s_rec s)) as [x|]; [|rewrite O2 in Hin; destruct Hin].
          destruct O2 as [en [E1 [E2 [E3 [E4 E5]]]]]. subst st. eapply field_at_later; [|apply E5; eauto]. lia.
        * destruct Hin as [Hin|[]]. injection Hin as <- <-.
          exists n, k, v. rewrite L. repeat split; auto; lia.
  Qed.

  Lemma gen_origin ls : forall n s rs P, lines = P ++ ls -> length P + 1 = n -> inv n s -> oinv n s ->
    gen n ls s = inl rs ->
    Forall (origin_right lines) rs /\ StronglySorted before rs /\
    Forall (fun r => exists st, r_start r = Some st /\ (r_start (s_rec s) = Some st \/ n <= st)) rs.
  Proof.
    induction ls as [|l ls IH]; intros n s rs P E L I O H.
    - cbn [gen] in H. fold (pend s) in H. injection H as <-.
      destruct (pend s) as [|kv r] eqn:Ep; [repeat constructor|].
      destruct (oinv_record n s I O) as [H1 [_ H3]].
      { rewrite E, app_nil_r. lia. }
      { rewrite Ep. discriminate. }
      repeat constructor; auto. destruct H1 as [st [en [H1 _]]]. exists st. rewrite <- H3. auto.
    - cbn [gen] in H. destruct (step n l s) as [[s' y]|e] eqn:St; [|discriminate].
      destruct (gen (S n) ls s') as [rs'|e] eqn:G; [|discriminate]. injection H as <-.
      assert (La : line_at lines n = l).
      { unfold line_at. rewrite E, <- L. replace (length P + 1 - 1) with (length P) by lia. apply nth_middle. }
      destruct (step_oinv n l s s' y I O) as [O' Y]; auto; [lia|].
      destruct (IH (S n) s' rs' (P ++ [l])) as [R1 [R2 R3]]; auto.
      { rewrite <- app_assoc. exact E. }
      { rewrite app_length. simpl. lia. }
      { eapply step_inv; eauto. }
      destruct y as [r|].
      + destruct Y as [-> [-> Hp]]. destruct (oinv_record n s I O) as [H1 [[e [H2 H2']] H3]]; auto.
        { rewrite E, app_length. simpl. lia. }
        split; [constructor; auto|]. split.
        * constructor; auto. rewrite Forall_forall in *. intros r Hr.
          destruct (R3 r Hr) as [st [Hs [Hs'|Hs']]]; [discriminate Hs'|].
          exists e, st. repeat split; auto. lia.
        * constructor.
          -- destruct H1 as [st [en [H1 _]]]. exists st. rewrite <- H3. auto.
          -- rewrite Forall_forall in *. intros r Hr. destruct (R3 r Hr) as [st [Hs [Hs'|Hs']]]; [discriminate Hs'|].
             exists st. split; auto. right. lia.
      + split; [exact R1|]. split; [exact R2|]. rewrite Forall_forall in *. intros r Hr.
        destruct (R3 r Hr) as [st [Hs Hs']]. exists st. split; auto.
        destruct Hs' as [Hs'|Hs']; [|right; lia].
        destruct Y as [->|[Y|[Y1 Y2]]]; [discriminate Hs'| |].
        * left. congruence.
        * right. rewrite Y2 in Hs'. injection Hs' as <-. lia.
  Qed.
End Origin.
