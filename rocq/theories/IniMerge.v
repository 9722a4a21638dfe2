(** Reading a file into a parser that already holds something. *)
From Coq Require Import String Ascii List Bool Arith Lia Permutation.
From Verif Require Import ScanModel Rfc822Model Rfc822Spec Rfc822Proofs IniModel ConfigModel ConfigSpec IniProofs.
Import ListNotations.
Local Open Scope nat_scope.
Local Open Scope list_scope.

Definition rheld (s : rstate) (sect k : text) : option rval := tget k (cur_options s sect).
Definition isome {A} (o : option A) : bool := match o with Some _ => true | None => false end.

Record sim (i : ini) (s1 s2 : rstate) : Prop := mk_sim {
  si_cur : r_cur s1 = r_cur s2;
  si_opt : r_opt s1 = r_opt s2;
  si_indent : r_indent s1 = r_indent s2;
  si_secs : r_added_s s1 = r_added_s s2;
  si_opts : r_added_o s1 = r_added_o s2;
  si_bad : r_bad s1 = r_bad s2;
  si_held : forall sect k, rheld s1 sect k =
    match rheld s2 sect k with Some v => Some v | None => option_map load_value (held i sect k) end;
  si_sects2 : forall h, isome (tget h (r_sects s2)) = tmem h (r_added_s s2);
  si_sects1 : forall h, isome (tget h (r_sects s1)) = tmem h (r_added_s s2) || isome (tget h (i_sections i));
  si_default : tmem DEFAULT (r_added_s s2) = false;
  si_last : forall sect o, r_cur s2 = Some sect -> r_opt s2 = Some o -> rheld s2 sect o <> None;
  si_current : forall sect, r_cur s2 = Some sect -> sect = DEFAULT \/ tmem sect (r_added_s s2) = true
}.

Lemma rheld_set sect opt v s sect' k : 
  (is_default sect = false -> isome (tget sect (r_sects s)) = true \/ True) ->
  rheld (set_option sect opt v s) sect' k =
  if (text_eqb sect' sect && text_eqb k opt)%bool then Some v else rheld s sect' k.
Proof.
  intros _. unfold rheld, set_option, cur_options.
  destruct (is_default sect) eqn:D; cbn [r_defs r_sects].
  - apply is_default_true in D. subst. unfold is_default. destruct (text_eqb sect' DEFAULT) eqn:E.
    + cbn [andb]. apply tget_tset.
    + reflexivity.
  - destruct (is_default sect') eqn:D'.
    + apply is_default_true in D'. subst. unfold is_default in D.
      assert (text_eqb DEFAULT sect = false) as ->; [|reflexivity].
      apply text_eqb_neq. apply text_eqb_neq in D. congruence.
    + rewrite tget_tset. destruct (text_eqb sect' sect) eqn:E; [|reflexivity].
      apply text_eqb_eq in E. subst. cbn [andb]. apply tget_tset.
Qed.

Lemma sects_set sect opt v s h : sect = DEFAULT \/ isome (tget sect (r_sects s)) = true ->
  isome (tget h (r_sects (set_option sect opt v s))) = isome (tget h (r_sects s)).
Proof.
  intros H. unfold set_option. destruct (is_default sect) eqn:D; cbn [r_sects]; [reflexivity|].
  rewrite tget_tset. destruct (text_eqb h sect) eqn:E; [|reflexivity]. apply text_eqb_eq in E. subst.
  destruct H as [->|H]; [discriminate|]. now rewrite H.
Qed.

Lemma sim_set i s1 s2 sect opt v : sim i s1 s2 ->
  sect = DEFAULT \/ tmem sect (r_added_s s2) = true ->
  sim i (set_option sect opt v s1) (set_option sect opt v s2).
Proof.
  intros [A1 A2 A3 A4 A5 A6 A7 A8 A9 A10 A11 A12] Hs.
  destruct (cur_options_set sect opt v s1) as (B1 & B2 & B3 & B4 & B5 & B6 & _).
  destruct (cur_options_set sect opt v s2) as (C1 & C2 & C3 & C4 & C5 & C6 & _).
  constructor; rewrite ?B1, ?B2, ?B3, ?B4, ?B5, ?B6, ?C1, ?C2, ?C3, ?C4, ?C5, ?C6; auto.
  - intros sect' k. rewrite !rheld_set by auto. destruct (_ && _)%bool; auto.
  - intros h. rewrite sects_set; auto. rewrite A8. destruct Hs; auto.
  - intros h. rewrite sects_set; auto. rewrite A9. destruct Hs as [|Hs]; auto. right. now rewrite Hs.
  - intros sect' o H1 H2. rewrite rheld_set by auto. destruct (_ && _)%bool; [discriminate|]. now apply A11.
Qed.

Lemma read_line_sim i s1 s2 line : tget DEFAULT (i_sections i) = None -> sim i s1 s2 ->
  match read_line line s1, read_line line s2 with
  | inl t1, inl t2 => sim i t1 t2
  | inr a, inr b => a = b
  | _, _ => False
  end.
Proof.
  intros Hd S. pose proof S as [A1 A2 A3 A4 A5 A6 A7 A8 A9 A10 A11 A12].
  unfold read_line. rewrite A1, A2, A3, A4, A5.
  destruct (if is_comment line then [] else strip line) as [|c0 r0] eqn:Ev.
  { destruct (r_cur s2) as [sect|] eqn:Ec; [|exact S]. destruct (r_opt s2) as [o|] eqn:Eo; [|exact S].
    destruct (negb (is_comment line) && truthy (Some o)); [|exact S].
    change (tget o (cur_options s1 sect)) with (rheld s1 sect o).
    change (tget o (cur_options s2 sect)) with (rheld s2 sect o).
    rewrite A7. pose proof (A11 sect o eq_refl eq_refl) as H.
    destruct (rheld s2 sect o) as [[| |l]|]; try exact S; [|congruence].
    apply sim_set; auto. }
  cbn zeta. clear Ev. set (value := c0 :: r0).
  destruct (if truthy (r_opt s2) && (r_indent s2 <? indent_of line) then
               match r_cur s2, r_opt s2 with Some sect, Some opt => Some (sect, opt) | _, _ => None end
             else None) as [[sect opt]|] eqn:Ed.
  { destruct (truthy (r_opt s2) && (r_indent s2 <? indent_of line)); [|discriminate].
    destruct (r_cur s2) as [sect'|] eqn:Ec; [|discriminate]. destruct (r_opt s2) as [o|] eqn:Eo; [|discriminate].
    injection Ed as <- <-.
    change (tget o (cur_options s1 sect')) with (rheld s1 sect' o).
    change (tget o (cur_options s2 sect')) with (rheld s2 sect' o).
    rewrite A7. pose proof (A11 sect' o eq_refl eq_refl) as H.
    destruct (rheld s2 sect' o) as [[| |l]|]; try reflexivity; [|congruence].
    apply sim_set; auto. }
  clear Ed. destruct (section_header value) as [h|].
  { (* a section header *)
    specialize (A8 h) as H8. specialize (A9 h) as H9.
    assert (Hr : forall sect k added_s i1 i2,
      rheld (mk_rstate (r_defs s1) (r_sects s1) (Some h) None i1 added_s (r_added_o s2) (r_bad s1)) sect k =
      rheld s1 sect k /\
      rheld (mk_rstate (r_defs s2) (r_sects s2) (Some h) None i2 added_s (r_added_o s2) (r_bad s2)) sect k =
      rheld s2 sect k) by (intros; split; reflexivity).
    destruct (tmem h (r_added_s s2)) eqn:Em.
    { destruct (tget h (r_sects s1)) as [d1|]; [|discriminate H9].
      destruct (tget h (r_sects s2)) as [d2|]; [|discriminate H8]. reflexivity. }
    destruct (tget h (r_sects s2)) as [d2|] eqn:E2; [discriminate H8|].
    cbn [orb] in H9.
    destruct (is_default h) eqn:D.
    { apply is_default_true in D. subst h. rewrite Hd in H9.
      destruct (tget DEFAULT (r_sects s1)) as [d1|]; [discriminate H9|].
      constructor; cbn; auto; try congruence. intros sect [= <-]. now left. }
    assert (N2 : forall sect k, rheld (mk_rstate (r_defs s2) (tset h [] (r_sects s2)) (Some h) None (indent_of line)
        (h :: r_added_s s2) (r_added_o s2) (r_bad s2)) sect k = rheld s2 sect k).
    { intros sect k. unfold rheld, cur_options. cbn [r_defs r_sects].
      destruct (is_default sect) eqn:Ds; [reflexivity|].
      rewrite tget_tset. destruct (text_eqb sect h) eqn:Eh; [|reflexivity]. apply text_eqb_eq in Eh. subst. now rewrite E2. }
    assert (M2 : forall h', isome (tget h' (tset h [] (r_sects s2))) = tmem h' (h :: r_added_s s2)).
    { intros h'. rewrite tget_tset. change (tmem h' (h :: r_added_s s2)) with (text_eqb h' h || tmem h' (r_added_s s2)).
      destruct (text_eqb h' h); cbn; auto. }
    assert (Df : tmem DEFAULT (h :: r_added_s s2) = false).
    { change (tmem DEFAULT (h :: r_added_s s2)) with (text_eqb DEFAULT h || tmem DEFAULT (r_added_s s2)).
      rewrite A10, orb_false_r. apply text_eqb_neq. apply text_eqb_neq in D. congruence. }
    destruct (tget h (r_sects s1)) as [d1|] eqn:E1.
    { constructor; cbn [r_cur r_opt r_indent r_added_s r_added_o r_bad r_sects]; auto; try congruence.
      - intros sect k. rewrite N2. apply A7.
      - intros h'. change (tmem h' (h :: r_added_s s2)) with (text_eqb h' h || tmem h' (r_added_s s2)).
        destruct (text_eqb h' h) eqn:E; [|cbn; apply A9]. apply text_eqb_eq in E. subst. rewrite E1. reflexivity.
      - intros sect [= <-]. right. change (tmem h (h :: r_added_s s2)) with (text_eqb h h || tmem h (r_added_s s2)).
        now rewrite text_eqb_refl. }
    { constructor; cbn [r_cur r_opt r_indent r_added_s r_added_o r_bad r_sects]; auto; try congruence.
      - intros sect k. rewrite N2. rewrite <- A7. unfold rheld, cur_options. cbn [r_defs r_sects].
        destruct (is_default sect) eqn:Ds; [reflexivity|].
        rewrite tget_tset. destruct (text_eqb sect h) eqn:Eh; [|reflexivity]. apply text_eqb_eq in Eh. subst. now rewrite E1.
      - intros h'. change (tmem h' (h :: r_added_s s2)) with (text_eqb h' h || tmem h' (r_added_s s2)).
        rewrite tget_tset. destruct (text_eqb h' h) eqn:E; [reflexivity|cbn; apply A9].
      - intros sect [= <-]. right. change (tmem h (h :: r_added_s s2)) with (text_eqb h h || tmem h (r_added_s s2)).
        now rewrite text_eqb_refl. } }
  (* an option *)
  destruct (r_cur s2) as [sect|] eqn:Ec; [|reflexivity].
  destruct (option_line value) as [opt val]. destruct (added (sect, opt) (r_added_o s2)); [reflexivity|].
  set (v := match val with Some v => RLines [v] | None => RNone end).
  rewrite A6.
  set (t1 := mk_rstate (r_defs s1) _ _ _ _ _ _ _). set (t2 := mk_rstate (r_defs s2) _ _ _ _ _ _ _).
  destruct (cur_options_set sect opt v t1) as (B1 & B2 & B3 & B4 & B5 & B6 & _).
  destruct (cur_options_set sect opt v t2) as (C1 & C2 & C3 & C4 & C5 & C6 & _).
  constructor; rewrite ?B1, ?B2, ?B3, ?B4, ?B5, ?B6, ?C1, ?C2, ?C3, ?C4, ?C5, ?C6; auto.
  - intros sect' k. rewrite !rheld_set by auto. destruct (_ && _)%bool; [reflexivity|]. apply A7.
  - intros h. rewrite sects_set; [apply A8|]. destruct (A12 sect eq_refl) as [|H]; [auto|]. right.
    change (r_sects t2) with (r_sects s2). now rewrite A8.
  - intros h. rewrite sects_set; [apply A9|]. destruct (A12 sect eq_refl) as [|H]; [auto|]. right.
    change (r_sects t1) with (r_sects s1). now rewrite A9, H.
  - intros sect' o E1 E2. cbn in E1, E2. injection E1 as <-. injection E2 as <-.
    rewrite rheld_set by auto. rewrite !text_eqb_refl. discriminate.
Qed.

Lemma read_lines_sim i lines : forall s1 s2, tget DEFAULT (i_sections i) = None -> sim i s1 s2 ->
  let (t1, e1) := read_lines lines s1 in let (t2, e2) := read_lines lines s2 in
  e1 = e2 /\ sim i t1 t2.
Proof.
  induction lines as [|l lines IH]; intros s1 s2 Hd S; cbn [read_lines].
  - rewrite (si_bad _ _ _ S). auto.
  - pose proof (read_line_sim i s1 s2 l Hd S) as H.
    destruct (read_line l s1) as [t1|a], (read_line l s2) as [t2|b]; try contradiction.
    + now apply IH.
    + subst. destruct b; auto.
Qed.

Lemma held_joined s sect k : held (joined s) sect k = option_map join_value (rheld s sect k).
Proof.
  unfold held, rheld, cur_options, joined, is_default. cbn [i_defaults i_sections].
  destruct (text_eqb sect DEFAULT); [apply tget_map|].
  rewrite tget_map. destruct (tget sect (r_sects s)); [|reflexivity]. cbn [option_map]. apply tget_map.
Qed.

Lemma read_text_merge t i i1 e1 i2 e2 : tget DEFAULT (i_sections i) = None ->
  read_text t i = (i1, e1) -> read_text t empty_ini = (i2, e2) ->
  e1 = e2 /\ tget DEFAULT (i_sections i1) = None /\
  (forall s k, held i1 s k = match held i2 s k with Some v => Some v | None => held i s k end) /\
  (forall s, has_section i1 s <-> has_section i2 s \/ has_section i s).
Proof.
  intros Hd H1 H2. unfold read_text in *.
  assert (S0 : sim i (start_reading i) (start_reading empty_ini)).
  { constructor; cbn; auto; try discriminate.
    - intros sect k. unfold rheld, cur_options, held, is_default. cbn [r_defs r_sects start_reading].
      destruct (text_eqb sect DEFAULT).
      + cbn. apply tget_map.
      + cbn [i_sections empty_ini map tget]. rewrite tget_map. destruct (tget sect (i_sections i)); [|reflexivity].
        cbn [option_map]. apply tget_map.
    - intros h. rewrite tget_map. destruct (tget h (i_sections i)); reflexivity. }
  pose proof (read_lines_sim i (stream_lines t) _ _ Hd S0) as H.
  destruct (read_lines (stream_lines t) (start_reading i)) as [t1 a1].
  destruct (read_lines (stream_lines t) (start_reading empty_ini)) as [t2 a2].
  destruct H as [-> S]. injection H1 as <- <-. injection H2 as <- <-. split; auto.
  destruct S as [A1 A2 A3 A4 A5 A6 A7 A8 A9 A10 A11 A12].
  assert (Q : forall s sect, (exists d, tget sect (i_sections (joined s)) = Some d) <-> isome (tget sect (r_sects s)) = true).
  { intros s sect. rewrite tget_joined_sects. destruct (tget sect (r_sects s)); cbn; split; intros H; eauto; try discriminate.
    destruct H; discriminate. }
  split.
  { rewrite tget_joined_sects. specialize (A9 DEFAULT). rewrite A10, Hd in A9. destruct (tget DEFAULT (r_sects t1)); [discriminate|reflexivity]. }
  split.
  - intros s k. rewrite !held_joined, A7. destruct (rheld t2 s k); [reflexivity|].
    destruct (held i s k) as [[v|]|]; reflexivity.
  - intros s. unfold has_section. rewrite !Q, A9, A8.
    assert (E : (exists d, tget s (i_sections i) = Some d) <-> isome (tget s (i_sections i)) = true).
    { destruct (tget s (i_sections i)); cbn; split; intros H; eauto; try discriminate. destruct H; discriminate. }
    rewrite E. destruct (tmem s (r_added_s t2)), (isome (tget s (i_sections i))); cbn; intuition.
Qed.
