(** Writing a configuration and reading it back. *)
From Coq Require Import String Ascii List Bool Arith ZArith Lia Permutation.
From Verif Require Import ScanModel Rfc822Model Rfc822Spec Rfc822Proofs IniModel ConfigModel ConfigSpec IniProofs IniMerge ConfigProofs ConfigWrite.
Import ListNotations.
Local Open Scope nat_scope.
Local Open Scope list_scope.

(** ** Lists of writes *)

Definition wr := (text * option (text * text))%type.
Definition apply1 (w : wr) (i : ini) : ini :=
  match w with
  | (s, None) => if is_default s then i else ensure_section s i
  | (s, Some (k, v)) => put s k (Some v) i
  end.
Definition apply (W : list wr) (i : ini) : ini := fold_left (fun i w => apply1 w i) W i.

Lemma apply_app W W' i : apply (W ++ W') i = apply W' (apply W i).
Proof. apply fold_left_app. Qed.

Lemma held_put s k v i s' k' : held (put s k v i) s' k' =
  if (text_eqb s' s && text_eqb k' k)%bool then Some v else held i s' k'.
Proof.
  unfold held, put. destruct (is_default s) eqn:D; cbn [i_defaults i_sections].
  - apply is_default_true in D. subst. destruct (text_eqb s' DEFAULT) eqn:E; cbn [andb]; [|reflexivity].
    rewrite tget_tset. reflexivity.
  - destruct (text_eqb s' DEFAULT) eqn:E.
    + apply text_eqb_eq in E. subst. assert (text_eqb DEFAULT s = false) as ->; [|reflexivity].
      apply text_eqb_neq. intros <-. discriminate D.
    + rewrite tget_tset. destruct (text_eqb s' s) eqn:E2; cbn [andb]; [|reflexivity].
      apply text_eqb_eq in E2. subst. rewrite tget_tset. destruct (text_eqb k' k); [reflexivity|].
      destruct (tget s (i_sections i)); reflexivity.
Qed.

Lemma held_ensure s i s' k' : held (ensure_section s i) s' k' = held i s' k'.
Proof.
  unfold ensure_section. destruct (tget s (i_sections i)) eqn:E; [reflexivity|].
  unfold held. cbn [i_defaults i_sections]. destruct (text_eqb s' DEFAULT); [reflexivity|]. rewrite tget_tset.
  destruct (text_eqb s' s) eqn:E2; [|reflexivity]. apply text_eqb_eq in E2. subst. now rewrite E.
Qed.

Lemma held_apply1 w i s k : held (apply1 w i) s k =
  match w with
  | (s', Some (k', v)) => if (text_eqb s s' && text_eqb k k')%bool then Some (Some v) else held i s k
  | _ => held i s k
  end.
Proof.
  destruct w as [s' [[k' v]|]]; cbn [apply1]; [apply held_put|].
  destruct (is_default s'); [reflexivity|apply held_ensure].
Qed.

Lemma has_apply1 w i s : has_section (apply1 w i) s <-> has_section i s \/ s = fst w.
Proof.
  unfold has_section. destruct w as [s' [[k' v]|]]; cbn [apply1 fst].
  - unfold put. destruct (is_default s') eqn:D; cbn [i_sections].
    + apply is_default_true in D. subst. intuition.
    + rewrite tget_tset. destruct (text_eqb s s') eqn:E.
      * apply text_eqb_eq in E. subst. split; intros _; eauto.
      * apply text_eqb_neq in E. intuition congruence.
  - destruct (is_default s') eqn:D; cbn [i_sections].
    + apply is_default_true in D. subst. intuition.
    + unfold ensure_section. destruct (tget s' (i_sections i)) eqn:E.
      * split; [tauto|]. intros [H| ->]; eauto.
      * cbn [i_sections]. rewrite tget_tset. destruct (text_eqb s s') eqn:E2.
        -- apply text_eqb_eq in E2. subst. split; intros _; eauto.
        -- apply text_eqb_neq in E2. intuition congruence.
Qed.

Lemma has_apply W : forall i s, has_section (apply W i) s <-> has_section i s \/ exists o, In (s, o) W.
Proof.
  induction W as [|w W IH]; intros i s.
  - cbn. split; [tauto|]. intros [H|[o []]]. exact H.
  - cbn [apply fold_left]. change (fold_left (fun i w => apply1 w i) W (apply1 w i)) with (apply W (apply1 w i)).
    rewrite IH, has_apply1. destruct w as [s' o]. cbn [fst]. split.
    + intros [[H| ->]|[o' H]]; [tauto|right; exists o; now left|right; exists o'; now right].
    + intros [H|[o' [H|H]]]; [tauto|injection H as -> ->; tauto|right; eauto].
Qed.

Definition functional (W : list wr) : Prop :=
  forall s k v v', In (s, Some (k, v)) W -> In (s, Some (k, v')) W -> v = v'.

Lemma held_apply_none W : forall i s k, (forall v, ~ In (s, Some (k, v)) W) -> held (apply W i) s k = held i s k.
Proof.
  induction W as [|w W IH]; intros i s k H; [reflexivity|].
  cbn [apply fold_left]. change (fold_left (fun i w => apply1 w i) W (apply1 w i)) with (apply W (apply1 w i)).
  rewrite IH by (intros v Hv; apply (H v); now right). rewrite held_apply1.
  destruct w as [s' [[k' v]|]]; [|reflexivity]. destruct (text_eqb s s' && text_eqb k k')%bool eqn:E; [|reflexivity].
  apply andb_prop in E. destruct E as [E1 E2]. apply text_eqb_eq in E1. apply text_eqb_eq in E2. subst.
  exfalso. apply (H v). now left.
Qed.

Lemma held_apply_some W : forall i s k v, functional W -> In (s, Some (k, v)) W -> held (apply W i) s k = Some (Some v).
Proof.
  induction W as [|w W IH]; intros i s k v F H; [destruct H|].
  assert (F' : functional W) by (intros a b c d Hc Hd; apply (F a b c d); now right).
  cbn [apply fold_left]. change (fold_left (fun i w => apply1 w i) W (apply1 w i)) with (apply W (apply1 w i)).
  assert (D : (exists v', In (s, Some (k, v')) W) \/ (forall v', ~ In (s, Some (k, v')) W)).
  { clear. induction W as [|[s' [[k' v']|]] W IH].
    - right. intros v' [].
    - destruct (list_eq_dec ascii_dec s s') as [->|N]; [destruct (list_eq_dec ascii_dec k k') as [->|N]|].
      + left. exists v'. now left.
      + destruct IH as [[w H]|H]; [left; exists w; now right|]. right. intros w [E|E]; [congruence|now apply (H w)].
      + destruct IH as [[w H]|H]; [left; exists w; now right|]. right. intros w [E|E]; [congruence|now apply (H w)].
    - destruct IH as [[w H]|H]; [left; exists w; now right|]. right. intros w [E|E]; [congruence|now apply (H w)]. }
  destruct D as [[v' Hv']|D].
  - rewrite (IH _ s k v') by auto. f_equal. f_equal. apply (F s k); [now right|exact H].
  - destruct H as [->|H]; [|exfalso; now apply (D v)]. rewrite held_apply_none by exact D.
    rewrite held_apply1. now rewrite !text_eqb_refl.
Qed.

Lemma held_apply_iff W s k o : functional W ->
  held (apply W empty_ini) s k = Some o <-> exists v, o = Some v /\ In (s, Some (k, v)) W.
Proof.
  intros F. split.
  - intros H. destruct (held (apply W empty_ini) s k) as [o'|] eqn:E; [|discriminate]. injection H as ->.
    assert (D : ~ forall v', ~ In (s, Some (k, v')) W).
    { intros D. rewrite held_apply_none in E by exact D. unfold held, empty_ini in E. cbn [i_defaults i_sections tget] in E. destruct (text_eqb s DEFAULT); discriminate E. }
    assert (X : exists v, In (s, Some (k, v)) W).
    { clear - D. induction W as [|w W IH]; [exfalso; apply D; intros v' []|].
      destruct w as [s' [[k' v]|]].
      - destruct (list_eq_dec ascii_dec s' s) as [->|N1]; [destruct (list_eq_dec ascii_dec k' k) as [->|N2]; [exists v; now left|]|].
        + destruct IH as [x Hx]; [|exists x; now right]. intros H. apply D. intros v' [E|E]; [congruence|now apply (H v')].
        + destruct IH as [x Hx]; [|exists x; now right]. intros H. apply D. intros v' [E|E]; [congruence|now apply (H v')].
      - destruct IH as [x Hx]; [|exists x; now right]. intros H. apply D. intros v' [E|E]; [congruence|now apply (H v')]. }
    destruct X as [v Hv]. exists v. split; auto. rewrite (held_apply_some W _ s k v F Hv) in E. congruence.
  - intros (v & -> & H). now apply held_apply_some.
Qed.

Lemma held_apply_no W s k : functional W ->
  held (apply W empty_ini) s k = None <-> forall v, ~ In (s, Some (k, v)) W.
Proof.
  intros F. split.
  - intros H v Hv. rewrite (held_apply_some W _ s k v F Hv) in H. discriminate.
  - intros H. rewrite held_apply_none by exact H. unfold held, empty_ini. cbn [i_defaults i_sections tget]. now destruct (text_eqb s DEFAULT).
Qed.

Definition good_write (w : wr) : Prop :=
  section_name (fst w) /\ match snd w with Some (k, v) => option_name k /\ writable v | None => True end.

Lemma writable_tset d k v : writable_options d -> option_name k -> writable v -> writable_options (tset k (Some v) d).
Proof.
  intros [A B] Hk Hv. split; [now apply NoDup_tset|]. intros k' v' H.
  assert (E : tget k' (tset k (Some v) d) = Some v') by (apply In_tget; auto; now apply NoDup_tset).
  rewrite tget_tset in E. destruct (text_eqb k' k) eqn:E2.
  - apply text_eqb_eq in E2. subst. injection E as <-. auto.
  - apply B. now apply tget_In.
Qed.

Lemma writable_section_tset (L : tdict (tdict (option text))) s d :
  NoDup (map fst L) -> (forall s d, In (s, d) L -> section_name s /\ s <> DEFAULT /\ writable_options d) ->
  section_name s -> s <> DEFAULT -> writable_options d ->
  NoDup (map fst (tset s d L)) /\ (forall s' d', In (s', d') (tset s d L) -> section_name s' /\ s' <> DEFAULT /\ writable_options d').
Proof.
  intros A B Hs Hd Hw. split; [now apply NoDup_tset|]. intros s' d' H.
  assert (E : tget s' (tset s d L) = Some d') by (apply In_tget; auto; now apply NoDup_tset).
  rewrite tget_tset in E. destruct (text_eqb s' s) eqn:E2.
  - apply text_eqb_eq in E2. subst. injection E as <-. auto.
  - apply B. now apply tget_In.
Qed.

Lemma writable_apply1 w i : good_write w -> writable_ini i -> writable_ini (apply1 w i).
Proof.
  intros [Hs Hkv] (A & B & C). destruct w as [s [[k v]|]]; cbn [apply1 fst snd] in *.
  - destruct Hkv as [Hk Hv]. unfold put. destruct (is_default s) eqn:D.
    + split; cbn; auto. now apply writable_tset.
    + assert (s <> DEFAULT) by (intros ->; discriminate).
      destruct (writable_section_tset (i_sections i) s (tset k (Some v) match tget s (i_sections i) with Some d => d | None => [] end)) as [E F]; auto.
      * apply writable_tset; auto. destruct (tget s (i_sections i)) eqn:E.
        -- apply tget_In in E. now apply (C s t).
        -- split; [constructor|]. intros ? ? [].
      * split; [exact A|]. split; [exact E|exact F].
  - destruct (is_default s) eqn:D; [split; auto|]. unfold ensure_section. destruct (tget s (i_sections i)); [split; auto|].
    assert (s <> DEFAULT) by (intros ->; discriminate).
    destruct (writable_section_tset (i_sections i) s []) as [E F]; auto.
    + split; [constructor|]. intros ? ? [].
    + split; [exact A|]. split; [exact E|exact F].
Qed.

Lemma writable_apply W : forall i, Forall good_write W -> writable_ini i -> writable_ini (apply W i).
Proof.
  induction W as [|w W IH]; intros i H Hi; [exact Hi|]. inversion H; subst.
  cbn [apply fold_left]. apply IH; auto. now apply writable_apply1.
Qed.

Lemma writable_empty : writable_ini empty_ini.
Proof.
  split; [|split]; cbn.
  - split; [constructor|]. intros ? ? [].
  - constructor.
  - intros ? ? [].
Qed.

Lemma held_sorted i s k : writable_ini i -> held (sorted_ini i) s k = held i s k.
Proof.
  intros ([A _] & B & C). unfold held, sorted_ini. cbn [i_defaults i_sections].
  destruct (text_eqb s DEFAULT).
  - symmetry. apply tget_perm; auto. apply Permutation_sym, sort_items_perm.
  - rewrite tget_map. destruct (tget s (i_sections i)) eqn:E; [|reflexivity]. cbn [option_map].
    symmetry. apply tget_perm; [|apply Permutation_sym, sort_items_perm].
    apply tget_In in E. destruct (C _ _ E) as (_ & _ & [D _]). exact D.
Qed.

Lemma has_sorted i s : has_section (sorted_ini i) s <-> has_section i s.
Proof.
  unfold has_section, sorted_ini. cbn [i_sections]. rewrite tget_map.
  destruct (tget s (i_sections i)); cbn; split; intros [H|[d H]]; eauto; discriminate.
Qed.

(** ** What is written *)

Definition var_writes (x : variable) (g : config) : list wr :=
  (v_section x, None) ::
  match get_var x g with VUnset => [] | v => [(v_section x, Some (v_name x, value_str v))] end.
Definition dict_writes (s : text) (d : tdict text) : list wr :=
  (s, None) :: map (fun kv => (s, Some kv)) d.
Definition sect_writes (s : text) (g : config) : list wr :=
  match get_section s g with Some (SPlain d) => dict_writes s d | _ => [] end.
Definition param_writes (s : text) (g : config) : list wr :=
  match get_section s g with
  | Some (SParam d) => flat_map (fun ke => dict_writes (s ++ T ":" ++ fst ke) (snd ke)) d
  | _ => []
  end.
Definition writes (c : cls) (g : config) : list wr :=
  flat_map (fun x => var_writes x g) (c_variables c) ++
  flat_map (fun s => sect_writes s g) (c_sections c) ++
  flat_map (fun s => param_writes s g) (c_parametric c).

Lemma ini_set_put s k v i : ~ In PCT v -> ini_set s k v i = Some (put s k (Some v) i).
Proof.
  intros H. unfold ini_set, put. rewrite set_ok_plain by exact H. destruct (is_default s); reflexivity.
Qed.

Section R.
  Variable to_float : text -> option text.
  Variable whole_ok : config -> bool.

  Lemma write_variables_apply l g : (forall x, In x l -> get_var x g = VUnset \/ ~ In PCT (value_str (get_var x g))) ->
    forall i, write_variables l g i = Some (apply (flat_map (fun x => var_writes x g) l) i).
  Proof.
    induction l as [|x l IH]; intros H i; [reflexivity|].
    cbn [write_variables flat_map]. rewrite apply_app.
    assert (H' : forall y, In y l -> get_var y g = VUnset \/ ~ In PCT (value_str (get_var y g))) by (intros; apply H; now right).
    specialize (H x (or_introl eq_refl)).
    set (i0 := if is_default (v_section x) then i else ensure_section (v_section x) i).
    assert (V : apply (var_writes x g) i =
      match get_var x g with VUnset => i0 | v => put (v_section x) (v_name x) (Some (value_str v)) i0 end)
      by (unfold var_writes; destruct (get_var x g); reflexivity).
    rewrite V. cbn zeta. fold i0. destruct (get_var x g) eqn:E;
      try (destruct H as [H|H]; [discriminate H|]; rewrite ini_set_put by exact H; now rewrite IH by exact H').
    now rewrite IH by exact H'.
  Qed.

  Lemma set_all_apply s d : (forall k v, In (k, v) d -> ~ In PCT v) ->
    forall i, set_all s d i = Some (apply (map (fun kv => (s, Some kv)) d) i).
  Proof.
    induction d as [|[k v] d IH]; intros H i; [reflexivity|]. cbn [set_all map].
    rewrite ini_set_put by (apply (H k); now left). rewrite IH by (intros k' v' Hin; apply (H k'); now right). reflexivity.
  Qed.

  Lemma dict_apply s d : s <> DEFAULT -> (forall k v, In (k, v) d -> ~ In PCT v) ->
    forall i, set_all s d (ensure_section s i) = Some (apply (dict_writes s d) i).
  Proof.
    intros Hs H i. rewrite set_all_apply by exact H. unfold dict_writes. cbn [apply fold_left apply1].
    assert (is_default s = false) as -> by (apply text_eqb_neq; exact Hs). reflexivity.
  Qed.

  Lemma write_sections_apply l g : (forall s, In s l -> s <> DEFAULT /\ exists d, get_section s g = Some (SPlain d) /\ good_dict d) ->
    forall i, write_sections l g i = Some (apply (flat_map (fun s => sect_writes s g) l) i).
  Proof.
    induction l as [|s l IH]; intros H i; [reflexivity|]. cbn [write_sections flat_map]. rewrite apply_app.
    destruct (H s (or_introl eq_refl)) as (Hs & d & Hd & [_ G]).
    assert (is_default s = false) as -> by (apply text_eqb_neq; exact Hs). rewrite Hd.
    rewrite dict_apply; [|exact Hs|intros k v Hin; apply (G k v Hin)]. assert (V : sect_writes s g = dict_writes s d) by (unfold sect_writes; now rewrite Hd). rewrite V.
    apply IH. intros s' Hs'. apply H. now right.
  Qed.

  Lemma no_colon_default s k : s ++ T ":" ++ k <> DEFAULT.
  Proof.
    intros H. assert (X : In ":"%char DEFAULT).
    { rewrite <- H. apply in_or_app. right. now left. }
    cbn in X. intuition discriminate.
  Qed.

  Lemma set_params_apply s d : (forall k e, In (k, e) d -> forall k' v, In (k', v) e -> ~ In PCT v) ->
    forall i, set_params s d i = Some (apply (flat_map (fun ke => dict_writes (s ++ T ":" ++ fst ke) (snd ke)) d) i).
  Proof.
    induction d as [|[k e] d IH]; intros H i; [reflexivity|]. cbn [set_params flat_map fst snd]. rewrite apply_app.
    rewrite dict_apply; [|apply no_colon_default|apply (H k); now left].
    apply IH. intros k' e' Hin. apply (H k' e'). now right.
  Qed.

  Lemma write_parametric_apply l g :
    (forall s, In s l -> exists d, get_section s g = Some (SParam d) /\
        forall k e, In (k, e) d -> good_dict e) ->
    forall i, write_parametric l g i = Some (apply (flat_map (fun s => param_writes s g) l) i).
  Proof.
    induction l as [|s l IH]; intros H i; [reflexivity|]. cbn [write_parametric flat_map]. rewrite apply_app.
    destruct (H s (or_introl eq_refl)) as (d & Hd & G). rewrite Hd.
    rewrite set_params_apply by (intros k e Hin k' v Hk; now apply (proj2 (G k e Hin) k' v)).
    assert (V : param_writes s g = flat_map (fun ke => dict_writes (s ++ T ":" ++ fst ke) (snd ke)) d)
      by (unfold param_writes; now rewrite Hd).
    rewrite V. apply IH. intros s' Hs'. apply H. now right.
  Qed.

  Lemma get_parser_apply c g : good_class c -> good_config to_float c g ->
    get_parser_obj c g = Some (apply (writes c g) empty_ini).
  Proof.
    intros GC GG. unfold get_parser_obj.
    rewrite write_variables_apply.
    2:{ intros x Hx. destruct (gg_variables _ _ _ GG x Hx) as [H|[H _]]; [now left|]. right. now apply storable_text in H. }
    rewrite write_sections_apply.
    2:{ intros s Hs. split.
        - apply (gc_plain _ GC). apply in_or_app. now left.
        - apply (gg_sections _ _ _ GG s Hs). }
    rewrite write_parametric_apply.
    2:{ intros s Hs. destruct (gg_parametric _ _ _ GG s Hs) as (d & A & _ & B). exists d. split; auto. intros k e H. now apply (B k e). }
    unfold writes. now rewrite !apply_app.
  Qed.

  (** Where a write comes from *)

  Lemma in_dict_writes s d s' o : In (s', o) (dict_writes s d) <-> s' = s /\ (o = None \/ exists kv, o = Some kv /\ In kv d).
  Proof.
    unfold dict_writes. cbn [In]. rewrite in_map_iff. split.
    - intros [[= <- <-]|(kv & [= <- <-] & H)]; split; auto. right. eauto.
    - intros [-> [->|(kv & -> & H)]]; [now left|]. right. eauto.
  Qed.

  Lemma colon_split (s s' k k' : text) : ~ In ":"%char s -> ~ In ":"%char s' ->
    s ++ T ":" ++ k = s' ++ T ":" ++ k' -> s = s' /\ k = k'.
  Proof.
    revert s'. induction s as [|a s IH]; intros [|b s'] A B E; cbn in E.
    - now injection E as ->.
    - injection E as <- _. exfalso. apply B. now left.
    - injection E as -> _. exfalso. apply A. now left.
    - injection E as -> E. destruct (IH s') as [-> ->]; auto.
      + intros H. apply A. now right.
      + intros H. apply B. now right.
  Qed.

  Inductive from (c : cls) (g : config) : text -> option (text * text) -> Prop :=
  | from_var x : In x (c_variables c) -> from c g (v_section x) None
  | from_val x : In x (c_variables c) -> get_var x g <> VUnset ->
      from c g (v_section x) (Some (v_name x, value_str (get_var x g)))
  | from_sect s d o : In s (c_sections c) -> get_section s g = Some (SPlain d) ->
      (o = None \/ exists kv, o = Some kv /\ In kv d) -> from c g s o
  | from_param s d k e o : In s (c_parametric c) -> get_section s g = Some (SParam d) -> In (k, e) d ->
      (o = None \/ exists kv, o = Some kv /\ In kv e) -> from c g (s ++ T ":" ++ k) o.

  Lemma writes_from c g s o : In (s, o) (writes c g) <-> from c g s o.
  Proof.
    unfold writes. rewrite !in_app_iff, !in_flat_map. split.
    - intros [(x & Hx & H)|[(s' & Hs & H)|(s' & Hs & H)]].
      + unfold var_writes in H. destruct H as [[= <- <-]|H]; [now apply from_var|].
        assert (N : get_var x g <> VUnset) by (intros E; rewrite E in H; destruct H).
        pose proof (from_val c g x Hx N) as F.
        destruct (get_var x g); try (destruct H as [[= <- <-]|[]]; exact F). destruct H.
      + unfold sect_writes in H. destruct (get_section s' g) as [[d|]|] eqn:E; [|destruct H|destruct H].
        apply in_dict_writes in H. destruct H as [-> H]. eapply from_sect; eauto.
      + unfold param_writes in H. destruct (get_section s' g) as [[|d]|] eqn:E; [destruct H| |destruct H].
        apply in_flat_map in H. destruct H as ([k e] & Hin & H). apply in_dict_writes in H. destruct H as [-> H].
        eapply from_param; eauto.
    - intros H. destruct H as [x Hx|x Hx N|s d o Hs Hd H|s d k e o Hs Hd Hin H].
      + left. exists x. split; auto. now left.
      + left. exists x. split; auto. right. destruct (get_var x g); try (now left). congruence.
      + right. left. exists s. split; auto. unfold sect_writes. rewrite Hd. apply in_dict_writes. auto.
      + right. right. exists s. split; auto. unfold param_writes. rewrite Hd. apply in_flat_map. exists (k, e). split; auto.
        apply in_dict_writes. auto.
  Qed.

  Lemma same_variable c x y : good_class c -> In x (c_variables c) -> In y (c_variables c) ->
    v_section x = v_section y -> v_name x = v_name y -> x = y.
  Proof.
    intros GC Hx Hy E1 E2. pose proof (gc_distinct _ GC) as N.
    assert (M : mangled x = mangled y) by (unfold mangled; now rewrite E1, E2). clear - N Hx Hy M.
    induction (c_variables c) as [|a l IH]; [destruct Hx|]. cbn in N. inversion N; subst.
    destruct Hx as [->|Hx], Hy as [->|Hy]; auto.
    - exfalso. apply H1. rewrite M. now apply in_map.
    - exfalso. apply H1. rewrite <- M. now apply in_map.
  Qed.

  Lemma colon_in (s k : text) : In ":"%char (s ++ T ":" ++ k).
  Proof. apply in_or_app. right. now left. Qed.

  Lemma nodup_fun {A} (d : list (text * A)) k v v' : NoDup (map fst d) -> In (k, v) d -> In (k, v') d -> v = v'.
  Proof. intros N H H'. apply (In_tget _ _ _ N) in H. apply (In_tget _ _ _ N) in H'. congruence. Qed.

  (** What is written in a section *)
  Lemma from_variable c g x o : good_class c -> In x (c_variables c) -> from c g (v_section x) o ->
    o = None \/ exists y, In y (c_variables c) /\ v_section y = v_section x /\ get_var y g <> VUnset /\
      o = Some (v_name y, value_str (get_var y g)).
  Proof.
    intros GC Hx H. destruct (gc_variables _ GC x Hx) as (_ & [_ P] & NS).
    inversion H as [y Hy E|y Hy N E|s d o' Hs Hd Ho E|s d k e o' Hs Hd Hin Ho E]; subst.
    - now left.
    - right. eauto.
    - contradiction.
    - exfalso. apply P. rewrite <- E. apply colon_in.
  Qed.

  Lemma from_section c g s d o : good_class c -> In s (c_sections c) -> get_section s g = Some (SPlain d) ->
    from c g s o -> o = None \/ exists kv, o = Some kv /\ In kv d.
  Proof.
    intros GC Hs Hd H. destruct (gc_plain _ GC s) as [[_ P] _]; [apply in_or_app; now left|].
    inversion H as [y Hy E|y Hy N E|s' d' o' Hs' Hd' Ho E|s' d' k e o' Hs' Hd' Hin Ho E]; subst.
    - now left.
    - exfalso. apply (gc_variables _ GC y Hy). exact Hs.
    - assert (d' = d) by congruence. now subst.
    - exfalso. apply P. apply colon_in.
  Qed.

  Lemma from_parametric c g s d k o : good_class c -> In s (c_parametric c) -> get_section s g = Some (SParam d) ->
    from c g (s ++ T ":" ++ k) o -> exists e, In (k, e) d /\ (o = None \/ exists kv, o = Some kv /\ In kv e).
  Proof.
    intros GC Hs Hd H. destruct (gc_plain _ GC s) as [[_ P] _]; [apply in_or_app; now right|].
    inversion H as [y Hy E|y Hy N E|s' d' o' Hs' Hd' Ho E|s' d' k' e o' Hs' Hd' Hin Ho E]; subst.
    - exfalso. destruct (gc_variables _ GC y Hy) as (_ & [_ Q] & _). apply Q. rewrite E. apply colon_in.
    - exfalso. destruct (gc_variables _ GC y Hy) as (_ & [_ Q] & _). apply Q. rewrite E. apply colon_in.
    - exfalso. destruct (gc_plain _ GC (s ++ T ":" ++ k)) as [[_ Q] _]; [apply in_or_app; now left|]. apply Q. apply colon_in.
    - destruct (gc_plain _ GC s') as [[_ Q] _]; [apply in_or_app; now right|].
      destruct (colon_split s' s k' k Q P E) as [-> ->]. assert (d' = d) by congruence. subst. eauto.
  Qed.

  Lemma writes_functional c g : good_class c -> good_config to_float c g -> functional (writes c g).
  Proof.
    intros GC GG s k v v' H H'. apply writes_from in H. apply writes_from in H'.
    inversion H as [|x Hx N E1 E2|s1 d1 o1 Hs1 Hd1 Ho1 E1 E2|s1 d1 k1 e1 o1 Hs1 Hd1 Hin1 Ho1 E1 E2]; subst.
    - apply from_variable in H'; auto. destruct H' as [H'|(y & Hy & A & B & C)]; [discriminate|].
      injection C as C1 C2. assert (x = y) by (eapply same_variable; eauto). now subst.
    - eapply from_section in H'; eauto. destruct H' as [H'|(kv & [= <-] & C)]; [discriminate|].
      destruct Ho1 as [Ho1|(kv & [= <-] & D)]; [discriminate|].
      destruct (gg_sections _ _ _ GG s Hs1) as (d & Hd & [ND _]). assert (d = d1) by congruence. subst.
      eapply nodup_fun; eauto.
    - eapply from_parametric in H'; eauto. destruct H' as (e' & Hin' & [H'|(kv & [= <-] & C)]); [discriminate|].
      destruct Ho1 as [Ho1|(kv & [= <-] & D)]; [discriminate|].
      destruct (gg_parametric _ _ _ GG s1 Hs1) as (d & Hd & ND & G). assert (d = d1) by congruence. subst.
      assert (e1 = e') by (eapply nodup_fun; eauto). subst.
      destruct (G k1 e' Hin') as (_ & [ND' _]). eapply nodup_fun; eauto.
  Qed.

  Lemma writes_good c g : good_class c -> good_config to_float c g -> Forall good_write (writes c g).
  Proof.
    intros GC GG. apply Forall_forall. intros [s o] H. apply writes_from in H.
    inversion H as [x Hx E1 E2|x Hx N E1 E2|s1 d1 o1 Hs1 Hd1 Ho1 E1 E2|s1 d1 k1 e1 o1 Hs1 Hd1 Hin1 Ho1 E1 E2]; subst; split; cbn [fst snd]; auto.
    - apply (gc_variables _ GC x Hx).
    - apply (gc_variables _ GC x Hx).
    - split; [apply (gc_variables _ GC x Hx)|]. destruct (gg_variables _ _ _ GG x Hx) as [C|[C _]]; [contradiction|].
      now apply storable_text in C.
    - apply (gc_plain _ GC). apply in_or_app. now left.
    - destruct o as [[k v]|]; [|exact I]. destruct Ho1 as [|(kv & [= <-] & D)]; [discriminate|].
      destruct (gg_sections _ _ _ GG s Hs1) as (d & Hd & [_ G]). assert (d = d1) by congruence. subst.
      destruct (G k v D) as (A & B & _). auto.
    - destruct (gg_parametric _ _ _ GG s1 Hs1) as (d & Hd & ND & G). assert (d = d1) by congruence. subst.
      destruct (G k1 e1 Hin1) as (A & _). split.
      + destruct s1; discriminate.
      + intros C. apply in_app_or in C. destruct C as [C|C].
        * destruct (gc_plain _ GC s1) as [[[_ Q] _] _]; [apply in_or_app; now right|]. auto.
        * cbn in C. destruct C as [C|C]; [discriminate|auto].
    - destruct o as [[k v]|]; [|exact I]. destruct Ho1 as [|(kv & [= <-] & D)]; [discriminate|].
      destruct (gg_parametric _ _ _ GG s1 Hs1) as (d & Hd & ND & G). assert (d = d1) by congruence. subst.
      destruct (G k1 e1 Hin1) as (_ & [_ B]). destruct (B k v D) as (X & Y & _). auto.
  Qed.

  (** ** Reading back *)

  Lemma expands_plain m t : ~ In PCT t -> expands m 9 t t.
  Proof. intros H. apply interpolate_expands. now apply interpolate_plain. Qed.

  Section Back.
    Variable c : cls.
    Variable g : config.
    Variable j : ini.
    Hypothesis GC : good_class c.
    Hypothesis GG : good_config to_float c g.
    Hypothesis Jheld : forall s k, held j s k = held (apply (writes c g) empty_ini) s k.
    Hypothesis Jhas : forall s, has_section j s <-> has_section (apply (writes c g) empty_ini) s.
    Hypothesis Jdef : no_default j.
    Hypothesis Jdup : nodup_ini j.

    Lemma j_held s k o : held j s k = Some o <-> exists v, o = Some v /\ from c g s (Some (k, v)).
    Proof.
      rewrite Jheld, held_apply_iff by (now apply writes_functional).
      split; intros (v & -> & H); exists v; (split; [reflexivity|]); now apply writes_from.
    Qed.
    Lemma j_held_none s k : held j s k = None <-> forall v, ~ from c g s (Some (k, v)).
    Proof.
      rewrite Jheld, held_apply_no by (now apply writes_functional).
      split; intros H v Hv; apply (H v); now apply writes_from.
    Qed.
    Lemma j_has s : has_section j s <-> s = DEFAULT \/ exists o, from c g s o.
    Proof.
      rewrite Jhas, has_apply. split.
      - intros [[H|[d H]]|[o H]]; [now left|discriminate|right; exists o; now apply writes_from].
      - intros [H|[o H]]; [left; now left|right; exists o; now apply writes_from].
    Qed.

    (** Options of [DEFAULT] *)
    Lemma j_default k o : held j DEFAULT k = Some o <-> exists t, o = Some t /\ default_text c g k t.
    Proof.
      rewrite j_held. split.
      - intros (v & -> & H). exists v. split; [reflexivity|].
        inversion H as [|x Hx N E1 E2|s1 d1 o1 Hs1 Hd1 Ho1 E1 E2|s1 d1 k1 e1 o1 Hs1 Hd1 Hin1 Ho1 E1 E2]; subst.
        + exists x. auto.
        + exfalso. destruct (gc_plain _ GC DEFAULT) as [_ Q]; [apply in_or_app; now left|]. congruence.
        + exfalso. symmetry in E1. apply (no_colon_default s1 k1). now symmetry.
      - intros (t & -> & (x & Hx & E1 & E2 & N & ->)). eexists. split; [reflexivity|].
        rewrite <- E1, <- E2. now apply from_val.
    Qed.

    Lemma no_pct s k v : held j s k = Some (Some v) -> ~ In PCT v.
    Proof.
      rewrite j_held. intros (v' & [= <-] & H).
      inversion H as [|x Hx N E1 E2|s1 d1 o1 Hs1 Hd1 Ho1 E1 E2|s1 d1 k1 e1 o1 Hs1 Hd1 Hin1 Ho1 E1 E2]; subst.
      - destruct (gg_variables _ _ _ GG x Hx) as [C|[C _]]; [contradiction|]. now apply storable_text in C.
      - destruct Ho1 as [|(kv & [= <-] & D)]; [discriminate|].
        destruct (gg_sections _ _ _ GG s Hs1) as (d & Hd & [_ G]). assert (d = d1) by congruence. subst.
        now destruct (G k v D) as (_ & _ & Q).
      - destruct Ho1 as [|(kv & [= <-] & D)]; [discriminate|].
        destruct (gg_parametric _ _ _ GG s1 Hs1) as (d & Hd & ND & G). assert (d = d1) by congruence. subst.
        destruct (G k1 e1 Hin1) as (_ & [_ B]). now destruct (B k v D) as (_ & _ & Q).
    Qed.
    Lemma no_pct_offered s k v : offered j s k = Some (Some v) -> ~ In PCT v.
    Proof.
      unfold offered. destruct (held j s k) eqn:E; [|apply no_pct]. intros [= ->]. eapply no_pct; eauto.
    Qed.
    Lemma no_bare s k : offered j s k <> Some None.
    Proof.
      unfold offered. destruct (held j s k) as [o|] eqn:E.
      - apply j_held in E. destruct E as (v & -> & _). discriminate.
      - intros H. apply j_held in H. destruct H as (v & H & _). discriminate.
    Qed.
    Lemma all_readable s : readable_section j s.
    Proof. intros k raw H. exists raw. apply expands_plain. eapply no_pct_offered; eauto. Qed.

    Lemma offered_variable x : In x (c_variables c) ->
      offered j (v_section x) (v_name x) =
      match get_var x g with VUnset => None | v => Some (Some (value_str v)) end.
    Proof.
      intros Hx.
      assert (K : get_var x g <> VUnset -> offered j (v_section x) (v_name x) = Some (Some (value_str (get_var x g)))).
      { intros N. unfold offered.
        assert (E : held j (v_section x) (v_name x) = Some (Some (value_str (get_var x g)))).
        { apply j_held. eexists. split; [reflexivity|]. now apply from_val. }
        now rewrite E. }
      assert (L : get_var x g = VUnset -> offered j (v_section x) (v_name x) = None).
      { intros N. unfold offered.
        assert (Q : forall y, In y (c_variables c) -> v_section y = v_section x -> v_name y = v_name x -> get_var y g <> VUnset -> False).
        { intros y Hy E1 E2 E3. assert (y = x) by (eapply same_variable; eauto). subst. congruence. }
        assert (E : held j (v_section x) (v_name x) = None).
        { apply j_held_none. intros v F. apply from_variable in F; auto. destruct F as [F|(y & Hy & A & B & C)]; [discriminate|].
          injection C as C1 C2. eapply Q; eauto. }
        rewrite E. destruct (held j DEFAULT (v_name x)) as [o|] eqn:D; [|reflexivity]. exfalso.
        apply j_default in D. destruct D as (t & -> & (y & Hy & E1 & E2 & N' & ->)).
        destruct (list_eq_dec ascii_dec (v_section x) DEFAULT) as [Ed|Nd].
        - apply (Q y); auto. congruence.
        - eapply (gc_default _ GC y x); eauto. }
      destruct (get_var x g) eqn:E; try (apply K; discriminate). now apply L.
    Qed.

    Definition back (x : variable) : value := match get_var x g with VUnset => v_default x | v => v end.

    Lemma says_back x : In x (c_variables c) -> says to_float j x (back x).
    Proof.
      intros Hx. pose proof (offered_variable x Hx) as O. unfold back.
      assert (Hs : has_section j (v_section x)).
      { apply j_has. right. exists None. now apply from_var. }
      destruct (gg_variables _ _ _ GG x Hx) as [N|[S V]].
      - rewrite N in *. now apply says_nothing.
      - assert (N : get_var x g <> VUnset) by (intros E; rewrite E in S; inversion S).
        destruct (storable_text _ _ _ S) as (W & P & D).
        assert (O' : offered j (v_section x) (v_name x) = Some (Some (value_str (get_var x g)))).
        { rewrite O. destruct (get_var x g); try reflexivity. congruence. }
        assert (B : match get_var x g with VUnset => v_default x | v => v end = get_var x g).
        { destruct (get_var x g); try reflexivity. congruence. }
        rewrite B. eapply says_value; eauto. now apply expands_plain.
    Qed.

    Lemma offered_dict s d : s <> DEFAULT -> (forall k v, from c g s (Some (k, v)) <-> In (k, v) d) -> NoDup (map fst d) ->
      forall d', section_dict j s d' -> restored c g d d'.
    Proof.
      intros Hs Hd ND d' Hd' k t. specialize (Hd' k).
      assert (O : offered j s k = match tget k d with Some v => Some (Some v) | None => held j DEFAULT k end).
      { unfold offered. destruct (tget k d) as [v|] eqn:E.
        - assert (X : held j s k = Some (Some v)).
          { apply j_held. exists v. split; [reflexivity|]. apply Hd. now apply tget_In. }
          now rewrite X.
        - assert (X : held j s k = None).
          { apply j_held_none. intros v F. apply Hd in F. apply (In_tget _ _ _ ND) in F. congruence. }
          now rewrite X. }
      destruct (tget k d') as [t'|].
      - inversion Hd' as [Hn|raw t'' Hr Hx]; subst.
        + exfalso. eapply no_bare; eauto.
        + assert (t' = raw).
          { eapply expands_fun; eauto. apply expands_plain. eapply no_pct_offered; eauto. }
          subst. rewrite O in Hr. destruct (tget k d) as [v|].
          * injection Hr as ->. intuition congruence.
          * apply j_default in Hr. destruct Hr as (t1 & [= <-] & D). split.
            -- intros [= <-]. auto.
            -- intros [H|[_ D']]; [discriminate|]. f_equal.
               assert (X : held j DEFAULT k = Some (Some t)) by (apply j_default; eauto).
               assert (Y : held j DEFAULT k = Some (Some raw)) by (apply j_default; eauto). congruence.
      - rewrite O in Hd'. destruct (tget k d) as [v|]; [discriminate|]. split; [discriminate|].
        intros [H|[_ D]]; [discriminate|]. exfalso.
        assert (X : held j DEFAULT k = Some (Some t)) by (apply j_default; eauto). congruence.
    Qed.
  End Back.

  Lemma Forall2_fun {A B} (R : A -> B -> Prop) (f : A -> B) l vs :
    (forall x v, In x l -> R x v -> v = f x) -> Forall2 R l vs -> vs = map f l.
  Proof.
    intros H F. induction F; [reflexivity|]. cbn. f_equal.
    - apply H; auto. now left.
    - apply IHF. intros a b Ha. apply H. now right.
  Qed.

  Lemma combine_map {A B} (f : A -> B) l : combine l (map f l) = map (fun x => (x, f x)) l.
  Proof. induction l; cbn; congruence. Qed.

  Lemma round_trip c g : good_class c -> good_config to_float c g ->
    exists t g', write c g = Some t /\ read_string to_float whole_ok c t new_config = (g', None) /\
      (forall x, In x (c_variables c) -> get_var x g' = back g x) /\
      (forall s d, In s (c_sections c) -> get_section s g = Some (SPlain d) ->
         exists d', get_section s g' = Some (SPlain d') /\ restored c g d d') /\
      (forall s d, In s (c_parametric c) -> get_section s g = Some (SParam d) ->
         exists d', get_section s g' = Some (SParam d') /\
           forall k, match tget k d, tget k d' with
             | Some e, Some e' => restored c g e e' | None, None => True | _, _ => False end) /\
      let seen := refusals (map (fun x => (x, back g x)) (c_variables c)) in
      g_problems g' = seen ++ if whole_ok (mk_config (g_var g') (g_sect g') seen) then [] else [PWhole].
  Proof.
    intros GC GG. set (i := apply (writes c g) empty_ini).
    assert (Wi : writable_ini i) by (apply writable_apply; [now apply writes_good|apply writable_empty]).
    pose proof (read_written i Wi) as RW.
    assert (Jdef : no_default (sorted_ini i)).
    { pose proof (read_text_no_default (write_ini i) empty_ini no_default_empty) as H. now rewrite RW in H. }
    assert (Jdup : nodup_ini (sorted_ini i)).
    { pose proof (read_text_nodup (write_ini i) empty_ini nodup_empty) as H. now rewrite RW in H. }
    assert (Jheld : forall s k, held (sorted_ini i) s k = held (apply (writes c g) empty_ini) s k) by (intros; now apply held_sorted).
    assert (Jhas : forall s, has_section (sorted_ini i) s <-> has_section (apply (writes c g) empty_ini) s) by (intros; apply has_sorted).
    assert (Says : forall x, In x (c_variables c) -> says to_float (sorted_ini i) x (back g x)) by (intros; eapply says_back; eauto).
    assert (Read : forall s, readable_section (sorted_ini i) s) by (eapply all_readable; eauto).
    exists (write_ini i).
    pose proof (read_commit_ends to_float whole_ok c (sorted_ini i) new_config Jdef Jdup) as Ends.
    destruct (read_commit to_float whole_ok c (sorted_ini i) new_config) as [g' e] eqn:RC. cbn [snd] in Ends.
    assert (e = None) as -> by (apply Ends; repeat split; eauto).
    exists g'. split.
    { unfold write. rewrite (get_parser_apply c g GC GG). reflexivity. }
    split.
    { unfold read_string. rewrite RW. exact RC. }
    destruct (read_commit_spec to_float whole_ok c (sorted_ini i) new_config g' Jdef Jdup (gc_distinct _ GC) (gc_sections _ GC) RC)
      as (vs & A & B & C & _ & D & E).
    assert (Evs : vs = map (back g) (c_variables c)).
    { eapply Forall2_fun; [|exact A]. intros x v Hx Hv. specialize (Says x Hx).
      apply read_value_says in Says; auto. apply read_value_says in Hv; auto. congruence. }
    rewrite Evs, combine_map in *. split; [|split; [|split]].
    - intros x Hx. specialize (B x (back g x)). unfold taken in B. rewrite B by (now apply (in_map (fun x => (x, back g x)))).
      destruct (validate x (back g x)) eqn:V; [reflexivity|]. unfold back in *.
      destruct (gg_variables _ _ _ GG x Hx) as [N|[_ N]].
      + now rewrite N.
      + destruct (get_var x g); try congruence. reflexivity.
    - intros s d Hs Hd. destruct (C s Hs) as (d' & Hd' & SD).
      { eapply j_has; eauto. right. exists None. eapply from_sect; eauto. }
      exists d'. split; auto. destruct (gg_sections _ _ _ GG s Hs) as (d0 & Hd0 & [ND _]). assert (d0 = d) by congruence. subst.
      eapply offered_dict; eauto.
      + apply (gc_plain _ GC). apply in_or_app. now left.
      + intros k v. split.
        * intros F. eapply from_section in F; eauto. destruct F as [F|(kv & [= <-] & F)]; [discriminate|exact F].
        * intros F. eapply from_sect; eauto.
    - intros s d Hs Hd. destruct (D s Hs) as (d' & Hd' & PD). exists d'. split; auto.
      destruct (gg_parametric _ _ _ GG s Hs) as (d0 & Hd0 & ND & G). assert (d0 = d) by congruence. subst.
      intros k. specialize (PD k). destruct (tget k d) as [e|] eqn:E1.
      + apply tget_In in E1. destruct (tget k d') as [e'|].
        * destruct PD as [_ SD]. destruct (G k e E1) as (_ & [NDe _]).
          eapply offered_dict; eauto.
          -- apply no_colon_default.
          -- intros k' v. split.
             ++ intros F. eapply from_parametric in F; eauto. destruct F as (e1 & Hin & [F|(kv & [= <-] & F)]); [discriminate|].
                assert (e1 = e) by (eapply nodup_fun; eauto). now subst.
             ++ intros F. eapply from_param; eauto.
        * apply PD. eapply j_has; eauto. right. exists None. eapply from_param; eauto.
      + destruct (tget k d') as [e'|]; [|exact I]. destruct PD as [Hh _].
        eapply j_has in Hh; eauto. destruct Hh as [Hh|[o Hh]]; [now apply no_colon_default in Hh|].
        eapply from_parametric in Hh; eauto. destruct Hh as (e & Hin & _).
        apply (In_tget _ _ _ ND) in Hin. congruence.
    - exact E.
  Qed.
End R.
