(** * C59: the fields of a job mean what is written *)
From Coq Require Import String Ascii List Bool Arith Lia.
From Verif Require Import ScanModel ScanSpec ScanProofs ScanProps Rfc822Model Rfc822Spec Rfc822Proofs IniProofs XparseModel FieldsModel FieldsSpec.
From Verif Require FormatModel.
Import ListNotations.
Open Scope char_scope.
Local Open Scope nat_scope.
Open Scope list_scope.

(** ** Helpers *)

Lemma is_sep_spec c : is_sep c = true <-> separates c.
Proof. unfold is_sep, separates. rewrite orb_true_iff, Ascii.eqb_eq. tauto. Qed.
Lemma is_sep_false c : is_sep c = false <-> ~ separates c.
Proof. rewrite <- is_sep_spec. destruct (is_sep c); intuition congruence. Qed.

Lemma has_colons_spec t : has_colons t = true <-> qualified t.
Proof.
  induction t as [|c r IH]; cbn [has_colons].
  - split; [discriminate|]. intros (a & b & E). destruct a; discriminate.
  - rewrite orb_true_iff, IH, andb_true_iff, Ascii.eqb_eq. split.
    + intros [[-> H]|(a & b & ->)].
      * destruct r as [|d r]; [discriminate|]. apply Ascii.eqb_eq in H. subst d. now exists [], r.
      * now exists (c :: a), b.
    + intros (a & b & E). destruct a as [|x a].
      * injection E as -> ->. left. split; [reflexivity|]. apply Ascii.eqb_refl.
      * injection E as -> ->. right. now exists a, b.
Qed.
Lemma qualified_app a b : qualified (a ++ ":" :: ":" :: b).
Proof. now exists a, b. Qed.

Lemma tget_in {A} k (v : A) d : NoDup (map fst d) -> (tget k d = Some v <-> In (k, v) d).
Proof. intros N. split; [apply tget_In|now apply In_tget]. Qed.

Lemma rstrip_nl_split t : exists n, t = rstrip_nl t ++ repeat NL n.
Proof.
  unfold rstrip_nl. assert (H : forall r, exists n, r = repeat NL n ++ drop_nl r).
  { induction r as [|c r [n IH]]; [now exists 0|]. cbn [drop_nl]. destruct (Ascii.eqb c NL) eqn:E.
    - apply Ascii.eqb_eq in E. subst c. exists (S n). cbn. now rewrite <- IH.
    - now exists 0. }
  destruct (H (rev t)) as [n E]. exists n. apply (f_equal (@rev ascii)) in E. rewrite rev_involutive, rev_app_distr in E. rewrite E at 1. f_equal. clear.
  clear. induction n as [|n IH]; [reflexivity|]. cbn [repeat rev]. rewrite IH. symmetry. exact (repeat_cons n NL).
Qed.
Lemma count_nl_repeat t n : count_nl (t ++ repeat NL n) = count_nl t + n.
Proof.
  unfold count_nl. rewrite count_occ_app. f_equal. induction n as [|n IH]; [reflexivity|]. cbn [repeat].
  rewrite count_occ_cons_eq by reflexivity. now rewrite IH.
Qed.
Lemma split_nl_repeat t n : split_nl (t ++ repeat NL n) = split_nl t ++ repeat [] n.
Proof.
  induction n as [|n IH] in t |- *; [now rewrite !app_nil_r|]. cbn [repeat].
  replace (t ++ NL :: repeat NL n) with ((t ++ [NL]) ++ repeat NL n) by (now rewrite <- app_assoc).
  rewrite IH. replace (split_nl (t ++ [NL])) with (split_nl t ++ [[]]); [now rewrite <- app_assoc|].
  clear. induction t as [|c t IH]; [reflexivity|]. cbn [app split_nl]. rewrite <- IH. destruct (Ascii.eqb c NL); [reflexivity|].
  destruct (split_nl t) as [|l ls] eqn:E; [now destruct (split_nl_ne t)|reflexivity].
Qed.
Lemma margin_nils ls n : margin (ls ++ repeat [] n) = margin ls.
Proof.
  unfold margin. rewrite fold_left_app. generalize (fold_left (fun m l => match l with [] => m | _ => match m with None => Some (leading l) | Some m => Some (common_prefix m (leading l)) end end) ls None) as m.
  induction n as [|n IH]; intros m; [reflexivity|]. cbn [repeat fold_left]. apply IH.
Qed.
Lemma map_nils {A} (f : list A -> list A) n : f [] = [] -> map f (repeat [] n) = repeat [] n.
Proof. intros H. induction n as [|n IH]; [reflexivity|]. cbn. now rewrite H, IH. Qed.
Lemma dedent_nils ls n : dedent_lines (ls ++ repeat [] n) = dedent_lines ls ++ repeat [] n.
Proof.
  unfold dedent_lines. cbv zeta. rewrite map_app, (map_nils (fun l => if forallb isblank l then [] else l)) by reflexivity. rewrite margin_nils.
  destruct (margin _) as [[|c m]|]; try reflexivity. now rewrite map_app, (map_nils (fun l => match drop_prefix (c :: m) l with Some r => r | None => l end)) by reflexivity.
Qed.
Lemma dedent_ne ls : ls <> [] -> dedent_lines ls <> [].
Proof. intros H. unfold dedent_lines. cbv zeta. destruct ls; [easy|]. destruct (margin _) as [[|]|]; discriminate. Qed.
Lemma join_nl_nils ls n : ls <> [] -> join_nl (ls ++ repeat [] n) = join_nl ls ++ repeat NL n.
Proof.
  intros H. induction ls as [|l ls IH]; [easy|]. destruct ls as [|l' ls].
  - clear. cbn [app]. destruct n as [|n]; cbn [repeat]; [cbn; now rewrite app_nil_r|].
    change (join_nl (l :: [] :: repeat [] n)) with (l ++ NL :: join_nl ([] :: repeat [] n)). change (join_nl [l]) with l. do 2 f_equal.
    induction n as [|n IH]; [reflexivity|]. cbn [repeat]. change (join_nl ([] :: [] :: repeat [] n)) with (NL :: join_nl ([] :: repeat [] n)). now rewrite IH.
  - change (join_nl ((l :: l' :: ls) ++ repeat [] n)) with (l ++ NL :: join_nl ((l' :: ls) ++ repeat [] n)). rewrite IH by discriminate.
    change (join_nl (l :: l' :: ls)) with (l ++ NL :: join_nl (l' :: ls)). rewrite <- app_assoc. reflexivity.
Qed.
Lemma blank_nls n : blank (repeat NL n) = true.
Proof. induction n; [reflexivity|assumption]. Qed.
Lemma normalize_nls t n : count_nl t + n <= 1 \/ 1 < count_nl t -> normalize (t ++ repeat NL n) = normalize t.
Proof.
  intros H. unfold normalize. rewrite count_nl_repeat. destruct (Nat.ltb_spec 1 (count_nl t + n)), (Nat.ltb_spec 1 (count_nl t)); try lia.
  - rewrite split_nl_repeat, map_app, (map_nils undot) by reflexivity. rewrite dedent_nils, join_nl_nils.
    + apply strip_app_r, blank_nls.
    + apply dedent_ne. intros E. apply map_eq_nil in E. now apply split_nl_ne in E.
  - apply strip_app_r, blank_nls.
Qed.

(** What is loaded is the normal form of what is written *)
Definition normal (r : record) : Prop := r_data r = map (fun kv => (fst kv, normalize (snd kv))) (r_raw r).
Lemma tset_map (f : text -> text) k v d : tset k (f v) (map (fun kv => (fst kv, f (snd kv))) d) = map (fun kv => (fst kv, f (snd kv))) (tset k v d).
Proof. induction d as [|[k' v'] d IH]; [reflexivity|]. cbn [map tset fst snd]. destruct (text_eqb k k'); cbn; [reflexivity|]. now rewrite IH. Qed.
Lemma normal_commit s : normal (s_rec s) -> normal (s_rec (commit s)).
Proof. unfold commit, normal. destruct (s_key s); [|easy]. cbn. intros ->. apply tset_map. Qed.
Lemma normal_step n l s s' y : normal (s_rec s) -> step n l s = inl (s', y) -> normal (s_rec s') /\ (forall r, y = Some r -> normal r).
Proof.
  intros H. unfold step. destruct (starts_with HASH l); [intros [= <- <-]; easy|].
  destruct (strip l) as [|c0 l0].
  - intros [= <- <-]. split; [reflexivity|]. pose proof (normal_commit s H) as Hc. destruct (r_data (s_rec (commit s))); [easy|]. intros r [= <-]. exact Hc.
  - destruct (starts_with SP l); [destruct (s_key s); [intros [= <- <-]; easy|discriminate]|].
    destruct (split_colon l) as [[k v]|]; [|discriminate].
    assert (H' : normal (s_rec (commit (set_start n s)))) by (apply normal_commit; exact H). revert H'. generalize (commit (set_start n s)) as s1. intros s1 H1. cbv zeta.
    destruct (tget (strip k) (r_data (s_rec s1))); [destruct (tget _ (r_raw _)); discriminate|]. destruct (r_start (s_rec s1)); [|discriminate].
    destruct (strip (lstrip v)); intros [= <- <-]; easy.
Qed.
Lemma load_normal lines rs r : load lines = inl rs -> In r rs -> normal r.
Proof.
  unfold load. assert (G : forall ls n s rs, normal (s_rec s) -> gen n ls s = inl rs -> Forall normal rs).
  { induction ls as [|l ls IH]; intros n s rs0 Hs; cbn [gen].
    - pose proof (normal_commit s Hs) as Hc. destruct (r_data (s_rec (commit s))); intros [= <-]; repeat constructor; exact Hc.
    - destruct (step n l s) as [[s' y]|] eqn:E; [|discriminate]. destruct (normal_step _ _ _ _ _ Hs E) as [H1 H2].
      destruct (gen (S n) ls s') as [rs1|] eqn:E1; [|discriminate]. intros [= <-]. apply IH in E1; [|assumption].
      destruct y as [r0|]; [constructor; auto|assumption]. }
  intros H Hr. eapply Forall_forall; [eapply G; [|exact H]; reflexivity|exact Hr].
Qed.
Lemma tget_map (f : text -> text) k d : tget k (map (fun kv => (fst kv, f (snd kv))) d) = option_map f (tget k d).
Proof. induction d as [|[k' v'] d IH]; [reflexivity|]. cbn. destruct (text_eqb k k'); [reflexivity|exact IH]. Qed.

(** ** Word lists of flags and variables *)

Lemma split_seps_in t : forall skipping acc w,
  Forall (fun c => is_sep c = false) acc -> (skipping = true -> acc = []) -> w <> [] ->
  (In w (split_seps skipping acc t) <->
   (* the piece begun with acc *)
   (exists w1 b, w = rev acc ++ w1 /\ t = w1 ++ b /\ Forall (fun c => is_sep c = false) w1 /\ (b = [] \/ exists c b', b = c :: b' /\ is_sep c = true))
   \/ exists a c b, t = a ++ c :: w ++ b /\ is_sep c = true /\ Forall (fun c => is_sep c = false) w /\ (b = [] \/ exists c b', b = c :: b' /\ is_sep c = true)).
Proof.
  induction t as [|x t IH]; intros sk acc w Hacc Hsk Hw; cbn [split_seps].
  - split.
    + intros [<-|[]]. left. exists [], []. rewrite app_nil_r. auto.
    + intros [(w1 & b & -> & E & _)|(a & c & b & E & _)]; [|now destruct a].
      symmetry in E. apply app_eq_nil in E as [-> ->]. left. now rewrite app_nil_r.
  - destruct (is_sep x) eqn:Ex.
    + assert (Hr : In w (split_seps true [] t) <->
        exists a c b, x :: t = a ++ c :: w ++ b /\ is_sep c = true /\ Forall (fun c => is_sep c = false) w /\ (b = [] \/ exists c b', b = c :: b' /\ is_sep c = true)).
      { rewrite IH by auto. split.
        - intros [(w1 & b & -> & -> & H1 & H2)|(a & c & b & -> & H1 & H2 & H3)].
          + exists [], x, b. auto.
          + exists (x :: a), c, b. auto.
        - intros (a & c & b & E & H1 & H2 & H3). destruct a as [|y a].
          + injection E as <- ->. left. exists w, b. auto.
          + injection E as <- ->. right. exists a, c, b. auto. }
      assert (Hfirst : (exists w1 b, w = rev acc ++ w1 /\ x :: t = w1 ++ b /\ Forall (fun c => is_sep c = false) w1 /\ (b = [] \/ exists c b', b = c :: b' /\ is_sep c = true)) <-> w = rev acc).
      { split.
        - intros (w1 & b & -> & E & H1 & _). destruct w1 as [|y w1]; [now rewrite app_nil_r|]. injection E as <- _. inversion H1. congruence.
        - intros ->. exists [], (x :: t). rewrite app_nil_r. split; [reflexivity|]. split; [reflexivity|]. split; [constructor|]. right. eauto. }
      rewrite Hfirst. destruct sk.
      * rewrite Hr. rewrite (Hsk eq_refl). cbn [rev]. tauto.
      * cbn [In]. rewrite Hr. intuition congruence.
    + rewrite IH; [|now constructor|discriminate|assumption]. split.
      * intros [(w1 & b & -> & -> & H1 & H2)|(a & c & b & -> & H1 & H2 & H3)].
        -- left. exists (x :: w1), b. cbn [rev]. rewrite <- app_assoc. auto.
        -- right. exists (x :: a), c, b. auto.
      * intros [(w1 & b & -> & E & H1 & H2)|(a & c & b & E & H1 & H2 & H3)].
        -- destruct w1 as [|y w1].
           ++ cbn in E. subst b. destruct H2 as [H2|(c & b' & [= <- <-] & H2)]; [discriminate|congruence].
           ++ injection E as <- ->. left. exists w1, b. cbn [rev]. rewrite <- app_assoc. inversion H1. auto.
        -- destruct a as [|y a]; [injection E as <- _; congruence|]. injection E as <- ->. right. exists a, c, b. auto.
Qed.

(** Exactly: the words of a field of flags or variables are the longest stretches without
    separators *)
Theorem C59_flags_are_the_words_written t w : w <> [] -> (In w (resplit t) <-> chunk t w).
Proof.
  intros Hw. unfold resplit. rewrite split_seps_in by auto. cbn [rev app].
  assert (HF : forall l, Forall (fun c => is_sep c = false) l <-> Forall (fun c => ~ separates c) l).
  { intros l. split; apply Forall_impl; intros c; now rewrite is_sep_false. }
  split.
  - intros [(w1 & b & -> & -> & H1 & H2)|(a & c & b & -> & H1 & H2 & H3)].
    + exists [], b. split; [reflexivity|]. split; [now apply HF|]. split; [now left|]. destruct H2 as [->|(c & b' & -> & H2)]; [now left|]. right. exists c, b'. split; [reflexivity|now apply is_sep_spec].
    + exists (a ++ [c]), b. split; [now rewrite <- app_assoc|]. split; [now apply HF|]. split; [right; exists a, c; split; [reflexivity|now apply is_sep_spec]|].
      destruct H3 as [->|(d & b' & -> & H3)]; [now left|]. right. exists d, b'. split; [reflexivity|now apply is_sep_spec].
  - intros (before & after & -> & H1 & H2 & H3). apply HF in H1.
    assert (H3' : after = [] \/ exists c b', after = c :: b' /\ is_sep c = true).
    { destruct H3 as [->|(c & a & -> & H3)]; [now left|]. right. exists c, a. split; [reflexivity|now apply is_sep_spec]. }
    destruct H2 as [->|(b & c & -> & H2)].
    + left. exists w, after. auto.
    + right. exists b, c, after. rewrite <- app_assoc. split; [reflexivity|]. split; [now apply is_sep_spec|]. auto.
Qed.
Print Assumptions C59_flags_are_the_words_written.
(** The empty word is there when the text is empty, or begins or ends with a separator *)
Theorem C59_empty_flag t : In [] (resplit t) <-> t = [] \/ (exists c r, t = c :: r /\ separates c) \/ (exists r c, t = r ++ [c] /\ separates c).
Proof.
  assert (G : forall t sk acc, Forall (fun c => is_sep c = false) acc -> (sk = true -> acc = []) ->
    (In [] (split_seps sk acc t) <-> (acc = [] /\ t = []) \/ (sk = false /\ acc = [] /\ exists c r, t = c :: r /\ is_sep c = true) \/ exists r c, t = r ++ [c] /\ is_sep c = true)).
  { clear t. induction t as [|x t IH]; intros sk acc Ha Hs; cbn [split_seps].
    - split.
      + intros [E|[]]. left. split; [|reflexivity]. rewrite <- (rev_involutive acc), E. reflexivity.
      + intros [[-> _]|[(_ & _ & c & r & E & _)|(r & c & E & _)]]; [now left|discriminate|now destruct r].
    - assert (Hsnoc : (exists r c, x :: t = r ++ [c] /\ is_sep c = true) <-> (t = [] /\ is_sep x = true) \/ exists r c, t = r ++ [c] /\ is_sep c = true).
      { split.
        - intros (r & c & E & H). destruct r as [|y r]; [injection E as -> ->; now left|]. injection E as -> ->. right. eauto.
        - intros [[-> H]|(r & c & -> & H)]; [now exists [], x|]. now exists (x :: r), c. }
      rewrite Hsnoc. destruct (is_sep x) eqn:Ex.
      + assert (Hr : In [] (split_seps true [] t) <-> t = [] \/ exists r c, t = r ++ [c] /\ is_sep c = true).
        { rewrite IH by auto. split; [intros [[_ ->]|[(H & _)|H]]; [now left|discriminate|now right]|]. intros [->|H]; auto. }
        destruct sk.
        * rewrite Hr. rewrite (Hs eq_refl). split; [intros [->|H]; auto|]. intros [[_ H]|[(H & _)|[[-> _]|H]]]; auto; discriminate.
        * cbn [In]. rewrite Hr. split.
          -- intros [E|[->|H]]; auto. right. left. split; [reflexivity|]. split; [rewrite <- (rev_involutive acc), E; reflexivity|]. eauto.
          -- intros [[_ H]|[(_ & -> & _)|[[-> _]|H]]]; auto; discriminate.
      + rewrite IH; [|now constructor|discriminate]. split.
        * intros [[H _]|[(_ & H & _)|H]]; [discriminate|discriminate|auto].
        * intros [[_ H]|[(_ & _ & c & r & [= <- <-] & H)|[[_ H]|H]]]; auto; congruence. }
  unfold resplit. rewrite G by auto. split.
  - intros [[_ ->]|[(_ & _ & c & r & -> & H)|(r & c & -> & H)]]; [now left|right; left|right; right]; [exists c, r|exists r, c]; (split; [reflexivity|now apply is_sep_spec]).
  - intros [->|[(c & r & -> & H)|(r & c & -> & H)]]; [now left; auto|right; left|right; right].
    + split; [reflexivity|]. split; [reflexivity|]. exists c, r. split; [reflexivity|now apply is_sep_spec].
    + exists r, c. split; [reflexivity|now apply is_sep_spec].
Qed.
Print Assumptions C59_empty_flag.

Section Props.
  Variable P : Type.
  Variable vformat : P -> text -> text + fault.
  Variable render : option P -> text -> text.
  Notation unit_ := (unit_ P).
  Notation record_value := (record_value P vformat render).
  Notation translated_value := (translated_value P vformat render).
  Notation raw_record_value := (raw_record_value P vformat render).
  Notation partial_id := (partial_id P vformat render).
  Notation job_id := (job_id P vformat render).
  Notation qualify_id := (qualify_id P).

  Let either_spec data name default : NoDup (map fst data) ->
    match either name data default with Some v => written_value data name default v | None => no_written_value data name default end.
  Proof.
    intros N. unfold either, written_value, no_written_value, UNDERSCORE.
    destruct (tget ("_" :: name) data) as [v|] eqn:E1; [left; now apply tget_in|]. apply tget_none in E1.
    destruct (tget name data) as [v|] eqn:E2; [right; left; split; [assumption|now apply tget_in]|]. apply tget_none in E2.
    destruct default; auto.
  Qed.
  Let written_one data name default v v' : NoDup (map fst data) -> written_value data name default v -> written_value data name default v' -> v = v'.
  Proof.
    intros N H H'. assert (G : forall k a b, In (k, a) data -> In (k, b) data -> a = b).
    { intros k a b Ha Hb. apply (tget_in _ _ _ N) in Ha, Hb. congruence. }
    assert (I : forall k a, In (k, a) data -> In k (map fst data)) by (intros k a Ha; exact (in_map fst _ _ Ha)).
    destruct H as [H|[[N1 H]|(N1 & N2 & H)]], H' as [H'|[[N1' H']|(N1' & N2' & H')]]; try (now apply I in H); try (now apply I in H'); try (eapply G; eassumption); try congruence;
      try (exfalso; eauto).
  Qed.

  (** ** Values *)

  (** A unit that is not made from a template: the written value *)
  Theorem C59_value_is_the_one_written (u : unit_) name default v :
    NoDup (map fst (f_data _ u)) -> f_params _ u = None -> jinja _ u = false ->
    (record_value u name default = inl (Some v) <-> written_value (f_data _ u) name default v).
  Proof.
    intros N Hp Hj. unfold FieldsModel.record_value, insert. rewrite Hp, Hj. cbn [to_missing].
    pose proof (either_spec (f_data _ u) name default N) as E. destruct (either name (f_data _ u) default) as [w|].
    - split; [intros [= ->]; exact E|]. intros H. do 2 f_equal. eapply written_one; eassumption.
    - split; [discriminate|]. destruct E as (E1 & E2 & E3). intros [H|[[_ H]|(_ & _ & H)]].
      + destruct E1. exact (in_map fst _ _ H).
      + destruct E2. exact (in_map fst _ _ H).
      + congruence.
  Qed.
  Theorem C59_no_value (u : unit_) name default : NoDup (map fst (f_data _ u)) ->
    (record_value u name default = inl None <-> no_written_value (f_data _ u) name default).
  Proof.
    intros N. unfold FieldsModel.record_value. pose proof (either_spec (f_data _ u) name default N) as E.
    destruct (either name (f_data _ u) default) as [w|]; [|easy]. split.
    - destruct (to_missing (insert P vformat render u w)); discriminate.
    - intros (E1 & E2 & E3). destruct E as [H|[[_ H]|(_ & _ & H)]]; [destruct E1|destruct E2|congruence]; exact (in_map fst _ _ H).
  Qed.
  (** An instance of a template: the written value with the parameters put in *)
  Theorem C59_value_of_an_instance (u : unit_) p name default v :
    NoDup (map fst (f_data _ u)) -> f_params _ u = Some p -> jinja _ u = false ->
    written_value (f_data _ u) name default v ->
    record_value u name default =
      match vformat p v with inl t => inl (Some t) | inr (Key_error k) => inr (Missing_param k) | inr e => inr e end.
  Proof.
    intros N Hp Hj H. unfold FieldsModel.record_value, insert. rewrite Hp, Hj.
    pose proof (either_spec (f_data _ u) name default N) as E. destruct (either name (f_data _ u) default) as [w|].
    - rewrite (written_one _ _ _ _ _ N E H). unfold to_missing. destruct (vformat p v) as [|[]]; reflexivity.
    - destruct E as (E1 & E2 & E3). destruct H as [H|[[_ H]|(_ & _ & H)]]; [destruct E1|destruct E2|congruence]; exact (in_map fst _ _ H).
  Qed.

  (** ** Translations *)

  (** A unit loaded from a file, whose provider translates nothing, has as translated values
      the values themselves, if no raw value marked for translation has exactly one line end
      left once those at its end are dropped and has any dropped. *)
  Theorem C59_untranslated lines rs r provider params name x :
    load lines = inl rs -> In r rs ->
    match provider with Some (_, tr) => forall t, tr t = t | None => True end ->
    (forall v, In ("_" :: name, v) (r_raw r) -> count_nl v <= 1 \/ 1 < count_nl (rstrip_nl v)) ->
    let u := from_record P (r_data r) (r_raw r) provider params in
    translated_value u name None = inl x <-> record_value u name None = inl x.
  Proof.
    intros Hl Hr Hp Hc u. pose proof (load_normal _ _ _ Hl Hr) as Hn. unfold normal in Hn.
    unfold FieldsModel.translated_value, FieldsModel.record_value, either. subst u. cbn [from_record f_data f_raw f_provider f_params].
    set (u := mk_unit P (r_data r) (map (fun kv => (fst kv, rstrip_nl (snd kv))) (r_raw r)) provider params).
    change (insert P vformat render (from_record P (r_data r) (r_raw r) provider params)) with (insert P vformat render u).
    assert (Hi : forall v, match insert P vformat render u v with inl v => inl (Some v) | inr e => inr e end = inl x <->
                           match to_missing (insert P vformat render u v) with inl v => inl (Some v) | inr e => inr e end = inl x).
    { intros v. destruct (insert P vformat render u v) as [t|[]]; cbn; split; intros H; try exact H; discriminate H. }
    assert (Hg : forall k, tget k (r_data r) = option_map normalize (tget k (r_raw r))) by (intros k; rewrite Hn; apply tget_map).
    rewrite tget_map, !Hg. unfold UNDERSCORE. destruct (tget ("_" :: name) (r_raw r)) as [v|] eqn:E; cbn [option_map].
    - assert (Ht : normalize (translated_data P (from_record P (r_data r) (r_raw r) provider params) (rstrip_nl v)) = normalize v).
      { replace (translated_data P _ (rstrip_nl v)) with (rstrip_nl v).
        - destruct (rstrip_nl_split v) as [n Ev]. rewrite Ev at 2. symmetry. apply normalize_nls.
          specialize (Hc v (tget_In _ _ _ E)). rewrite Ev, count_nl_repeat in Hc at 1. exact Hc.
        - unfold translated_data. cbn [from_record f_provider]. destruct (rstrip_nl v); [reflexivity|]. destruct provider as [[ns tr]|]; [now rewrite Hp|reflexivity]. }
      rewrite Ht. apply Hi.
    - destruct (tget name (r_raw r)) as [v|]; cbn [option_map]; [|easy]. apply Hi.
  Qed.

  (** A value marked for translation is looked up as it is written, without the line ends at
      its end; the translation is brought into normal form.  Other fields and the empty text
      are never looked up. *)
  Theorem C59_translated (u : unit_) name default v :
    NoDup (map fst (f_raw _ u)) -> NoDup (map fst (f_data _ u)) -> f_params _ u = None -> jinja _ u = false ->
    (translated_value u name default = inl (Some v) <->
     (exists msgid, In ("_" :: name, msgid) (f_raw _ u) /\
        v = normalize (match f_provider _ u with Some (_, tr) => if text_eqb msgid [] then [] else tr msgid | None => msgid end))
     \/ ~ In ("_" :: name) (map fst (f_raw _ u)) /\ In (name, v) (f_data _ u)
     \/ ~ In ("_" :: name) (map fst (f_raw _ u)) /\ ~ In name (map fst (f_data _ u)) /\ default = Some v).
  Proof.
    intros N N' Hp Hj. unfold FieldsModel.translated_value, insert, UNDERSCORE. rewrite Hp, Hj.
    destruct (tget ("_" :: name) (f_raw _ u)) as [m|] eqn:E.
    - pose proof (tget_In _ _ _ E) as Hin. pose proof (in_map fst _ _ Hin) as Hin'. cbn [fst] in Hin'.
      replace (translated_data P u m) with (match f_provider _ u with Some (_, tr) => if text_eqb m [] then [] else tr m | None => m end)
        by (unfold translated_data; destruct m as [|c m]; destruct (f_provider _ u) as [[]|]; reflexivity).
      split.
      + intros [= <-]. left. exists m. auto.
      + intros [(m' & Hm & ->)|[[H _]|[H _]]]; [|contradiction|contradiction].
        apply (tget_in _ _ _ N) in Hm. rewrite E in Hm. injection Hm as <-. reflexivity.
    - apply tget_none in E. destruct (tget name (f_data _ u)) as [w|] eqn:E2.
      + pose proof (tget_In _ _ _ E2) as Hin. pose proof (in_map fst _ _ Hin) as Hin'. cbn [fst] in Hin'. split.
        * intros [= <-]. auto.
        * intros [(m' & Hm & _)|[[_ H]|(_ & H & _)]]; [destruct E; exact (in_map fst _ _ Hm)| |contradiction].
          apply (tget_in _ _ _ N') in H. congruence.
      + apply tget_none in E2. split.
        * intros [= ->]. auto.
        * intros [(m' & Hm & _)|[[_ H]|(_ & _ & H)]]; [destruct E; exact (in_map fst _ _ Hm)|destruct E2; exact (in_map fst _ _ H)|now rewrite H].
  Qed.
  (** The raw value of a field, as written in the file *)
  Theorem C59_raw_value (u : unit_) name default v :
    NoDup (map fst (f_raw _ u)) -> f_params _ u = None -> jinja _ u = false ->
    (raw_record_value u name default = inl (Some v) <-> written_value (f_raw _ u) name default v).
  Proof.
    intros N Hp Hj. unfold FieldsModel.raw_record_value, insert. rewrite Hp, Hj.
    pose proof (either_spec (f_raw _ u) name default N) as E. destruct (either name (f_raw _ u) default) as [w|].
    - split; [intros [= ->]; exact E|]. intros H. do 2 f_equal. eapply written_one; eassumption.
    - split; [discriminate|]. destruct E as (E1 & E2 & E3). intros [H|[[_ H]|(_ & _ & H)]].
      + destruct E1. exact (in_map fst _ _ H).
      + destruct E2. exact (in_map fst _ _ H).
      + congruence.
  Qed.
  Theorem C59_translatable (u : unit_) name : translatable P u name = true <-> In ("_" :: name) (map fst (f_data _ u)).
  Proof.
    unfold translatable, UNDERSCORE. destruct (tget ("_" :: name) (f_data _ u)) as [v|] eqn:E.
    - split; [intros _; exact (in_map fst _ _ (tget_In _ _ _ E))|reflexivity].
    - apply tget_none in E. split; [discriminate|contradiction].
  Qed.

  (** ** Identifiers *)

  (** The identifier is that of the field id, else that of the field name; jobs of a provider
      get its namespace *)
  Theorem C59_identifier (u : unit_) i : NoDup (map fst (f_data _ u)) -> f_params _ u = None -> jinja _ u = false ->
    let name_of x := list_ascii_of_string x in
    (partial_id u = inl (Some i) <->
     written_value (f_data _ u) (name_of "id"%string) None i \/
     no_written_value (f_data _ u) (name_of "id"%string) None /\ written_value (f_data _ u) (name_of "name"%string) None i) /\
    (partial_id u = inl (Some i) -> i <> [] ->
     job_id u = inl (Some (match f_provider _ u with Some (ns, _) => ns ++ ":" :: ":" :: i | None => i end))).
  Proof.
    intros N Hp Hj. cbv zeta. change (list_ascii_of_string "id") with k_id. change (list_ascii_of_string "name") with k_name. split.
    - unfold FieldsModel.partial_id, rbind.
      assert (Hn : forall name d, exists x, record_value u name d = inl x).
      { intros name d. unfold FieldsModel.record_value, insert. rewrite Hp, Hj. destruct (either name (f_data _ u) d); cbn; eauto. }
      destruct (Hn k_name None) as [x Hx]. rewrite Hx.
      rewrite C59_value_is_the_one_written by assumption. pose proof (C59_value_is_the_one_written u k_name None i N Hp Hj) as Hv. rewrite Hx in Hv.
      unfold written_value at 1 2. unfold no_written_value.
      assert (Hx' : inl x = @inl (option text) fault (Some i) <-> x = Some i) by intuition congruence. rewrite Hx' in Hv. rewrite Hv. intuition congruence.
    - intros H Hi. unfold FieldsModel.job_id, rbind. rewrite H. destruct i; [easy|]. destruct (f_provider _ u) as [[]|]; reflexivity.
  Qed.


  Theorem C59_qualify (u : unit_) i :
    (qualified i -> qualify_id u i = i) /\
    (~ qualified i -> qualify_id u i = match f_provider _ u with Some (ns, _) => ns ++ ":" :: ":" :: i | None => i end).
  Proof.
    unfold FieldsModel.qualify_id. rewrite <- has_colons_spec. destruct (has_colons i); split; intros H; try reflexivity; congruence.
  Qed.
  Theorem C59_qualify_idempotent (u : unit_) i : qualify_id u (qualify_id u i) = qualify_id u i.
  Proof.
    unfold FieldsModel.qualify_id. destruct (has_colons i) eqn:E; [now rewrite E|]. destruct (f_provider _ u) as [[ns tr]|]; [|now rewrite E].
    assert (H : has_colons (ns ++ ":" :: ":" :: i) = true) by (apply has_colons_spec, qualified_app). now rewrite H.
  Qed.
  (** A job is named, within its provider, by its identifier without the namespace, and
      everywhere by the full one *)
  Theorem C59_names_of_a_job (u v : unit_) ns tr tr' i :
    f_provider _ u = Some (ns, tr) -> f_provider _ v = Some (ns, tr') -> partial_id v = inl (Some i) -> i <> [] -> ~ qualified i ->
    exists full, job_id v = inl (Some full) /\ qualify_id u i = full /\ qualify_id u full = full.
  Proof.
    intros Hu Hv Hi Hne Hq. unfold FieldsModel.job_id, rbind. rewrite Hi, Hv. destruct i as [|c r]; [easy|].
    exists (ns ++ ":" :: ":" :: c :: r). split; [reflexivity|]. destruct (C59_qualify u (c :: r)) as [_ H]. specialize (H Hq). rewrite Hu in H. split; [exact H|].
    rewrite <- H. apply C59_qualify_idempotent.
  Qed.
  Theorem C59_category (u : unit_) : get_category_id P vformat render u = category_id P vformat render u.
  Proof.
    unfold get_category_id, category_id, rbind. destruct (record_value u k_category (Some w_uncategorised)) as [[c|]|]; try reflexivity.
    now rewrite C59_qualify_idempotent.
  Qed.

  (** The category written, qualified; without one, a fixed one *)
  Theorem C59_category_written (u : unit_) c : NoDup (map fst (f_data _ u)) -> f_params _ u = None -> jinja _ u = false ->
    let default := list_ascii_of_string "com.canonical.plainbox::uncategorised" in
    (category_id P vformat render u = inl c <->
     exists w, written_value (f_data _ u) (list_ascii_of_string "category_id"%string) (Some default) w /\ c = qualify_id u w).
  Proof.
    intros N Hp Hj. cbv zeta. change (list_ascii_of_string "category_id") with k_category. change (list_ascii_of_string "com.canonical.plainbox::uncategorised") with w_uncategorised.
    unfold category_id, rbind. pose proof (fun w => C59_value_is_the_one_written u k_category (Some w_uncategorised) w N Hp Hj) as Hv.
    destruct (record_value u k_category (Some w_uncategorised)) as [[w|]|e]; split.
    - intros [= <-]. exists w. split; [now apply Hv|reflexivity].
    - intros (w' & Hw & ->). apply Hv in Hw. congruence.
    - discriminate.
    - intros (w' & Hw & ->). apply Hv in Hw. congruence.
    - discriminate.
    - intros (w' & Hw & ->). apply Hv in Hw. congruence.
  Qed.

  (** ** Dependencies *)

  (** The jobs named in the field: the words written, each qualified; white space, commas and
      comments leave no trace *)
  Theorem C59_dependencies_are_the_words_written (u : unit_) name t (l : list item) :
    record_value u name None = inl (Some t) -> ~ In NUL t -> pieces t l [] ->
    dependencies P vformat render u name = inl (Done (map (qualify_id u) (flat_map word_in l))).
  Proof.
    intros Hv N Hp. unfold dependencies, rbind. rewrite Hv. unfold words_qualified.
    rewrite (C20_words t l (S (length t)) N Hp (Nat.lt_succ_diag_r _)). cbn [obind]. do 2 f_equal. clear.
    induction l as [|i l IH]; [reflexivity|]. cbn [flat_map]. rewrite flat_map_app, map_app, IH. f_equal. destruct i; reflexivity.
  Qed.
  Theorem C59_no_dependencies (u : unit_) name : record_value u name None = inl None -> dependencies P vformat render u name = inl (Done []).
  Proof. intros H. unfold dependencies, rbind. now rewrite H. Qed.

  (** Which fields these are *)
  Theorem C59_dependency_fields (u : unit_) :
    direct_dependencies P vformat render u = dependencies P vformat render u (list_ascii_of_string "depends"%string) /\
    after_dependencies P vformat render u = dependencies P vformat render u (list_ascii_of_string "after"%string).
  Proof. split; reflexivity. Qed.

  (** ** Flags, summary, plug-in, description *)

  Theorem C59_flags (u : unit_) t w : record_value u (list_ascii_of_string "flags"%string) None = inl (Some t) -> w <> [] ->
    exists l, flag_set P vformat render u = inl l /\ (In w l <-> chunk t w).
  Proof.
    change (list_ascii_of_string "flags"%string) with k_flags. intros H Hw. unfold flag_set, words_of_field, rbind. rewrite H. eexists. split; [reflexivity|]. now apply C59_flags_are_the_words_written.
  Qed.
  Theorem C59_environ (u : unit_) t w : record_value u (list_ascii_of_string "environ"%string) None = inl (Some t) -> w <> [] ->
    exists l, environ_settings P vformat render u = inl l /\ (In w l <-> chunk t w).
  Proof.
    change (list_ascii_of_string "environ"%string) with k_environ. intros H Hw. unfold environ_settings, words_of_field, rbind. rewrite H. eexists. split; [reflexivity|]. now apply C59_flags_are_the_words_written.
  Qed.
  (** The plug-in written; without one, that of a simple job, which is shell *)
  Theorem C59_plugin (u : unit_) p fl : record_value u (list_ascii_of_string "plugin"%string) None = inl p -> flag_set P vformat render u = inl fl ->
    exists r, plugin P vformat render u = inl r /\
      (forall x, r = Some x <-> p = Some x \/ p = None /\ In (list_ascii_of_string "simple"%string) fl /\ x = list_ascii_of_string "shell"%string).
  Proof.
    change (list_ascii_of_string "plugin"%string) with k_plugin. change (list_ascii_of_string "simple"%string) with w_simple. change (list_ascii_of_string "shell"%string) with w_shell.
    intros Hp Hf. unfold plugin, rbind. rewrite Hp. destruct p as [p|].
    - eexists. split; [reflexivity|]. intros x. intuition congruence.
    - rewrite Hf. eexists. split; [reflexivity|]. intros x. destruct (existsb (text_eqb w_simple) fl) eqn:E.
      + apply existsb_exists in E as (y & Hy & E). apply text_eqb_eq in E. subst y. split.
        * intros [= <-]. auto.
        * intros [H|(_ & _ & ->)]; [discriminate|reflexivity].
      + split; [discriminate|]. intros [H|(_ & H & _)]; [discriminate|]. exfalso.
        assert (existsb (text_eqb w_simple) fl = true) by (apply existsb_exists; exists w_simple; split; [assumption|apply text_eqb_refl]). congruence.
  Qed.
  (** The summary written; without one, the identifier — if parameters are not put in twice *)
  Theorem C59_summary (u : unit_) i s : NoDup (map fst (f_data _ u)) -> f_params _ u = None -> jinja _ u = false ->
    partial_id u = inl i ->
    (summary P vformat render u = inl (Some s) <-> written_value (f_data _ u) (list_ascii_of_string "summary"%string) i s).
  Proof.
    change (list_ascii_of_string "summary"%string) with k_summary. intros N Hp Hj Hi. unfold summary, rbind. rewrite Hi. now apply C59_value_is_the_one_written.
  Qed.
  (** The description written; without one, the stages written, in this order, each under its
      heading; none if there is neither *)
  Theorem C59_description (u : unit_) d p s v :
    record_value u (list_ascii_of_string "description"%string) None = inl d -> record_value u (list_ascii_of_string "purpose"%string) None = inl p ->
    record_value u (list_ascii_of_string "steps"%string) None = inl s -> record_value u (list_ascii_of_string "verification"%string) None = inl v ->
    exists r, description P vformat render u = inl r /\
      match d, p, s, v with
      | Some d, _, _, _ => r = Some d
      | None, None, None, None => r = None
      | None, _, _, _ =>
          let part label x := match x with Some x => label ++ ":" :: NL :: x ++ [NL] | None => [] end in
          exists t blanks, r = Some t /\ blank blanks = true /\
            part (list_ascii_of_string "PURPOSE") p ++ part (list_ascii_of_string "STEPS") s ++ part (list_ascii_of_string "VERIFICATION") v = t ++ blanks
      end.
  Proof.
    change (list_ascii_of_string "description"%string) with k_description. change (list_ascii_of_string "purpose"%string) with k_purpose.
    change (list_ascii_of_string "steps"%string) with k_steps. change (list_ascii_of_string "verification"%string) with k_verification.
    intros Hd Hp Hs Hv. unfold description, describe, rbind. rewrite Hd. destruct d as [d|]; [eauto|].
    cbn [stages]. unfold rbind. rewrite Hp, Hs, Hv. eexists. split; [reflexivity|].
    match goal with |- context [strip ?t] => set (T := t) end.
    assert (G : (exists c r, T = c :: r /\ isspace c = false) \/ p = None /\ s = None /\ v = None).
    { subst T. destruct p as [p|]; [left; eexists _, _; split; [reflexivity|reflexivity]|].
      destruct s as [s|]; [left; eexists _, _; split; [reflexivity|reflexivity]|].
      destruct v as [v|]; [left; eexists _, _; split; [reflexivity|reflexivity]|]. auto. }
    destruct G as [(c & r & E & Hc)|(-> & -> & ->)]; [|reflexivity].
    assert (Hne : match p, s, v with None, None, None => False | _, _, _ => True end).
    { subst T. destruct p, s, v; try exact I. discriminate E. }
    destruct (strip_split T) as (a & b & Ha & Hb & ET).
    assert (a = []) as ->. { destruct a as [|x a]; [reflexivity|]. rewrite E in ET. injection ET as <- _. cbn in Ha. rewrite Hc in Ha. discriminate. }
    cbn [app] in ET. assert (Hs' : strip T <> []). { intros E'. rewrite E' in ET. cbn in ET. rewrite <- ET, E in Hb. cbn in Hb. rewrite Hc in Hb. discriminate. }
    assert (Hgoal : exists t blanks, match strip T with [] => None | a :: l => Some (a :: l) end = Some t /\ blank blanks = true /\ T = t ++ blanks).
    { exists (strip T), b. split; [now destruct (strip T)|]. auto. }
    assert (ET' : T = match p with Some x => list_ascii_of_string "PURPOSE" ++ ":" :: NL :: x ++ [NL] | None => [] end ++
                      match s with Some x => list_ascii_of_string "STEPS" ++ ":" :: NL :: x ++ [NL] | None => [] end ++
                      match v with Some x => list_ascii_of_string "VERIFICATION" ++ ":" :: NL :: x ++ [NL] | None => [] end).
    { subst T. rewrite app_nil_r. reflexivity. }
    destruct Hgoal as (t & bl & H1 & H2 & H3). rewrite ET' in H3. clear - Hne H1 H2 H3.
    destruct p, s, v; try contradiction; cbv zeta; exists t, bl; auto.
  Qed.
End Props.
Print Assumptions C59_value_is_the_one_written.
Print Assumptions C59_no_value.
Print Assumptions C59_translated.
Print Assumptions C59_raw_value.
Print Assumptions C59_translatable.
Print Assumptions C59_identifier.
Print Assumptions C59_dependency_fields.
Print Assumptions C59_value_of_an_instance.
Print Assumptions C59_untranslated.
Print Assumptions C59_qualify.
Print Assumptions C59_qualify_idempotent.
Print Assumptions C59_names_of_a_job.
Print Assumptions C59_category.
Print Assumptions C59_category_written.
Print Assumptions C59_dependencies_are_the_words_written.
Print Assumptions C59_no_dependencies.
Print Assumptions C59_flags.
Print Assumptions C59_environ.
Print Assumptions C59_plugin.
Print Assumptions C59_summary.
Print Assumptions C59_description.

(** ** What is not so *)

(** Without any translation, a value of two lines, each indented, is shown with its
    indentation (and with the dots that stand for empty lines) *)
Theorem C59_untranslated_refuted : exists lines rs r,
  load lines = inl rs /\ In r rs /\
  forall (P : Type) vformat render,
    let u := from_record P (r_data r) (r_raw r) None None in
    record_value P vformat render u k_description None = inl (Some (list_ascii_of_string "a" ++ NL :: list_ascii_of_string "b")) /\
    translated_value P vformat render u k_description None = inl (Some (list_ascii_of_string "a" ++ NL :: list_ascii_of_string " b")).
Proof.
  exists [list_ascii_of_string "_description:" ++ [NL]; list_ascii_of_string "  a" ++ [NL]; list_ascii_of_string "  b" ++ [NL]].
  eexists. eexists. split; [vm_compute; reflexivity|]. split; [left; reflexivity|]. intros P vf re. split; vm_compute; reflexivity.
Qed.
Print Assumptions C59_untranslated_refuted.

(** The formatter of python, on these texts *)
Definition py_vformat (p : Base.dict FormatModel.pval) (t : text) : text + fault :=
  match FormatModel.vformat (fun _ _ => None) (fun _ _ => None) (fun v _ => match v with FormatModel.PStr s => Some s | _ => None end)
          (string_of_list_ascii t) p with
  | inr s => inl (list_ascii_of_string s)
  | inl (FormatModel.FKey k) => inr (Key_error (list_ascii_of_string k))
  | inl _ => inr Other_error
  end.

(** A job made from a template has an identifier, no summary is written, and there is no
    summary either: braces in what a resource reports are taken for parameters *)
Theorem C59_summary_of_an_instance_refuted : exists (u : unit_ (Base.dict FormatModel.pval)) i x,
  NoDup (map fst (f_data _ u)) /\
  partial_id _ py_vformat (fun _ t => t) u = inl (Some i) /\
  ~ In ("_" :: k_summary) (map fst (f_data _ u)) /\ ~ In k_summary (map fst (f_data _ u)) /\
  summary _ py_vformat (fun _ t => t) u = inr (Missing_param x) /\
  tr_summary _ py_vformat (fun _ t => t) u = inl (Some i).
Proof.
  exists (mk_unit _ [(k_id, list_ascii_of_string "disk/{name}")] [] None (Some [("name"%string, FormatModel.PStr "{x}")])).
  exists (list_ascii_of_string "disk/{x}"), (list_ascii_of_string "x").
  split; [repeat constructor; intuition|]. split; [reflexivity|]. split; [cbn; intuition discriminate|]. split; [cbn; intuition discriminate|]. split; reflexivity.
Qed.
Print Assumptions C59_summary_of_an_instance_refuted.

(** A comma too many is a flag *)
Theorem C59_no_empty_flag_refuted : exists (u : unit_ unit) l,
  flag_set _ (fun _ t => inl t) (fun _ t => t) u = inl l /\ In [] l.
Proof.
  exists (mk_unit _ [(k_flags, list_ascii_of_string "simple,")] [] None None). eexists. split; [vm_compute; reflexivity|]. vm_compute. auto.
Qed.
Print Assumptions C59_no_empty_flag_refuted.

(** ** The hypotheses are met *)

Definition str := list_ascii_of_string.
Example ex_lines : list text :=
  [str "id: usb" ++ [NL]; str "_summary: Test usb" ++ [NL]; str "flags: simple, preserve-locale" ++ [NL]; str "depends: a other::b" ++ [NL];
   str "purpose: see" ++ [NL]; str "steps:" ++ [NL]; str " 1. one" ++ [NL]; str " 2. two" ++ [NL]; str " 3. three" ++ [NL]].
Example ex_record : exists r, load ex_lines = inl [r] /\
  let u := from_record unit (r_data r) (r_raw r) (Some (str "ns", fun t => t)) None in
  let vf := fun (_ : unit) (t : text) => @inl text fault t in let re := fun (_ : option unit) (t : text) => t in
  NoDup (map fst (f_data _ u)) /\ jinja _ u = false /\
  job_id _ vf re u = inl (Some (str "ns::usb")) /\
  summary _ vf re u = inl (Some (str "Test usb")) /\
  translated_value _ vf re u k_summary None = inl (Some (str "Test usb")) /\
  flag_set _ vf re u = inl [str "simple"; str "preserve-locale"] /\
  plugin _ vf re u = inl (Some (str "shell")) /\
  direct_dependencies _ vf re u = inl (Done [str "ns::a"; str "other::b"]) /\
  category_id _ vf re u = inl (str "com.canonical.plainbox::uncategorised") /\
  description _ vf re u = inl (Some (str "PURPOSE:" ++ NL :: str "see" ++ NL :: str "STEPS:" ++ NL :: str "1. one" ++ NL :: str "2. two" ++ NL :: str "3. three")).
Proof.
  eexists. split; [vm_compute; reflexivity|]. cbv zeta. split; [|vm_compute; repeat split].
  vm_compute. repeat constructor; cbn; intuition discriminate.
Qed.
