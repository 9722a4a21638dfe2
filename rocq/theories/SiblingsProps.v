(** * C60: jobs made from a job are what they should be *)
From Coq Require Import String Ascii List Bool Arith Lia.
From Verif Require Import ScanModel ScanSpec ScanProofs ScanProps JsonModel Rfc822Model Rfc822Spec Rfc822Proofs IniProofs XparseModel FieldsModel FieldsSpec FieldsProps
  SiblingsModel SiblingsSpec SiblingsProofs.
Import ListNotations.
Open Scope char_scope.
Local Open Scope nat_scope.
Open Scope list_scope.
Notation str := SiblingsSpec.str.

Lemma w_after_word : Forall (fun c => is_sep c = false) w_after.
Proof. repeat constructor. Qed.
Lemma w_manual_word : Forall (fun c => is_sep c = false) w_manual.
Proof. repeat constructor. Qed.
Lemma w_after_ne : w_after <> [].
Proof. discriminate. Qed.
Lemma w_manual_ne : w_manual <> [].
Proof. discriminate. Qed.
Lemma app_same (a b : text) : a ++ b = b -> a = [].
Proof. intros H. apply (f_equal (@length ascii)) in H. rewrite app_length in H. destruct a; [reflexivity|cbn in H; lia]. Qed.
Lemma ends_siblings k : length k < 8 -> ends_with k_siblings k = false.
Proof.
  intros H. destruct (ends_with k_siblings k) eqn:E; [|reflexivity]. apply ends_with_spec in E as [a ->]. rewrite app_length in H. cbn in H. lia.
Qed.

Section Props.
  Variable P : Type.
  Variable vformat : P -> text -> text + fault.
  Variable render : option P -> text -> text.
  Notation unit_ := (unit_ P).
  Notation record_value := (record_value P vformat render).
  Notation translated_value := (translated_value P vformat render).
  Notation partial_id := (partial_id P vformat render).
  Notation job_id := (job_id P vformat render).
  Notation summary := (summary P vformat render).
  Notation flag_set := (flag_set P vformat render).
  Notation copy := (copy P vformat render).
  Notation children := (children P vformat render).
  Notation adds := (adds P vformat render).

  (** A unit that is not made from a template *)
  Definition plain (u : unit_) : Prop := f_params _ u = None /\ jinja _ u = false.
  Let value (u : unit_) name default : plain u -> record_value u name default = inl (either name (f_data _ u) default).
  Proof. intros [Hp Hj]. unfold FieldsModel.record_value, insert. rewrite Hp, Hj. destruct (either name (f_data _ u) default); reflexivity. Qed.

  (** ** Siblings *)

  (** A sibling has, for each field, the value of the override, else that of the job itself;
      fields about siblings are not inherited.  It belongs to the same provider and has the
      same parameters. *)
  Theorem C60_sibling (u : unit_) o k v :
    NoDup (map fst (f_data _ u)) ->
    let s := sibling P u o in
    (tget k (f_data _ s) = Some v <->
     last_value o k v \/ ~ In k (map fst o) /\ ~ ends_in (str "siblings") k /\ In (k, v) (f_data _ u)) /\
    f_raw _ s = f_data _ s /\ f_provider _ s = f_provider _ u /\ f_params _ s = f_params _ u.
  Proof.
    intros N. cbv zeta. split; [|auto]. unfold sibling, made, inherited. cbn [f_data]. rewrite tget_updates, (tget_filter (fun k => negb (ends_with k_siblings k))).
    change (str "siblings") with k_siblings. rewrite <- ends_with_spec.
    assert (Hrev : forall k, tget k (rev o) = None <-> ~ In k (map fst o)) by (intros k0; rewrite tget_none, map_rev, <- in_rev; reflexivity).
    destruct (tget k (rev o)) as [w|] eqn:E.
    - pose proof E as E'. apply tget_last in E'. split.
      + intros [= ->]. now left.
      + intros [H|[H _]]; [apply tget_last in H; congruence|]. apply Hrev in H. congruence.
    - assert (Hl : ~ last_value o k v) by (rewrite <- tget_last, E; discriminate). apply Hrev in E.
      destruct (ends_with k_siblings k); cbn [negb].
      + split; [discriminate|]. intros [H|(_ & H & _)]; [contradiction|]. now destruct H.
      + rewrite (tget_in k v _ N). intuition congruence.
  Qed.

  (** ** What is made of a job: its siblings, in order, and a copy for each flag *)

  Theorem C60_children (u : unit_) sib os flags :
    plain u -> f_provider _ u = None \/ (exists ns tr, f_provider _ u = Some (ns, tr) /\ forall t, tr t = t) ->
    f_raw _ u = f_data _ u ->
    record_value u k_siblings None = inl sib ->
    match sib with
    | Some (c :: r) => exists l, loads (match tget (UNDERSCORE :: k_siblings) (f_data _ u) with Some t => normalize t | None => c :: r end) = Some (JList (map (fun o => JObj (map (fun kv => (fst kv, JStr (snd kv))) o)) l)) /\ os = l
    | _ => os = []
    end ->
    flag_set u = inl flags ->
    forall a b,
    (if existsb (text_eqb w_after) flags then exists c, copy false u = inl c /\ a = [c] else a = []) ->
    (if existsb (text_eqb w_manual) flags then exists c, copy true u = inl c /\ b = [c] else b = []) ->
    children u = (map (sibling P u) os ++ a ++ b, None).
  Proof.
    intros Hpl Hprov Hraw Hs Hos Hf a b Ha Hb.
    assert (Es : siblings_of P vformat render u = (map (sibling P u) os, None)).
    { unfold siblings_of. rewrite Hs. destruct sib as [[|c r]|]; [now rewrite Hos| |now rewrite Hos].
      destruct Hos as (l & Hl & ->). unfold FieldsModel.translated_value. rewrite Hraw.
      pose proof Hs as Hs'. rewrite (value _ _ _ Hpl) in Hs'. unfold either in Hs'. destruct Hpl as [Hp Hj]. unfold insert. rewrite Hp, Hj.
      assert (Ho : forall l, objects (map (fun o => JObj (map (fun kv : text * text => (fst kv, JStr (snd kv))) o)) l) = (l, true)).
      { assert (Hst : forall o, strings (map (fun kv : text * text => (fst kv, JStr (snd kv))) o) = Some o).
        { induction o as [|[k v] o IH]; [reflexivity|]. cbn [map strings fst snd]. now rewrite IH. }
        induction l0 as [|o l0 IH]; [reflexivity|]. cbn [map objects]. now rewrite Hst, IH. }
      destruct (tget (UNDERSCORE :: k_siblings) (f_data _ u)) as [t|].
      - assert (Et : translated_data P u t = t).
        { unfold translated_data. destruct t as [|x t]; [reflexivity|]. destruct Hprov as [->|(ns & tr & -> & Htr)]; [reflexivity|]. apply Htr. }
        rewrite Et. unfold overrides. rewrite Hl, Ho. reflexivity.
      - destruct (tget k_siblings (f_data _ u)) as [t|]; [|discriminate]. injection Hs' as ->. unfold overrides. rewrite Hl, Ho. reflexivity. }
    unfold SiblingsModel.children. rewrite Es. unfold andthen. unfold copy_of. rewrite Hf.
    destruct (existsb (text_eqb w_after) flags).
    - destruct Ha as (c & Ec & ->). rewrite Ec. destruct (existsb (text_eqb w_manual) flags).
      + destruct Hb as (c' & Ec' & ->). now rewrite Ec'.
      + subst b. reflexivity.
    - subst a. destruct (existsb (text_eqb w_manual) flags).
      + destruct Hb as (c' & Ec' & ->). now rewrite Ec'.
      + subst b. reflexivity.
  Qed.

  (** ** Copies *)

  (** The shape of a copy *)
  Let copy_inv manual (u c : unit_) : copy manual u = inl c ->
    exists flags i s d full t,
      tget k_flags (f_data _ u) = Some flags /\ partial_id u = inl i /\ summary u = inl s /\
      record_value u k_depends None = inl d /\ job_id u = inl full /\
      match d with
      | Some (_ :: _) => exists t0, tget k_depends (f_data _ u) = Some t0 /\ t = t0 ++ " " :: shown full
      | _ => t = shown full
      end /\
      c = made P u (tset k_depends (t ++ " " :: (if manual then w_suspend else w_suspend_auto))
            (tset (UNDERSCORE :: k_summary) (shown s ++ w_suffix)
              (tset k_id ((if manual then w_prefix_manual else w_prefix) ++ shown i)
                (tset k_flags (leave_out w_manual 0 (leave_out w_after 0 flags)) (inherited P u))))).
  Proof.
    unfold SiblingsModel.copy. cbv zeta. assert (Ei : forall k, length k < 8 -> tget k (inherited P u) = tget k (f_data _ u)).
    { intros k Hk. unfold inherited. rewrite (tget_filter (fun k => negb (ends_with k_siblings k))), ends_siblings by assumption. reflexivity. }
    rewrite Ei by (cbn; lia). destruct (tget k_flags (f_data _ u)) as [flags|]; [|discriminate]. unfold rbind.
    destruct (partial_id u) as [i|]; [|discriminate]. destruct (summary u) as [s|]; [|discriminate].
    destruct (record_value u k_depends None) as [d|]; [|discriminate]. destruct (job_id u) as [full|]; [|discriminate].
    rewrite !tget_tset_ne by discriminate. rewrite Ei by (cbn; lia). destruct d as [[|x r]|].
    - intros [= <-]. exists flags, i, s, (Some []), full, (shown full). repeat (split; [reflexivity|]). reflexivity.
    - destruct (tget k_depends (f_data _ u)) as [t0|]; [|discriminate]. intros [= <-].
      exists flags, i, s, (Some (x :: r)), full, (t0 ++ " " :: shown full). repeat (split; [reflexivity|]). split; [eauto|reflexivity].
    - intros [= <-]. exists flags, i, s, None, full, (shown full). repeat (split; [reflexivity|]). reflexivity.
  Qed.

  (** All other fields are those of the job *)
  Theorem C60_copy_other_fields manual (u c : unit_) k : copy manual u = inl c ->
    ~ In k [str "flags"; str "id"; str "_summary"; str "depends"] -> ~ ends_in (str "siblings") k ->
    tget k (f_data _ c) = tget k (f_data _ u).
  Proof.
    intros H Hk Hs. destruct (copy_inv _ _ _ H) as (flags & i & s & d & full & t & _ & _ & _ & _ & _ & _ & ->). cbn [made f_data].
    change (str "flags") with k_flags in Hk. change (str "id") with k_id in Hk. change (str "_summary") with (UNDERSCORE :: k_summary) in Hk. change (str "depends") with k_depends in Hk. cbn [In] in Hk.
    rewrite !tget_tset_ne by (intros ->; apply Hk; auto). unfold inherited. rewrite (tget_filter (fun k => negb (ends_with k_siblings k))).
    destruct (ends_with k_siblings k) eqn:E; [|reflexivity]. apply ends_with_spec in E. destruct Hs. exact E.
  Qed.
  Theorem C60_copy_no_siblings manual (u c : unit_) k : copy manual u = inl c -> ends_in (str "siblings") k -> tget k (f_data _ c) = None.
  Proof.
    intros H Hk. destruct (copy_inv _ _ _ H) as (flags & i & s & d & full & t & _ & _ & _ & _ & _ & _ & ->). cbn [made f_data].
    assert (Hl : ~ length k < 8) by (destruct Hk as [a ->]; rewrite app_length; cbn; lia).
    assert (Hsm : k <> UNDERSCORE :: k_summary).
    { intros ->. destruct Hk as [a Ha]. apply (f_equal (@rev ascii)) in Ha. rewrite rev_app_distr in Ha. discriminate. }
    rewrite !tget_tset_ne by (first [assumption | intros ->; apply Hl; cbn; lia]). unfold inherited. rewrite (tget_filter (fun k => negb (ends_with k_siblings k))).
    change (str "siblings") with k_siblings in Hk. apply ends_with_spec in Hk. now rewrite Hk.
  Qed.
  (** It belongs to the same provider *)
  Theorem C60_copy_provider manual (u c : unit_) : copy manual u = inl c -> f_provider _ c = f_provider _ u /\ f_params _ c = f_params _ u /\ f_raw _ c = f_data _ c.
  Proof. intros H. destruct (copy_inv _ _ _ H) as (flags & i & s & d & full & t & _ & _ & _ & _ & _ & _ & ->). auto. Qed.

  Let plain_copy manual (u c : unit_) : copy manual u = inl c -> plain u -> plain c.
  Proof.
    intros H [Hp Hj]. split; [now destruct (C60_copy_provider _ _ _ H) as (_ & -> & _)|]. unfold jinja in *.
    rewrite (C60_copy_other_fields _ _ _ k_engine H); [exact Hj|cbn; intuition discriminate|].
    intros [a Ha]. apply (f_equal (@rev ascii)) in Ha. rewrite rev_app_distr in Ha. discriminate.
  Qed.

  (** The identifier of a copy: the prefix and the identifier of the job, if this is not
      written as a translatable field *)
  Theorem C60_copy_identifier manual flag prefix suspend (u c : unit_) i :
    variant manual flag prefix suspend -> plain u -> copy manual u = inl c -> tget (str "_id") (f_data _ u) = None ->
    partial_id u = inl (Some i) ->
    partial_id c = inl (Some (prefix ++ i)) /\
    job_id c = inl (Some (match f_provider _ u with Some (ns, _) => ns ++ ":" :: ":" :: prefix ++ i | None => prefix ++ i end)).
  Proof.
    intros Hv Hpl H Hid Hi. pose proof (plain_copy _ _ _ H Hpl) as Hpc.
    assert (Hu : tget (UNDERSCORE :: k_id) (f_data _ c) = None).
    { rewrite (C60_copy_other_fields _ _ _ _ H); [exact Hid|cbn; intuition discriminate|]. intros [a Ha]. apply (f_equal (@length ascii)) in Ha. rewrite app_length in Ha. cbn in Ha. lia. }
    assert (Hpre : (if manual then w_prefix_manual else w_prefix) = prefix) by (destruct Hv; reflexivity).
    destruct (copy_inv _ _ _ H) as (flags & i' & s & d & full & t & _ & Hi' & _ & _ & _ & _ & Ec).
    rewrite Hi in Hi'. injection Hi' as <-.
    assert (Hg : tget k_id (f_data _ c) = Some (prefix ++ i)).
    { rewrite Ec. cbn [made f_data]. rewrite !tget_tset_ne by discriminate. rewrite tget_tset_eq. cbn [shown]. f_equal. f_equal. exact Hpre. }
    assert (Hpi : partial_id c = inl (Some (prefix ++ i))).
    { unfold FieldsModel.partial_id, rbind. rewrite (value _ _ _ Hpc), (value _ _ _ Hpc). unfold either at 1. now rewrite Hu, Hg. }
    split; [exact Hpi|]. unfold FieldsModel.job_id, rbind. rewrite Hpi. destruct (C60_copy_provider _ _ _ H) as (-> & _ & _).
    assert (prefix <> []) by (destruct Hv; discriminate). destruct prefix as [|x p]; [easy|]. cbn [app]. destruct (f_provider _ u) as [[]|]; reflexivity.
  Qed.
  (** So a copy never has the identifier of its job, and copies for the same flag of jobs
      with different identifiers have different identifiers *)
  Theorem C60_copies_are_new manual flag prefix suspend i j :
    variant manual flag prefix suspend -> prefix ++ i <> i /\ (prefix ++ i = prefix ++ j -> i = j).
  Proof. intros Hv. split; [|apply app_inv_head]. intros E. apply app_same in E. destruct Hv; discriminate. Qed.

  (** The summary of a copy says that it runs after a suspend *)
  Theorem C60_copy_summary manual (u c : unit_) s : plain u -> copy manual u = inl c -> summary u = inl (Some s) ->
    summary c = inl (Some (s ++ str " after suspend (S3)")).
  Proof.
    intros Hpl H Hs. pose proof (plain_copy _ _ _ H Hpl) as Hpc.
    destruct (copy_inv _ _ _ H) as (flags & i' & s' & d & full & t & _ & Hi & Hs' & _ & _ & _ & Ec). rewrite Hs in Hs'. injection Hs' as <-.
    assert (Hg : tget (UNDERSCORE :: k_summary) (f_data _ c) = Some (s ++ w_suffix)).
    { rewrite Ec. cbn [made f_data]. rewrite tget_tset_ne by discriminate. now rewrite tget_tset_eq. }
    unfold FieldsModel.summary, rbind. unfold FieldsModel.partial_id, rbind. rewrite (value _ _ _ Hpc), (value _ _ _ Hpc), (value _ _ _ Hpc).
    unfold either at 1. now rewrite Hg.
  Qed.

  (** The flags of a copy: those of the job without the flag.  What is left of the flag for
      the other kind of copy is its end. *)
  Theorem C60_copy_flags manual (u c : unit_) t : plain u -> copy manual u = inl c ->
    tget (str "_flags") (f_data _ u) = None -> tget (str "flags") (f_data _ u) = Some t ->
    (forall w, chunk t w -> contains (str "also-after-suspend") w -> w = str "also-after-suspend" \/ w = str "also-after-suspend-manual") ->
    exists l, flag_set c = inl l /\
      forall w, w <> [] ->
        (In w l <-> chunk t w /\ ~ contains (str "also-after-suspend") w
                 \/ chunk t (str "also-after-suspend-manual") /\ w = str "-manual").
  Proof.
    change (str "_flags") with (UNDERSCORE :: k_flags). change (str "flags") with k_flags. change (str "also-after-suspend") with w_after.
    change (str "also-after-suspend-manual") with w_manual.
    intros Hpl H Hn Ht Hc. pose proof (plain_copy _ _ _ H Hpl) as Hpc.
    destruct (copy_inv _ _ _ H) as (flags & i' & s' & d & full & t' & Hf & _ & _ & _ & _ & _ & Ec). rewrite Ht in Hf. injection Hf as <-.
    assert (Hu : tget (UNDERSCORE :: k_flags) (f_data _ c) = None).
    { rewrite (C60_copy_other_fields _ _ _ _ H); [exact Hn|cbn; intuition discriminate|]. intros [a Ha]. apply (f_equal (@length ascii)) in Ha. rewrite app_length in Ha. cbn in Ha. lia. }
    assert (Hg : tget k_flags (f_data _ c) = Some (leave_out w_manual 0 (leave_out w_after 0 t))).
    { rewrite Ec. cbn [made f_data]. rewrite !tget_tset_ne by discriminate. now rewrite tget_tset_eq. }
    unfold FieldsModel.flag_set, words_of_field, rbind. rewrite (value _ _ _ Hpc). unfold either. rewrite Hu, Hg. eexists. split; [reflexivity|].
    intros w Hw.
    assert (E : In w (resplit (leave_out w_manual 0 (leave_out w_after 0 t))) <-> In w (words (leave_out w_manual 0 (leave_out w_after 0 t)))) by (rewrite words_in; tauto).
    rewrite E, (words_leave_out _ w_manual_ne w_manual_word), (words_leave_out _ w_after_ne w_after_word).
    assert (Hid : forall x, ~ contains w_after x -> leave_out w_manual 0 (leave_out w_after 0 x) = x).
    { intros x Hx. rewrite (lo_id w_after) by assumption. apply lo_id. intros (a & b & ->). apply Hx. exists a, (["-"; "m"; "a"; "n"; "u"; "a"; "l"] ++ b). unfold w_manual. now rewrite <- !app_assoc. }
    rewrite filter_In, in_map_iff. split.
    - intros [(y & Ey & Hy) _]. apply filter_In in Hy as [Hy Hy']. apply in_map_iff in Hy as (x & Ex & Hx). apply words_in in Hx as [Hx0 Hx]. apply C59_flags_are_the_words_written in Hx; [|assumption].
      subst y. assert (D : {contains w_after x} + {~ contains w_after x}).
      { clear. destruct (list_eq_dec ascii_dec (leave_out w_after 0 x) x) as [E|E].
        - right. intros Hc. pose proof (lo_shrinks w_after w_after_ne x Hc) as L. rewrite E in L. lia.
        - left. assert (G : forall t, leave_out w_after 0 t <> t -> contains w_after t).
          { induction t as [|c t IH]; [easy|]. cbn [leave_out]. destruct (drop_prefix w_after (c :: t)) as [r|] eqn:Ed.
            - intros _. apply drop_prefix_spec in Ed. exists [], r. exact Ed.
            - intros Hn. destruct IH as (a & b & ->); [congruence|]. exists (c :: a), b. reflexivity. }
          now apply G. }
      destruct D as [D|D].
      + destruct (Hc x Hx D) as [->| ->]; [cbn in Hy'; discriminate|]. right. split; [exact Hx|]. rewrite <- Ey. reflexivity.
      + rewrite Hid in Ey by assumption. subst x. now left.
    - intros [[H1 H2]|[H1 ->]].
      + assert (Hin : In w (resplit t)) by now apply C59_flags_are_the_words_written. pose proof (Hid w H2) as Hw2.
        assert (Hw1 : leave_out w_after 0 w = w) by (apply lo_id; assumption). rewrite Hw1 in Hw2.
        split; [|now destruct w]. exists w. split; [exact Hw2|]. apply filter_In. split; [|now destruct w]. apply in_map_iff. exists w. split; [exact Hw1|]. now apply words_in.
      + split; [|reflexivity]. exists (str "-manual"). split; [reflexivity|]. apply filter_In. split; [|reflexivity]. apply in_map_iff. exists w_manual. split; [reflexivity|].
        apply words_in. split; [discriminate|]. apply C59_flags_are_the_words_written; [discriminate|assumption].
  Qed.

  (** The dependencies of a copy: those of the job, the job itself, and the job that suspends
      — if the field of dependencies does not end in a comment *)
  Theorem C60_copy_dependencies manual flag prefix suspend (u c : unit_) t l full :
    variant manual flag prefix suspend -> plain u -> copy manual u = inl c ->
    tget (str "_depends") (f_data _ u) = None ->
    match tget (str "depends") (f_data _ u) with Some t' => t = t' | None => t = [] end ->
    ~ In NUL t -> pieces t l [] -> (forall l' x, l <> l' ++ [ILastComment x]) ->
    job_id u = inl (Some full) -> bare full -> ~ In NUL full -> (f_provider _ u = None \/ qualified full) ->
    direct_dependencies P vformat render u = inl (Done (map (qualify_id P u) (flat_map word_in l))) /\
    direct_dependencies P vformat render c = inl (Done (map (qualify_id P u) (flat_map word_in l) ++ [full; suspend])).
  Proof.
    intros Hv Hpl H Hn Ht N Hp Hlast Hfull (Hb1 & Hb2 & Hb3) Nf Hq. pose proof (plain_copy _ _ _ H Hpl) as Hpc.
    change (str "_depends") with (UNDERSCORE :: k_depends) in Hn. change (str "depends") with k_depends in Ht.
    assert (Hsus : (if manual then w_suspend else w_suspend_auto) = suspend) by (destruct Hv; reflexivity).
    destruct (copy_inv _ _ _ H) as (flags & i' & s' & d & full' & t' & _ & _ & _ & Hd & Hf & Hm & Ec). rewrite Hfull in Hf. injection Hf as <-. cbn [shown] in Hm.
    assert (Hu : tget (UNDERSCORE :: k_depends) (f_data _ c) = None).
    { rewrite (C60_copy_other_fields _ _ _ _ H); [exact Hn|cbn; intuition discriminate|]. intros [a Ha]. apply (f_equal (@rev ascii)) in Ha. rewrite rev_app_distr in Ha. discriminate. }
    assert (Hg : tget k_depends (f_data _ c) = Some (t' ++ " " :: suspend)).
    { rewrite Ec. cbn [made f_data]. rewrite tget_tset_eq. do 3 f_equal. exact Hsus. }
    assert (Hdu : record_value u k_depends None = inl (tget k_depends (f_data _ u))).
    { rewrite (value _ _ _ Hpl). unfold either. rewrite Hn. now destruct (tget k_depends (f_data _ u)). }
    assert (Hdc : record_value c k_depends None = inl (Some (t' ++ " " :: suspend))).
    { rewrite (value _ _ _ Hpc). unfold either. now rewrite Hu, Hg. }
    assert (Hdeps : direct_dependencies P vformat render u = inl (Done (map (qualify_id P u) (flat_map word_in l)))).
    { destruct (tget k_depends (f_data _ u)) as [t0|].
      - subst t0. now apply (C59_dependencies_are_the_words_written _ _ _ u k_depends t l).
      - subst t. apply pieces_nil in Hp. subst l. now apply (C59_no_dependencies _ _ _ u k_depends). }
    split; [exact Hdeps|].
    assert (Hs1 : bare suspend) by (destruct Hv; (split; [discriminate|]; split; [|cbn; discriminate]); unfold str; cbn; repeat constructor; unfold ends_word; cbn; intuition discriminate).
    assert (Hs2 : ~ In NUL suspend) by (destruct Hv; cbn; intuition discriminate).
    assert (Hs3 : qualified suspend).
    { destruct Hv; [exists (str "com.canonical.certification"), (str "suspend/suspend_advanced_auto")|exists (str "com.canonical.certification"), (str "suspend/suspend_advanced")]; reflexivity. }
    assert (Hnsp : forall w, bare w -> forall r, ~ starts (fun c => isspace c = true) (w ++ r)).
    { intros w (W1 & W2 & _) r. destruct w as [|x w]; [easy|]. inversion W2; subst. cbn. intros Hx. apply H2. now left. }
    destruct Hs1 as (S1 & S2 & S3).
    assert (Ps : pieces suspend [IWord suspend] []).
    { rewrite <- (app_nil_r suspend) at 1. apply p_word; auto. constructor. }
    assert (Pr : pieces (full ++ " " :: suspend) [IWord full; ISpace [" "]; IWord suspend] []).
    { apply p_word; auto; [right; now left|]. apply one_space; [|exact Ps]. rewrite <- (app_nil_r suspend). apply Hnsp. repeat split; assumption. }
    assert (Hl : exists l', pieces (t' ++ " " :: suspend) l' [] /\ flat_map word_in l' = flat_map word_in l ++ [full; suspend] /\ ~ In NUL (t' ++ " " :: suspend)).
    { assert (Nt : ~ In NUL (full ++ " " :: suspend)) by (rewrite in_app_iff; intros [|[Hx|]]; [contradiction|discriminate|contradiction]).
      rewrite Hdu in Hd. injection Hd as <-. destruct (tget k_depends (f_data _ u)) as [t0|].
      - subst t0. destruct t as [|x t].
        + subst t'. exists [IWord full; ISpace [" "]; IWord suspend]. split; [exact Pr|]. apply pieces_nil in Hp. subst l. split; [reflexivity|assumption].
        + destruct Hm as (t0 & [= <-] & ->).
          destruct (pieces_more (full ++ " " :: suspend) [IWord full; ISpace [" "]; IWord suspend] (Hnsp _ (conj Hb1 (conj Hb2 Hb3)) _) Pr (x :: t) l [] Hp eq_refl Hlast) as (l' & H1 & H2).
          exists l'. replace (((x :: t) ++ " " :: full) ++ " " :: suspend) with ((x :: t) ++ " " :: full ++ " " :: suspend) by (rewrite <- app_assoc; reflexivity).
          split; [exact H1|]. split; [exact H2|]. rewrite in_app_iff. intros [Hx|[Hx|Hx]]; [contradiction|discriminate|contradiction].
      - subst t t'. exists [IWord full; ISpace [" "]; IWord suspend]. split; [exact Pr|]. apply pieces_nil in Hp. subst l. split; [reflexivity|assumption]. }
    destruct Hl as (l' & H1 & H2 & H3).
    unfold direct_dependencies. rewrite (C59_dependencies_are_the_words_written P vformat render c k_depends _ l' Hdc H3 H1). rewrite H2, map_app. do 2 f_equal.
    assert (Hqq : forall x, qualify_id P c x = qualify_id P u x).
    { intros x. unfold FieldsModel.qualify_id. destruct (C60_copy_provider _ _ _ H) as (-> & _ & _). reflexivity. }
    f_equal; [apply map_ext; exact Hqq|]. cbn [map]. rewrite !Hqq. destruct (C59_qualify _ u suspend) as [Qs _]. rewrite (Qs Hs3).
    destruct (C59_qualify _ u full) as [Qf Qf']. destruct Hq as [Hq|Hq]; [|now rewrite (Qf Hq)].
    destruct (has_colons full) eqn:Ehc; [apply has_colons_spec in Ehc; now rewrite (Qf Ehc)|].
    assert (~ qualified full) by (rewrite <- has_colons_spec, Ehc; discriminate). rewrite (Qf' H0), Hq. reflexivity.
  Qed.

  (** ** Only so many *)

  Inductive descendant (u : unit_) : unit_ -> Prop :=
  | d_self : descendant u u
  | d_child v c : descendant u v -> In c (fst (children v)) -> descendant u c.

  Definition sib_size (u : unit_) : nat := match translated_value u k_siblings None with inl (Some t) => length t | _ => 0 end.
  Definition flag_size (u : unit_) : nat := match tget k_flags (f_data _ u) with Some t => length t | None => 0 end.
  Definition tame (u : unit_) : Prop :=
    plain u /\ ~ In (str "_flags") (map fst (f_data _ u)) /\
    match f_provider _ u with Some (_, tr) => forall t, length (tr t) <= length t | None => True end.

  Let child_cases (u c : unit_) : In c (fst (children u)) ->
    (exists t os ok o, translated_value u k_siblings None = inl (Some t) /\ overrides t = (os, ok) /\ In o os /\ c = sibling P u o)
    \/ exists manual, copy manual u = inl c /\ exists fl, flag_set u = inl fl /\ In (if manual then w_manual else w_after) fl.
  Proof.
    assert (Hc : forall manual, In c (fst (copy_of P vformat render manual u)) -> exists manual, copy manual u = inl c /\ exists fl, flag_set u = inl fl /\ In (if manual then w_manual else w_after) fl).
    { intros manual. unfold copy_of. destruct (flag_set u) as [fl|]; [|intros []]. destruct (existsb (text_eqb (if manual then w_manual else w_after)) fl) eqn:E; [|intros []].
      destruct (copy manual u) as [c'|] eqn:Ec; [|intros []]. intros [<-|[]]. exists manual. split; [exact Ec|]. exists fl. split; [reflexivity|].
      apply existsb_exists in E as (x & Hx & E). apply text_eqb_eq in E. now subst x. }
    unfold SiblingsModel.children, andthen. intros H.
    assert (H' : In c (fst (siblings_of P vformat render u)) \/ In c (fst (copy_of P vformat render false u)) \/ In c (fst (copy_of P vformat render true u))).
    { destruct (siblings_of P vformat render u) as [l [e|]]; [now left|]. cbn [fst] in H. apply in_app_iff in H as [H|H]; [now left|].
      destruct (copy_of P vformat render false u) as [l' [e|]]; [right; now left|]. cbn [fst] in H. apply in_app_iff in H as [H|H]; [right; now left|right; now right]. }
    destruct H' as [H'|[H'|H']]; [left|right; eapply Hc; exact H'|right; eapply Hc; exact H'].
    unfold siblings_of in H'. destruct (record_value u k_siblings None) as [[[|x r]|]|]; try contradiction.
    destruct (translated_value u k_siblings None) as [[t|]|] eqn:Et; try contradiction. destruct (overrides t) as [os ok] eqn:Eo. cbn [fst] in H'.
    apply in_map_iff in H' as (o & <- & Ho). exists t, os, ok, o. auto.
  Qed.

  Let smaller (u c : unit_) : tame u -> tame c -> In c (fst (children u)) ->
    sib_size c < sib_size u \/ sib_size c <= sib_size u /\ flag_size c < flag_size u.
  Proof.
    intros (Hpl & Hfl & Hpr) (Hplc & _ & _) Hin. destruct (child_cases _ _ Hin) as [(t & os & ok & o & Et & Eo & Ho & ->)|(manual & Ec & fl & Hf & Hm)].
    - left. unfold sib_size at 2. rewrite Et. unfold sib_size.
      assert (Hsmall : forall k v, ends_in k_siblings k -> tget k (f_data _ (sibling P u o)) = Some v -> length v < length t).
      { intros k v He. unfold sibling, made, inherited. cbn [f_data]. rewrite tget_updates, (tget_filter (fun k => negb (ends_with k_siblings k))). apply ends_with_spec in He. rewrite He. cbn [negb].
        destruct (tget k (rev o)) as [w|] eqn:E; [|discriminate]. intros [= ->]. apply tget_last in E as (a & b & -> & _).
        eapply overrides_short; [exact Eo|exact Ho|]. apply in_app_iff. right. now left. }
      assert (Hpos : 0 < length t).
      { destruct t; [|cbn; lia]. cbn in Eo. injection Eo as <- _. destruct Ho. }
      unfold FieldsModel.translated_value. change (f_raw P (sibling P u o)) with (f_data P (sibling P u o)). destruct Hplc as [Hp Hj]. unfold insert. rewrite Hp, Hj.
      destruct (tget (UNDERSCORE :: k_siblings) (f_data _ (sibling P u o))) as [v|] eqn:E1.
      + apply Hsmall in E1; [|now exists ["_"]]. eapply Nat.le_lt_trans; [apply normalize_length|]. eapply Nat.le_lt_trans; [|exact E1].
        unfold translated_data. destruct v; [cbn; lia|]. change (f_provider P (sibling P u o)) with (f_provider P u). destruct (f_provider P u) as [[ns tr]|]; [apply Hpr|lia].
      + destruct (tget k_siblings (f_data _ (sibling P u o))) as [v|] eqn:E2; [|exact Hpos]. apply Hsmall in E2; [exact E2|now exists []].
    - right. split.
      + assert (H0 : sib_size c = 0).
        { unfold sib_size, FieldsModel.translated_value. destruct (C60_copy_provider _ _ _ Ec) as (_ & _ & ->).
          rewrite (C60_copy_no_siblings _ _ _ (UNDERSCORE :: k_siblings) Ec) by now exists ["_"]. now rewrite (C60_copy_no_siblings _ _ _ k_siblings Ec) by now exists []. }
        lia.
      + destruct (copy_inv _ _ _ Ec) as (flags & i' & s' & d & full & t' & Hft & _ & _ & _ & _ & _ & ->). unfold flag_size. rewrite Hft. cbn [made f_data]. rewrite !tget_tset_ne by discriminate. rewrite tget_tset_eq.
        unfold FieldsModel.flag_set, words_of_field, rbind in Hf. rewrite (value _ _ _ Hpl) in Hf. unfold either in Hf.
        assert (Hnu : tget (UNDERSCORE :: k_flags) (f_data _ u) = None) by now apply tget_none. rewrite Hnu, Hft in Hf. injection Hf as <-.
        assert (Hcont : contains w_after flags).
        { apply C59_flags_are_the_words_written in Hm; [|destruct manual; discriminate]. destruct Hm as (a & b & -> & _). destruct manual.
          - exists a, (["-"; "m"; "a"; "n"; "u"; "a"; "l"] ++ b). unfold w_manual. now rewrite <- !app_assoc.
          - now exists a, b. }
        eapply Nat.le_lt_trans; [apply lo_length|]. apply lo_shrinks; [discriminate|exact Hcont].
  Qed.

  Fixpoint all_of (n : nat) (l : list unit_) (last : option fault) : list unit_ * ending :=
    match l with
    | [] => ([], match last with None => Well | Some e => Fails e end)
    | c :: r => match adds n c with (a, Well) => let (b, e) := all_of n r last in (a ++ b, e) | (a, e) => (a, e) end
    end.
  Let adds_eq n u : adds (S n) u = let (l, e) := all_of n (fst (children u)) (snd (children u)) in (u :: l, e).
  Proof.
    cbn [SiblingsModel.adds]. assert (E : forall l last, (fix all (l : list unit_) (last : option fault) : list unit_ * ending :=
          match l with
          | [] => ([], match last with None => Well | Some e => Fails e end)
          | c :: r => match adds n c with (a, Well) => let (b, e) := all r last in (a ++ b, e) | (a, e) => (a, e) end
          end) l last = all_of n l last).
    { induction l as [|c l IH]; intros last; [reflexivity|]. cbn [all_of]. destruct (adds n c) as [a []]; try reflexivity. now rewrite IH. }
    now rewrite E.
  Qed.

  Definition settles (u : unit_) : Prop := exists n, snd (adds n u) <> Deep /\ forall m, n <= m -> adds m u = adds n u.
  Let settle u : (forall c, In c (fst (children u)) -> settles c) -> settles u.
  Proof.
    intros H. assert (G : forall l last, (forall c, In c l -> settles c) -> exists n, snd (all_of n l last) <> Deep /\ forall m, n <= m -> all_of m l last = all_of n l last).
    { induction l as [|c l IH]; intros last Hl.
      - exists 0. split; [destruct last; discriminate|reflexivity].
      - destruct (Hl c (or_introl eq_refl)) as (n1 & H1 & H2). destruct (IH last) as (n2 & H3 & H4); [intros x Hx; apply Hl; now right|].
        exists (Nat.max n1 n2). assert (E1 : adds (Nat.max n1 n2) c = adds n1 c) by (apply H2; lia). assert (E2 : all_of (Nat.max n1 n2) l last = all_of n2 l last) by (apply H4; lia). split.
        + cbn [all_of]. rewrite E1, E2. destruct (adds n1 c) as [a []]; cbn in *; try congruence. destruct (all_of n2 l last) as [b e]. exact H3.
        + intros m Hm. cbn [all_of]. rewrite E1, E2, (H2 m), (H4 m) by lia. reflexivity. }
    destruct (G _ (snd (children u)) H) as (n & H1 & H2). exists (S n). split.
    - rewrite adds_eq. destruct (all_of n (fst (children u)) (snd (children u))) as [l e]. exact H1.
    - intros m Hm. destruct m as [|m]; [lia|]. rewrite !adds_eq, (H2 m) by lia. reflexivity.
  Qed.

  (** Adding a job adds finitely many jobs, if none of them is made from a template or
      has its flags marked for translation, and translations make nothing longer *)
  Theorem C60_finite (u : unit_) : (forall v, descendant u v -> tame v) ->
    exists n, snd (adds n u) <> Deep /\ forall m, n <= m -> adds m u = adds n u.
  Proof.
    intros H. enough (G : forall v, descendant u v -> settles v) by (apply G; constructor).
    assert (W : forall a b v, sib_size v = a -> flag_size v = b -> descendant u v -> settles v).
    { induction a as [a IHa] using lt_wf_ind. induction b as [b IHb] using lt_wf_ind. intros v Ea Eb Hv. apply settle. intros c Hc.
      assert (Hd : descendant u c) by (eapply d_child; eassumption).
      destruct (smaller v c (H v Hv) (H c Hd) Hc) as [L|[L1 L2]].
      - eapply (IHa (sib_size c)); [lia|reflexivity|reflexivity|assumption].
      - destruct (Nat.eq_dec (sib_size c) a) as [E|E].
        + eapply (IHb (flag_size c)); [lia|assumption|reflexivity|assumption].
        + eapply (IHa (sib_size c)); [lia|reflexivity|reflexivity|assumption]. }
    intros v. eapply W; reflexivity.
  Qed.
End Props.
Print Assumptions C60_sibling.
Print Assumptions C60_children.
Print Assumptions C60_copy_other_fields.
Print Assumptions C60_copy_no_siblings.
Print Assumptions C60_copy_provider.
Print Assumptions C60_copy_identifier.
Print Assumptions C60_copies_are_new.
Print Assumptions C60_copy_summary.
Print Assumptions C60_copy_flags.
Print Assumptions C60_copy_dependencies.
Print Assumptions C60_finite.

(** ** What is not so *)

Definition no_format (_ : unit) (t : text) : text + fault := inl t.
Definition no_render (_ : option unit) (t : text) : text := t.
Definition job_of (data : list (string * string)) : unit_ unit :=
  let d := map (fun kv => (str (fst kv), str (snd kv))) data in mk_unit unit d d (Some (str "ns", fun t => t)) None.

(** Flags both plain and marked for translation: copies of copies without end *)
Theorem C60_endless_refuted : exists u : unit_ unit, plain _ u /\ NoDup (map fst (f_data _ u)) /\ forall n, snd (adds _ no_format no_render n u) = Deep.
Proof.
  exists (job_of [("id"%string, "usb"%string); ("_flags"%string, "also-after-suspend"%string); ("flags"%string, "simple"%string)]).
  split; [split; reflexivity|]. split; [cbn; repeat constructor; cbn; intuition discriminate|].
  assert (G : forall n (u : unit_ unit), plain _ u -> tget (str "_flags") (f_data _ u) = Some w_after -> tget k_flags (f_data _ u) <> None ->
     tget (UNDERSCORE :: k_siblings) (f_data _ u) = None -> tget k_siblings (f_data _ u) = None -> tget (UNDERSCORE :: k_depends) (f_data _ u) = None ->
     snd (adds _ no_format no_render n u) = Deep).
  { induction n as [|n IH]; intros u Hpl H1 H2 H3 H4 H5; [reflexivity|]. cbn [adds].
    assert (Hv : forall name default, record_value _ no_format no_render u name default = inl (either name (f_data _ u) default)).
    { intros name default. destruct Hpl as [Hp Hj]. unfold record_value, insert. rewrite Hp, Hj. now destruct (either name (f_data _ u) default). }
    assert (Hc : exists c, copy _ no_format no_render false u = inl c).
    { unfold copy. cbv zeta. assert (Ei : forall k, length k < 8 -> tget k (inherited _ u) = tget k (f_data _ u)).
      { intros k Hk. unfold inherited. rewrite (tget_filter (fun k => negb (ends_with k_siblings k))), ends_siblings by assumption. reflexivity. }
      rewrite Ei by (cbn; lia). destruct (tget k_flags (f_data _ u)) as [flags|]; [|easy]. unfold job_id, summary, partial_id, rbind. rewrite !Hv.
      assert (Ed : either k_depends (f_data _ u) None = tget k_depends (f_data _ u)) by (unfold either; rewrite H5; now destruct (tget k_depends (f_data _ u))).
      rewrite Ed. rewrite !tget_tset_ne by discriminate. rewrite Ei by (cbn; lia). destruct (tget k_depends (f_data _ u)) as [[|x r]|]; eauto. }
    destruct Hc as [c Ec].
    assert (Hch : exists r e, children _ no_format no_render u = (c :: r, e)).
    { unfold children, andthen, siblings_of, copy_of. rewrite Hv. unfold either at 1. rewrite H3, H4.
      unfold flag_set, words_of_field, rbind. rewrite Hv. unfold either. change (UNDERSCORE :: k_flags) with (str "_flags"). rewrite H1.
      assert (B1 : existsb (text_eqb w_after) (resplit w_after) = true) by reflexivity.
      assert (B2 : existsb (text_eqb w_manual) (resplit w_after) = false) by reflexivity.
      cbv iota. rewrite B1, B2, Ec. cbn [app fst snd]. eauto. }
    destruct Hch as (r & e & Hch). rewrite Hch. cbn [fst snd].
    assert (Hd : snd (adds _ no_format no_render n c) = Deep).
    { pose proof (fun k => C60_copy_other_fields _ _ _ _ u c k Ec) as Ho. destruct (C60_copy_provider _ _ _ _ _ _ Ec) as (_ & Hpar & _).
      apply IH.
      - destruct Hpl as [Hp Hj]. split; [now rewrite Hpar|]. unfold jinja. rewrite Ho; [exact Hj|cbn; intuition discriminate|].
        intros [a Ha]. apply (f_equal (@rev ascii)) in Ha. rewrite rev_app_distr in Ha. discriminate.
      - rewrite Ho; [exact H1|cbn; intuition discriminate|]. intros [a Ha]. apply (f_equal (@rev ascii)) in Ha. rewrite rev_app_distr in Ha. discriminate.
      - unfold copy in Ec. cbv zeta in Ec. destruct (tget k_flags (inherited _ u)); [|discriminate]. unfold rbind in Ec.
        destruct (partial_id _ _ _ u); [|discriminate]. destruct (summary _ _ _ u); [|discriminate]. destruct (record_value _ _ _ u k_depends None) as [d|]; [|discriminate].
        destruct (job_id _ _ _ u); [|discriminate].
        match type of Ec with match ?x with _ => _ end = _ => destruct x; [|discriminate] end. injection Ec as <-. cbn [made f_data]. rewrite !tget_tset_ne by discriminate. rewrite tget_tset_eq. discriminate.
      - apply (C60_copy_no_siblings _ _ _ _ _ _ (UNDERSCORE :: k_siblings) Ec). now exists ["_"].
      - apply (C60_copy_no_siblings _ _ _ _ _ _ k_siblings Ec). now exists [].
      - rewrite Ho; [exact H5|cbn; intuition discriminate|]. intros [a Ha]. apply (f_equal (@rev ascii)) in Ha. rewrite rev_app_distr in Ha. discriminate. }
    destruct (adds _ no_format no_render n c) as [a e']. cbn [snd] in Hd. subst e'. reflexivity. }
  intros n. apply G; try reflexivity; try discriminate. split; reflexivity.
Qed.
Print Assumptions C60_endless_refuted.

(** The copies of two different jobs have the same identifier *)
Theorem C60_copies_clash_refuted : exists (u v cu cv : unit_ unit) i,
  job_id _ no_format no_render u <> job_id _ no_format no_render v /\
  children _ no_format no_render u = ([cu], None) /\ children _ no_format no_render v = ([cv], None) /\
  job_id _ no_format no_render cu = inl (Some i) /\ job_id _ no_format no_render cv = inl (Some i) /\ f_data _ cu <> f_data _ cv.
Proof.
  exists (job_of [("id"%string, "usb"%string); ("flags"%string, "also-after-suspend-manual"%string)]).
  exists (job_of [("id"%string, "manual-usb"%string); ("flags"%string, "also-after-suspend"%string)]).
  do 2 eexists. exists (str "ns::after-suspend-manual-usb").
  split; [vm_compute; discriminate|]. split; [vm_compute; reflexivity|]. split; [vm_compute; reflexivity|]. split; [vm_compute; reflexivity|]. split; [vm_compute; reflexivity|].
  vm_compute. discriminate.
Qed.
Print Assumptions C60_copies_clash_refuted.

(** A comment at the end of the dependencies hides those of the copy *)
Theorem C60_dependencies_in_a_comment_refuted : exists (u c : unit_ unit),
  children _ no_format no_render u = ([c], None) /\
  direct_dependencies _ no_format no_render u = inl (Done [str "ns::net"]) /\
  direct_dependencies _ no_format no_render c = inl (Done [str "ns::net"]).
Proof.
  exists (job_of [("id"%string, "usb"%string); ("flags"%string, "also-after-suspend"%string); ("depends"%string, "net # first"%string)]).
  eexists. split; [vm_compute; reflexivity|]. split; vm_compute; reflexivity.
Qed.
Print Assumptions C60_dependencies_in_a_comment_refuted.

(** Dependencies marked for translation: adding the job fails *)
Theorem C60_translatable_dependencies_refuted : exists (u : unit_ unit),
  direct_dependencies _ no_format no_render u = inl (Done [str "ns::net"]) /\
  adds _ no_format no_render 9 u = ([u], Fails (Key_error (str "depends"))).
Proof.
  exists (job_of [("id"%string, "usb"%string); ("flags"%string, "also-after-suspend"%string); ("_depends"%string, "net"%string)]).
  split; vm_compute; reflexivity.
Qed.
Print Assumptions C60_translatable_dependencies_refuted.

(** The copy of a template instance whose identifier has braces has no identifier *)
Theorem C60_copy_of_an_instance_refuted : exists (u c : unit_ (Base.dict FormatModel.pval)) i k,
  job_id _ py_vformat (fun _ t => t) u = inl (Some i) /\
  copy _ py_vformat (fun _ t => t) false u = inl c /\ job_id _ py_vformat (fun _ t => t) c = inr (Missing_param k).
Proof.
  exists (mk_unit _ [(k_id, str "disk/{name}"); (k_flags, str "also-after-suspend"); (k_summary, str "Disk")] [] None (Some [("name"%string, FormatModel.PStr "{x}")])).
  eexists. exists (str "disk/{x}"), (str "x"). split; [vm_compute; reflexivity|]. split; [vm_compute; reflexivity|]. vm_compute. reflexivity.
Qed.
Print Assumptions C60_copy_of_an_instance_refuted.

(** ** The hypotheses are met *)

Definition ex_job : unit_ unit :=
  job_of [("id"%string, "usb"%string); ("plugin"%string, "shell"%string); ("flags"%string, "also-after-suspend, also-after-suspend-manual, preserve-locale"%string);
          ("depends"%string, "net # first
 other::disk"%string)].
Example ex_copy : exists c, copy _ no_format no_render false ex_job = inl c /\ plain _ ex_job /\ variant false (str "also-after-suspend") (str "after-suspend-") (str "com.canonical.certification::suspend/suspend_advanced_auto") /\
  job_id _ no_format no_render c = inl (Some (str "ns::after-suspend-usb")) /\
  tget (str "flags") (f_data _ c) = Some (str ", -manual, preserve-locale") /\
  direct_dependencies _ no_format no_render c = inl (Done [str "ns::net"; str "other::disk"; str "ns::usb"; str "com.canonical.certification::suspend/suspend_advanced_auto"]) /\
  tget (str "plugin") (f_data _ c) = Some (str "shell").
Proof. eexists. split; [vm_compute; reflexivity|]. split; [split; reflexivity|]. split; [constructor|]. repeat split; vm_compute; reflexivity. Qed.
Example ex_pieces : exists l, pieces (str "net # first
 other::disk") l [] /\ (forall l' x, l <> l' ++ [ILastComment x]) /\ flat_map word_in l = [str "net"; str "other::disk"].
Proof.
  exists [IWord (str "net"); ISpace [" "]; IComment (str " first"); ISpace [" "]; IWord (str "other::disk")].
  assert (F : forall w, forallb (fun c => negb (isspace c || Ascii.eqb c "#" || Ascii.eqb c "," || Ascii.eqb c "=")) w = true -> Forall (fun c => ~ ends_word c) w).
  { intros w Hw. apply Forall_forall. intros c Hc. rewrite forallb_forall in Hw. specialize (Hw c Hc).
    intros [H|[->|[->| ->]]]; [rewrite H in Hw; discriminate|discriminate|discriminate|discriminate]. }
  split; [|split; [|reflexivity]].
  - apply (p_word (str "net")); [discriminate|now apply F|cbn; discriminate|right; now left|].
    apply (p_space [" "]); [discriminate|repeat constructor|cbn; discriminate|].
    apply (p_comment (str " first")); [cbn; intuition discriminate|].
    apply (p_space [" "]); [discriminate|repeat constructor|cbn; discriminate|].
    apply (p_word (str "other::disk") []); [discriminate|now apply F|cbn; discriminate|now left|constructor].
  - intros l' x E. apply (f_equal (@rev item)) in E. rewrite rev_app_distr in E. discriminate.
Qed.
(** With siblings and copies of siblings *)
Definition ex_parent : unit_ unit :=
  job_of [("id"%string, "usb"%string); ("flags"%string, "also-after-suspend"%string);
          ("siblings"%string, "[{""id"": ""usb2"", ""summary"": ""again""}, {""id"": ""usb3"", ""flags"": ""simple""}]"%string)].
Example ex_adds : exists l, adds _ no_format no_render 5 ex_parent = (l, Well) /\
  map (job_id _ no_format no_render) l =
    map (fun s => inl (Some (str s))) ["ns::usb"; "ns::usb2"; "ns::after-suspend-usb2"; "ns::usb3"; "ns::after-suspend-usb"]%string.
Proof. eexists. split; [vm_compute; reflexivity|]. vm_compute. reflexivity. Qed.
