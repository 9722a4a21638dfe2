(** Proofs about configuration objects: reading. *)
From Coq Require Import String Ascii List Bool Arith ZArith Lia Permutation.
From Verif Require Import ScanModel Rfc822Model Rfc822Spec Rfc822Proofs IniModel ConfigModel ConfigSpec IniProofs IniMerge.
Import ListNotations.
Local Open Scope nat_scope.
Local Open Scope list_scope.

Definition no_default (i : ini) : Prop := tget DEFAULT (i_sections i) = None.

Lemma interpolate_iff m n t u : interpolate (S n) m t = inl u <-> expands m n t u.
Proof. split; [apply interpolate_expands|apply expands_interpolate]. Qed.

Lemma expands_ext m m' n t u : (forall k, m k = m' k) -> expands m n t u -> expands m' n t u.
Proof.
  intros E H. induction H; try (now constructor); [|].
  - eapply ex_plain; eauto. now rewrite <- E.
  - eapply ex_nested; eauto. now rewrite <- E.
Qed.

Lemma expands_fun m n t u u' : expands m n t u -> expands m n t u' -> u = u'.
Proof.
  intros A B. apply expands_interpolate in A. apply expands_interpolate in B. congruence.
Qed.

(** ** Looking up *)

Lemma held_default i k : held i DEFAULT k = tget k (i_defaults i).
Proof. reflexivity. Qed.

Lemma unify_offered i s : no_default i ->
  match unify i s with
  | Some m => has_section i s /\ forall k, m k = offered i s k
  | None => ~ has_section i s
  end.
Proof.
  intros N. unfold unify. destruct (tget s (i_sections i)) as [d|] eqn:E.
  - split.
    + right. eauto.
    + intros k. unfold offered, held. rewrite text_eqb_refl.
      destruct (text_eqb s DEFAULT) eqn:D.
      * apply text_eqb_eq in D. subst. rewrite N in E. discriminate.
      * now rewrite E.
  - destruct (is_default s) eqn:D.
    + apply is_default_true in D. subst. split; [now left|].
      intros k. unfold offered. rewrite !held_default. cbn. now destruct (tget k (i_defaults i)).
    + intros [->|[d H]]; [discriminate|congruence].
Qed.

Lemma NoDup_app_parts {A} (l m : list A) : NoDup (l ++ m) ->
  NoDup l /\ NoDup m /\ forall x, In x l -> ~ In x m.
Proof.
  induction l as [|a l IH]; cbn; intros H; [repeat split; auto; constructor|].
  inversion H as [|? ? H1 H2]; subst. destruct (IH H2) as (B & C & D). repeat split; auto.
  - constructor; auto. intros Hx. apply H1. apply in_or_app. auto.
  - intros x [<-|Hx]; auto. intros Hm. apply H1. apply in_or_app. auto.
Qed.

Section P.
  Variable to_float : text -> option text.
  Variable whole_ok : config -> bool.

  Lemma convert_denotes k t v : convert to_float k (Some t) = inl v <-> denotes to_float k t v.
  Proof.
    split.
    - destruct k; cbn [convert]; intros H.
      + injection H as <-. constructor.
      + unfold convert_to_boolean in H.
        destruct (tmem (map lower t) [T "1"; T "yes"; T "true"; T "on"]) eqn:E1.
        * injection H as <-. apply tmem_In in E1. now constructor.
        * destruct (tmem (map lower t) [T "0"; T "no"; T "false"; T "off"]) eqn:E2; [|discriminate].
          injection H as <-. apply tmem_In in E2. now constructor.
      + destruct (to_int t) eqn:E; [|discriminate]. injection H as <-. now constructor.
      + destruct (to_float t) eqn:E; [|discriminate]. injection H as <-. now constructor.
      + destruct (convert_to_list t) eqn:E; [|discriminate]. injection H as <-. now constructor.
    - intros H. destruct H as [t|t H|t H|t z H|t r H|t l H]; cbn [convert].
      + reflexivity.
      + unfold convert_to_boolean. apply tmem_In in H. now rewrite H.
      + unfold convert_to_boolean. destruct (tmem (map lower t) [T "1"; T "yes"; T "true"; T "on"]) eqn:E1.
        * exfalso. apply tmem_In in E1. cbn in H, E1.
          repeat (destruct H as [H|H]; [rewrite <- H in E1; cbn in E1; repeat (destruct E1 as [E1|E1]; [discriminate E1|]); exact E1|]).
          exact H.
        * apply tmem_In in H. now rewrite H.
      + now rewrite H.
      + now rewrite H.
      + now rewrite H.
  Qed.

  Lemma read_value_says i x v : no_default i ->
    read_value to_float i x = inl v <-> says to_float i x v.
  Proof.
    intros N. unfold read_value, ini_get. pose proof (unify_offered i (v_section x) N) as U.
    destruct (unify i (v_section x)) as [m|].
    - destruct U as [Hs U]. rewrite U. destruct (offered i (v_section x) (v_name x)) as [[raw|]|] eqn:O.
      + destruct (interpolate max_depth m raw) as [t|e] eqn:I.
        * apply (interpolate_expands m 9) in I.
          assert (I' : expands (offered i (v_section x)) 9 raw t) by (eapply expands_ext; [|exact I]; auto).
          rewrite convert_denotes. split.
          -- intros H. eapply says_value; eauto.
          -- intros H. inversion H; subst; try congruence; try contradiction.
             assert (raw0 = raw) by congruence. subst.
             assert (t = t0) by (eapply expands_fun; eauto). now subst.
        * split; [discriminate|]. intros H. inversion H; subst; try congruence; try contradiction.
          assert (raw0 = raw) by congruence. subst.
          assert (E : expands m 9 raw t) by (eapply expands_ext; [|eassumption]; auto).
          apply expands_interpolate in E. change (interpolate max_depth m raw) with (interpolate 10 m raw) in I. congruence.
      + split.
        * destruct (v_kind x) eqn:K; cbn; try discriminate. intros [= <-]. now apply says_none.
        * intros H. inversion H; subst; try congruence; try contradiction.
          match goal with H : v_kind x = KStr |- _ => rewrite H end. reflexivity.
      + split.
        * intros [= <-]. now apply says_nothing.
        * intros H. inversion H; subst; try congruence; reflexivity.
    - split.
      + intros [= <-]. now constructor.
      + intros H. inversion H; subst; try contradiction; reflexivity.
  Qed.

  (** ** Variables *)

  Lemma set_var_some x v g g' : set_var x v g = Some g' ->
    validate x v = true /\ g_sect g' = g_sect g /\ g_problems g' = g_problems g /\
    forall k, tget k (g_var g') = if text_eqb k (mangled x) then Some v else tget k (g_var g).
  Proof.
    unfold set_var. destruct (validate x v); [|discriminate]. intros [= <-]. cbn. repeat (split; [reflexivity|]).
    intros k. apply tget_tset.
  Qed.

  Lemma read_variables_spec i l : no_default i -> forall g g' , NoDup (map mangled l) ->
    read_variables to_float i l g = (g', None) ->
    exists vs, Forall2 (says to_float i) l vs /\
      (forall x v, In (x, v) (combine l vs) -> taken x v g g') /\
      (forall k, ~ In k (map mangled l) -> tget k (g_var g') = tget k (g_var g)) /\
      g_sect g' = g_sect g /\ g_problems g' = g_problems g ++ refusals (combine l vs).
  Proof.
    intros N. induction l as [|x l IH]; intros g g' ND H; cbn [read_variables] in H.
    - injection H as <-. exists []. split; [constructor|]. split; [intros x v []|]. rewrite app_nil_r. auto.
    - destruct (read_value to_float i x) as [v|e] eqn:R; [|discriminate].
      inversion ND as [|? ? Nx ND']; subst.
      assert (exists g1, read_variables to_float i l g1 = (g', None) /\ g_sect g1 = g_sect g /\
        g_problems g1 = g_problems g ++ refusals [(x, v)] /\
        forall k, tget k (g_var g1) = if (text_eqb k (mangled x) && validate x v)%bool then Some v else tget k (g_var g))
        as (g1 & H1 & S1 & P1 & V1).
      { destruct (set_var x v g) as [g1|] eqn:E.
        - apply set_var_some in E. destruct E as (A & B & C & D). exists g1. split; [exact H|]. split; [exact B|].
          unfold refusals. cbn. rewrite A. cbn. rewrite app_nil_r. split; [exact C|].
          intros k. now rewrite andb_true_r.
        - exists (add_problem (PValue x v) g). split; [exact H|]. split; [reflexivity|].
          unfold set_var in E. destruct (validate x v) eqn:A; [discriminate|]. unfold refusals. cbn. rewrite A. cbn.
          split; [reflexivity|]. intros k. now rewrite andb_false_r. }
      destruct (IH _ _ ND' H1) as (vs & A & B & C & D & E). exists (v :: vs).
      split; [constructor; auto; now apply read_value_says|].
      assert (G : forall y, mangled y <> mangled x -> get_var y g1 = get_var y g).
      { intros y Hy. unfold get_var. rewrite V1. apply text_eqb_neq in Hy. now rewrite Hy. }
      split; [|split; [|split]].
      + intros y w [[= <- <-]|Hin].
        * unfold taken, get_var. rewrite C by exact Nx. rewrite V1, text_eqb_refl. cbn [andb].
          now destruct (validate x v).
        * pose proof (B y w Hin) as Ht. unfold taken in *. rewrite Ht. destruct (validate y w); [reflexivity|].
          apply G. intros Eq. apply Nx. rewrite <- Eq. apply in_map. eapply in_combine_l; eauto.
      + intros k Hk. cbn in Hk. rewrite C by tauto. rewrite V1.
        assert (text_eqb k (mangled x) = false) as -> by (apply text_eqb_neq; intuition congruence). reflexivity.
      + congruence.
      + rewrite E, P1, <- app_assoc. f_equal. unfold refusals. cbn. destruct (validate x v); reflexivity.
  Qed.

  Lemma read_variables_ends i l : no_default i -> forall g,
    snd (read_variables to_float i l g) = None <-> (forall x, In x l -> exists v, says to_float i x v).
  Proof.
    intros N. induction l as [|x l IH]; intros g; cbn [read_variables].
    - cbn. split; auto. intros _ x [].
    - destruct (read_value to_float i x) as [v|e] eqn:R.
      + assert (Hx : says to_float i x v) by (now apply read_value_says).
        assert (Q : (forall y, In y (x :: l) -> exists v, says to_float i y v) <-> (forall y, In y l -> exists v, says to_float i y v)).
        { split; intros H y Hy; [apply H; now right|]. destruct Hy as [<-|Hy]; eauto. }
        rewrite Q. destruct (set_var x v g); apply IH.
      + cbn. split; [discriminate|]. intros H. destruct (H x (or_introl eq_refl)) as [v Hv].
        apply read_value_says in Hv; auto. congruence.
  Qed.

  (** ** Sections *)

  Lemma tget_update e : forall d k, NoDup (map fst e) -> tget k (update d e) = match tget k e with Some v => Some v | None => tget k d end.
  Proof.
    induction e as [|[k' v] e IH]; intros d k ND; cbn [update tget]; [reflexivity|].
    inversion ND as [|? ? Nk ND']; subst. rewrite IH by auto. rewrite tget_tset.
    destruct (text_eqb k k') eqn:E; [|reflexivity]. apply text_eqb_eq in E. subst.
    destruct (tget k' e) eqn:G; [|reflexivity]. apply tget_In in G. exfalso. apply Nk. apply (in_map fst) in G. exact G.
  Qed.

  Lemma items_of_spec m : forall d, match items_of m d with
    | inl l => forall k, match tget k l with
         | Some t => tget k d = Some None /\ t = [] \/ exists raw, tget k d = Some (Some raw) /\ expands m 9 raw t
         | None => tget k d = None end
    | inr e => exists k raw, In (k, Some raw) d /\ interpolate max_depth m raw = inr e
    end.
  Proof.
    induction d as [|[k v] d IH]; cbn [items_of].
    - intros k. reflexivity.
    - destruct (match v with Some t => interpolate max_depth m t | None => inl [] end) as [x|e] eqn:E.
      + destruct (items_of m d) as [l|e].
        * intros k'. cbn [tget]. destruct (text_eqb k' k); [|apply IH]. destruct v as [raw|].
          -- right. exists raw. split; auto. now apply (interpolate_expands m 9).
          -- left. split; congruence.
        * destruct IH as (k' & raw & A & B). exists k', raw. split; auto. now right.
      + destruct v as [raw|]; [|discriminate]. exists k, raw. split; [now left|auto].
  Qed.

  Definition nodup_ini (i : ini) : Prop :=
    NoDup (map fst (i_defaults i)) /\ forall s d, tget s (i_sections i) = Some d -> NoDup (map fst d).

  Lemma ini_items_spec i s : no_default i -> nodup_ini i -> match ini_items i s with
    | None => ~ has_section i s
    | Some (inl d) => has_section i s /\ section_dict i s d
    | Some (inr _) => has_section i s /\ ~ readable_section i s
    end.
  Proof.
    intros N [ND NS].
    assert (G : forall d, NoDup (map fst d) -> (forall k, match tget k d with Some v => Some v | None => tget k (i_defaults i) end = offered i s k) ->
      match items_of (fun k => tget k (update (i_defaults i) d)) (update (i_defaults i) d) with
      | inl d' => section_dict i s d' | inr _ => ~ readable_section i s end).
    { intros d Nd Hd. set (all := update (i_defaults i) d).
      assert (Ha : forall k, tget k all = offered i s k) by (intros k; unfold all; rewrite tget_update; auto).
      pose proof (items_of_spec (fun k => tget k all) all) as Q.
      destruct (items_of (fun k => tget k all) all) as [d'|e].
      - intros k. specialize (Q k). destruct (tget k d') as [t|].
        + rewrite Ha in Q. destruct Q as [[Q ->]|(raw & Q & X)]; [now constructor|].
          eapply item_value; eauto. eapply expands_ext; [|exact X]. exact Ha.
        + now rewrite <- Ha.
      - intros R. destruct Q as (k & raw & A & B).
        assert (NDall : NoDup (map fst all)).
        { unfold all. clear - ND. revert ND. generalize (i_defaults i). induction d as [|[k v] d IH]; intros D ND; cbn [update]; auto.
          apply IH. now apply NoDup_tset. }
        pose proof (In_tget _ _ _ NDall A) as T1. rewrite Ha in T1. destruct (R _ _ T1) as [t Ht].
        assert (X : expands (fun k => tget k all) 9 raw t).
        { eapply expands_ext; [|exact Ht]. intros k'. now rewrite Ha. }
        apply expands_interpolate in X. change (interpolate 10 (fun k => tget k all) raw) with (interpolate max_depth (fun k => tget k all) raw) in X.
        congruence. }
    unfold ini_items. destruct (tget s (i_sections i)) as [d|] eqn:E.
    - specialize (G d (NS _ _ E)).
      assert (Hs : has_section i s) by (right; eauto).
      assert (K : forall k, match tget k d with Some v => Some v | None => tget k (i_defaults i) end = offered i s k).
      { intros k. unfold offered, held. rewrite text_eqb_refl. destruct (text_eqb s DEFAULT) eqn:D.
        - apply text_eqb_eq in D. subst. rewrite N in E. discriminate.
        - now rewrite E. }
      specialize (G K). cbn zeta. destruct (items_of _ _); auto.
    - destruct (is_default s) eqn:D.
      + apply is_default_true in D. subst. specialize (G [] (NoDup_nil _)).
        assert (Hs : has_section i DEFAULT) by (now left).
        assert (K : forall k, match tget k ([] : tdict (option text)) with Some v => Some v | None => tget k (i_defaults i) end = offered i DEFAULT k).
        { intros k. unfold offered. rewrite !held_default. cbn. now destruct (tget k (i_defaults i)). }
        specialize (G K). cbn zeta. destruct (items_of _ _); auto.
      + intros [->|[d H]]; [discriminate|congruence].
  Qed.

  Lemma section_dict_readable i s d : section_dict i s d -> readable_section i s.
  Proof.
    intros H k raw O. specialize (H k). destruct (tget k d) as [t|]; [|congruence].
    inversion H; subst; [congruence|]. assert (raw0 = raw) by congruence. subst. eauto.
  Qed.

  Lemma read_sections_spec i l : no_default i -> nodup_ini i -> forall g g', NoDup l ->
    read_sections i l g = (g', None) ->
    g_var g' = g_var g /\ g_problems g' = g_problems g /\
    (forall s, In s l -> has_section i s -> exists d, get_section s g' = Some (SPlain d) /\ section_dict i s d) /\
    (forall s, ~ (In s l /\ has_section i s) -> get_section s g' = get_section s g).
  Proof.
    intros N ND. induction l as [|s l IH]; intros g g' Nl H; cbn [read_sections] in H.
    - injection H as <-. repeat (split; [reflexivity|]). split; [intros s []|reflexivity].
    - inversion Nl as [|? ? Ns Nl']; subst. pose proof (ini_items_spec i s N ND) as Q.
      destruct (ini_items i s) as [[d|e]|]; [|discriminate|].
      + destruct Q as [Hs Hd]. destruct (IH _ _ Nl' H) as (A & B & C & D).
        split; [exact A|]. split; [exact B|]. split.
        * intros s' [<-|Hin] Hs'; [|now apply C]. exists d. split; auto.
          rewrite D by tauto. unfold get_section, set_section. cbn. now rewrite tget_tset, text_eqb_refl.
        * intros s' Hn. rewrite D by (intros [A1 A2]; apply Hn; split; [now right|auto]).
          unfold get_section, set_section. cbn. rewrite tget_tset.
          destruct (text_eqb s' s) eqn:E; [|reflexivity]. apply text_eqb_eq in E. subst. exfalso. apply Hn. split; [now left|auto].
      + destruct (IH _ _ Nl' H) as (A & B & C & D). split; [exact A|]. split; [exact B|]. split.
        * intros s' [<-|Hin] Hs'; [contradiction|now apply C].
        * intros s' Hn. apply D. intros [A1 A2]. apply Hn. split; [now right|auto].
  Qed.

  Lemma read_sections_ends i l : no_default i -> nodup_ini i -> forall g,
    snd (read_sections i l g) = None <-> (forall s, In s l -> has_section i s -> readable_section i s).
  Proof.
    intros N ND. induction l as [|s l IH]; intros g; cbn [read_sections].
    - cbn. split; auto. intros _ s [].
    - pose proof (ini_items_spec i s N ND) as Q. destruct (ini_items i s) as [[d|e]|].
      + destruct Q as [_ Q]. apply section_dict_readable in Q. rewrite IH. split; intros H s' Hs'.
        * destruct Hs' as [<-|Hs']; auto.
        * apply H. now right.
      + destruct Q as [Hs Q]. cbn. split; [discriminate|]. intros H. exfalso. apply Q. apply H; [now left|exact Hs].
      + rewrite IH. split; intros H s' Hs'.
        * destruct Hs' as [<-|Hs']; [intros; contradiction|auto].
        * apply H. now right.
  Qed.

  (** ** Parametric sections *)

  Lemma tprefix_app p t : tprefix p (p ++ t) = true.
  Proof. induction p; cbn; auto. now rewrite Ascii.eqb_refl. Qed.
  Lemma tprefix_split p : forall t, tprefix p t = true -> t = p ++ skipn (length p) t.
  Proof.
    induction p as [|a p IH]; intros t H; [reflexivity|]. destruct t as [|b t]; [discriminate|].
    cbn in H. apply andb_prop in H. destruct H as [E H]. apply Ascii.eqb_eq in E. subst. cbn. f_equal. auto.
  Qed.
  Lemma skipn_prefix (p t : text) : skipn (length p) (p ++ t) = t.
  Proof. induction p; cbn; auto. Qed.

  Lemma has_keys i s : has_section i s <-> In s (ini_keys i).
  Proof.
    unfold has_section, ini_keys. cbn. split.
    - intros [->|[d H]]; [now left|]. right. apply tget_In in H. apply (in_map fst) in H. exact H.
    - intros [<-|H]; [now left|]. right. apply in_map_iff in H. destruct H as ([k d] & <- & H). cbn.
      destruct (tget k (i_sections i)) eqn:E; eauto.
      exfalso. clear -H E. revert H E. generalize (i_sections i). induction t as [|[k' d'] t IH]; cbn; [tauto|].
      intros [[= <- <-]|H]; [now rewrite text_eqb_refl|]. destruct (text_eqb k k'); [discriminate|auto].
  Qed.

  Lemma parametric_spec i p keys : no_default i -> nodup_ini i -> (forall k, In k keys -> has_section i k) ->
    forall acc, match parametric_values i p keys acc with
    | inl d => (forall k, In (p ++ k) keys -> exists e, tget k d = Some e /\ section_dict i (p ++ k) e) /\
               (forall k, ~ In (p ++ k) keys -> tget k d = tget k acc)
    | inr _ => exists k, In (p ++ k) keys /\ ~ readable_section i (p ++ k)
    end.
  Proof.
    intros N ND. induction keys as [|k keys IH]; intros Hk acc; cbn [parametric_values].
    - split; [intros k []|reflexivity].
    - assert (Hk' : forall k0, In k0 keys -> has_section i k0) by (intros; apply Hk; now right).
      destruct (tprefix p k) eqn:E.
      + apply tprefix_split in E. set (r := skipn (length p) k) in *.
        pose proof (ini_items_spec i k N ND) as Q. destruct (ini_items i k) as [[d|e]|].
        * destruct Q as [_ Q]. specialize (IH Hk' (tset r d acc)).
          destruct (parametric_values i p keys (tset r d acc)) as [d'|e].
          -- destruct IH as [A B]. split.
             ++ intros k' [Eq|Hin]; [|now apply A]. rewrite E in Eq. apply app_inv_head in Eq. subst k'.
                destruct (in_dec (list_eq_dec ascii_dec) (p ++ r) keys) as [Hin|Hn]; [now apply A|].
                exists d. rewrite B by exact Hn. rewrite tget_tset, text_eqb_refl. split; auto. now rewrite <- E.
             ++ intros k' Hn. cbn in Hn. rewrite B by tauto. rewrite tget_tset.
                destruct (text_eqb k' r) eqn:Eq; [|reflexivity]. apply text_eqb_eq in Eq. subst k'. exfalso. apply Hn. left. exact E.
          -- destruct IH as (k' & A & B). exists k'. split; auto. now right.
        * destruct Q as [_ Q]. exists r. rewrite <- E. split; [now left|auto].
        * exfalso. apply Q. apply Hk. now left.
      + specialize (IH Hk' acc). destruct (parametric_values i p keys acc) as [d'|e].
        * destruct IH as [A B]. split.
          -- intros k' [Eq|Hin]; [|now apply A]. subst k. rewrite tprefix_app in E. discriminate.
          -- intros k' Hn. apply B. intros H. apply Hn. now right.
        * destruct IH as (k' & A & B). exists k'. split; auto. now right.
  Qed.

  Lemma read_parametric_spec i l : no_default i -> nodup_ini i -> forall g g', NoDup l ->
    read_parametric i l g = (g', None) ->
    g_var g' = g_var g /\ g_problems g' = g_problems g /\
    (forall s, In s l -> exists d, get_section s g' = Some (SParam d) /\ param_dict i s d) /\
    (forall s, ~ In s l -> get_section s g' = get_section s g).
  Proof.
    intros N ND. induction l as [|s l IH]; intros g g' Nl H; cbn [read_parametric] in H.
    - injection H as <-. repeat (split; [reflexivity|]). split; [intros s []|reflexivity].
    - inversion Nl as [|? ? Ns Nl']; subst.
      assert (Hk : forall k, In k (ini_keys i) -> has_section i k) by (intros k Hk; now apply has_keys).
      pose proof (parametric_spec i (s ++ T ":") (ini_keys i) N ND Hk []) as Q.
      destruct (parametric_values i (s ++ T ":") (ini_keys i) []) as [d|e]; [|discriminate].
      destruct (IH _ _ Nl' H) as (A & B & C & D). split; [exact A|]. split; [exact B|]. split.
      + intros s' [<-|Hin]; [|now apply C]. exists d. split.
        * rewrite D by exact Ns. unfold get_section, set_section. cbn. now rewrite tget_tset, text_eqb_refl.
        * intros k. destruct Q as [Q1 Q2]. destruct (in_dec (list_eq_dec ascii_dec) ((s ++ T ":") ++ k) (ini_keys i)) as [Hin|Hn].
          -- destruct (Q1 k Hin) as (e & E1 & E2). rewrite E1. rewrite <- app_assoc in Hin, E2. split; [now apply has_keys|auto].
          -- rewrite (Q2 k Hn). cbn [tget]. rewrite has_keys. now rewrite <- app_assoc in Hn.
      + intros s' Hn. cbn in Hn. rewrite D by tauto. unfold get_section, set_section. cbn. rewrite tget_tset.
        destruct (text_eqb s' s) eqn:E; [|reflexivity]. apply text_eqb_eq in E. subst. tauto.
  Qed.

  Lemma read_parametric_ends i l : no_default i -> nodup_ini i -> forall g,
    snd (read_parametric i l g) = None <->
    (forall s k, In s l -> has_section i (s ++ T ":" ++ k) -> readable_section i (s ++ T ":" ++ k)).
  Proof.
    intros N ND. induction l as [|s l IH]; intros g; cbn [read_parametric].
    - cbn. split; auto. intros _ s k [].
    - assert (Hk : forall k, In k (ini_keys i) -> has_section i k) by (intros k Hk; now apply has_keys).
      pose proof (parametric_spec i (s ++ T ":") (ini_keys i) N ND Hk []) as Q.
      destruct (parametric_values i (s ++ T ":") (ini_keys i) []) as [d|e].
      + destruct Q as [Q _]. rewrite IH. split; intros H s' k Hs' Hh.
        * destruct Hs' as [<-|Hs']; auto. apply has_keys in Hh. destruct (Q k) as (e & _ & E).
          { now rewrite <- app_assoc. }
          rewrite <- app_assoc in E. eapply section_dict_readable; eauto.
        * apply H; auto. now right.
      + destruct Q as (k & A & B). rewrite <- app_assoc in A, B. cbn. split; [discriminate|]. intros H. exfalso. apply B.
        apply H; [now left|]. now apply has_keys.
  Qed.

  (** ** Everything *)

  Lemma read_commit_spec c i g g' : no_default i -> nodup_ini i ->
    NoDup (map mangled (c_variables c)) -> NoDup (c_sections c ++ c_parametric c) ->
    read_commit to_float whole_ok c i g = (g', None) ->
    exists vs, Forall2 (says to_float i) (c_variables c) vs /\
      (forall x v, In (x, v) (combine (c_variables c) vs) -> taken x v g g') /\
      (forall s, In s (c_sections c) -> has_section i s ->
         exists d, get_section s g' = Some (SPlain d) /\ section_dict i s d) /\
      (forall s, In s (c_sections c) -> ~ has_section i s -> get_section s g' = get_section s g) /\
      (forall s, In s (c_parametric c) -> exists d, get_section s g' = Some (SParam d) /\ param_dict i s d) /\
      let seen := g_problems g ++ refusals (combine (c_variables c) vs) in
      g_problems g' = seen ++ if whole_ok (mk_config (g_var g') (g_sect g') seen) then [] else [PWhole].
  Proof.
    intros N ND Nv Ns H. unfold read_commit in H.
    destruct (read_variables to_float i (c_variables c) g) as [g1 [e|]] eqn:R1; [discriminate|].
    destruct (read_sections i (c_sections c) g1) as [g2 [e|]] eqn:R2; [discriminate|].
    destruct (read_parametric i (c_parametric c) g2) as [g3 [e|]] eqn:R3; [discriminate|].
    destruct (NoDup_app_parts _ _ Ns) as (N1 & N2 & Dis).
    destruct (read_variables_spec i _ N g g1 Nv R1) as (vs & A1 & A2 & A3 & A4 & A5).
    destruct (read_sections_spec i _ N ND g1 g2 N1 R2) as (B1 & B2 & B3 & B4).
    destruct (read_parametric_spec i _ N ND g2 g3 N2 R3) as (C1 & C2 & C3 & C4).
    assert (E : g_var g' = g_var g3 /\ g_sect g' = g_sect g3 /\
      g_problems g' = g_problems g3 ++ if whole_ok g3 then [] else [PWhole]).
    { destruct (whole_ok g3); injection H as <-; cbn; rewrite ?app_nil_r; auto. }
    destruct E as (E1 & E2 & E3).
    assert (Gs : forall s, get_section s g' = get_section s g3) by (intros; unfold get_section; now rewrite E2).
    exists vs. split; [exact A1|]. split; [|split; [|split; [|split]]].
    - intros x v Hin. specialize (A2 x v Hin). unfold taken, get_var in *. rewrite E1, C1, B1. exact A2.
    - intros s Hs Hh. rewrite Gs, C4 by auto. now apply B3.
    - intros s Hs Hh. rewrite Gs, C4 by auto. rewrite B4 by tauto. unfold get_section. now rewrite A4.
    - intros s Hs. rewrite Gs. now apply C3.
    - cbn zeta. rewrite E3, C2, B2, A5. f_equal. f_equal.
      assert (g3 = mk_config (g_var g3) (g_sect g3) (g_problems g3)) as Hg by (destruct g3; reflexivity).
      rewrite Hg at 1. rewrite E1, E2, C2, B2, A5. reflexivity.
  Qed.

  Lemma read_commit_ends c i g : no_default i -> nodup_ini i ->
    snd (read_commit to_float whole_ok c i g) = None <->
    (forall x, In x (c_variables c) -> exists v, says to_float i x v) /\
    (forall s, In s (c_sections c) -> has_section i s -> readable_section i s) /\
    (forall s k, In s (c_parametric c) -> has_section i (s ++ T ":" ++ k) -> readable_section i (s ++ T ":" ++ k)).
  Proof.
    intros N ND. unfold read_commit.
    pose proof (read_variables_ends i (c_variables c) N g) as A.
    destruct (read_variables to_float i (c_variables c) g) as [g1 [e|]]; cbn [snd] in *.
    { split; [discriminate|]. intros (H & _). apply A in H. discriminate. }
    pose proof (read_sections_ends i (c_sections c) N ND g1) as B.
    destruct (read_sections i (c_sections c) g1) as [g2 [e|]]; cbn [snd] in *.
    { split; [discriminate|]. intros (_ & H & _). apply B in H. discriminate. }
    pose proof (read_parametric_ends i (c_parametric c) N ND g2) as C.
    destruct (read_parametric i (c_parametric c) g2) as [g3 [e|]]; cbn [snd] in *.
    { split; [discriminate|]. intros (_ & _ & H). apply C in H. discriminate. }
    assert (snd (if whole_ok g3 then (g3, None) else (add_problem PWhole g3, None : option escape)) = None) as ->
      by (destruct (whole_ok g3); reflexivity).
    split; auto. intros _. split; [now apply A|]. split; [now apply B|now apply C].
  Qed.
End P.

(** ** Texts *)

Lemma no_default_empty : no_default empty_ini.
Proof. reflexivity. Qed.

Lemma read_text_no_default t i : no_default i -> no_default (fst (read_text t i)).
Proof.
  intros N. destruct (read_text t i) as [i1 e1] eqn:E1. destruct (read_text t empty_ini) as [i2 e2] eqn:E2.
  destruct (read_text_merge t i i1 e1 i2 e2 N E1 E2) as (_ & H & _). exact H.
Qed.

Definition nodup_r (s : rstate) : Prop :=
  NoDup (map fst (r_defs s)) /\ forall h d, tget h (r_sects s) = Some d -> NoDup (map fst d).

Lemma nodup_cur s sect : nodup_r s -> NoDup (map fst (cur_options s sect)).
Proof.
  intros [A B]. unfold cur_options. destruct (is_default sect); auto.
  destruct (tget sect (r_sects s)) eqn:E; [eauto|constructor].
Qed.

Lemma nodup_set sect opt v s : nodup_r s -> nodup_r (set_option sect opt v s).
Proof.
  intros H. pose proof (nodup_cur s sect H) as C. destruct H as [A B].
  unfold set_option. destruct (is_default sect); split; cbn [r_defs r_sects]; auto.
  - now apply NoDup_tset.
  - intros h d. rewrite tget_tset. destruct (text_eqb h sect); [|apply B]. intros [= <-]. now apply NoDup_tset.
Qed.

Lemma read_line_nodup line s s' : nodup_r s -> read_line line s = inl s' -> nodup_r s'.
Proof.
  intros H. pose proof H as [A B]. unfold read_line. cbn zeta.
  destruct (if is_comment line then [] else strip line) as [|c0 r0].
  { destruct (r_cur s), (r_opt s); try (intros [= <-]; exact H).
    destruct (_ && _); [|intros [= <-]; exact H]. destruct (tget _ _) as [[| |]|]; intros [= <-]; auto.
    now apply nodup_set. }
  destruct (if _ && _ then _ else None) as [[sect opt]|].
  { destruct (tget opt _) as [[| |]|]; try discriminate. intros [= <-]. now apply nodup_set. }
  destruct (section_header _) as [h|].
  { destruct (tget h (r_sects s)) eqn:E.
    - destruct (tmem _ _); [discriminate|]. intros [= <-]. split; auto.
    - destruct (is_default h); intros [= <-]; split; cbn [r_defs r_sects]; auto.
      intros h' d. rewrite tget_tset. destruct (text_eqb h' h); [|apply B]. intros [= <-]. constructor. }
  destruct (r_cur s) as [sect|]; [|discriminate]. destruct (option_line _) as [opt val].
  destruct (added _ _); [discriminate|]. intros [= <-]. apply nodup_set. split; auto.
Qed.

Lemma read_lines_nodup lines : forall s, nodup_r s -> nodup_r (fst (read_lines lines s)).
Proof.
  induction lines as [|l lines IH]; intros s H; cbn [read_lines]; [exact H|].
  destruct (read_line l s) as [s'|[]] eqn:E; auto. apply IH. eapply read_line_nodup; eauto.
Qed.

Lemma read_text_nodup t i : nodup_ini i -> nodup_ini (fst (read_text t i)).
Proof.
  intros [A B]. unfold read_text.
  assert (H : nodup_r (start_reading i)).
  { split; cbn [r_defs r_sects start_reading].
    - unfold load_options. now rewrite map_map.
    - intros h d. rewrite tget_map. destruct (tget h (i_sections i)) eqn:E; [|discriminate]. intros [= <-].
      unfold load_options. rewrite map_map. cbn. eauto. }
  pose proof (read_lines_nodup (stream_lines t) _ H) as [C D].
  destruct (read_lines (stream_lines t) (start_reading i)) as [s e]. cbn [fst] in *. split.
  - cbn. unfold join_options. now rewrite map_map.
  - intros h d. rewrite tget_joined_sects. destruct (tget h (r_sects s)) eqn:E; [|discriminate]. intros [= <-].
    unfold join_options. rewrite map_map. cbn. eauto.
Qed.

Lemma nodup_empty : nodup_ini empty_ini.
Proof. split; [constructor|]. discriminate. Qed.
