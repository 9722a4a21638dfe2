(** Proofs about the session state. *)
From Coq Require Import String List Relations Bool NArith ZArith Arith Lia.
From Verif Require Import Base BaseFacts JobModel SolverModel SolverSpec
  SolverProofs SessionModel SessionSpec SelectProofs.
Import ListNotations.
Open Scope list_scope.

(** * Construction *)

Lemma dedup_spec fuel : forall l r,
  length l < fuel -> dedup_jobs fuel l = r ->
  match r with
  | SOk l' => unique_ids l' /\ incl l' l /\
      (forall x, In x l -> exists y, In y l' /\ j_sum y = j_sum x)
  | SErr (DepDuplicate a b) =>
      In a l /\ In b l /\ j_id a = j_id b /\ j_sum a <> j_sum b
  | _ => False
  end.
Proof.
  induction fuel as [|fuel IH]; intros l r Hf H; [lia|].
  simpl in H. destruct (get_job_map l) as [jm|e|] eqn:E.
  - subst r. apply get_job_map_ok in E. split; [tauto|]. split; [apply incl_refl|]. eauto.
  - apply get_job_map_err in E. destruct E as (a & b & l1 & l2 & l3 & -> & Hid & Hl).
    assert (Ha : In a l) by (rewrite Hl, !in_app_iff; simpl; auto).
    assert (Hb : In b l)
      by (rewrite Hl, !in_app_iff; simpl; rewrite in_app_iff; simpl; auto).
    destruct (job_eqb a b) eqn:Eab.
    + apply String.eqb_eq in Eab. destruct (job_remove_some b l Hb) as [m Hm].
      rewrite Hm in H. pose proof (job_remove_length _ _ _ Hm) as Hlen.
      assert (Hin : incl m l).
      { pose proof (remove_if_present_incl b l) as G. unfold remove_if_present in G.
        now rewrite Hm in G. }
      assert (Hsum : forall x, In x l -> exists y, In y m /\ j_sum y = j_sum x).
      { destruct (job_remove_split _ _ _ Hm) as (k1 & y & k2 & Hk & -> & Hy & Hfirst).
        apply String.eqb_eq in Hy.
        assert (Hbk : exists z, In z (k1 ++ k2) /\ j_sum z = j_sum b).
        { (* y is the first occurrence; a occurs no later than l2, b after it *)
          exists b. split; auto. rewrite Hl in Hk.
          assert (Hcount : forall z, In z k1 -> j_sum z <> j_sum b).
          { intros z Hz He. specialize (Hfirst z Hz). unfold job_eqb in Hfirst.
            rewrite He, String.eqb_refl in Hfirst. discriminate. }
          assert (G : exists r', l1 ++ [a] = k1 ++ y :: r').
          { clear -Eab Hy Hk Hcount. revert k1 Hk Hcount.
            induction l1 as [|z l1 IHl]; intros k1 Hk Hc.
            - destruct k1 as [|z' k1]; simpl in *.
              + injection Hk as -> _. exists []. auto.
              + injection Hk as <- _. exfalso. apply (Hc a); auto.
            - destruct k1 as [|z' k1]; simpl in *.
              + injection Hk as -> _. exists (l1 ++ [a]). auto.
              + injection Hk as <- Hk. destruct (IHl k1 Hk) as [r' Hr]; auto.
                exists r'. now rewrite Hr. }
          destruct G as [r' G].
          assert (Hk2 : k2 = r' ++ l2 ++ b :: l3).
          { replace (l1 ++ a :: l2 ++ b :: l3) with ((l1 ++ [a]) ++ l2 ++ b :: l3) in Hk
              by (now rewrite <- app_assoc).
            rewrite G, <- app_assoc in Hk. simpl in Hk. apply app_inv_head in Hk.
            now injection Hk as <-. }
          rewrite Hk2, !in_app_iff. simpl. auto. }
        intros x Hx. rewrite Hk, in_app_iff in Hx. simpl in Hx.
        destruct Hx as [Hx|[<-|Hx]].
        - exists x. rewrite in_app_iff. auto.
        - destruct Hbk as (z & Hz & He). exists z. split; auto. congruence.
        - exists x. rewrite in_app_iff. auto. }
      assert (G := IH m r). destruct r as [l'|e|].
      * destruct G as (Hu & Hi & Hs); auto; [lia|].
        split; auto. split; [intros x Hx; auto|].
        intros x Hx. destruct (Hsum x Hx) as (y & Hy & He).
        destruct (Hs y Hy) as (z & Hz & He'). exists z. split; auto. congruence.
      * destruct e; try (apply G; auto; lia).
        destruct G as (G1 & G2 & G3); auto; lia.
      * apply G; auto; lia.
    + subst r. repeat split; auto. intros He. unfold job_eqb in Eab.
      rewrite He, String.eqb_refl in Eab. discriminate.
  - now elim (get_job_map_not_fuel l).
Qed.

Lemma dget_map_job l k :
  dget k (map (fun j => (j_id j, new_jstate j)) l) = None <-> ~ In k (map j_id l).
Proof.
  rewrite dget_None. unfold dkeys. rewrite map_map. simpl. tauto.
Qed.

(** * Frames *)

Definition erase (js : jstate) : jstate := set_inhibitors [] js.
Definition em (s : state) : dict jstate :=
  map (fun kv => (fst kv, erase (snd kv))) (st_map s).
Definition jobmap (s : state) : dict job :=
  map (fun kv => (fst kv, js_job (snd kv))) (st_map s).

Definition frame (s s' : state) : Prop :=
  st_jobs s' = st_jobs s /\ st_units s' = st_units s /\
  st_desired s' = st_desired s /\ st_mandatory s' = st_mandatory s /\
  st_run s' = st_run s /\ st_resources s' = st_resources s /\ em s' = em s.

Lemma frame_refl s : frame s s.
Proof. repeat split. Qed.

Lemma frame_trans a b c : frame a b -> frame b c -> frame a c.
Proof. unfold frame. intuition congruence. Qed.

Lemma dget_map {A B} (f : A -> B) k (d : dict A) :
  dget k (map (fun kv => (fst kv, f (snd kv))) d) = option_map f (dget k d).
Proof.
  induction d as [|[k' v] d IH]; simpl; auto.
  destruct (String.eqb k k'); auto.
Qed.

Lemma dset_map {A B} (f : A -> B) k v (d : dict A) :
  map (fun kv => (fst kv, f (snd kv))) (dset k v d) =
  dset k (f v) (map (fun kv => (fst kv, f (snd kv))) d).
Proof.
  induction d as [|[k' v'] d IH]; simpl; auto.
  destruct (String.eqb k k'); simpl; auto. now rewrite IH.
Qed.

Lemma dset_id {A} k (v : A) d : dget k d = Some v -> dset k v d = d.
Proof.
  induction d as [|[k' v'] d IH]; simpl; [discriminate|].
  destruct (String.eqb k k'); [now intros [= ->]|].
  intros H. now rewrite IH.
Qed.

Lemma em_dset k js js0 s :
  dget k (st_map s) = Some js0 -> erase js = erase js0 ->
  em (with_map (dset k js (st_map s)) s) = em s.
Proof.
  intros Hg He. unfold em. simpl. rewrite dset_map, He. apply dset_id.
  rewrite dget_map, Hg. reflexivity.
Qed.

Lemma em_dget s s' k : em s' = em s ->
  option_map erase (dget k (st_map s')) = option_map erase (dget k (st_map s)).
Proof. unfold em. intros H. rewrite <- !dget_map. now rewrite H. Qed.

Lemma em_jobmap s s' : em s' = em s -> jobmap s' = jobmap s.
Proof.
  intros H. unfold jobmap.
  assert (G : forall s, map (fun kv => (fst kv, js_job (snd kv))) (st_map s) =
              map (fun kv => (fst kv, js_job (snd kv))) (em s)).
  { intros s0. unfold em. rewrite map_map. apply map_ext. intros [k js]. reflexivity. }
  now rewrite !G, H.
Qed.

Lemma frame_dget s s' k js' : frame s s' -> dget k (st_map s') = Some js' ->
  exists js, dget k (st_map s) = Some js /\ erase js' = erase js.
Proof.
  intros (_ & _ & _ & _ & _ & _ & He) H. pose proof (em_dget s s' k He) as G.
  rewrite H in G. destruct (dget k (st_map s)) as [js|]; [|discriminate].
  exists js. simpl in G. split; congruence.
Qed.

Lemma frame_same s s' : frame s s' -> same_but_readiness s s'.
Proof.
  intros F. pose proof F as (H1 & H2 & H3 & H4 & H5 & H6 & H7).
  unfold same_but_readiness. do 6 (split; auto). split.
  - apply (f_equal (map fst)) in H7. unfold em in H7. rewrite !map_map in H7. exact H7.
  - intros k js' Hk. destruct (frame_dget s s' k js' F Hk) as (js & Hg & He).
    exists js. split; auto. unfold erase, set_inhibitors in He. now injection He.
Qed.

Section Session.
  Variable eval_expr : expr -> list (list resource) -> bool.

  Notation gil := (get_inhibitor_list eval_expr).
  Notation recompute := (recompute eval_expr).
  Notation recompute_run := (recompute_run eval_expr).

  (** * Inhibitors only depend on results and resources *)

  Lemma collect_ext {A B} (f g : A -> exn + list B) l :
    (forall x, f x = g x) -> collect f l = collect g l.
  Proof. intros H. induction l as [|x l IH]; simpl; auto. now rewrite H, IH. Qed.

  Lemma state_of_em s s' k : em s' = em s ->
    match state_of s k, state_of s' k with
    | inl x, inl y => x = y
    | inr a, inr b => js_job a = js_job b /\ js_result a = js_result b
    | _, _ => False
    end.
  Proof.
    intros H. apply (em_dget s s' k) in H. unfold state_of.
    destruct (dget k (st_map s')), (dget k (st_map s)); try discriminate; auto.
    injection H as H1 H2 _ _ _. auto.
  Qed.

  Lemma gil_em s s' j : em s' = em s -> st_resources s' = st_resources s ->
    gil s' j = gil s j.
  Proof.
    intros He Hr. unfold get_inhibitor_list.
    assert (E1 : requirement_inhibitors eval_expr s' j = requirement_inhibitors eval_expr s j).
    { unfold requirement_inhibitors. rewrite Hr. destruct (j_prog j); auto.
      destruct (evaluate_or_raise eval_expr (st_resources s) es); auto;
        apply collect_ext; intros k; pose proof (state_of_em s s' k He) as G;
        destruct (state_of s k), (state_of s' k); try contradiction; try congruence;
        destruct G as [G1 G2]; rewrite G1; try rewrite G2; reflexivity. }
    assert (E2 : direct_inhibitors s' j = direct_inhibitors s j).
    { apply collect_ext; intros k; pose proof (state_of_em s s' k He) as G.
      destruct (state_of s k), (state_of s' k); try contradiction; try congruence.
      destruct G as [G1 G2]; rewrite G1, G2; reflexivity. }
    assert (E3 : after_inhibitors s' j = after_inhibitors s j).
    { apply collect_ext; intros k; pose proof (state_of_em s s' k He) as G.
      destruct (state_of s k), (state_of s' k); try contradiction; try congruence.
      destruct G as [G1 G2]; rewrite G1, G2; reflexivity. }
    now rewrite E1, E2, E3.
  Qed.

  (** * Recomputing readiness *)

  Lemma set_inh_frame k l js s : dget k (st_map s) = Some js ->
    frame s (with_map (dset k (set_inhibitors l js) (st_map s)) s).
  Proof.
    intros H. unfold frame. simpl. do 6 (split; auto).
    now apply (em_dset k (set_inhibitors l js) js s).
  Qed.

  Lemma recompute_run_frame l : forall s, frame s (fst (recompute_run l s)).
  Proof.
    induction l as [|j l IH]; simpl; intros s; [apply frame_refl|].
    destruct (dget (j_id j) (st_map s)) as [js|] eqn:E; simpl; [|apply frame_refl].
    destruct (remove_undesired (js_inhibitors js)) as [rest|]; simpl; [|apply frame_refl].
    pose proof (set_inh_frame (j_id j) rest js s E) as F1.
    destruct (gil _ j) as [x|il]; simpl; [exact F1|].
    eapply frame_trans; [exact F1|]. eapply frame_trans; [|apply IH].
    pose proof (set_inh_frame (j_id j) (rest ++ il) (set_inhibitors rest js)
      (with_map (dset (j_id j) (set_inhibitors rest js) (st_map s)) s)) as F2.
    simpl in F2. apply F2. apply dget_dset_same.
  Qed.

  Lemma reset_frame s :
    frame s (with_map (map (fun kv => (fst kv, set_inhibitors [Undesired] (snd kv))) (st_map s)) s).
  Proof.
    unfold frame. simpl. do 6 (split; auto).
    unfold em. simpl. rewrite map_map. apply map_ext. reflexivity.
  Qed.

  Lemma recompute_frame s : frame s (fst (recompute s)).
  Proof.
    unfold SessionModel.recompute. eapply frame_trans; [|apply recompute_run_frame].
    apply reset_frame.
  Qed.

  Definition fresh_inh (s : state) (l : list job) : Prop :=
    forall j js, In j l -> dget (j_id j) (st_map s) = Some js -> js_inhibitors js = [Undesired].

  Lemma recompute_run_spec l : forall s s' x,
    NoDup (map j_id l) -> fresh_inh s l -> recompute_run l s = (s', x) ->
    match x with
    | None =>
        (forall k, ~ In k (map j_id l) -> dget k (st_map s') = dget k (st_map s)) /\
        (forall j, In j l -> exists js il, dget (j_id j) (st_map s) = Some js /\
           gil s j = inr il /\ dget (j_id j) (st_map s') = Some (set_inhibitors il js))
    | Some e =>
        exists j, In j l /\
          ((e = XKeyError (j_id j) /\ dget (j_id j) (st_map s) = None) \/ gil s j = inl e)
    end.
  Proof.
    induction l as [|j l IH]; simpl; intros s s' x Hnd Hfr H.
    - injection H as <- <-. split; [auto|tauto].
    - inversion Hnd as [|? ? Hni Hnd']; subst.
      destruct (dget (j_id j) (st_map s)) as [js|] eqn:E.
      2:{ injection H as <- <-. exists j. auto. }
      assert (Hi : js_inhibitors js = [Undesired]) by (apply (Hfr j); auto; left; auto).
      rewrite Hi in H. simpl in H.
      set (s1 := with_map (dset (j_id j) (set_inhibitors [] js) (st_map s)) s) in *.
      assert (F1 : frame s s1) by now apply set_inh_frame.
      assert (G1 : gil s1 j = gil s j).
      { destruct F1 as (_ & _ & _ & _ & _ & Hr & He). now apply gil_em. }
      rewrite G1 in H. destruct (gil s j) as [e|il] eqn:Eg.
      + injection H as <- <-. exists j. auto.
      + set (s2 := with_map (dset (j_id j) (set_inhibitors il js)
                 (dset (j_id j) (set_inhibitors [] js) (st_map s))) s1) in *.
        assert (F2 : frame s1 s2).
        { pose proof (set_inh_frame (j_id j) il (set_inhibitors [] js) s1) as F.
          simpl in F. apply F. apply dget_dset_same. }
        assert (F : frame s s2) by (eapply frame_trans; eauto).
        assert (Gs : forall y, gil s2 y = gil s y).
        { intros y. destruct F as (_ & _ & _ & _ & _ & Hr & He). now apply gil_em. }
        assert (Hd : forall k, k <> j_id j -> dget k (st_map s2) = dget k (st_map s)).
        { intros k Hk. simpl. now rewrite !dget_dset_other. }
        assert (Hnj : forall y, In y l -> j_id y <> j_id j).
        { intros y Hy He. apply Hni. rewrite <- He. now apply in_map. }
        specialize (IH s2 s' x Hnd').
        assert (Hfr2 : fresh_inh s2 l).
        { intros y jy Hy Hg. apply (Hfr y); [now right|]. rewrite <- Hd; auto. }
        specialize (IH Hfr2 H). destruct x as [e|].
        * destruct IH as (y & Hy & [[-> Hn]|Hg]); exists y; split; auto.
          -- left. split; auto. rewrite <- Hd; auto.
          -- right. now rewrite <- Gs.
        * destruct IH as [IH1 IH2]. split.
          -- intros k Hk. rewrite IH1 by tauto. apply Hd. intros ->. tauto.
          -- intros y [<-|Hy].
             ++ exists js, il. split; auto. split; auto.
                rewrite IH1 by auto. simpl. apply dget_dset_same.
             ++ destruct (IH2 y Hy) as (jy & ily & H1 & H2 & H3).
                exists jy, ily. rewrite <- Hd by auto. rewrite <- Gs. auto.
  Qed.

  Lemma reset_fresh s l :
    fresh_inh (with_map (map (fun kv => (fst kv, set_inhibitors [Undesired] (snd kv))) (st_map s)) s) l.
  Proof.
    intros j js _. simpl. rewrite dget_map.
    destruct (dget (j_id j) (st_map s)); [|discriminate]. intros [= <-]. reflexivity.
  Qed.

  Lemma recompute_ok s s' : unique_ids (st_run s) -> recompute s = (s', None) ->
    forall k js, dget k (st_map s') = Some js ->
    (~ In k (map j_id (st_run s')) /\ js_inhibitors js = [Undesired]) \/
    (exists j, In j (st_run s') /\ j_id j = k /\ gil s' j = inr (js_inhibitors js)).
  Proof.
    intros Hu H k js Hk.
    pose proof (recompute_frame s) as F. rewrite H in F. simpl in F.
    assert (Hrun : st_run s' = st_run s) by apply F. rewrite Hrun.
    unfold SessionModel.recompute in H.
    apply recompute_run_spec in H; [|exact Hu|apply reset_fresh].
    destruct H as [H1 H2].
    destruct (in_dec string_dec k (map j_id (st_run s))) as [Hi|Hi].
    - right. apply in_map_iff in Hi. destruct Hi as (j & <- & Hj).
      destruct (H2 j Hj) as (js0 & il & Hg0 & Hg & Hg').
      exists j. split; auto. split; auto.
      assert (js = set_inhibitors il js0) by congruence. subst js. simpl.
      rewrite <- Hg. rewrite (gil_em s s') by apply F. symmetry.
      pose proof (reset_frame s) as F0. apply gil_em; apply F0.
    - left. split; auto. rewrite H1 in Hk by auto. simpl in Hk. rewrite dget_map in Hk.
      destruct (dget k (st_map s)); [|discriminate]. injection Hk as <-. reflexivity.
  Qed.

  Lemma recompute_err s s' e : unique_ids (st_run s) -> recompute s = (s', Some e) ->
    exists j, In j (st_run s) /\
      ((e = XKeyError (j_id j) /\ ~ In (j_id j) (dkeys (st_map s))) \/ gil s j = inl e).
  Proof.
    intros Hu H. unfold SessionModel.recompute in H.
    apply recompute_run_spec in H; [|exact Hu|apply reset_fresh].
    destruct H as (j & Hj & G). exists j. split; auto. destruct G as [[-> Hn]|G].
    - left. split; auto. simpl in Hn. rewrite dget_map in Hn. apply dget_None.
      destruct (dget (j_id j) (st_map s)); auto; discriminate.
    - right. rewrite <- G. symmetry. pose proof (reset_frame s) as F0. apply gil_em; apply F0.
  Qed.

  Lemma recompute_ok_all s s' : unique_ids (st_run s) -> recompute s = (s', None) ->
    forall j, In j (st_run s) -> exists il, gil s j = inr il.
  Proof.
    intros Hu H j Hj. unfold SessionModel.recompute in H.
    apply recompute_run_spec in H; [|exact Hu|apply reset_fresh].
    destruct H as [_ H]. destruct (H j Hj) as (js & il & _ & G & _). exists il.
    rewrite <- G. symmetry. pose proof (reset_frame s) as F0. apply gil_em; apply F0.
  Qed.

  (** * What the inhibitors say *)

  Lemma collect_ok {A B} (f : A -> exn + list B) l ys :
    collect f l = inr ys ->
    (forall x, In x l -> exists zs, f x = inr zs /\ incl zs ys) /\
    (forall y, In y ys -> exists x zs, In x l /\ f x = inr zs /\ In y zs).
  Proof.
    revert ys. induction l as [|x l IH]; simpl; intros ys H.
    - injection H as <-. split; simpl; tauto.
    - destruct (f x) as [e|zs] eqn:E; [discriminate|].
      destruct (collect f l) as [e|ws]; [discriminate|]. injection H as <-.
      destruct (IH ws eq_refl) as [H1 H2]. split.
      + intros y [<-|Hy].
        * exists zs. split; auto. apply incl_appl, incl_refl.
        * destruct (H1 y Hy) as (zs' & Hz & Hi). exists zs'. split; auto. now apply incl_appr.
      + intros y Hy. apply in_app_iff in Hy. destruct Hy as [Hy|Hy].
        * exists x, zs. auto.
        * destruct (H2 y Hy) as (x' & zs' & H3 & H4 & H5). exists x', zs'. auto.
  Qed.

  Lemma collect_nil {A B} (f : A -> exn + list B) l ys :
    collect f l = inr ys -> (ys = [] <-> forall x, In x l -> f x = inr []).
  Proof.
    intros H. apply collect_ok in H. destruct H as [H1 H2]. split.
    - intros -> x Hx. destruct (H1 x Hx) as (zs & Hz & Hi).
      destruct zs as [|z zs]; auto. exfalso. apply (Hi z). left. auto.
    - intros Hall. destruct ys as [|y ys]; auto. exfalso.
      destruct (H2 y) as (x & zs & Hx & Hf & Hy); [left; auto|].
      rewrite Hall in Hf by auto. injection Hf as <-. destruct Hy.
  Qed.

  Lemma collect_err {A B} (f : A -> exn + list B) l e :
    collect f l = inl e -> exists x, In x l /\ f x = inl e.
  Proof.
    induction l as [|x l IH]; simpl; [discriminate|].
    destruct (f x) as [e'|zs] eqn:E.
    - intros [= ->]. exists x. auto.
    - destruct (collect f l) as [e'|ws]; [|discriminate]. intros [= ->].
      destruct IH as (y & Hy & Hf); auto. exists y. auto.
  Qed.

  Lemma resource_lists_some rm e : unavailable rm e = false ->
    map Some (resource_lists rm e) = map (fun r => dget r rm) (e_ids e).
  Proof.
    unfold unavailable, resource_lists. intros H. rewrite map_map.
    apply map_ext_in. intros r Hr.
    destruct (dget r rm) eqn:E; auto. exfalso.
    assert (G : existsb (fun r => negb (dmem r rm)) (e_ids e) = true).
    { apply existsb_exists. exists r. split; auto. unfold dmem. now rewrite E. }
    congruence.
  Qed.

  Lemma map_some_inj {A} (a b : list A) : map Some a = map Some b -> a = b.
  Proof.
    revert b. induction a as [|x a IH]; destruct b as [|y b]; simpl; try discriminate; auto.
    intros [= -> H]. f_equal. auto.
  Qed.

  Lemma unavailable_true rm e : unavailable rm e = true ->
    exists r, In r (e_ids e) /\ dget r rm = None.
  Proof.
    unfold unavailable. intros H. apply existsb_exists in H. destruct H as (r & Hr & H).
    exists r. split; auto. unfold dmem in H. destruct (dget r rm); [discriminate|auto].
  Qed.

  Lemma unavailable_false rm e r : unavailable rm e = false -> In r (e_ids e) ->
    dget r rm <> None.
  Proof.
    intros H Hr E. unfold unavailable in H.
    assert (G : existsb (fun r => negb (dmem r rm)) (e_ids e) = true).
    { apply existsb_exists. exists r. split; auto. unfold dmem. now rewrite E. }
    congruence.
  Qed.

  Lemma find_split {A} (f : A -> bool) l x : find f l = Some x ->
    exists l1 l2, l = l1 ++ x :: l2 /\ f x = true /\ forall y, In y l1 -> f y = false.
  Proof.
    induction l as [|y l IH]; simpl; [discriminate|].
    destruct (f y) eqn:E.
    - intros [= ->]. exists [], l. simpl. tauto.
    - intros H. destruct (IH H) as (l1 & l2 & -> & Hx & Hn).
      exists (y :: l1), l2. simpl. split; auto. split; auto.
      intros z [<-|Hz]; auto.
  Qed.

  Lemma outcome_state_of s k : outcome_of s k =
    match state_of s k with inr js => Some (r_outcome (js_result js)) | inl _ => None end.
  Proof. unfold outcome_of, state_of. now destruct (dget k (st_map s)). Qed.

  Lemma state_of_inr s k js : state_of s k = inr js <-> dget k (st_map s) = Some js.
  Proof.
    unfold state_of. destruct (dget k (st_map s)); split; intros H;
      try discriminate; congruence.
  Qed.

  Lemma direct_nil s j l : direct_inhibitors s j = inr l -> (l = [] <-> direct_ok s j).
  Proof.
    intros H. pose proof (collect_ok _ _ _ H) as [Hok _].
    apply collect_nil in H. rewrite H. unfold direct_ok. split.
    - intros G d Hd. apply sorted_set_In in Hd. specialize (G d Hd). simpl in G.
      rewrite outcome_state_of. destruct (state_of s d) as [|js]; [discriminate|].
      destruct (r_outcome (js_result js)) as [[]|]; congruence.
    - intros G d Hd. destruct (Hok d Hd) as (zs & Hz & _). simpl in *.
      apply (proj1 (sorted_set_In _ _)) in Hd. specialize (G d Hd).
      rewrite outcome_state_of in G. destruct (state_of s d) as [|js]; [discriminate|].
      injection G as ->. reflexivity.
  Qed.

  Lemma after_nil s j l : after_inhibitors s j = inr l -> (l = [] <-> after_ok s j).
  Proof.
    intros H. pose proof (collect_ok _ _ _ H) as [Hok _].
    apply collect_nil in H. rewrite H. unfold after_ok. split.
    - intros G d Hd. apply sorted_set_In in Hd. specialize (G d Hd). simpl in G.
      rewrite outcome_state_of. destruct (state_of s d) as [|js]; [discriminate|].
      destruct (r_outcome (js_result js)) as [o|]; [eauto|congruence].
    - intros G d Hd. apply (proj1 (sorted_set_In _ _)) in Hd. destruct (G d Hd) as [o Ho].
      rewrite outcome_state_of in Ho. destruct (state_of s d) as [|js]; [discriminate|].
      injection Ho as ->. reflexivity.
  Qed.

  Lemma requirement_nil s j l : requirements_wf j ->
    requirement_inhibitors eval_expr s j = inr l ->
    (l = [] <-> requirements_ok eval_expr s j \/ overlooked s j).
  Proof.
    intros Hwf. unfold requirement_inhibitors, requirements_ok, overlooked.
    destruct (j_prog j) as [| |es] eqn:Ep; intros H.
    - injection H as <-. split; auto.
    - discriminate.
    - unfold evaluate_or_raise in H.
      destruct (find (unavailable (st_resources s)) es) as [e|] eqn:Ef.
      + apply find_split in Ef. destruct Ef as (es1 & es2 & -> & Hx & Hn).
        pose proof (collect_ok _ _ _ H) as [Hok _].
        apply collect_nil in H. rewrite H. split.
        * intros G. right. exists es1, e, es2. split; auto. split; [|split].
          -- intros e' r He' Hr. apply (unavailable_false _ e'); auto.
          -- now apply unavailable_true.
          -- intros r Hr. specialize (G r Hr). rewrite outcome_state_of.
             destruct (state_of s r) as [|js]; [discriminate|].
             destruct (r_outcome (js_result js)) as [[]|]; congruence.
        * intros [[|(es' & He' & G)]|(es1' & e' & es2' & He' & G1 & G2 & G3)]; [discriminate| |].
          -- injection He' as <-. destruct (G e) as (ls & Hls & _).
             { rewrite in_app_iff. simpl. auto. }
             exfalso. apply unavailable_true in Hx. destruct Hx as (r & Hr & Hd).
             assert (Hin : In None (map (fun r => dget r (st_resources s)) (e_ids e))).
             { apply in_map_iff. eauto. }
             rewrite <- Hls in Hin. apply in_map_iff in Hin.
             destruct Hin as (? & ? & ?). discriminate.
          -- injection He' as He'.
             assert (e' = e).
             { clear -He' G1 G2 Hx Hn. destruct G2 as (r2 & Hr2 & Hd2).
               apply unavailable_true in Hx. destruct Hx as (r & Hr & Hd).
               revert es1' He' G1. induction es1 as [|z es1 IH]; intros es1' He' G1.
               - destruct es1' as [|z' es1']; simpl in *; [congruence|].
                 injection He' as <- _. exfalso. apply (G1 e r); auto.
               - destruct es1' as [|z' es1']; simpl in *.
                 + injection He' as -> _. exfalso.
                   apply (unavailable_false (st_resources s) e' r2); auto.
                 + injection He' as <- He'.
                   apply (IH (fun y Hy => Hn y (or_intror Hy)) es1' He'). eauto. }
             subst e'. intros r Hr. specialize (G3 r Hr). rewrite outcome_state_of in G3.
             destruct (Hok r Hr) as (zs & Hz & _). simpl in Hz.
             destruct (state_of s r) as [|js]; [discriminate|].
             injection G3 as ->. reflexivity.
      + pose proof (find_none _ _ Ef) as Hav.
        destruct (find (fun e => negb (eval_expr e (resource_lists (st_resources s) e))) es)
          as [e|] eqn:Ef2.
        * apply find_some in Ef2. destruct Ef2 as [He Hx].
          split.
          -- intros ->. exfalso. specialize (Hwf es e Ep He).
             destruct (e_ids e) as [|r rs] eqn:Er; [congruence|].
             simpl in H. destruct (state_of s r); [discriminate|].
             destruct (collect _ rs); discriminate.
          -- intros [[|(es' & He' & G)]|(es1' & e' & es2' & He' & G1 & G2 & G3)]; [discriminate| |].
             ++ injection He' as <-. exfalso. destruct (G e He) as (ls & Hls & Hh).
                specialize (Hav e He).
                rewrite <- (resource_lists_some _ _ Hav) in Hls. apply map_some_inj in Hls.
                subst ls. rewrite Hh in Hx. discriminate.
             ++ injection He' as He'. exfalso. destruct G2 as (r & Hr & Hd).
                apply (unavailable_false (st_resources s) e' r); auto. apply Hav.
                rewrite He', in_app_iff. simpl. auto.
        * injection H as <-. split; auto. intros _. left. right. exists es. split; auto.
          intros e He. exists (resource_lists (st_resources s) e). split.
          -- apply resource_lists_some. now apply Hav.
          -- pose proof (find_none _ _ Ef2 e He) as G. simpl in G.
             now apply negb_false_iff in G.
  Qed.

  Lemma gil_nil s j il : requirements_wf j -> gil s j = inr il ->
    (il = [] <-> direct_ok s j /\ after_ok s j /\
       (requirements_ok eval_expr s j \/ overlooked s j)).
  Proof.
    intros Hwf H. unfold get_inhibitor_list in H.
    destruct (requirement_inhibitors eval_expr s j) as [|l1] eqn:E1; [discriminate|].
    destruct (direct_inhibitors s j) as [|l2] eqn:E2; [discriminate|].
    destruct (after_inhibitors s j) as [|l3] eqn:E3; [discriminate|].
    injection H as <-.
    rewrite <- (direct_nil _ _ _ E2), <- (after_nil _ _ _ E3),
      <- (requirement_nil _ _ _ Hwf E1).
    split.
    - intros H. apply app_eq_nil in H. destruct H as [-> H]. apply app_eq_nil in H. tauto.
    - intros (-> & -> & ->). reflexivity.
  Qed.

  Lemma gil_real s j il : gil s j = inr il ->
    forall i, In i il -> real_obstacle eval_expr s j i.
  Proof.
    intros H i Hi. unfold get_inhibitor_list in H.
    destruct (requirement_inhibitors eval_expr s j) as [|l1] eqn:E1; [discriminate|].
    destruct (direct_inhibitors s j) as [|l2] eqn:E2; [discriminate|].
    destruct (after_inhibitors s j) as [|l3] eqn:E3; [discriminate|].
    injection H as <-. rewrite !in_app_iff in Hi. destruct Hi as [Hi|[Hi|Hi]].
    - unfold requirement_inhibitors in E1. destruct (j_prog j) as [| |es] eqn:Ep.
      + injection E1 as <-. destruct Hi.
      + discriminate.
      + unfold evaluate_or_raise in E1.
        destruct (find (unavailable (st_resources s)) es) as [e|] eqn:Ef.
        * apply find_some in Ef. destruct Ef as [He Hx].
          apply collect_ok in E1. destruct E1 as [_ E1].
          destruct (E1 i Hi) as (k & zs & Hk & Hf & Hz).
          destruct (state_of s k) as [|js] eqn:Es; [discriminate|].
          apply state_of_inr in Es.
          destruct (r_outcome (js_result js)) as [[]|] eqn:Eo; injection Hf as <-;
            simpl in Hz; try contradiction; destruct Hz as [<-|[]]; simpl; exists es, k, js;
            (do 5 (split; [solve [auto]|])); rewrite Eo; split; try congruence;
            now apply unavailable_true.
        * pose proof (find_none _ _ Ef) as Hav.
          destruct (find (fun e => negb (eval_expr e (resource_lists (st_resources s) e))) es)
            as [e|] eqn:Ef2.
          -- apply find_some in Ef2. destruct Ef2 as [He Hx].
             apply collect_ok in E1. destruct E1 as [_ E1].
             destruct (E1 i Hi) as (k & zs & Hk & Hf & Hz).
             destruct (state_of s k) as [|js] eqn:Es; [discriminate|].
             apply state_of_inr in Es. injection Hf as <-. destruct Hz as [<-|[]].
             simpl. exists es, k, js, (resource_lists (st_resources s) e).
             (do 5 (split; [solve [auto]|])). split.
             ++ apply resource_lists_some. now apply Hav.
             ++ now apply negb_true_iff in Hx.
          -- injection E1 as <-. destruct Hi.
    - apply collect_ok in E2. destruct E2 as [_ E2].
      destruct (E2 i Hi) as (k & zs & Hk & Hf & Hz). apply (proj1 (sorted_set_In _ _)) in Hk.
      destruct (state_of s k) as [|js] eqn:Es; [discriminate|].
      apply state_of_inr in Es.
      destruct (r_outcome (js_result js)) as [[]|] eqn:Eo; injection Hf as <-;
        simpl in Hz; try contradiction; destruct Hz as [<-|[]]; simpl;
        first [ exists k, js; solve [auto 6]
              | exists k, js; eexists; (do 4 (split; [solve [eauto]|])); congruence ].
    - apply collect_ok in E3. destruct E3 as [_ E3].
      destruct (E3 i Hi) as (k & zs & Hk & Hf & Hz). apply (proj1 (sorted_set_In _ _)) in Hk.
      destruct (state_of s k) as [|js] eqn:Es; [discriminate|].
      apply state_of_inr in Es.
      destruct (r_outcome (js_result js)) as [o|] eqn:Eo; injection Hf as <-;
        simpl in Hz; try contradiction; destruct Hz as [<-|[]]; simpl. exists k, js. auto.
  Qed.

  Lemma eval_in rm es :
    match evaluate_or_raise eval_expr rm es with
    | EvalTrue => True
    | EvalCannot e | EvalFailed e => In e es
    end.
  Proof.
    unfold evaluate_or_raise. destruct (find (unavailable rm) es) eqn:E.
    - now apply find_some in E.
    - destruct (find (fun e => negb _) es) eqn:E2.
      + now apply find_some in E2.
      + exact I.
  Qed.

  Lemma gil_error s j x : gil s j = inl x ->
    (x = XProgramError j /\ j_prog j = BadProg) \/
    (exists k, x = XKeyError k /\ dget k (st_map s) = None /\
       In k (map snd (get_dependency_set j))).
  Proof.
    assert (Hst : forall k y, state_of s k = inl y -> y = XKeyError k /\ dget k (st_map s) = None).
    { intros k y. unfold state_of. destruct (dget k (st_map s)); [discriminate|].
      intros [= <-]. auto. }
    unfold get_dependency_set. intros H. unfold get_inhibitor_list in H.
    destruct (requirement_inhibitors eval_expr s j) as [y|l1] eqn:E1.
    - injection H as ->. unfold requirement_inhibitors in E1.
      destruct (j_prog j) as [| |es] eqn:Ep; [discriminate|injection E1 as <-; auto|].
      right.
      assert (G : exists e k, In e es /\ In k (e_ids e) /\ x = XKeyError k /\
                  dget k (st_map s) = None).
      { pose proof (eval_in (st_resources s) es) as Hin.
        destruct (evaluate_or_raise eval_expr (st_resources s) es) as [|e|e];
          [discriminate| |]; apply collect_err in E1; destruct E1 as (k & Hk & Hf);
          exists e, k; (split; [exact Hin|]); (split; [exact Hk|]);
          destruct (state_of s k) as [y|js] eqn:Es.
        - injection Hf as ->. now apply Hst.
        - destruct (r_outcome (js_result js)) as [[]|]; discriminate.
        - injection Hf as ->. now apply Hst.
        - discriminate. }
      destruct G as (e & k & He & Hk & -> & Hd). exists k. split; auto. split; auto.
      rewrite !map_app, !map_map, !in_app_iff. right. left.
      unfold get_resource_dependencies. rewrite Ep. rewrite map_id.
      apply in_flat_map. eauto.
    - destruct (direct_inhibitors s j) as [y|l2] eqn:E2.
      + injection H as ->. right. apply collect_err in E2. destruct E2 as (k & Hk & Hf).
        exists k. destruct (state_of s k) as [y|js] eqn:Es.
        * injection Hf as ->. apply Hst in Es. destruct Es as [-> Hd]. split; auto. split; auto.
          rewrite !map_app, !map_map, !in_app_iff. left. rewrite map_id.
          now apply (proj1 (sorted_set_In _ _)) in Hk.
        * destruct (r_outcome (js_result js)) as [[]|]; discriminate.
      + destruct (after_inhibitors s j) as [y|l3] eqn:E3; [|discriminate].
        injection H as ->. right. apply collect_err in E3. destruct E3 as (k & Hk & Hf).
        exists k. destruct (state_of s k) as [y|js] eqn:Es.
        * injection Hf as ->. apply Hst in Es. destruct Es as [-> Hd]. split; auto. split; auto.
          rewrite !map_app, !map_map, !in_app_iff. right. right. rewrite map_id.
          now apply (proj1 (sorted_set_In _ _)) in Hk.
        * destruct (r_outcome (js_result js)) as [o|]; discriminate.
  Qed.
End Session.
