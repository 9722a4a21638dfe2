(** Proofs about the dependency solver. *)
From Coq Require Import String List Relations Operators_Properties Bool NArith
  Arith Lia.
From Verif Require Import Base BaseFacts JobModel SolverModel SolverSpec.
Import ListNotations.
Open Scope list_scope.

(** * Job maps *)

Lemma get_job_map_from_ok l : forall m jm,
  get_job_map_from m l = SOk jm ->
  (forall d b, dget d m = Some b -> j_id b = d) ->
  (forall d b, dget d jm = Some b <->
     dget d m = Some b \/ (In b l /\ j_id b = d))
  /\ NoDup (map j_id l)
  /\ (forall j, In j l -> ~ In (j_id j) (dkeys m)).
Proof.
  induction l as [|j l IH]; simpl; intros m jm H Hid.
  - injection H as <-. split; [|split; [constructor | tauto]].
    intros d b. split; [auto | intros [H|[[] _]]; auto].
  - destruct (dget (j_id j) m) eqn:E; [discriminate|].
    destruct (IH _ _ H) as (H1 & H2 & H3).
    { intros d b. rewrite dget_dset. destruct (String.eqb_spec d (j_id j)).
      - intros [= <-]. auto.
      - apply Hid. }
    split; [|split].
    + intros d b. rewrite H1, dget_dset.
      destruct (String.eqb_spec d (j_id j)).
      * subst d. split.
        -- intros [[= <-]|[Hi He]]; auto.
        -- intros [Hc|[[<-|Hi] He]]; auto. congruence.
      * split.
        -- intros [?|[? ?]]; auto.
        -- intros [?|[[->|?] ?]]; auto. congruence.
    + constructor; auto. intros Hi. apply in_map_iff in Hi.
      destruct Hi as (x & Hx1 & Hx2). apply (H3 x Hx2).
      apply dkeys_dset_In. auto.
    + intros x [<-|Hx] Hk.
      * apply dget_None in E. contradiction.
      * apply (H3 x Hx). apply dkeys_dset_In. auto.
Qed.

Lemma get_job_map_ok l jm :
  get_job_map l = SOk jm ->
  (forall d b, dget d jm = Some b <-> In b l /\ j_id b = d) /\ unique_ids l.
Proof.
  intros H. destruct (get_job_map_from_ok _ _ _ H) as (H1 & H2 & _).
  - simpl. discriminate.
  - split; auto. intros d b. rewrite H1. simpl. split; [|auto].
    intros [?|?]; [discriminate|auto].
Qed.

Lemma get_job_map_from_unique l : forall m,
  NoDup (map j_id l) -> (forall j, In j l -> ~ In (j_id j) (dkeys m)) ->
  exists jm, get_job_map_from m l = SOk jm.
Proof.
  induction l as [|j l IH]; simpl; intros m Hnd Hm; eauto.
  inversion Hnd as [|? ? Hni Hnd']; subst.
  destruct (dget (j_id j) m) eqn:E.
  - exfalso. apply (Hm j); auto. apply dget_In_keys. eauto.
  - apply IH; auto. intros x Hx Hk. apply dkeys_dset_In in Hk.
    destruct Hk as [Hk|Hk].
    + apply Hni. rewrite <- Hk. now apply in_map.
    + apply (Hm x); auto.
Qed.

Lemma get_job_map_unique l :
  unique_ids l -> exists jm, get_job_map l = SOk jm.
Proof. intros H. apply get_job_map_from_unique; auto. Qed.

Lemma get_job_map_from_err l : forall m r,
  get_job_map_from m l = r ->
  match r with
  | SOk _ => True
  | SErr (DepDuplicate a b) =>
      exists l1 l2, l = l1 ++ b :: l2 /\ j_id a = j_id b /\
        (dget (j_id b) m = Some a \/ In a l1)
  | _ => False
  end \/ (exists d b, dget d m = Some b /\ j_id b <> d).
Proof.
  induction l as [|j l IH]; simpl; intros m r <-; auto.
  destruct (dget (j_id j) m) as [a|] eqn:E.
  - destruct (string_dec (j_id a) (j_id j)) as [He|He].
    + left. exists [], l. simpl. auto.
    + right. eauto.
  - destruct (IH (dset (j_id j) j m) _ eq_refl) as [H|(d & b & H1 & H2)].
    + left. destruct (get_job_map_from (dset (j_id j) j m) l) as [|e|];
        try exact I; try contradiction.
      destruct e; try contradiction.
      destruct H as (l1 & l2 & -> & He & H).
      exists (j :: l1), l2. split; [reflexivity|]. split; [auto|].
      rewrite dget_dset in H. destruct (String.eqb_spec (j_id dup) (j_id j)).
      * destruct H as [[= <-]|H]; simpl; auto.
      * destruct H as [H|H]; simpl; auto.
    + right. rewrite dget_dset in H1.
      destruct (String.eqb_spec d (j_id j)).
      * injection H1 as <-. congruence.
      * eauto.
Qed.

Lemma get_job_map_err l e :
  get_job_map l = SErr e ->
  exists a b l1 l2 l3, e = DepDuplicate a b /\ j_id a = j_id b /\
    l = l1 ++ a :: l2 ++ b :: l3.
Proof.
  intros H. destruct (get_job_map_from_err l [] _ eq_refl) as [G|G].
  - change (get_job_map_from [] l) with (get_job_map l) in G. rewrite H in G.
    destruct e; try contradiction.
    destruct G as (l1 & l2 & -> & He & [Hd|Hi]); [discriminate|].
    apply in_split in Hi. destruct Hi as (m1 & m2 & ->).
    exists j, dup, m1, m2, l2. repeat split; auto.
    now rewrite <- app_assoc.
  - destruct G as (d & b & Hd & _). discriminate.
Qed.

Lemma get_job_map_not_fuel l : get_job_map l <> SFuel.
Proof.
  intros H. destruct (get_job_map_from_err l [] _ eq_refl) as [G|G].
  - change (get_job_map_from [] l) with (get_job_map l) in G. now rewrite H in G.
  - destruct G as (d & b & Hd & _). discriminate.
Qed.

(** * List facts *)

Lemma last_snoc {A} (l : list A) x d : last (l ++ [x]) d = x.
Proof.
  induction l as [|y l IH]; auto. simpl.
  destruct (l ++ [x]) eqn:E; auto. destruct l; discriminate.
Qed.

Lemma snoc_split {A} (l1 l2 l : list A) x y :
  l ++ [x] = l1 ++ y :: l2 ->
  (l2 = [] /\ l1 = l /\ y = x) \/ (exists l2', l2 = l2' ++ [x] /\ l = l1 ++ y :: l2').
Proof.
  intros H. destruct l2 as [|z l2] using rev_ind.
  - left. apply app_inj_tail in H. destruct H; subst; auto.
  - right. exists l2. clear IHl2.
    rewrite app_comm_cons, app_assoc in H. apply app_inj_tail in H.
    destruct H; subst; auto.
Qed.

Section Proofs.
  Variable deps_of : job -> list (dep_type * name).

  Let depends := depends deps_of.
  Let path := path deps_of.

  (** The inner loop of [visit], named. *)
  Fixpoint vdeps (fuel : nat) (jm : dict job) (j : job) (trail : list job)
      (deps : list (dep_type * name)) (st : sstate) : sres sstate :=
    match deps with
    | [] => SOk st
    | (ty, d) :: deps' =>
        match dget d jm with
        | None => SErr (DepMissing j d ty)
        | Some next =>
            match visit deps_of fuel jm st next (Some (trail ++ [next])) with
            | SOk st' => vdeps fuel jm j trail deps' st'
            | SErr e => SErr e
            | SFuel => SFuel
            end
        end
    end.

  Lemma visit_S fuel jm st j trail :
    visit deps_of (S fuel) jm st j trail =
    match dget (j_id j) (fst st) with
    | None => SErr (DepUnknown j)
    | Some White =>
        match vdeps fuel jm j (match trail with None => [j] | Some t => t end)
                (deps_of j) (dset (j_id j) Gray (fst st), snd st) with
        | SOk st' => SOk (dset (j_id j) Black (fst st'), snd st' ++ [j])
        | SErr e => SErr e
        | SFuel => SFuel
        end
    | Some Gray =>
        match trail with
        | None => SErr DepTypeError
        | Some t => SErr (mk_cycle_error (suffix_from j t))
        end
    | Some Black => SOk st
    end.
  Proof.
    simpl. destruct (dget (j_id j) (fst st)) as [[]|]; auto.
    set (t := match trail with Some t => t | None => [j] end).
    generalize (dset (j_id j) Gray (fst st), snd st).
    generalize (deps_of j).
    intros deps s0.
    match goal with |- match ?f deps s0 with _ => _ end = _ =>
      assert (E : f deps s0 = vdeps fuel jm j t deps s0) end.
    { revert s0. induction deps as [|[ty d] deps IH]; intros s0; simpl; auto.
      destruct (dget d jm) as [nx|]; auto.
      destruct (visit deps_of fuel jm s0 nx (Some (t ++ [nx]))); auto. }
    now rewrite E.
  Qed.

  Lemma dependency_ordered_nil : dependency_ordered deps_of [].
  Proof. intros [|b1 b2] x after H; discriminate. Qed.

  Lemma dependency_ordered_snoc l j :
    dependency_ordered deps_of l ->
    (forall d, depends_on_id deps_of j d -> In d (map j_id l)) ->
    dependency_ordered deps_of (l ++ [j]).
  Proof.
    intros Ho Hj before x after H d Hd.
    apply snoc_split in H. destruct H as [(-> & -> & ->)|(a & -> & ->)].
    - auto.
    - now apply (Ho before x a).
  Qed.

  Section WithJobs.
    Variable J : list job.
    Variable jm : dict job.
    Hypothesis Hjm : forall d b, dget d jm = Some b <-> In b J /\ j_id b = d.
    Hypothesis Huniq : unique_ids J.

    Lemma J_inj a b : In a J -> In b J -> j_id a = j_id b -> a = b.
    Proof.
      intros Ha Hb He.
      assert (G1 : dget (j_id a) jm = Some a) by (apply Hjm; auto).
      assert (G2 : dget (j_id a) jm = Some b) by (apply Hjm; auto).
      congruence.
    Qed.

    Lemma jm_None d : dget d jm = None <-> ~ In d (map j_id J).
    Proof.
      rewrite in_map_iff. split.
      - intros H (x & <- & Hx). assert (G : dget (j_id x) jm = Some x)
          by (apply Hjm; auto). congruence.
      - intros H. destruct (dget d jm) eqn:E; auto.
        apply Hjm in E. exfalso. apply H. destruct E; eauto.
    Qed.

    Record Inv (st : sstate) : Prop := {
      inv_keys : forall d, In d (dkeys (fst st)) <-> In d (map j_id J);
      inv_black : forall d, dget d (fst st) = Some Black <-> In d (map j_id (snd st));
      inv_nodup : NoDup (map j_id (snd st));
      inv_ord : dependency_ordered deps_of (snd st)
    }.

    Definition gray (st : sstate) d := dget d (fst st) = Some Gray.

    Definition closedP (P : job -> Prop) := forall a b, P a -> depends J a b -> P b.

    Definition okpost (st st' : sstate) (P : job -> Prop) :=
      Inv st' /\ (forall d, gray st' d <-> gray st d) /\
      (exists ext, snd st' = snd st ++ ext) /\
      (Forall P (snd st) -> Forall P (snd st')).

    Lemma Inv_gray st d : Inv st -> dget d (fst st) = Some White ->
      Inv (dset d Gray (fst st), snd st).
    Proof.
      intros HI Hw. destruct HI as [Hk Hb Hn Ho]. split; simpl; auto.
      - intros x. rewrite dkeys_dset_In. split; [|intros Hx; right; now apply Hk].
        intros [->|Hx]; [|now apply Hk]. apply Hk. apply dget_In_keys. eauto.
      - intros x. rewrite dget_dset. destruct (String.eqb_spec x d).
        + subst x. split; [discriminate|]. intros Hx. apply Hb in Hx. congruence.
        + apply Hb.
    Qed.

    Lemma visit_ok fuel : forall st j tr st' P,
      Inv st -> closedP P -> P j ->
      visit deps_of fuel jm st j tr = SOk st' ->
      okpost st st' P /\ In (j_id j) (map j_id (snd st')).
    Proof.
      induction fuel as [|fuel IH]; intros st j tr st' P HI HP Pj H.
      { discriminate. }
      rewrite visit_S in H.
      assert (Hdeps : forall deps trail s s', Inv s ->
        (forall ty d, In (ty, d) deps -> depends_on_id deps_of j d) ->
        vdeps fuel jm j trail deps s = SOk s' ->
        okpost s s' P /\
        (forall ty d, In (ty, d) deps -> In d (map j_id (snd s')))).
      { induction deps as [|[ty d] deps IHd]; simpl; intros trail s s' Hs Hsub Hv.
        - injection Hv as <-. split; [|intros ? ? []].
          split; auto. split; [tauto|]. split; auto.
          exists []. now rewrite app_nil_r.
        - destruct (dget d jm) as [next|] eqn:En; [|discriminate].
          destruct (visit deps_of fuel jm s next (Some (trail ++ [next])))
            as [s1| |] eqn:Ev; try discriminate.
          apply Hjm in En as Hn. destruct Hn as [HnJ Hnid].
          assert (Pn : P next).
          { apply (HP j); auto. split; auto. rewrite Hnid.
            apply (Hsub ty). auto. }
          destruct (IH _ _ _ _ P Hs HP Pn Ev) as [(HI1 & Hg1 & [e1 He1] & HF1) Hin1].
          destruct (IHd trail s1 s' HI1) as [(HI2 & Hg2 & [e2 He2] & HF2) Hin2]; auto.
          { intros ty' d' Hd'. apply (Hsub ty'). auto. }
          split.
          + split; auto. split; [intros x; rewrite Hg2; apply Hg1|].
            split; auto. exists (e1 ++ e2). rewrite He2, He1. now rewrite app_assoc.
          + intros ty' d' [Hd'|Hd'].
            * injection Hd' as <- <-. rewrite He2, map_app, in_app_iff.
              left. rewrite <- Hnid. auto.
            * eauto. }
      destruct (dget (j_id j) (fst st)) as [[]|] eqn:Ec; try discriminate.
      - destruct (vdeps fuel jm j _ (deps_of j) _) as [s'| |] eqn:Ev;
          try discriminate.
        injection H as <-.
        apply Hdeps in Ev; [|now apply Inv_gray| intros ty d Hd; now exists ty].
        destruct Ev as [(HI' & Hg & [ext He] & HF) Hin].
        simpl in He, Hg.
        assert (Gj : dget (j_id j) (fst s') = Some Gray).
        { apply Hg. unfold gray. simpl. apply dget_dset_same. }
        assert (Hnj : ~ In (j_id j) (map j_id (snd s'))).
        { intros Hc. apply (inv_black _ HI') in Hc. congruence. }
        destruct HI' as [Hk Hb Hn Ho].
        split; [split; [|split; [|split]]|]; simpl.
        + split; simpl.
          * intros x. rewrite dkeys_dset_In, Hk. split; auto.
            intros [->|?]; auto. apply Hk. apply dget_In_keys. eauto.
          * intros x. rewrite dget_dset, map_app, in_app_iff. simpl.
            destruct (String.eqb_spec x (j_id j)).
            -- subst x. split; auto.
            -- rewrite Hb. split; [auto|]. intros [?|[?|[]]]; congruence.
          * rewrite map_app. simpl. now apply NoDup_app_snoc.
          * apply dependency_ordered_snoc; auto.
            intros d [ty Hd]. eauto.
        + intros x. unfold gray in *. simpl in *. rewrite dget_dset.
          destruct (String.eqb_spec x (j_id j)).
          * subst x. rewrite Ec. split; discriminate.
          * rewrite Hg, dget_dset. destruct (String.eqb_spec x (j_id j)); tauto.
        + rewrite He. exists (ext ++ [j]). now rewrite app_assoc.
        + intros HFs. apply Forall_app. split; auto.
        + rewrite map_app, in_app_iff. simpl. auto.
      - destruct tr; discriminate.
      - injection H as <-. split.
        + split; auto. split; [tauto|]. split; auto. exists []. now rewrite app_nil_r.
        + now apply (inv_black _ HI).
    Qed.

    Lemma visit_all_ok fuel : forall l st st' P,
      Inv st -> closedP P -> Forall P l ->
      visit_all deps_of fuel jm st l = SOk st' ->
      okpost st st' P /\ (forall j, In j l -> In (j_id j) (map j_id (snd st'))).
    Proof.
      induction l as [|j l IH]; simpl; intros st st' P HI HP HF H.
      - injection H as <-. split; [|tauto]. split; auto.
        split; [tauto|]. split; auto. exists []. now rewrite app_nil_r.
      - inversion HF as [|? ? Pj Pl]; subst.
        destruct (visit deps_of fuel jm st j None) as [s1| |] eqn:Ev;
          try discriminate.
        destruct (visit_ok _ _ _ _ _ P HI HP Pj Ev) as [(HI1 & Hg1 & [e1 He1] & HF1) Hin1].
        destruct (IH s1 st' P HI1 HP Pl H) as [(HI2 & Hg2 & [e2 He2] & HF2) Hin2].
        split.
        + split; auto. split; [intros x; rewrite Hg2; apply Hg1|].
          split; auto. exists (e1 ++ e2). rewrite He2, He1. now rewrite app_assoc.
        + intros x [<-|Hx]; auto. rewrite He2, map_app, in_app_iff. auto.
    Qed.

    (** ** Errors are genuine *)

    Hypothesis Hfaith : faithful_equality J.

    Lemma path_suffix l1 : forall l2, path J (l1 ++ l2) -> path J l2.
    Proof.
      induction l1 as [|a l1 IH]; auto.
      intros l2 H. apply IH. destruct l1 as [|b l1]; simpl in *.
      - destruct l2; [exact I|]. apply H.
      - apply H.
    Qed.

    Lemma path_snoc l : forall a b, path J (l ++ [a]) -> depends J a b ->
      path J (l ++ [a] ++ [b]).
    Proof.
      induction l as [|x l IH]; intros a b H Hd.
      - simpl. unfold path. simpl. auto.
      - specialize (IH a b). destruct l as [|y l].
        + simpl in *. unfold path in *. simpl in *. tauto.
        + simpl in *. unfold path in *. simpl in *. tauto.
    Qed.

    Lemma suffix_from_first t0 : forall j,
      In j J -> Forall (fun x => In x J) t0 -> In j t0 ->
      exists pre mid, t0 = pre ++ j :: mid /\
        suffix_from j (t0 ++ [j]) = j :: mid ++ [j].
    Proof.
      induction t0 as [|x t0 IH]; simpl; intros j Hj HF Hin; [tauto|].
      inversion HF as [|? ? Hx HF']; subst.
      unfold job_eqb. destruct (String.eqb_spec (j_sum x) (j_sum j)) as [He|He].
      - assert (x = j) by (apply Hfaith; auto). subst x.
        exists [], t0. auto.
      - destruct Hin as [->|Hin]; [congruence|].
        destruct (IH j Hj HF' Hin) as (pre & mid & -> & Hs).
        exists (x :: pre), mid. auto.
    Qed.

    Definition genuine (P : job -> Prop) (e : dep_error) : Prop :=
      match e with
      | DepDuplicate _ _ => False
      | DepUnknown a => False
      | DepMissing a d ty => P a /\ In a J /\ In (ty, d) (deps_of a) /\ ~ In d (map j_id J)
      | DepCycle l => Forall P l /\ Forall (fun x => In x J) l /\
                      dependency_cycle deps_of J l
      | DepAssert => False
      | DepTypeError => False
      end.

    Definition trail_ok (P : job -> Prop) (st : sstate) (j : job) (tr : option (list job)) :=
      match tr with
      | None => forall d, ~ gray st d
      | Some t => exists t0, t = t0 ++ [j] /\ path J t /\
                   Forall (fun x => In x J) t /\ Forall P t /\
                   forall d, gray st d -> In d (map j_id t0)
      end.

    Lemma visit_err fuel : forall st j tr e P,
      Inv st -> closedP P -> P j -> In j J -> trail_ok P st j tr ->
      visit deps_of fuel jm st j tr = SErr e -> genuine P e.
    Proof.
      induction fuel as [|fuel IH]; intros st j tr e P HI HP Pj Hj Ht H;
        [discriminate|].
      rewrite visit_S in H.
      destruct (dget (j_id j) (fst st)) as [[]|] eqn:Ec; try discriminate.
      - set (t := match tr with None => [j] | Some t => t end) in *.
        assert (Ht' : exists t0, t = t0 ++ [j] /\ path J t /\
                   Forall (fun x => In x J) t /\ Forall P t /\
                   forall d, gray (dset (j_id j) Gray (fst st), snd st) d ->
                     In d (map j_id t)).
        { destruct tr as [t1|]; subst t.
          - destruct Ht as (t0 & -> & Hp & HF & HFP & Hg).
            exists t0. repeat split; auto. intros d. unfold gray. simpl.
            rewrite dget_dset, map_app, in_app_iff. simpl.
            destruct (String.eqb_spec d (j_id j)); auto.
          - exists []. simpl. split; auto. split; [exact I|].
            split; [repeat constructor; auto|]. split; [repeat constructor; auto|].
            { intros d. unfold gray. simpl. rewrite dget_dset.
              destruct (String.eqb_spec d (j_id j)); auto.
              intros Hc. elim (Ht d). exact Hc. } }
        clearbody t. clear Ht. destruct Ht' as (t0 & -> & Hp & HF & HFP & Hg).
        assert (Hdeps : forall deps s e', Inv s ->
          (forall d, gray s d -> In d (map j_id (t0 ++ [j]))) ->
          (forall ty d, In (ty, d) deps -> In (ty, d) (deps_of j)) ->
          vdeps fuel jm j (t0 ++ [j]) deps s = SErr e' -> genuine P e').
        { clear H. induction deps as [|[ty d] deps IHd]; simpl;
            intros s e' Hs Hgs Hsub Hv; [discriminate|].
          destruct (dget d jm) as [next|] eqn:En.
          - apply Hjm in En as Hn. destruct Hn as [HnJ Hnid].
            assert (Hdep : depends J j next).
            { split; auto. rewrite Hnid. exists ty. auto. }
            assert (Pn : P next) by (now apply (HP j)).
            destruct (visit deps_of fuel jm s next (Some ((t0 ++ [j]) ++ [next])))
              as [s1|e1|] eqn:Ev; try discriminate.
            + destruct (visit_ok _ _ _ _ _ P Hs HP Pn Ev)
                as [(HI1 & Hg1 & _) _].
              apply (IHd s1); auto. intros x Hx. apply Hgs. now apply Hg1.
            + injection Hv as <-. eapply IH; [exact Hs|exact HP|exact Pn|exact HnJ| |exact Ev].
              exists (t0 ++ [j]). split; auto. split; [|split; [|split]].
              * rewrite <- app_assoc. apply path_snoc; auto.
              * apply Forall_app. auto.
              * apply Forall_app. auto.
              * exact Hgs.
          - injection Hv as <-. simpl. split; [|split; [|split]]; auto.
            now apply jm_None. }
        destruct (vdeps fuel jm j (t0 ++ [j]) (deps_of j) _) as [s'|e'|] eqn:Ev;
          try discriminate.
        injection H as <-. eapply Hdeps; [| | |exact Ev]; auto.
        now apply Inv_gray.
      - destruct tr as [t|].
        + injection H as <-. destruct Ht as (t0 & -> & Hp & HF & HFP & Hg).
          assert (Hin : In j t0).
          { apply Hg in Ec. apply in_map_iff in Ec. destruct Ec as (x & Hx1 & Hx2).
            apply Forall_app in HF. destruct HF as [HF _].
            assert (x = j); [|congruence]. apply J_inj; auto.
            rewrite Forall_forall in HF. auto. }
          assert (HFt0 : Forall (fun x => In x J) t0) by (apply Forall_app in HF; tauto).
          destruct (suffix_from_first t0 j Hj HFt0 Hin) as (pre & mid & -> & ->).
          assert (Ecyc : mk_cycle_error (j :: mid ++ [j]) = DepCycle (j :: mid ++ [j])).
          { unfold mk_cycle_error. destruct (mid ++ [j]) as [|y r] eqn:E.
            - destruct mid; discriminate.
            - assert (Hl : last (j :: y :: r) j = j).
              { change (last (y :: r) j = j). rewrite <- E. apply last_snoc. }
              rewrite Hl. unfold job_is. rewrite N.eqb_refl. reflexivity. }
          rewrite Ecyc. simpl.
          rewrite <- app_assoc in Hp, HF, HFP. simpl in Hp, HF, HFP.
          apply Forall_app in HF. apply Forall_app in HFP.
          split; [tauto|]. split; [tauto|].
          exists j, mid. split; auto. now apply path_suffix in Hp.
        + elim (Ht (j_id j)). exact Ec.
      - exfalso. apply dget_None in Ec. apply Ec. apply (inv_keys _ HI).
        now apply in_map.
    Qed.

    Lemma visit_unknown fuel : forall st j tr e,
      ~ In (j_id j) (dkeys (fst st)) ->
      visit deps_of fuel jm st j tr = SErr e -> e = DepUnknown j.
    Proof.
      destruct fuel as [|fuel]; intros st j tr e Hn H; [discriminate|].
      rewrite visit_S in H. apply dget_None in Hn. rewrite Hn in H. congruence.
    Qed.

    Lemma visit_all_err fuel : forall l st e P,
      Inv st -> closedP P -> Forall P l ->
      (forall j, In j l -> In (j_id j) (map j_id J) -> In j J) ->
      (forall d, ~ gray st d) ->
      visit_all deps_of fuel jm st l = SErr e ->
      genuine P e \/ exists j, e = DepUnknown j /\ In j l /\ ~ In (j_id j) (map j_id J).
    Proof.
      induction l as [|j l IH]; simpl; intros st e P HI HP HF Hl Hg H;
        [discriminate|].
      inversion HF as [|? ? Pj Pl]; subst.
      destruct (visit deps_of fuel jm st j None) as [s1|e1|] eqn:Ev;
        try discriminate.
      - destruct (visit_ok _ _ _ _ _ P HI HP Pj Ev) as [(HI1 & Hg1 & _ & _) _].
        destruct (IH s1 e P) as [G|(x & -> & Hx1 & Hx2)]; auto.
        + intros d Hd. apply (Hg d). now apply Hg1.
        + right. exists x. auto.
      - injection H as <-.
        destruct (in_dec string_dec (j_id j) (map j_id J)) as [Hi|Hi].
        + left. apply (visit_err fuel st j None e1 P); auto.
        + right. exists j. split; auto. eapply visit_unknown; [|exact Ev].
          intros Hc. apply Hi. now apply (inv_keys _ HI).
    Qed.
  End WithJobs.

  (** ** Fuel *)

  Definition is_white (p : name * color) : bool :=
    match snd p with White => true | _ => false end.
  Definition whites (d : dict color) : nat := length (filter is_white d).

  Lemma whites_dset k c d : dget k d <> None ->
    whites (dset k c d) + (if match dget k d with Some White => true | _ => false end then 1 else 0)
    = whites d + (if match c with White => true | _ => false end then 1 else 0).
  Proof.
    unfold whites.
    induction d as [|[k' c'] d IH]; simpl; [congruence|].
    intros H. destruct (String.eqb k k') eqn:E.
    - simpl. destruct c, c'; simpl; lia.
    - specialize (IH H). simpl.
      destruct c'; simpl in *; lia.
  Qed.

  Lemma visit_fuel fuel : forall jm st j tr,
    whites (fst st) < fuel ->
    match visit deps_of fuel jm st j tr with
    | SOk st' => whites (fst st') <= whites (fst st) /\
                 (forall d, dget d (fst st) <> None -> dget d (fst st') <> None) /\
                 (forall d, dget d (fst st) = Some Gray -> dget d (fst st') = Some Gray)
    | SErr _ => True
    | SFuel => False
    end.
  Proof.
    induction fuel as [|fuel IH]; intros jm st j tr Hw; [lia|].
    rewrite visit_S.
    destruct (dget (j_id j) (fst st)) as [[]|] eqn:Ec; auto.
    - assert (Hg : whites (dset (j_id j) Gray (fst st)) < fuel /\
                   whites (dset (j_id j) Gray (fst st)) < whites (fst st)).
      { pose proof (whites_dset (j_id j) Gray (fst st)) as G. rewrite Ec in G.
        simpl in G. specialize (G ltac:(congruence)). lia. }
      assert (Hdeps : forall trail deps s, whites (fst s) < fuel ->
        match vdeps fuel jm j trail deps s with
        | SOk s' => whites (fst s') <= whites (fst s) /\
             (forall d, dget d (fst s) <> None -> dget d (fst s') <> None) /\
             (forall d, dget d (fst s) = Some Gray -> dget d (fst s') = Some Gray)
        | SErr _ => True
        | SFuel => False
        end).
      { intros trail. induction deps as [|[ty d] deps IHd]; simpl; intros s Hs; auto.
        destruct (dget d jm) as [next|]; auto.
        pose proof (IH jm s next (Some (trail ++ [next])) Hs) as G.
        destruct (visit deps_of fuel jm s next (Some (trail ++ [next]))) as [s1| |]; auto.
        destruct G as (G1 & G2 & G3).
        specialize (IHd s1 ltac:(lia)).
        destruct (vdeps fuel jm j trail deps s1) as [s2| |]; auto.
        destruct IHd as (K1 & K2 & K3). repeat split; auto. lia. }
      pose proof (Hdeps (match tr with None => [j] | Some t => t end) (deps_of j)
        (dset (j_id j) Gray (fst st), snd st)) as G. simpl in G.
      specialize (G (proj1 Hg)).
      destruct (vdeps fuel jm j _ (deps_of j) _) as [s'| |]; auto.
      destruct G as (G1 & G2 & G3). simpl.
      assert (Gj : dget (j_id j) (fst s') = Some Gray).
      { apply G3. apply dget_dset_same. }
      split; [|split].
      + pose proof (whites_dset (j_id j) Black (fst s')) as W. rewrite Gj in W.
        simpl in W. specialize (W ltac:(congruence)). lia.
      + intros d Hd. rewrite dget_dset. destruct (String.eqb_spec d (j_id j)); [congruence|].
        apply G2. rewrite dget_dset. destruct (String.eqb_spec d (j_id j)); congruence.
      + intros d Hd. rewrite dget_dset. destruct (String.eqb_spec d (j_id j)).
        * congruence.
        * apply G3. rewrite dget_dset. destruct (String.eqb_spec d (j_id j)); congruence.
    - destruct tr; auto.
  Qed.

  Lemma visit_all_fuel fuel : forall jm l st,
    whites (fst st) < fuel -> visit_all deps_of fuel jm st l <> SFuel.
  Proof.
    induction l as [|j l IH]; simpl; intros st Hw; [discriminate|].
    pose proof (visit_fuel fuel jm st j None Hw) as G.
    destruct (visit deps_of fuel jm st j None) as [s1| |]; try discriminate; try tauto.
    apply IH. lia.
  Qed.

  Lemma whites_init J : whites (map (fun j => (j_id j, White)) J) = length J.
  Proof. unfold whites. induction J; simpl; auto. Qed.

  Lemma resolve_terminates J V : resolve deps_of J V <> SFuel.
  Proof.
    unfold resolve. destruct (get_job_map J) as [jm| |] eqn:E; try discriminate.
    - pose proof (visit_all_fuel (S (S (length J))) jm
        (match V with None => J | Some l => l end)
        (map (fun j => (j_id j, White)) J, [])) as G.
      simpl in G. rewrite whites_init in G. specialize (G ltac:(lia)).
      destruct (visit_all deps_of (S (S (length J))) jm _ _); congruence.
    - now elim (get_job_map_not_fuel J).
  Qed.

  (** * The whole solver *)

  Lemma dget_init J d :
    dget d (map (fun j => (j_id j, White)) J) =
    (if in_dec string_dec d (map j_id J) then Some White else None).
  Proof.
    induction J as [|j J IH]; simpl; auto.
    destruct (String.eqb_spec d (j_id j)).
    - destruct (string_dec (j_id j) d); congruence.
    - rewrite IH. destruct (string_dec (j_id j) d); [congruence|].
      destruct (in_dec string_dec d (map j_id J)); auto.
  Qed.

  Lemma Inv_init J : Inv J (map (fun j => (j_id j, White)) J, []).
  Proof.
    split; simpl.
    - intros d. unfold dkeys. rewrite map_map. simpl. tauto.
    - intros d. rewrite dget_init. destruct (in_dec _ _ _); split; try discriminate; tauto.
    - constructor.
    - apply dependency_ordered_nil.
  Qed.

  Lemma gray_init J d : ~ gray (map (fun j => (j_id j, White)) J, []) d.
  Proof.
    unfold gray. simpl. rewrite dget_init. destruct (in_dec _ _ _); discriminate.
  Qed.

  Lemma resolve_ok_inv J V L :
    resolve deps_of J V = SOk L ->
    unique_ids J /\
    unique_ids L /\ dependency_ordered deps_of L /\
    (forall j, In j (wanted J V) -> In (j_id j) (map j_id L)) /\
    (forall d, In d (map j_id L) -> In d (map j_id J)) /\
    (forall P, closedP J P -> Forall P (wanted J V) -> Forall P L).
  Proof.
    unfold resolve. destruct (get_job_map J) as [jm| |] eqn:E; try discriminate.
    apply get_job_map_ok in E. destruct E as [Hjm Hu].
    fold (wanted J V).
    destruct (visit_all deps_of _ jm _ (wanted J V)) as [st| |] eqn:Ev;
      try discriminate.
    intros [= <-].
    pose proof (fun P HP HF => visit_all_ok J jm Hjm (S (S (length J))) (wanted J V) _ st P
      (Inv_init J) HP HF Ev) as G.
    destruct (G (fun _ => True)) as [(HI & _ & _ & _) Hin].
    { intros ? ? _ _. exact I. }
    { apply Forall_forall. auto. }
    split; auto. destruct HI as [Hk Hb Hn Ho].
    split; [|split; [|split; [|split]]]; auto.
    - intros d Hd. apply Hb in Hd. apply Hk. apply dget_In_keys. eauto.
    - intros P HP HF. destruct (G P HP HF) as [(_ & _ & _ & K) _].
      apply K. simpl. constructor.
  Qed.

  Lemma needed_closed J V : closedP J (needed deps_of J V).
  Proof. intros a b Ha Hd. eapply needed_dep; eauto. Qed.

  Lemma unique_ids_inj J a b :
    unique_ids J -> In a J -> In b J -> j_id a = j_id b -> a = b.
  Proof.
    unfold unique_ids. induction J as [|x J IH]; simpl; [tauto|].
    intros Hu. inversion Hu as [|? ? Hx Hu']; subst.
    intros [->|Ha] [->|Hb] He; auto.
    - exfalso. apply Hx. rewrite He. now apply in_map.
    - exfalso. apply Hx. rewrite <- He. now apply in_map.
  Qed.

  Lemma needed_in_J J V : incl V J -> forall j, needed deps_of J V j -> In j J.
  Proof.
    intros Hv j H. induction H as [j Hj|a b _ _ [Hb _]]; auto.
  Qed.

  Lemma resolve_exact J V L :
    incl (wanted J V) J ->
    resolve deps_of J V = SOk L ->
    forall j, In j L <-> needed deps_of J (wanted J V) j.
  Proof.
    intros Hv H. apply resolve_ok_inv in H.
    destruct H as (HuJ & HuL & Ho & Hin & Hids & HP).
    assert (HL : Forall (needed deps_of J (wanted J V)) L).
    { apply HP; [apply needed_closed|]. apply Forall_forall.
      intros x Hx. now apply needed_wanted. }
    rewrite Forall_forall in HL.
    assert (back : forall j, In j J -> In (j_id j) (map j_id L) -> In j L).
    { intros j Hj Hi. apply in_map_iff in Hi. destruct Hi as (x & Hx1 & Hx2).
      assert (x = j); [|congruence]. apply (unique_ids_inj J); auto.
      apply (needed_in_J J _ Hv). auto. }
    intros j. split; [apply HL|].
    intros Hn. induction Hn as [j Hj|a b Ha IH [Hb Hd]].
    - apply back; auto.
    - apply back; auto. apply in_split in IH. destruct IH as (l1 & l2 & ->).
      rewrite map_app, in_app_iff. left. now apply (Ho l1 a l2).
  Qed.

  Lemma ordered_clos_trans J L a b :
    unique_ids J -> incl L J -> dependency_ordered deps_of L ->
    clos_trans_1n job (depends J) a b ->
    forall l1 l2, L = l1 ++ a :: l2 -> In (j_id b) (map j_id l1).
  Proof.
    intros Hu HL Ho H. induction H as [a b [Hb Hd]|a x b [Hx Hd] Hxb IH];
      intros l1 l2 ->.
    - now apply (Ho l1 a l2).
    - assert (Hi : In (j_id x) (map j_id l1)) by now apply (Ho l1 a l2).
      apply in_map_iff in Hi. destruct Hi as (x' & He & Hi).
      assert (x' = x).
      { apply (unique_ids_inj J); auto. apply HL. apply in_app_iff. auto. }
      subst x'. apply in_split in Hi. destruct Hi as (m1 & m2 & ->).
      rewrite map_app, in_app_iff. left.
      apply (IH m1 (m2 ++ a :: l2)). now rewrite <- app_assoc.
  Qed.

  Lemma ordered_acyclic J L a :
    unique_ids J -> incl L J -> unique_ids L -> dependency_ordered deps_of L ->
    In a L -> ~ clos_trans job (depends J) a a.
  Proof.
    intros Hu HL HuL Ho Ha Hc. apply clos_trans_t1n_iff in Hc.
    apply in_split in Ha. destruct Ha as (l1 & l2 & ->).
    pose proof (ordered_clos_trans J _ a a Hu HL Ho Hc l1 l2 eq_refl) as Hi.
    unfold unique_ids in HuL. rewrite map_app in HuL. simpl in HuL.
    apply NoDup_remove_2 in HuL. apply HuL. apply in_app_iff. auto.
  Qed.

  Lemma path_clos_trans J l : forall a b,
    path J (a :: l ++ [b]) -> clos_trans job (depends J) a b.
  Proof.
    induction l as [|x l IH]; simpl; intros a b [H1 H2].
    - now apply t_step.
    - eapply t_trans; [apply t_step; exact H1|]. now apply IH.
  Qed.

  Lemma resolve_err_genuine J V e :
    incl (wanted J V) J -> faithful_equality J ->
    resolve deps_of J V = SErr e ->
    (exists a b l1 l2 l3, e = DepDuplicate a b /\ j_id a = j_id b /\
       J = l1 ++ a :: l2 ++ b :: l3) \/
    (unique_ids J /\ genuine J (needed deps_of J (wanted J V)) e).
  Proof.
    intros Hv Hf. unfold resolve.
    destruct (get_job_map J) as [jm|e1|] eqn:E; try discriminate.
    - apply get_job_map_ok in E. destruct E as [Hjm Hu].
      fold (wanted J V). intros H. right. split; auto.
      destruct (visit_all deps_of _ jm _ (wanted J V)) as [st|e1|] eqn:Ev;
        try discriminate.
      injection H as <-.
      apply (visit_all_err J jm Hjm Hf) with
        (P := needed deps_of J (wanted J V)) in Ev.
      + destruct Ev as [G|(j & -> & Hj & Hn)]; auto.
        elim Hn. apply in_map. auto.
      + apply Inv_init.
      + apply needed_closed.
      + apply Forall_forall. intros; now apply needed_wanted.
      + intros j Hj _. auto.
      + apply gray_init.
    - intros [= <-]. left. now apply get_job_map_err.
  Qed.

  Lemma resolve_unknown_genuine J V e :
    (forall j, In j (wanted J V) -> In (j_id j) (map j_id J) -> In j J) ->
    faithful_equality J ->
    resolve deps_of J V = SErr e ->
    (exists a b l1 l2 l3, e = DepDuplicate a b /\ j_id a = j_id b /\
       J = l1 ++ a :: l2 ++ b :: l3) \/
    (unique_ids J /\ genuine J (needed deps_of J (wanted J V)) e) \/
    (exists j, e = DepUnknown j /\ In j (wanted J V) /\ ~ In (j_id j) (map j_id J)).
  Proof.
    intros Hv Hf. unfold resolve.
    destruct (get_job_map J) as [jm|e1|] eqn:E; try discriminate.
    - apply get_job_map_ok in E. destruct E as [Hjm Hu].
      fold (wanted J V). intros H. right.
      destruct (visit_all deps_of _ jm _ (wanted J V)) as [st|e1|] eqn:Ev;
        try discriminate.
      injection H as <-.
      apply (visit_all_err J jm Hjm Hf) with
        (P := needed deps_of J (wanted J V)) in Ev; auto.
      + destruct Ev as [G|G]; auto.
      + apply Inv_init.
      + apply needed_closed.
      + apply Forall_forall. intros; now apply needed_wanted.
      + apply gray_init.
    - intros [= <-]. left. now apply get_job_map_err.
  Qed.

  Lemma resolve_succeeds J V :
    incl (wanted J V) J -> faithful_equality J -> unique_ids J ->
    complete deps_of J (wanted J V) -> acyclic deps_of J (wanted J V) ->
    exists L, resolve deps_of J V = SOk L.
  Proof.
    intros Hv Hf Hu Hc Ha.
    destruct (resolve deps_of J V) as [L|e|] eqn:E; eauto.
    - exfalso. destruct (resolve_err_genuine J V e Hv Hf E)
        as [(a & b & l1 & l2 & l3 & -> & He & ->)|[_ G]].
      + unfold unique_ids in Hu. rewrite map_app in Hu. simpl in Hu.
        apply NoDup_remove_2 in Hu. apply Hu. rewrite map_app. simpl.
        rewrite He. rewrite !in_app_iff. simpl. auto.
      + destruct e; simpl in G; try contradiction.
        * destruct G as (Hn & _ & Hd & Hm).
          destruct (Hc j missing Hn) as (b & Hb & <-); [now exists ty|].
          apply Hm. now apply in_map.
        * destruct G as (HF & _ & f & mid & -> & Hp).
          inversion HF; subst. apply (Ha f); auto.
          now apply (path_clos_trans J mid).
    - now elim (resolve_terminates J V).
  Qed.

  Lemma resolve_ok_conditions J V L :
    incl (wanted J V) J -> resolve deps_of J V = SOk L ->
    unique_ids J /\ complete deps_of J (wanted J V) /\ acyclic deps_of J (wanted J V).
  Proof.
    intros Hv H. pose proof (resolve_exact J V L Hv H) as Hex.
    apply resolve_ok_inv in H. destruct H as (HuJ & HuL & Ho & Hin & Hids & HP).
    assert (HLJ : incl L J).
    { intros x Hx. apply (needed_in_J J _ Hv). now apply Hex. }
    split; auto. split.
    - intros a d Ha Hd. apply Hex in Ha. apply in_split in Ha.
      destruct Ha as (l1 & l2 & ->).
      pose proof (Ho l1 a l2 eq_refl d Hd) as Hi.
      apply in_map_iff in Hi. destruct Hi as (b & <- & Hb).
      exists b. split; auto. apply HLJ. apply in_app_iff. auto.
    - intros a Ha. apply Hex in Ha. now apply (ordered_acyclic J L).
  Qed.

  (** ** Ordered lists are kept *)

  Lemma vdeps_black fuel J jm j trail :
    (forall d b, dget d jm = Some b <-> In b J /\ j_id b = d) ->
    forall deps st, 
    (forall ty d, In (ty, d) deps -> dget d (fst st) = Some Black) ->
    (forall d, In d (dkeys (fst st)) -> In d (map j_id J)) ->
    vdeps (S fuel) jm j trail deps st = SOk st.
  Proof.
    intros Hjm. induction deps as [|[ty d] deps IH]; intros st Hb Hk; auto.
    change (match dget d jm with
        | None => SErr (DepMissing j d ty)
        | Some next =>
            match visit deps_of (S fuel) jm st next (Some (trail ++ [next])) with
            | SOk st' => vdeps (S fuel) jm j trail deps st'
            | SErr e => SErr e
            | SFuel => SFuel
            end
        end = SOk st).
    assert (Hd : dget d (fst st) = Some Black) by (apply (Hb ty); left; auto).
    destruct (dget d jm) as [next|] eqn:En.
    - apply Hjm in En. destruct En as [_ En]. rewrite visit_S, En, Hd.
      apply IH; auto. intros ty' d' Hd'. apply (Hb ty'). right. auto.
    - exfalso. assert (Hi : In d (map j_id J)).
      { apply Hk. apply dget_In_keys. eauto. }
      apply in_map_iff in Hi. destruct Hi as (b & <- & Hb').
      assert (G : dget (j_id b) jm = Some b) by (apply Hjm; auto). congruence.
  Qed.

  Lemma visit_all_ordered fuel J jm :
    (forall d b, dget d jm = Some b <-> In b J /\ j_id b = d) ->
    forall V done st,
    unique_ids (done ++ V) -> dependency_ordered deps_of (done ++ V) ->
    (forall j, In j V -> In (j_id j) (map j_id J)) ->
    Inv J st -> (forall d, ~ gray st d) -> snd st = done ->
    exists st', visit_all deps_of (S (S fuel)) jm st V = SOk st' /\ snd st' = done ++ V.
  Proof.
    intros Hjm. induction V as [|j V IH]; intros done st Hu Ho Hin HI Hg Hs.
    - exists st. simpl. rewrite app_nil_r. auto.
    - assert (Hw : dget (j_id j) (fst st) = Some White).
      { destruct (dget (j_id j) (fst st)) as [[]|] eqn:E; auto.
        - elim (Hg _ E).
        - exfalso. apply (inv_black _ _ HI) in E. rewrite Hs in E.
          unfold unique_ids in Hu. rewrite map_app in Hu. simpl in Hu.
          apply NoDup_remove_2 in Hu. apply Hu. apply in_app_iff. auto.
        - exfalso. apply dget_None in E. apply E. apply (inv_keys _ _ HI).
          apply Hin. left. auto. }
      assert (Hvis : visit deps_of (S (S fuel)) jm st j None =
        SOk (dset (j_id j) Black (dset (j_id j) Gray (fst st)), snd st ++ [j])).
      { rewrite visit_S, Hw. rewrite (vdeps_black fuel J).
        - reflexivity.
        - exact Hjm.
        - intros ty d Hd. simpl.
          assert (Hi : In d (map j_id done)).
          { apply (Ho done j V eq_refl). now exists ty. }
          rewrite dget_dset. destruct (String.eqb_spec d (j_id j)).
          + exfalso. unfold unique_ids in Hu. rewrite map_app in Hu. simpl in Hu.
            apply NoDup_remove_2 in Hu. apply Hu. apply in_app_iff. left. congruence.
          + apply (inv_black _ _ HI). now rewrite Hs.
        - intros d Hd. simpl in Hd. apply dkeys_dset_In in Hd.
          destruct Hd as [->|Hd].
          + apply Hin. left. auto.
          + now apply (inv_keys _ _ HI). }
      assert (HI' := visit_ok J jm Hjm _ _ _ _ _ (fun _ => True) HI
        (fun _ _ _ _ => I) I Hvis).
      destruct HI' as [(HI' & Hg' & _) _].
      change (visit_all deps_of (S (S fuel)) jm st (j :: V)) with
        (match visit deps_of (S (S fuel)) jm st j None with
        | SOk st' => visit_all deps_of (S (S fuel)) jm st' V
        | SErr e => SErr e
        | SFuel => SFuel
        end).
      rewrite Hvis.
      destruct (IH (done ++ [j]) (dset (j_id j) Black (dset (j_id j) Gray (fst st)), snd st ++ [j]))
        as (st' & H1 & H2).
      + now rewrite <- app_assoc.
      + now rewrite <- app_assoc.
      + intros x Hx. apply Hin. right. auto.
      + exact HI'.
      + intros d Hd. apply (Hg d). now apply Hg'.
      + simpl. now rewrite Hs.
      + exists st'. split; auto. rewrite H2, <- app_assoc. auto.
  Qed.

  Lemma resolve_keeps_order J V :
    unique_ids J -> unique_ids V ->
    (forall j, In j V -> In (j_id j) (map j_id J)) ->
    dependency_ordered deps_of V ->
    resolve deps_of J (Some V) = SOk V.
  Proof.
    intros Hu HuV Hin Ho. unfold resolve.
    destruct (get_job_map_unique J Hu) as [jm E]. rewrite E.
    apply get_job_map_ok in E. destruct E as [Hjm _].
    destruct (visit_all_ordered (length J) J jm Hjm V []
      (map (fun j => (j_id j, White)) J, [])) as (st' & H1 & H2); auto.
    - apply Inv_init.
    - apply gray_init.
    - rewrite H1, H2. reflexivity.
  Qed.
End Proofs.
