(** Facts the resume proofs need about sorted sets and the dependency solver. *)
From Coq Require Import String List Bool NArith ZArith Arith Lia OrderedTypeEx Sorted.
From Verif Require Import Base BaseFacts JobModel SolverModel SolverSpec SolverProofs.
Import ListNotations.
Open Scope list_scope.

(** ** Sorted sets have no repetitions *)

Definition slt (a b : string) : Prop := String.compare a b = Lt.

Lemma slt_trans a b c : slt a b -> slt b c -> slt a c.
Proof.
  unfold slt. change String.compare with String_as_OT.cmp. rewrite !String_as_OT.cmp_lt.
  apply String_as_OT.lt_trans.
Qed.

Lemma slt_irrefl a : ~ slt a a.
Proof. unfold slt. pose proof (String.compare_antisym a a). destruct (String.compare a a); discriminate. Qed.

Lemma sinsert_sorted x l : StronglySorted slt l -> StronglySorted slt (sinsert x l).
Proof.
  induction l as [|y l IH]; cbn; intros H.
  - repeat constructor.
  - apply StronglySorted_inv in H as [H F]. destruct (String.compare x y) eqn:E.
    + constructor; auto.
    + constructor; [constructor; auto|]. constructor; [exact E|].
      apply (Forall_impl _ (fun z Hz => slt_trans x y z E Hz) F).
    + constructor; [apply IH; auto|]. rewrite Forall_forall in *. intros z Hz.
      apply sinsert_In in Hz. destruct Hz as [->|Hz]; auto.
      unfold slt. rewrite String.compare_antisym, E. reflexivity.
Qed.

Lemma sorted_set_sorted l : StronglySorted slt (sorted_set l).
Proof. unfold sorted_set. induction l; cbn; [constructor|]. now apply sinsert_sorted. Qed.

Lemma sorted_set_NoDup l : NoDup (sorted_set l).
Proof.
  pose proof (sorted_set_sorted l) as H. induction H as [|x r _ IH F]; constructor; auto.
  intros Hi. rewrite Forall_forall in F. apply (slt_irrefl x). auto.
Qed.

(** ** The solution does not depend on the other jobs *)

Section Transfer.
  Variable deps_of : job -> list (dep_type * name).
  Variables (J L : list job) (jm jm' : dict job).
  Hypothesis Hjm : forall d b, dget d jm = Some b <-> In b J /\ j_id b = d.
  Hypothesis HL : forall d, In d (map j_id L) -> dget d jm' = dget d jm.

  Definition simrel (st st' : sstate) : Prop :=
    snd st' = snd st /\
    forall d, In d (map j_id L) -> dget d (fst st') = dget d (fst st).

  Lemma top_closed : closedP deps_of J (fun _ => True).
  Proof. intros ? ? ? ?. exact I. Qed.

  Lemma visit_sim f1 : forall f2 st1 st2 j tr1 tr2 st1',
    Inv deps_of J st1 -> simrel st1 st2 ->
    visit deps_of f1 jm st1 j tr1 = SOk st1' ->
    incl (map j_id (snd st1')) (map j_id L) ->
    visit deps_of f2 jm' st2 j tr2 = SFuel \/
    exists st2', visit deps_of f2 jm' st2 j tr2 = SOk st2' /\ simrel st1' st2'.
  Proof.
    induction f1 as [|f1 IH]; intros f2 st1 st2 j tr1 tr2 st1' HI HR H Hi; [discriminate|].
    destruct f2 as [|f2]; [left; reflexivity|].
    pose proof H as Hin. apply (visit_ok deps_of J jm Hjm (S f1) _ _ _ _ (fun _ => True) HI top_closed I) in Hin.
    destruct Hin as [_ Hin]. apply Hi in Hin.
    rewrite visit_S in H |- *. destruct HR as [R1 R2].
    rewrite (R2 _ Hin).
    destruct (dget (j_id j) (fst st1)) as [[]|] eqn:Ec; try discriminate.
    - set (t1 := match tr1 with None => [j] | Some t => t end) in *.
      set (t2 := match tr2 with None => [j] | Some t => t end) in *.
      assert (G : forall deps s1 s2 s1', Inv deps_of J s1 -> simrel s1 s2 ->
        vdeps deps_of f1 jm j t1 deps s1 = SOk s1' ->
        incl (map j_id (snd s1')) (map j_id L) ->
        vdeps deps_of f2 jm' j t2 deps s2 = SFuel \/
        exists s2', vdeps deps_of f2 jm' j t2 deps s2 = SOk s2' /\ simrel s1' s2').
      { induction deps as [|[ty d] deps IHd]; cbn [vdeps]; intros s1 s2 s1' HI1 HR1 H1 Hi1.
        - injection H1 as <-. right. eauto.
        - destruct (dget d jm) as [nx|] eqn:En; [|discriminate].
          destruct (visit deps_of f1 jm s1 nx (Some (t1 ++ [nx]))) as [sm| |] eqn:Ev; try discriminate.
          pose proof (visit_ok deps_of J jm Hjm f1 _ _ _ _ (fun _ => True) HI1 top_closed I Ev)
            as [(HIm & _ & _) Hnx].
          assert (Hext : incl (map j_id (snd sm)) (map j_id (snd s1'))).
          { clear -H1 HIm Hjm. revert sm HIm H1.
            induction deps as [|[ty' d'] deps IHd]; cbn [vdeps]; intros sm HIm H1.
            - injection H1 as <-. apply incl_refl.
            - destruct (dget d' jm) as [nx'|] eqn:En'; [|discriminate].
              destruct (visit deps_of f1 jm sm nx' (Some (t1 ++ [nx']))) as [sn| |] eqn:Ev';
                try discriminate.
              pose proof (visit_ok deps_of J jm Hjm f1 _ _ _ _ (fun _ => True) HIm top_closed I Ev')
                as [(HIn & _ & [ext He] & _) _].
              apply (incl_tran (m := map j_id (snd sn))); [|apply IHd; auto].
              rewrite He, map_app. apply incl_appl, incl_refl. }
          assert (Hnl : In (j_id nx) (map j_id L)) by auto.
          assert (Hid : j_id nx = d) by (apply Hjm in En; tauto).
          rewrite HL by (rewrite <- Hid; exact Hnl). rewrite En.
          destruct (IH f2 s1 s2 nx (Some (t1 ++ [nx])) (Some (t2 ++ [nx])) sm HI1 HR1 Ev) as [->|(s2m & -> & HRm)].
          + intros x Hx. auto.
          + auto.
          + apply (IHd sm s2m s1'); auto. }
      destruct (vdeps deps_of f1 jm j t1 (deps_of j) _) as [s1'| |] eqn:Ev; try discriminate.
      injection H as <-. cbn [snd] in Hi.
      assert (HG : incl (map j_id (snd s1')) (map j_id L)).
      { intros x Hx. apply Hi. rewrite map_app, in_app_iff. auto. }
      destruct (G (deps_of j) (dset (j_id j) Gray (fst st1), snd st1)
                  (dset (j_id j) Gray (fst st2), snd st2) s1') as [->|(s2' & -> & S1 & S2)]; auto.
      + apply Inv_gray; auto.
      + split; cbn; auto. intros d Hd. rewrite !dget_dset. destruct (String.eqb d (j_id j)); auto.
      + right. eexists. split; [reflexivity|]. split; cbn [fst snd].
        * now rewrite S1.
        * intros d Hd. rewrite !dget_dset. destruct (String.eqb d (j_id j)); auto.
    - destruct tr1; discriminate.
    - injection H as <-. right. eexists. split; [reflexivity|]. split; auto.
  Qed.

  Lemma visit_all_sim f1 f2 : forall V st1 st2 st1',
    Inv deps_of J st1 -> simrel st1 st2 ->
    visit_all deps_of f1 jm st1 V = SOk st1' ->
    incl (map j_id (snd st1')) (map j_id L) ->
    visit_all deps_of f2 jm' st2 V = SFuel \/
    exists st2', visit_all deps_of f2 jm' st2 V = SOk st2' /\ simrel st1' st2'.
  Proof.
    induction V as [|j V IH]; cbn [visit_all]; intros st1 st2 st1' HI HR H Hi.
    - injection H as <-. eauto.
    - destruct (visit deps_of f1 jm st1 j None) as [sm| |] eqn:Ev; try discriminate.
      pose proof (visit_ok deps_of J jm Hjm f1 _ _ _ _ (fun _ => True) HI top_closed I Ev)
        as [(HIm & _ & _) _].
      pose proof (visit_all_ok deps_of J jm Hjm f1 V sm st1' (fun _ => True) HIm top_closed) as G.
      destruct G as [(_ & _ & [ext He] & _) _]; auto.
      { apply Forall_forall. auto. }
      assert (Him : incl (map j_id (snd sm)) (map j_id L)).
      { intros x Hx. apply Hi. rewrite He, map_app, in_app_iff. auto. }
      destruct (visit_sim f1 f2 st1 st2 j None None sm HI HR Ev Him) as [->|(s2 & -> & HR2)]; auto.
      apply (IH sm s2 st1'); auto.
  Qed.
End Transfer.

Lemma resolve_transfer deps_of J J' V L :
  resolve deps_of J (Some V) = SOk L -> incl L J -> unique_ids J' -> incl L J' ->
  resolve deps_of J' (Some V) = SOk L.
Proof.
  intros H HLJ Hu HLJ'. pose proof (resolve_terminates deps_of J' (Some V)) as HT.
  unfold resolve in *.
  destruct (get_job_map J) as [jm| |] eqn:E; try discriminate.
  destruct (get_job_map_unique J' Hu) as [jm' E']. rewrite E' in *.
  apply get_job_map_ok in E. destruct E as [Hjm HuJ].
  apply get_job_map_ok in E'. destruct E' as [Hjm' _].
  destruct (visit_all deps_of (S (S (length J))) jm _ V) as [st| |] eqn:Ev; try discriminate.
  injection H as Hs.
  assert (HL : forall d, In d (map j_id L) -> dget d jm' = dget d jm).
  { intros d Hd. apply in_map_iff in Hd. destruct Hd as (x & <- & Hx).
    transitivity (Some x); [|symmetry]; [apply Hjm'|apply Hjm]; auto. }
  destruct (visit_all_sim deps_of J L jm jm' Hjm HL (S (S (length J))) (S (S (length J'))) V
    (map (fun j => (j_id j, White)) J, []) (map (fun j => (j_id j, White)) J', []) st)
    as [G|(st2 & G & S1 & _)]; auto.
  - apply Inv_init.
  - split; auto. cbn [fst]. intros d Hd. rewrite !dget_init.
    assert (I1 : In d (map j_id J)).
    { apply in_map_iff in Hd. destruct Hd as (x & <- & Hx). apply in_map. auto. }
    assert (I2 : In d (map j_id J')).
    { apply in_map_iff in Hd. destruct Hd as (x & <- & Hx). apply in_map. auto. }
    destruct (in_dec string_dec d (map j_id J)), (in_dec string_dec d (map j_id J')); tauto.
  - rewrite Hs. apply incl_refl.
  - rewrite G in HT. congruence.
  - rewrite G. now rewrite S1, Hs.
Qed.
