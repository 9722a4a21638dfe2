(** Resuming a saved session restores it: the loops over the jobs. *)
From Coq Require Import Ascii String List Relations Bool NArith ZArith Arith Lia.
From Verif Require Import ScanModel JsonModel IologModel PathModel Base BaseFacts JobModel
  SolverModel SolverSpec SolverProofs SessionModel SessionSpec SelectProofs SessionProofs
  HistoryProofs ResumeModel ResumeSpec ResumeCodec ResumeSolve ResumeProofs ResumeRestore.
Import ListNotations.
Local Open Scope nat_scope.
Local Open Scope list_scope.

(** ** The documents *)

Lemma jget_states {A} s (f : jstate -> bool) (g : jstate -> A -> json) (a : A) k :
  HistoryProofs.Inv s ->
  jget k (map (fun js => field (j_id (js_job js)) (g js a)) (filter f (map snd (st_map s)))) =
  match dget k (st_map s) with
  | Some js => if f js then Some (g js a) else None
  | None => None
  end.
Proof.
  intros I.
  assert (Hn : NoDup (map fst (map (fun js => field (j_id (js_job js)) (g js a))
                 (filter f (map snd (st_map s)))))).
  { rewrite map_map. cbn.
    assert (E : map (fun js => j_id (js_job js)) (map snd (st_map s)) = map j_id (st_jobs s)).
    { rewrite map_map. pose proof (f_equal (map (fun kv => j_id (snd kv))) (i_map _ I)) as E.
      unfold jobmap in E. rewrite !map_map in E. exact E. }
    assert (Hu : NoDup (map (fun js => j_id (js_job js)) (map snd (st_map s)))).
    { rewrite E. apply I. }
    clear E. induction (map snd (st_map s)) as [|x l IH]; cbn; [constructor|].
    cbn in Hu. inversion Hu as [|? ? H1 H2]; subst. destruct (f x); cbn; auto.
    constructor; auto. intros Hi. apply H1. apply in_map_iff in Hi.
    destruct Hi as (y & Ey & Hy). apply to_text_inj in Ey. rewrite <- Ey.
    apply filter_In in Hy. apply (in_map (fun js => j_id (js_job js))). tauto. }
  destruct (dget k (st_map s)) as [js|] eqn:E.
  - destruct (Inv_entry s k js I E) as [_ Hid].
    assert (Hjs : In js (map snd (st_map s))).
    { apply dget_In in E. apply in_map_iff. exists (k, js). auto. }
    destruct (f js) eqn:Ef.
    + apply jget_fields; auto. apply in_map_iff. exists js. unfold field. rewrite Hid. split; auto.
      apply filter_In. auto.
    + apply jget_absent. intros Hi. rewrite map_map in Hi. apply in_map_iff in Hi.
      destruct Hi as (y & Ey & Hy). cbn in Ey. apply to_text_inj in Ey.
      apply filter_In in Hy. destruct Hy as [Hy Hf]. apply in_map_iff in Hy.
      destruct Hy as ([k' y'] & Ey' & Hy). cbn in Ey'. subst y'.
      apply In_dget in Hy; [|now apply inv_nodup].
      destruct (Inv_entry s _ _ I Hy) as [_ Hid']. assert (k' = k) by congruence. subst k'. congruence.
  - apply jget_absent. intros Hi. rewrite map_map in Hi. apply in_map_iff in Hi.
    destruct Hi as (y & Ey & Hy). cbn in Ey. apply to_text_inj in Ey.
    apply filter_In in Hy. destruct Hy as [Hy Hf]. apply in_map_iff in Hy.
    destruct Hy as ([k' y'] & Ey' & Hy). cbn in Ey'. subst y'.
    apply In_dget in Hy; [|now apply inv_nodup].
    destruct (Inv_entry s _ _ I Hy) as [_ Hid']. assert (k' = k) by congruence. subst k'. congruence.
Qed.

Lemma keys_states {A} s (f : jstate -> bool) (g : jstate -> A -> json) (a : A) k :
  HistoryProofs.Inv s ->
  In k (map (fun kv => of_text (fst kv))
         (map (fun js => field (j_id (js_job js)) (g js a)) (filter f (map snd (st_map s))))) <->
  exists js, dget k (st_map s) = Some js /\ f js = true.
Proof.
  intros I. rewrite map_map. cbn. rewrite in_map_iff. split.
  - intros (y & Ey & Hy). rewrite of_to_text in Ey.
    apply filter_In in Hy. destruct Hy as [Hy Hf]. apply in_map_iff in Hy.
    destruct Hy as ([k' y'] & Ey' & Hy). cbn in Ey'. subst y'.
    apply In_dget in Hy; [|now apply inv_nodup].
    destruct (Inv_entry s _ _ I Hy) as [_ Hid']. exists y. split; congruence.
  - intros (js & E & Hf). exists js. rewrite of_to_text.
    destruct (Inv_entry s k js I E) as [_ Hid]. split; auto.
    apply filter_In. split; auto. apply dget_In in E. apply in_map_iff. exists (k, js). auto.
Qed.

(** The conditions on the whole history, for a history that is replayed. *)
Definition no_repeat (h : list result) : Prop :=
  forall h1 a b h2, h = h1 ++ a :: b :: h2 -> a <> b.

Lemma last_app_one {A} (h : list A) x d : last (h ++ [x]) d = x.
Proof. apply last_snoc. Qed.

Section Main.
  Variable deps_of : job -> list (dep_type * name).
  Variable eval_expr : expr -> list (list resource) -> bool.
  Variable records_of : result -> list resource.
  Variable readable : result -> bool.
  Variable siblings : job -> list jtree.
  Variable instantiate : job -> result -> list jtree.
  Variable isfile : string -> bool.
  Variable rewrite : string -> string -> option string.
  Variable supplied : list job.
  Variable flags : rflags.
  Variable dir : string.
  Variable cwd : text.

  Section Replay.
    Variable P : job -> Prop.
    Hypothesis P_unique : forall a b, P a -> P b -> j_id a = j_id b -> a = b.
    Notation Good := (Good records_of P).

    (** The result is one that makes templates produce jobs. *)
    Definition yields (j : job) (r : result) : Prop :=
      r_outcome r <> None /\ j_plugin j = "resource"%string.

    Record replayed (j : job) (h rs : list result) (S S' : state) : Prop := {
      y_good : Good S';
      y_self : exists js', dget (j_id j) (st_map S') = Some js' /\
        core js' = (j, last (h ++ rs) empty_result, h ++ rs);
      y_old : forall k js, k <> j_id j -> dget k (st_map S) = Some js ->
        exists js', dget k (st_map S') = Some js' /\ core js' = core js;
      y_new : forall k js', dget k (st_map S') = Some js' -> dget k (st_map S) = None -> fresh js';
      y_present : forall x, present S x -> present S' x;
      y_made : forall r t x, In r rs -> yields j r -> In t (instantiate j r) -> in_tree x t -> present S' x
    }.

    Lemma replay_ok j rs : forall S js, Good S -> dget (j_id j) (st_map S) = Some js ->
      js_job js = j -> js_result js = last (js_history js) empty_result ->
      ~ In empty_result rs -> no_repeat (js_history js ++ rs) ->
      (forall r, In r rs -> yields j r -> readable r = true /\
         forall t x, In t (instantiate j r) -> in_tree x t -> P x) ->
      exists S', replay eval_expr records_of readable instantiate j rs S = (S', PDone) /\
        replayed j (js_history js) rs S S'.
    Proof.
      induction rs as [|r rs IH]; cbn [replay]; intros S js G Hg Hj Hl Hne Hrep Hy.
      - exists S. split; auto. split; auto.
        + exists js. split; auto. rewrite app_nil_r. unfold core. congruence.
        + eauto.
        + congruence.
        + intros ? ? ? [].
      - assert (Er : String.eqb (j_plugin j) "resource" &&
            (match r_outcome r with Some _ => true | None => false end) &&
            negb (readable r) = false).
        { destruct (String.eqb_spec (j_plugin j) "resource"); auto.
          destruct (r_outcome r) as [o|] eqn:Eo; auto.
          destruct (Hy r) as [-> _]; cbn; auto. split; auto. congruence. }
        rewrite Er.
        destruct (update_ok eval_expr records_of P P_unique j r (instantiate j r) S js G Hg Hj)
          as (S1 & -> & G1 & X1 & P1).
        { intros t x Ht Hx Ho Hp. destruct (Hy r) as [_ H]; cbn; auto; [split; auto|]. eauto. }
        assert (Hneq : r <> js_result js).
        { rewrite Hl. destruct (js_history js) as [|a h] using rev_ind.
          - cbn. intros ->. apply Hne. cbn. auto.
          - rewrite last_snoc. intros <-. apply (Hrep h r r rs); auto.
            rewrite <- app_assoc. reflexivity. }
        assert (Hnh : is_hollow r = false).
        { destruct (is_hollow r) eqn:E; auto. apply hollow_spec in E. subst. elim Hne. cbn. auto. }
        assert (Ehist : js_history (set_result r js) = js_history js ++ [r]).
        { rewrite set_result_history, result_eqb_neq by auto. now rewrite Hnh. }
        destruct (x_old _ _ X1 (j_id j) (set_result r js)) as (js1 & Hg1 & E1).
        { rewrite noted_map. apply dget_dset_same. }
        unfold core in E1. injection E1 as F1 F2 F3. rewrite set_result_job in F1.
        rewrite set_result_result in F2. rewrite Ehist in F3.
        destruct (IH S1 js1 G1 Hg1) as (S' & -> & Y).
        + congruence.
        + rewrite F3, last_snoc. auto.
        + intros H. apply Hne. cbn. auto.
        + rewrite F3, <- app_assoc. exact Hrep.
        + intros r' Hr'. apply Hy. cbn. auto.
        + exists S'. split; auto.
          assert (Eapp : (js_history js ++ [r]) ++ rs = js_history js ++ r :: rs)
            by (now rewrite <- app_assoc).
          split.
          * apply Y.
          * destruct (y_self _ _ _ _ _ Y) as (js' & H1 & H2). exists js'. split; auto.
            rewrite F3, Eapp in H2. exact H2.
          * intros k jk Hk Hgk.
            destruct (x_old _ _ X1 k jk) as (jk1 & Hk1 & Ek1).
            { rewrite noted_map, dget_dset. destruct (String.eqb_spec k (j_id j)); [contradiction|auto]. }
            destruct (y_old _ _ _ _ _ Y k jk1 Hk Hk1) as (jk2 & Hk2 & Ek2).
            exists jk2. split; auto. congruence.
          * intros k jk Hk Hn. destruct (dget k (st_map S1)) as [jk1|] eqn:Ek1.
            -- assert (Hf : fresh jk1).
               { apply (x_new _ _ X1 k jk1 Ek1). rewrite noted_map, dget_dset.
                 destruct (String.eqb_spec k (j_id j)); [congruence|auto]. }
               destruct (String.eqb_spec k (j_id j)) as [->|Hkj]; [congruence|].
               destruct (y_old _ _ _ _ _ Y k jk1 Hkj Ek1) as (jk2 & Hk2 & Ek2).
               rewrite Hk in Hk2. injection Hk2 as <-. unfold core in Ek2. injection Ek2 as _ E2 E3.
               destruct Hf. split; congruence.
            -- apply (y_new _ _ _ _ _ Y k jk Hk Ek1).
          * intros x (jx & Hx & Ejx). apply (y_present _ _ _ _ _ Y).
            destruct (String.eqb_spec (j_id x) (j_id j)) as [Ex|Ex].
            -- exists js1. rewrite Ex. split; auto. rewrite Ex in Hx. congruence.
            -- destruct (x_old _ _ X1 (j_id x) jx) as (jk1 & Hk1 & Ek1).
               { rewrite noted_map, dget_dset. destruct (String.eqb_spec (j_id x) (j_id j)); [contradiction|auto]. }
               exists jk1. split; auto. unfold core in Ek1. congruence.
          * intros r' t x [<-|Hr'] [Hyo Hyp] Ht Hx.
            -- apply (y_present _ _ _ _ _ Y). eauto.
            -- eapply (y_made _ _ _ _ _ Y); eauto. split; auto.
    Qed.
  End Replay.

  Variable s : state.
  Hypothesis RS : saved deps_of eval_expr records_of readable siblings instantiate isfile
    supplied flags dir s.

  Let P := producible siblings instantiate supplied s.
  Notation Good := (Good records_of P).

  Lemma s_inv : HistoryProofs.Inv s.
  Proof. apply (Inv_reachable eval_expr records_of deps_of). apply RS. Qed.

  Lemma s_res : Res records_of s.
  Proof. apply (Res_reachable deps_of eval_expr). apply RS. Qed.

  Lemma P_unique a b : P a -> P b -> j_id a = j_id b -> a = b.
  Proof. apply (rs_unambiguous _ _ _ _ _ _ _ _ _ _ _ RS). Qed.

  Lemma obtainable_producible j : obtainable siblings instantiate supplied s j -> P j.
  Proof.
    intros H. induction H as [i j Hi Hj|p r t j _ _ Hf Ht Hj].
    - left. eauto.
    - right. exists p, r, t. auto.
  Qed.

  Notation available := (available siblings instantiate supplied s).
  Notation changed := (changed siblings instantiate supplied s).
  Notation gone := (gone siblings instantiate supplied s).

  (** What can have become of the recorded jobs. *)
  Hypothesis Hstatus : forall k, recorded s k -> available k \/ changed k \/ gone k.
  Hypothesis Hignore : f_ignore flags = true -> forall k, recorded s k -> ~ changed k.

  Lemma status_excl k js : dget k (st_map s) = Some js -> P (js_job js) ->
    ~ changed k /\ ~ gone k.
  Proof.
    intros Hk HP. destruct (Inv_entry s k js s_inv Hk) as [_ Hid]. split.
    - intros (js' & j & Hk' & Hj & Hid' & Hs). assert (js' = js) by congruence. subst js'.
      apply Hs. f_equal. apply P_unique; auto; [now apply obtainable_producible|congruence].
    - intros Hg. apply (Hg (js_job js)); auto.
  Qed.

  Definition jobs_doc : list (text * json) :=
    map (fun js => field (j_id (js_job js)) (jstring (j_sum (js_job js))))
      (filter (fun js => negb (is_hollow (js_result js)) ||
                         smem (j_id (js_job js)) (map j_id (st_run s))) (map snd (st_map s))).

  Definition results_doc : list (text * json) :=
    map (fun js => field (j_id (js_job js)) (JList (map (repr_result cwd (Some dir)) (js_history js))))
      (filter (fun js => negb (Nat.eqb (length (js_history js)) 0)) (map snd (st_map s))).

  Lemma recorded_filter k js : dget k (st_map s) = Some js ->
    (negb (is_hollow (js_result js)) || smem (j_id (js_job js)) (map j_id (st_run s)) = true <->
     recorded s k).
  Proof.
    intros H. destruct (Inv_entry s k js s_inv H) as [_ Hid]. rewrite orb_true_iff, negb_true_iff.
    rewrite smem_In, Hid. unfold recorded. split.
    - intros [Hh|Hh]; exists js; split; auto. left. intros E. rewrite E in Hh. discriminate Hh.
    - intros (js' & H' & Hor). assert (js' = js) by congruence. subst js'.
      destruct Hor as [Hh|Hh]; auto. left. destruct (is_hollow (js_result js)) eqn:E; auto.
      apply hollow_spec in E. contradiction.
  Qed.

  Lemma history_recorded k js : dget k (st_map s) = Some js -> js_history js <> [] -> recorded s k.
  Proof.
    intros H Hn. exists js. split; auto. left.
    destruct (rs_settled _ _ _ _ _ _ _ _ _ _ _ RS k js H) as (H1 & _ & ->).
    intros E. apply H1. destruct (js_history js) as [|a h] using rev_ind; [congruence|].
    rewrite last_snoc in E. subst a. rewrite in_app_iff. cbn. auto.
  Qed.

  Lemma jobs_doc_get k : jget k jobs_doc =
    match dget k (st_map s) with
    | Some js => if negb (is_hollow (js_result js)) ||
                    smem (j_id (js_job js)) (map j_id (st_run s))
                 then Some (jstring (j_sum (js_job js))) else None
    | None => None
    end.
  Proof.
    unfold jobs_doc.
    apply (jget_states s _ (fun js (_ : unit) => jstring (j_sum (js_job js))) tt k s_inv).
  Qed.

  Lemma results_doc_get k : jget k results_doc =
    match dget k (st_map s) with
    | Some js => if negb (Nat.eqb (length (js_history js)) 0)
                 then Some (JList (map (repr_result cwd (Some dir)) (js_history js))) else None
    | None => None
    end.
  Proof.
    unfold results_doc.
    apply (jget_states s _ (fun js (_ : unit) => JList (map (repr_result cwd (Some dir)) (js_history js)))
             tt k s_inv).
  Qed.

  Definition ids_doc : list name :=
    sorted_set (map (fun kv => of_text (fst kv)) jobs_doc ++
                map (fun kv => of_text (fst kv)) results_doc).

  Lemma jobs_keys k : In k (map (fun kv => of_text (fst kv)) jobs_doc) <-> recorded s k.
  Proof.
    unfold jobs_doc.
    rewrite (keys_states s _ (fun js (_ : unit) => jstring (j_sum (js_job js))) tt k s_inv). split.
    - intros (js & H & Hf). now apply (recorded_filter k js H) in Hf.
    - intros Hr. pose proof Hr as (js & H & _). exists js. split; auto. now apply (recorded_filter k js H).
  Qed.

  Lemma ids_recorded k : In k ids_doc <-> recorded s k.
  Proof.
    unfold ids_doc. rewrite sorted_set_In, in_app_iff, jobs_keys. split; [|auto].
    intros [H|H]; auto. unfold results_doc in H.
    rewrite (keys_states s _ (fun js (_ : unit) =>
      JList (map (repr_result cwd (Some dir)) (js_history js))) tt k s_inv) in H.
    destruct H as (js & H & Hf). apply (history_recorded k js H). intros E. rewrite E in Hf. discriminate.
  Qed.

  (** ** The invariant of the loops *)

  Record RInv (done : name -> Prop) (S : state) : Prop := {
    r_good : Good S;
    r_supplied : forall i x, In i supplied -> in_tree x (JTree i (siblings i)) -> present S x;
    r_done : forall k, done k -> recorded s k /\ same_job_state s S k;
    r_fresh : forall k js, dget k (st_map S) = Some js -> ~ done k -> fresh js;
    r_made : forall k js r t x, done k -> dget k (st_map s) = Some js -> In r (js_history js) ->
      yields (js_job js) r -> In t (instantiate (js_job js) r) -> in_tree x t -> present S x
  }.

  Lemma RInv_iff (d1 d2 : name -> Prop) S : (forall k, d1 k <-> d2 k) -> RInv d1 S -> RInv d2 S.
  Proof.
    intros E R. split.
    - apply R.
    - apply R.
    - intros k Hk. apply R. now apply E.
    - intros k js H Hn. apply (r_fresh _ _ R k js H). rewrite E. exact Hn.
    - intros k js r t x Hk. apply (r_made _ _ R k). now apply E.
  Qed.

  Lemma process_ok done S k : RInv done S -> recorded s k -> ~ done k ->
    (changed k /\ exists S',
     process_job eval_expr records_of readable instantiate isfile rewrite flags (Some dir) 6
       jobs_doc results_doc k S = (S', PErr (RJob k))) \/
    (dget k (st_map S) = None /\
     process_job eval_expr records_of readable instantiate isfile rewrite flags (Some dir) 6
       jobs_doc results_doc k S = (S, PKey)) \/
    exists S', process_job eval_expr records_of readable instantiate isfile rewrite flags (Some dir) 6
       jobs_doc results_doc k S = (S', PDone) /\ RInv (fun k' => done k' \/ k' = k) S'.
  Proof.
    intros R Hrec Hnd. pose proof Hrec as (js0 & H0 & _).
    pose proof (proj2 (recorded_filter k js0 H0) Hrec) as Hf.
    unfold process_job. cbn [vkey]. rewrite jobs_doc_get, H0, Hf. cbn [rbind vstr jstring].
    rewrite of_to_text.
    destruct (dget k (st_map S)) as [js|] eqn:E; [|right; left; auto].
    destruct (Inv_entry S k js (g_inv _ _ _ (r_good _ _ R)) E) as [_ Hid].
    destruct (Inv_entry s k js0 s_inv H0) as [_ Hid0].
    pose proof (g_jobs _ _ _ (r_good _ _ R) k js E) as HPj.
    destruct (Hstatus k Hrec) as [Hav|[Hch|Hgo]].
    2:{ left. split; auto. pose proof Hch as (js1 & j1 & Hg1 & Ho1 & Hi1 & Hs1).
        assert (js1 = js0) by congruence. subst js1.
        assert (Ej1 : js_job js = j1).
        { apply P_unique; auto; [now apply obtainable_producible|congruence]. }
        exists S. rewrite Ej1. destruct (String.eqb_spec (j_sum j1) (j_sum (js_job js0))); [contradiction|].
        destruct (f_ignore flags) eqn:Ei; [|reflexivity]. first [elim (Hignore Ei k Hrec Hch)|elim (Hignore eq_refl k Hrec Hch)]. }
    2:{ elim (Hgo (js_job js)); auto. }
    right. right.
    assert (Hj : js_job js = js_job js0).
    { destruct Hav as (js1 & Hg1 & Ho1). assert (js1 = js0) by congruence. subst js1.
      apply P_unique; auto; [now apply obtainable_producible|congruence]. }
    rewrite Hj, String.eqb_refl. cbn [negb andb]. rewrite Hid0, results_doc_get, H0.
    destruct (r_fresh _ _ R k js E Hnd) as [Hf1 Hf2].
    destruct (rs_settled _ _ _ _ _ _ _ _ _ _ _ RS k js0 H0) as (Hs1 & Hs2 & Hs3).
    destruct (js_history js0) as [|h0 h] eqn:Eh.
    - cbn [length Nat.eqb negb]. exists S. split; auto. split.
      + apply R.
      + apply R.
      + intros k' [Hk'|Hk']; [apply R; auto|subst k']. split; auto. exists js0, js.
        repeat split; auto; try congruence. rewrite Hf1, Hs3. reflexivity.
      + intros k' js' H' Hn'. apply (r_fresh _ _ R k' js' H'). tauto.
      + intros k' js' r t x [Hk'|Hk']; [apply (r_made _ _ R k' js' r t x Hk')|subst k'].
        intros H' Hr. assert (js' = js0) by congruence. subst js'. rewrite Eh in Hr. destruct Hr.
    - cbn [length Nat.eqb negb]. rewrite <- Eh in *. cbn [rbind].
      rewrite build_repr_results.
      2: lia.
      2:{ intros r Hr. apply (rs_storable _ _ _ _ _ _ _ _ _ _ _ RS k js0 r H0 Hr). }
      2:{ intros r f Hr. apply (rs_files _ _ _ _ _ _ _ _ _ _ _ RS k js0 r f H0 Hr). }
      assert (Hfr : forall r, In r (js_history js0) -> yields (js_job js0) r -> fruitful s (js_job js0) r).
      { intros r Hr [Hy1 Hy2]. exists js0. rewrite Hid0. auto. }
      destruct (replay_ok P P_unique (js_job js0) (js_history js0) S js (r_good _ _ R))
        as (S' & HS' & Y).
      + rewrite Hid0. exact E.
      + exact Hj.
      + rewrite Hf1, Hf2. reflexivity.
      + exact Hs1.
      + rewrite Hf2. exact Hs2.
      + intros r Hr Hy. split.
        * apply (rs_readable _ _ _ _ _ _ _ _ _ _ _ RS (js_job js0)). auto.
        * intros t x Ht Hx. right. exists (js_job js0), r, t. auto.
      + exists S'. rewrite HS'. split; auto. rewrite Hf2 in Y. cbn [app] in Y.
        destruct (y_self _ _ _ _ _ _ Y) as (js' & Hg' & Ec). rewrite Hid0 in Hg'.
        unfold core in Ec. injection Ec as Ec1 Ec2 Ec3.
        split.
        * apply Y.
        * intros i x Hi Hx. apply (y_present _ _ _ _ _ _ Y). apply (r_supplied _ _ R i); auto.
        * intros k' [Hk'|Hk'].
          -- destruct (r_done _ _ R k' Hk') as (Hrk & a & b & Ha & Hb & E1 & E2 & E3). split; auto.
             assert (Hkk : k' <> j_id (js_job js0)) by (intros ->; rewrite Hid0 in Hk'; contradiction).
             destruct (y_old _ _ _ _ _ _ Y k' b Hkk Hb) as (b' & Hb' & Eb).
             unfold core in Eb. injection Eb as Eb1 Eb2 Eb3.
             exists a, b'. repeat split; auto; congruence.
          -- subst k'. split; auto. exists js0, js'. repeat split; auto. congruence.
        * intros k' jk Hk' Hn'. destruct (dget k' (st_map S)) as [jk0|] eqn:Ek.
          -- assert (Hkk : k' <> j_id (js_job js0)) by (rewrite Hid0; tauto).
             destruct (y_old _ _ _ _ _ _ Y k' jk0 Hkk Ek) as (b' & Hb' & Eb).
             rewrite Hk' in Hb'. injection Hb' as <-. unfold core in Eb. injection Eb as Eb1 Eb2 Eb3.
             destruct (r_fresh _ _ R k' jk0 Ek) as [F1 F2]; [tauto|]. split; congruence.
          -- apply (y_new _ _ _ _ _ _ Y k' jk Hk' Ek).
        * intros k' jk r t x [Hk'|Hk'] Hjk Hr Hy Ht Hx.
          -- apply (y_present _ _ _ _ _ _ Y). apply (r_made _ _ R k' jk r t x); auto.
          -- subst k'. assert (jk = js0) by congruence. subst jk.
             apply (y_made _ _ _ _ _ _ Y r t x); auto.
  Qed.

  Notation pass := (pass eval_expr records_of readable instantiate isfile rewrite flags (Some dir) 6
    jobs_doc results_doc).
  Notation leftovers := (fun n => leftovers eval_expr records_of readable instantiate isfile rewrite flags
    (Some dir) n 6 jobs_doc results_doc).

  Lemma pass_ok ks : forall done S, RInv done S -> NoDup ks ->
    (forall k, In k ks -> recorded s k /\ ~ done k) ->
    (exists k, In k ks /\ changed k /\ pass ks S = inl (RJob k)) \/
    exists S' rest, pass ks S = inr (S', rest) /\
      RInv (fun k => done k \/ (In k ks /\ ~ In k rest)) S' /\
      NoDup rest /\ incl rest ks /\ length rest <= length ks /\
      (length rest = length ks -> rest = ks /\ forall k, In k ks -> dget k (st_map S) = None).
  Proof.
    induction ks as [|k ks IH]; cbn [ResumeModel.pass]; intros done S R Hn Hk.
    - right. exists S, []. split; auto. split.
      { apply (RInv_iff done); auto. intros k. cbn. tauto. }
      split; [constructor|]. split; [apply incl_refl|]. split; [auto|]. split; auto. intros ? [].
    - inversion Hn as [|? ? Hni Hn']; subst.
      destruct (Hk k (or_introl eq_refl)) as [Hrec Hnd].
      destruct (process_ok done S k R Hrec Hnd) as [[Hch [S1 ->]]|[[Hnone ->]|(S1 & -> & R1)]].
      + left. exists k. cbn. auto.
      + destruct (IH done S R Hn') as [(kc & Hkc & Hch & ->)|(S' & rest & -> & R' & Hnr & Hir & Hlen & Hno)].
        { intros k' Hk'. apply Hk. cbn. auto. }
        { left. exists kc. cbn. auto. }
        right. cbn [rbind]. exists S', (k :: rest). split; auto. split.
        { eapply RInv_iff; [|exact R']. intros k'. cbn. split.
          - intros [H|[H1 H2]]; auto. right. split; auto. intros [<-|H]; contradiction.
          - intros [H|[H1 H2]]; auto. right. split; tauto. }
        split; [constructor; auto|]. split.
        { intros x [<-|Hx]; cbn; auto. }
        split; [cbn; lia|]. cbn. intros Hl. injection Hl as Hl. destruct (Hno Hl) as [-> Hall].
        split; auto. intros k' [<-|Hk']; auto.
      + destruct (IH (fun k' => done k' \/ k' = k) S1 R1 Hn')
          as [(kc & Hkc & Hch & ->)|(S' & rest & -> & R' & Hnr & Hir & Hlen & Hno)].
        { intros k' Hk'. destruct (Hk k' (or_intror Hk')) as [H1 H2]. split; auto.
          intros [H|H]; auto. subst k'. contradiction. }
        { left. exists kc. cbn. auto. }
        right. exists S', rest. split; auto. split.
        { eapply RInv_iff; [|exact R']. intros k'. cbn. split.
          - intros [[H|H]|[H1 H2]]; auto. subst k'. right. split; auto.
          - intros [H|[[H|H] H2]]; auto. }
        split; auto. split; [intros x Hx; right; auto|]. split; [cbn; lia|]. cbn. lia.
  Qed.

  (** Without progress every recorded job is there already. *)
  Lemma obtainable_present done S ks : RInv done S ->
    (forall k, recorded s k -> done k \/ In k ks) ->
    (forall k, In k ks -> dget k (st_map S) = None) ->
    forall j, obtainable siblings instantiate supplied s j -> present S j.
  Proof.
    intros R Hall Hks j H. induction H as [i j Hi Hj|p r t j Hp IH Hf Ht Hj].
    - apply (r_supplied _ _ R i j); auto.
    - pose proof Hf as (js & Hg & Hjs & Hr & Ho & Hpl).
      destruct IH as (jp & Hgp & Hjp).
      destruct (Hall (j_id p)) as [Hd|Hd].
      + apply (history_recorded _ js Hg). intros E. rewrite E in Hr. destruct Hr.
      + apply (r_made _ _ R (j_id p) js r t j); auto; rewrite Hjs; auto. split; auto.
      + apply Hks in Hd. congruence.
  Qed.

  Lemma leftovers_ok n : forall ks done S, length ks < n -> RInv done S -> NoDup ks ->
    (forall k, In k ks -> recorded s k /\ ~ done k) ->
    (forall k, recorded s k -> done k \/ In k ks) ->
    (exists k, recorded s k /\ changed k /\ leftovers n ks S = inl (RJob k)) \/
    ((exists k, recorded s k /\ gone k) /\ (forall k, recorded s k -> ~ changed k) /\
     leftovers n ks S = inl RCorrupted) \/
    exists S', leftovers n ks S = inr S' /\ RInv (recorded s) S'.
  Proof.
    induction n as [|n IH]; intros ks done S Hlen R Hn Hk Hall; [lia|].
    destruct ks as [|k0 ks0].
    - right. right. cbn. exists S. split; auto. apply (RInv_iff done); auto. intros k. split.
      + intros Hd. apply (r_done _ _ R k Hd).
      + intros Hr. destruct (Hall k Hr) as [H|[]]; auto.
    - set (ks := k0 :: ks0) in *. cbn [ResumeModel.leftovers]. unfold ks at 1.
      change (k0 :: ks0) with ks.
      destruct (pass_ok ks done S R Hn Hk)
        as [(kc & Hkc & Hch & ->)|(S' & rest & -> & R' & Hnr & Hir & Hle & Hno)].
      { left. exists kc. cbn [rbind]. split; [apply Hk; auto|auto]. }
      cbn [rbind]. destruct (Nat.eqb_spec (length rest) (length ks)) as [El|El].
      + right. left. destruct (Hno El) as [_ Hnone].
        assert (Hob : forall k j, In k ks -> obtainable siblings instantiate supplied s j -> j_id j <> k).
        { intros k j Hk' Hob E.
          destruct (obtainable_present done S ks R Hall Hnone _ Hob) as (jx & Hx & _).
          rewrite E in Hx. rewrite (Hnone k Hk') in Hx. discriminate. }
        split; [|split; auto].
        * exists k0. destruct (Hk k0 (or_introl eq_refl)) as [Hrec _]. split; auto.
          destruct (Hstatus k0 Hrec) as [(js & Hg & Ho)|[(js & j & Hg & Ho & Hi & _)|Hg]]; auto.
          -- elim (Hob k0 _ (or_introl eq_refl) Ho). apply (Inv_entry s k0 js s_inv Hg).
          -- elim (Hob k0 _ (or_introl eq_refl) Ho). exact Hi.
        * intros k Hrec Hch. destruct (Hall k Hrec) as [Hd|Hd].
          -- destruct (r_done _ _ R k Hd) as (_ & a & b & Ha & Hb & Eb & _).
             assert (HPa : P (js_job a)).
             { rewrite <- Eb. apply (g_jobs _ _ _ (r_good _ _ R) k b Hb). }
             destruct (status_excl k a Ha HPa) as [Hx _]. contradiction.
          -- destruct Hch as (js & j & Hg & Ho & Hi & _). elim (Hob k j Hd Ho Hi).
      + apply (IH rest (fun k => done k \/ (In k ks /\ ~ In k rest)) S'); auto.
        * cbn in *. lia.
        * intros k Hr. pose proof (Hir k Hr) as Hk'. destruct (Hk k Hk') as [H1 H2].
          split; auto. tauto.
        * intros k Hr. destruct (in_dec string_dec k rest); auto.
          destruct (Hall k Hr); auto.
  Qed.

  Lemma add_supplied_ok l : forall S, incl l supplied -> Good S ->
    exists S', add_supplied eval_expr siblings l S = inr S' /\ Good S' /\ ext S S' /\
      forall i x, In i l -> in_tree x (JTree i (siblings i)) -> present S' x.
  Proof.
    induction l as [|j l IH]; cbn [add_supplied]; intros S Hi G.
    - exists S. split; auto. split; auto. split; [apply ext_refl|]. intros ? ? [].
    - destruct (add_tree_ok eval_expr records_of P P_unique (JTree j (siblings j)) S G)
        as (S1 & -> & G1 & X1 & P1).
      { intros x Hx. left. exists j. split; auto. apply Hi. cbn. auto. }
      destruct (IH S1) as (S2 & -> & G2 & X2 & P2); auto.
      { intros x Hx. apply Hi. cbn. auto. }
      exists S2. split; auto. split; auto. split; [eapply ext_trans; eauto|].
      intros i x [<-|Hx] Ht; [|eauto]. eapply ext_present; eauto.
  Qed.

  Lemma init_ok : exists S, init_session supplied = SOk S /\ Good S /\
    forall k js, dget k (st_map S) = Some js -> fresh js.
  Proof.
    unfold init_session.
    pose proof (dedup_spec (Datatypes.S (length supplied)) supplied _ ltac:(lia) eq_refl) as G.
    destruct (dedup_jobs (Datatypes.S (length supplied)) supplied) as [jobs|e|] eqn:E.
    - destruct G as (_ & Hincl & _).
      assert (Hm : forall k js, dget k (map (fun j => (j_id j, new_jstate j)) jobs) = Some js ->
        exists x, In x jobs /\ js = new_jstate x).
      { intros k js H. apply dget_In in H. apply in_map_iff in H.
        destruct H as (x & [= <- <-] & Hx). eauto. }
      eexists. split; [reflexivity|]. split.
      + assert (Ei : init_session supplied = SOk (mk_state jobs supplied
          (map (fun j => (j_id j, new_jstate j)) jobs) [] [] [] [])).
        { unfold init_session. now rewrite E. }
        split; auto.
        * apply (HistoryProofs.Inv_init supplied). exact Ei.
        * apply (Res_init records_of supplied). exact Ei.
        * cbn. intros k js H. destruct (Hm k js H) as (x & Hx & ->). cbn. left. exists x.
          split; [auto|constructor].
      + cbn. intros k js H. destruct (Hm k js H) as (x & Hx & ->). split; reflexivity.
    - exfalso. destruct e; auto. destruct G as (H1 & H2 & H3 & H4). apply H4.
      assert (Ej : j = dup).
      { apply P_unique; auto.
        - left. exists j. split; [auto|constructor].
        - left. exists dup. split; [auto|constructor]. }
      now subst.
    - contradiction.
  Qed.

  (** ** The jobs and results are restored *)

  Variable m : meta.

  Definition session_doc : json :=
    JObj [field "jobs" (JObj jobs_doc); field "results" (JObj results_doc);
          field "desired_job_list" (JList (map (fun j => jstring (j_id j)) (st_desired s)));
          field "mandatory_job_list" (JList (map (fun j => jstring (j_id j)) (st_mandatory s)));
          field "metadata" (repr_meta m)].

  Notation restore := (restore_jobs eval_expr records_of readable siblings instantiate isfile rewrite
    supplied flags (Some dir) 6 session_doc).

  Lemma restore_jobs_ok : exists S0, init_session supplied = SOk S0 /\
    ((exists k, recorded s k /\ changed k /\ restore S0 = inl (RJob k)) \/
     ((exists k, recorded s k /\ gone k) /\ (forall k, recorded s k -> ~ changed k) /\
      restore S0 = inl RCorrupted) \/
     exists S, restore S0 = inr S /\ RInv (recorded s) S).
  Proof.
    destruct init_ok as (S0 & -> & G0 & F0).
    destruct (add_supplied_ok supplied S0 (incl_refl _) G0) as (S1 & E1 & G1 & X1 & P1).
    assert (R1 : RInv (fun _ => False) S1).
    { split; auto; try tauto. intros k js H _. destruct (dget k (st_map S0)) as [js0|] eqn:Ek.
      - destruct (x_old _ _ X1 k js0 Ek) as (js' & H' & Ec). rewrite H in H'. injection H' as <-.
        unfold core in Ec. injection Ec as _ E2 E3. destruct (F0 k js0 Ek). split; congruence.
      - apply (x_new _ _ X1 k js H Ek). }
    exists S0. split; auto. unfold restore_jobs.
    assert (K1 : vkey session_doc "jobs" = inr (JObj jobs_doc)) by reflexivity.
    assert (K2 : vkey session_doc "results" = inr (JObj results_doc)) by reflexivity.
    rewrite K1. cbn [rbind vdict]. rewrite K2. cbn [rbind vdict]. rewrite E1. cbn [rbind].
    fold ids_doc.
    destruct (pass_ok ids_doc _ S1 R1 (sorted_set_NoDup _))
      as [(kc & Hkc & Hch & ->)|(S2 & rest & -> & R2 & Hn & Hi & Hl & _)].
    { intros k Hk. split; [|tauto]. now apply ids_recorded. }
    { left. exists kc. split; [now apply ids_recorded|auto]. }
    cbn [rbind].
    apply (leftovers_ok (Datatypes.S (length rest)) rest _ S2 ltac:(lia) R2 Hn).
    { intros k Hk. split; [apply ids_recorded; auto|tauto]. }
    { intros k Hk. apply ids_recorded in Hk. destruct (in_dec string_dec k rest); auto. }
  Qed.

  (** ** Selection and trimming *)

  Hypothesis Henum : enumerates deps_of.

  Lemma run_jobs : incl (st_run s) (st_jobs s).
  Proof.
    pose proof (resolve_ok_inv deps_of _ _ _ (rs_run _ _ _ _ _ _ _ _ _ _ _ RS))
      as (_ & _ & _ & _ & _ & H).
    specialize (H (fun j => In j (st_jobs s))). rewrite !Forall_forall in H. intros j Hj. apply H; auto.
    - intros a b _ [Hb _]. exact Hb.
    - cbn. intros x Hx. apply (rs_selected _ _ _ _ _ _ _ _ _ _ _ RS). exact Hx.
  Qed.

  Lemma selected_run j : In j (st_mandatory s ++ st_desired s) -> In j (st_run s).
  Proof.
    intros Hj. pose proof (resolve_ok_inv deps_of _ _ _ (rs_run _ _ _ _ _ _ _ _ _ _ _ RS))
      as (Hu & _ & _ & H & _). cbn in H. specialize (H j Hj).
    apply in_map_iff in H. destruct H as (x & Hx & Hin).
    assert (x = j).
    { apply (unique_ids_inj (st_jobs s)); auto.
      - now apply run_jobs.
      - apply (rs_selected _ _ _ _ _ _ _ _ _ _ _ RS). exact Hj. }
    now subst.
  Qed.

  Lemma run_entry j : In j (st_run s) -> exists js, dget (j_id j) (st_map s) = Some js /\ js_job js = j.
  Proof.
    intros Hj. apply run_jobs in Hj. pose proof (dget_jobs_In (st_jobs s) j (i_unique _ s_inv) Hj) as H.
    rewrite <- (i_map _ s_inv), dget_jobmap in H.
    destruct (dget (j_id j) (st_map s)) as [js|]; [|discriminate]. injection H as H. eauto.
  Qed.

  Lemma run_recorded j : In j (st_run s) -> recorded s (j_id j).
  Proof.
    intros Hj. destruct (run_entry j Hj) as (js & H & _). exists js. split; auto. right. now apply in_map.
  Qed.

  Lemma lookup_ok S l : RInv (recorded s) S -> incl l (st_run s) ->
    job_list_of (JList (map (fun j => jstring (j_id j)) l)) S = inr l.
  Proof.
    intros R Hl. unfold job_list_of. cbn [vlist rbind].
    assert (E : rmap vstr (map (fun j => jstring (j_id j)) l) = inr (map j_id l)).
    { rewrite <- (map_map j_id jstring). apply rmap_ok. intros x _. cbn. now rewrite of_to_text. }
    rewrite E. cbn [rbind]. apply rmap_ok. intros j Hj. apply Hl in Hj.
    destruct (run_entry j Hj) as (js & Hg & Ej).
    destruct (r_done _ _ R (j_id j) (run_recorded j Hj)) as (_ & a & b & Ha & Hb & E1 & _).
    rewrite Hb. congruence.
  Qed.

  Lemma run_deps j d : In j (st_run s) -> In d (map snd (get_dependency_set j)) ->
    In d (map j_id (st_run s)).
  Proof.
    intros Hj Hd. pose proof (resolve_ok_inv deps_of _ _ _ (rs_run _ _ _ _ _ _ _ _ _ _ _ RS))
      as (_ & _ & Ho & _). apply in_split in Hj. destruct Hj as (l1 & l2 & E).
    apply in_map_iff in Hd. destruct Hd as ([ty d'] & Ed & Hd). cbn in Ed. subst d'.
    assert (H : In d (map j_id l1)).
    { apply (Ho l1 j l2 E). exists ty. apply (Henum j). exact Hd. }
    rewrite E, map_app, in_app_iff. auto.
  Qed.

  Lemma select_ok S : RInv (recorded s) S ->
    let S1 := update_mandatory_job_list (st_mandatory s) S in
    exists S2, update_desired_job_list deps_of eval_expr (st_desired s) true S1 = Some (S2, inr []) /\
      frame (mk_state (st_jobs S) (st_units S) (st_map S) (st_mandatory s ++ st_desired s)
               (st_mandatory s) (st_run s) (st_resources S)) S2 /\
      recompute eval_expr (mk_state (st_jobs S) (st_units S) (st_map S) (st_mandatory s ++ st_desired s)
               (st_mandatory s) (st_run s) (st_resources S)) = (S2, None).
  Proof.
    intros R S1. pose proof (g_inv _ _ _ (r_good _ _ R)) as IS.
    assert (Hrun : incl (st_run s) (st_jobs S)).
    { intros j Hj. destruct (run_entry j Hj) as (js & Hg & Ej).
      destruct (r_done _ _ R (j_id j) (run_recorded j Hj)) as (_ & a & b & Ha & Hb & E1 & _).
      replace j with (js_job b) by congruence. apply (Inv_entry S _ _ IS Hb). }
    assert (Hres : resolve deps_of (st_jobs S) (Some (st_mandatory s ++ st_desired s)) = SOk (st_run s)).
    { apply (resolve_transfer deps_of (st_jobs s)); auto.
      - apply RS.
      - apply run_jobs.
      - apply IS. }
    set (S0 := mk_state (st_jobs S) (st_units S) (st_map S) (st_mandatory s ++ st_desired s)
               (st_mandatory s) (st_run s) (st_resources S)).
    assert (Hrec : exists S2, recompute eval_expr S0 = (S2, None)).
    { destruct (recompute eval_expr S0) as [S2 [e|]] eqn:E; eauto. exfalso.
      apply recompute_err in E; [|apply s_inv].
      destruct E as (j & Hj & [[_ Hk]|Hgil]).
      - apply Hk. cbn. apply dget_In_keys. cbn in Hj.
        destruct (r_done _ _ R (j_id j) (run_recorded j Hj)) as (_ & a & b & Ha & Hb & _). eauto.
      - cbn in Hj. apply gil_error in Hgil. destruct Hgil as [[_ Hbad]|(k & _ & Hk & Hin)].
        + apply (rs_requirements _ _ _ _ _ _ _ _ _ _ _ RS j Hj Hbad).
        + cbn in Hk. pose proof (run_deps j k Hj Hin) as Hk'. apply in_map_iff in Hk'.
          destruct Hk' as (j' & <- & Hj').
          destruct (r_done _ _ R (j_id j') (run_recorded j' Hj')) as (_ & a & b & Ha & Hb & _).
          congruence. }
    destruct Hrec as [S2 Hrec]. exists S2.
    pose proof (recompute_frame eval_expr S0) as F. rewrite Hrec in F. cbn [fst] in F.
    split; [|split; auto].
    unfold update_desired_job_list. cbn [st_mandatory update_mandatory_job_list S1 st_jobs].
    assert (Hsel : select deps_of (Datatypes.S (length (st_mandatory s ++ st_desired s) + length (st_jobs S)))
      (st_jobs S) (st_mandatory s ++ st_desired s) [] = SelOk (st_mandatory s ++ st_desired s) (st_run s) []).
    { destruct (st_mandatory s ++ st_desired s) as [|w ws] eqn:Ew.
      - cbn. assert (E : st_run s = []).
        { pose proof Hres as H. unfold resolve in H. destruct (get_job_map (st_jobs S)); try discriminate H.
          cbn in H. congruence. }
        now rewrite E.
      - cbn [select]. rewrite Hres. reflexivity. }
    rewrite Hsel.
    match goal with |- context [recompute eval_expr ?x] => change x with S0 end.
    rewrite Hrec. reflexivity.
  Qed.

  Notation resume_it := (resume deps_of eval_expr records_of readable siblings instantiate isfile
    rewrite supplied flags (Some dir) (repr_session cwd (Some dir) (mk_session s m))).

  Theorem resume_restores :
    (exists k, recorded s k /\ changed k /\ resume_it = inl (RJob k)) \/
    ((exists k, recorded s k /\ gone k) /\ (forall k, recorded s k -> ~ changed k) /\
     resume_it = inl RCorrupted) \/
    exists R, resume_it = inr R /\
      restored s m R /\
      (forall k, recorded s k -> ~ changed k /\ ~ gone k) /\
      (forall k js', dget k (st_map (se_state R)) = Some js' ->
         (In k (map j_id (st_run s)) ->
          get_inhibitor_list eval_expr s (js_job js') = inr (js_inhibitors js')) /\
         (~ In k (map j_id (st_run s)) -> js_inhibitors js' = [Undesired])).
  Proof.
    destruct restore_jobs_ok as (S0 & E0 & Hcases).
    assert (Erepr : repr_session cwd (Some dir) (mk_session s m) =
      JObj [field "version" (JNum (int_text 6)); field "session" session_doc]) by reflexivity.
    rewrite Erepr. unfold resume. cbn [vdict rbind].
    assert (K1 : vkey (JObj [field "version" (JNum (int_text 6)); field "session" session_doc]) "version"
      = inr (JNum (int_text 6))) by reflexivity.
    assert (K2 : vkey (JObj [field "version" (JNum (int_text 6)); field "session" session_doc]) "session"
      = inr session_doc) by reflexivity.
    rewrite K1. cbn [rbind vsome].
    assert (Ev : find_version (JNum (int_text 6)) = Some 6) by reflexivity.
    rewrite Ev, K2. cbn [rbind].
    assert (Kd : exists o, vdict session_doc = inr o) by (eexists; reflexivity). destruct Kd as [o Kd].
    rewrite Kd. cbn [rbind]. unfold build_session. rewrite E0.
    destruct Hcases as [(k & Hk & Hc & ->)|[(Hg & Hc & ->)|(S & -> & RI)]].
    { left. eauto. }
    { right. left. auto. }
    right. right. cbn [rbind].
    destruct (restore_repr_meta 6 m session_doc ltac:(lia) eq_refl) as (m' & Em & Hm).
    rewrite Em. cbn [rbind]. change (Nat.ltb 6 6) with false. cbn iota.
    unfold restore_mandatory.
    assert (K3 : vkey session_doc "mandatory_job_list" =
      inr (JList (map (fun j => jstring (j_id j)) (st_mandatory s)))) by reflexivity.
    assert (K4 : vkey session_doc "desired_job_list" =
      inr (JList (map (fun j => jstring (j_id j)) (st_desired s)))) by reflexivity.
    assert (K5 : vkey session_doc "jobs" = inr (JObj jobs_doc)) by reflexivity.
    rewrite K3. cbn [rbind].
    rewrite lookup_ok; auto.
    2:{ intros j Hj. apply selected_run. rewrite in_app_iff. auto. }
    cbn [rbind]. unfold restore_desired. rewrite K4. cbn [rbind].
    assert (El : job_list_of (JList (map (fun j => jstring (j_id j)) (st_desired s)))
      (update_mandatory_job_list (st_mandatory s) S) = inr (st_desired s)).
    { apply (lookup_ok S); auto. intros j Hj. apply selected_run. rewrite in_app_iff. auto. }
    rewrite El. cbn [rbind].
    destruct (select_ok S RI) as (S2 & E2 & F2 & Erec). rewrite E2. cbn [rbind].
    unfold restore_job_list. rewrite K5. cbn [rbind vdict].
    pose proof F2 as (H1 & H2 & H3 & H4 & H5 & H6 & H7). cbn in H1, H2, H3, H4, H5, H6.
    assert (I2 : HistoryProofs.Inv S2).
    { pose proof (g_inv _ _ _ (r_good _ _ RI)) as IS.
      eapply Inv_frame; [exact F2|]. split; cbn; try apply IS. apply s_inv. }
    set (retain := map j_id (st_run S2) ++ map (fun kv => of_text (fst kv)) jobs_doc).
    assert (Hretain : forall k, In k retain <-> recorded s k).
    { intros k. unfold retain. rewrite in_app_iff, jobs_keys, H5. split; auto.
      intros [H|H]; auto. apply in_map_iff in H. destruct H as (j & <- & Hj). now apply run_recorded. }
    set (q := fun j => negb (smem (j_id j) retain)).
    assert (Ex : existsb (fun j => smem (j_id j) (map j_id (st_run S2))) (filter q (st_jobs S2)) = false).
    { apply not_true_is_false. intros H. apply existsb_exists in H. destruct H as (j & Hj & Hs).
      apply filter_In in Hj. destruct Hj as [_ Hq]. unfold q in Hq. apply negb_true_iff in Hq.
      apply smem_In in Hs. assert (Hr : smem (j_id j) retain = true).
      { apply smem_In. unfold retain. rewrite in_app_iff. auto. }
      congruence. }
    unfold trim_job_list. rewrite Ex. cbn [rbind].
    eexists. split; [reflexivity|]. cbn [se_state se_meta].
    assert (Hq : forall k js, dget k (st_map S2) = Some js ->
      (In k (map j_id (filter q (st_jobs S2))) <-> ~ recorded s k)).
    { intros k js H. destruct (Inv_entry S2 k js I2 H) as [Hin Hid]. rewrite in_map_iff. split.
      - intros (x & Ex' & Hx) Hr. apply filter_In in Hx. destruct Hx as [_ Hx]. unfold q in Hx.
        apply negb_true_iff in Hx. rewrite Ex' in Hx. apply Hretain, smem_In in Hr. congruence.
      - intros Hr. exists (js_job js). split; auto. apply filter_In. split; auto. unfold q.
        apply negb_true_iff. apply not_true_is_false. intros Hs. apply smem_In in Hs.
        apply Hr. apply Hretain. congruence. }
    assert (Hget : forall k, dget k (fold_left (fun m j => ddel (j_id j) m) (filter q (st_jobs S2)) (st_map S2))
      = if in_dec string_dec k (map j_id (filter q (st_jobs S2))) then None else dget k (st_map S2)).
    { intros k. apply (proj2 (dget_fold_ddel (filter q (st_jobs S2)) (st_map S2) k (inv_nodup S2 I2))). }
    assert (Hgetr : forall k, dget k (fold_left (fun m j => ddel (j_id j) m) (filter q (st_jobs S2)) (st_resources S2))
      = if in_dec string_dec k (map j_id (filter q (st_jobs S2))) then None else dget k (st_resources S2)).
    { intros k. apply (proj2 (dget_fold_ddel (filter q (st_jobs S2)) (st_resources S2) k (i_resd _ I2))). }
    assert (Hrec : forall k, recorded s k -> exists js js', dget k (st_map s) = Some js /\
      dget k (st_map S2) = Some js' /\ core js' = core js).
    { intros k Hr. destruct (r_done _ _ RI k Hr) as (_ & a & b & Ha & Hb & Eb1 & Eb2 & Eb3).
      destruct (x_old _ _ (ext_frame _ _ F2) k b Hb) as (c & Hc & Ec). exists a, c.
      repeat split; auto. rewrite Ec. unfold core. congruence. }
    assert (Hkeep : forall k, recorded s k -> ~ In k (map j_id (filter q (st_jobs S2)))).
    { intros k Hr. destruct (Hrec k Hr) as (a & b & Ha & Hb & _). rewrite (Hq k b Hb). tauto. }
    split.
    - unfold restored. cbn [se_state se_meta st_map st_run st_mandatory st_desired st_resources].
      split; [|split; [|split; [|split; [|split; [|split]]]]]; auto.
      + intros k Hr. destruct (Hrec k Hr) as (a & b & Ha & Hb & Ec). unfold core in Ec.
        injection Ec as Ec1 Ec2 Ec3. exists a, b. split; auto. cbn [st_map]. rewrite Hget.
        destruct (in_dec _ _ _) as [Hi|_]; [now apply Hkeep in Hi|]. auto.
      + intros k Hr. rewrite Hget. destruct (in_dec _ _ _) as [_|Hi]; auto.
        destruct (dget k (st_map S2)) as [b|] eqn:Eb; auto.
        exfalso. apply Hi. apply (Hq k b Eb). exact Hr.
      + intros k Hr. rewrite Hgetr.
        destruct (in_dec _ _ _) as [Hi|_]; [now apply Hkeep in Hi|].
        rewrite H6. cbn. rewrite (rr_res _ _ s_res k), (rr_res _ _ (g_res _ _ _ (r_good _ _ RI)) k).
        destruct (r_done _ _ RI k Hr) as (_ & a & b & Ha & Hb & Eb1 & Eb2 & Eb3).
        rewrite Ha, Hb. unfold resource_of. now rewrite Eb1, Eb3.
    - split.
      { intros k Hr. destruct (r_done _ _ RI k Hr) as (_ & a & b & Ha & Hb & Eb1 & _).
        apply (status_excl k a Ha). rewrite <- Eb1.
        apply (g_jobs _ _ _ (r_good _ _ RI) k b Hb). }
      intros k js' Hg. cbn [st_map] in Hg. rewrite Hget in Hg.
      destruct (in_dec _ _ _) as [|Hni]; [discriminate|].
      pose proof (i_run _ s_inv) as Hur. split.
      2:{ intros Hk. destruct (fun H => recompute_ok eval_expr _ S2 H Erec k js' Hg)
            as [[_ Hinh]|(j & Hj & Hid & _)]; [exact Hur|exact Hinh|].
          exfalso. apply Hk. rewrite H5 in Hj. rewrite <- Hid. now apply in_map. }
      intros Hk.
      destruct (fun H => recompute_ok eval_expr _ S2 H Erec k js' Hg) as [[Hno _]|(j & Hj & Hid & Hgil)]; [exact Hur| |].
      + exfalso. apply Hno. rewrite H5. exact Hk.
      + destruct (Inv_entry S2 k js' I2 Hg) as [Hin Hid'].
        assert (Ej : js_job js' = j).
        { apply (unique_ids_inj (st_jobs S2)); auto; [apply I2| |congruence].
          rewrite H5 in Hj. rewrite H1.
          destruct (run_entry j Hj) as (a0 & Hg0 & Ej0).
          destruct (r_done _ _ RI (j_id j) (run_recorded j Hj)) as (_ & a & b & Ha & Hb & E1 & _).
          replace j with (js_job b) by congruence.
          apply (Inv_entry S _ _ (g_inv _ _ _ (r_good _ _ RI)) Hb). }
        rewrite Ej, <- Hgil. rewrite H5 in Hj. symmetry. apply gil_agree. intros d Hd.
        pose proof (run_deps j d Hj Hd) as Hd'.
        apply in_map_iff in Hd'. destruct Hd' as (jd & <- & Hjd). apply run_recorded in Hjd.
        destruct (Hrec _ Hjd) as (a & b & Ha & Hb & Ec). unfold core in Ec. injection Ec as Ec1 Ec2 Ec3.
        unfold agree. rewrite Ha, Hb. split; [auto|].
        rewrite H6. cbn. rewrite (rr_res _ _ s_res), (rr_res _ _ (g_res _ _ _ (r_good _ _ RI))).
        destruct (r_done _ _ RI _ Hjd) as (_ & a' & b' & Ha' & Hb' & Eb1 & Eb2 & Eb3).
        rewrite Ha', Hb'. unfold resource_of. now rewrite Eb1, Eb3.
  Qed.
End Main.
