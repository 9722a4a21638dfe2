(** Theorems about POD classes (plainbox/impl/pod.py): C32. *)
From Coq Require Import String List Bool ZArith Arith Lia Permutation Sorted.
From Verif Require Import Base BaseFacts PodModel PodSpec.
Import ListNotations.
Local Open Scope list_scope.

Fixpoint act_induction (P : act -> Prop)
    (H : forall n v rs ex, (forall a, In a rs -> P a) -> P (Act n v rs ex)) (a : act) : P a.
Proof.
  destruct a as [n v rs ex]. apply H.
  induction rs as [|a rs IH]; intros b I; [destruct I|].
  destruct I as [<-|I]; [apply act_induction, H|apply IH, I].
Defined.

Section Pod.
Variable convert : pytype -> pyv -> result pyv.
Notation assign := (assign convert).
Notation run_acts := (run_acts convert).
Notation init := (init convert).
Notation passes := (passes convert).
Notation raises := (raises convert).
Notation run_filters := (run_filters convert).

Lemma run_filters_passes fd st old fs : forall v w,
  run_filters fd st old v fs = inr w <-> passes fd st old fs v w.
Proof.
  induction fs as [|f fs IH]; intros v w; simpl.
  - split; [intros [= ->]; constructor|inversion 1; reflexivity].
  - destruct (run_filter convert fd st old v f) as [e|v'] eqn:E.
    + split; [discriminate|]. inversion 1; congruence.
    + rewrite IH. split; [econstructor; eauto|]. inversion 1; subst.
      match goal with X : run_filter _ _ _ _ _ _ = inr _ |- _ => rewrite E in X; injection X as -> end. assumption.
Qed.

Lemma run_filters_raises fd st old fs : forall v e,
  run_filters fd st old v fs = inl e <-> raises fd st old fs v e.
Proof.
  induction fs as [|f fs IH]; intros v e; simpl.
  - split; [discriminate|inversion 1].
  - destruct (run_filter convert fd st old v f) as [e'|v'] eqn:E.
    + split; [intros [= ->]; now constructor|]. inversion 1; congruence.
    + rewrite IH. split; [eapply raises_later; eauto|]. inversion 1; subst; [congruence|].
      match goal with X : run_filter _ _ _ _ _ _ = inr _ |- _ => rewrite E in X; injection X as -> end. assumption.
Qed.

(** The nested loop of [assign] is [run_acts]. *)
Lemma assign_eq c p n v rs ex : assign c p (Act n v rs ex) =
  match find_field c n with
  | None => (p, None)
  | Some fd =>
      match run_filters fd (p_store p) (old_of p n) v (f_filters fd) with
      | inl e => (p, Some e)
      | inr w =>
          if f_notify fd && dmem n (p_store p) then
            if negb (pyeq w (old_of p n)) then
              (run_acts c (mk_pod (dset n w (p_store p))
                                  (p_log p ++ [mk_event n (old_of p n) w])) rs, ex)
            else (p, None)
          else (mk_pod (dset n w (p_store p)) (p_log p), None)
      end
  end.
Proof.
  simpl. destruct (find_field c n) as [fd|]; [|reflexivity].
  destruct (run_filters _ _ _ _ _) as [e|w]; [reflexivity|].
  destruct (f_notify fd && dmem n (p_store p)); [|reflexivity].
  destruct (negb (pyeq w (old_of p n))); [|reflexivity]. f_equal.
  generalize (mk_pod (dset n w (p_store p)) (p_log p ++ [mk_event n (old_of p n) w])).
  induction rs as [|a rs IH]; intros q; simpl; [reflexivity|apply IH].
Qed.

Local Arguments PodModel.assign : simpl never.

(** What every write preserves, every assignment preserves. *)
Section Preserve.
Variable c : cls.
Variable I : pod -> Prop.
Variable O : name -> pyv -> Prop.
Hypothesis loud : forall p n fd v w, I p -> O n v -> find_field c n = Some fd ->
  passes fd (p_store p) (old_of p n) (f_filters fd) v w ->
  f_notify fd = true -> dmem n (p_store p) = true -> pyeq w (old_of p n) = false ->
  I (mk_pod (dset n w (p_store p)) (p_log p ++ [mk_event n (old_of p n) w])).
Hypothesis quiet : forall p n fd v w, I p -> O n v -> find_field c n = Some fd ->
  passes fd (p_store p) (old_of p n) (f_filters fd) v w ->
  f_notify fd && dmem n (p_store p) = false ->
  I (mk_pod (dset n w (p_store p)) (p_log p)).

Lemma assign_preserves a : (forall n v, offers a n v -> O n v) ->
  forall p, I p -> I (fst (assign c p a)).
Proof.
  induction a as [n v rs ex IH] using act_induction. intros HO p HI.
  rewrite assign_eq. destruct (find_field c n) as [fd|] eqn:F; [|exact HI].
  destruct (run_filters _ _ _ _ _) as [e|w] eqn:R; [exact HI|].
  apply run_filters_passes in R.
  assert (OV : O n v) by (apply HO; constructor).
  destruct (f_notify fd && dmem n (p_store p)) eqn:ND.
  - destruct (pyeq w (old_of p n)) eqn:Q; [exact HI|]. simpl.
    apply andb_true_iff in ND as [N D].
    pose proof (loud p n fd v w HI OV F R N D Q) as H1.
    assert (HR : forall a, In a rs -> forall m x, offers a m x -> O m x)
      by (intros a Ia m x X; apply HO; econstructor; eauto).
    clear - IH H1 HR. revert H1. generalize (mk_pod (dset n w (p_store p)) (p_log p ++ [mk_event n (old_of p n) w])).
    induction rs as [|a rs IHrs]; intros q Hq; simpl; [exact Hq|].
    apply IHrs.
    + intros b Ib. apply IH. now right.
    + intros b Ib. apply HR. now right.
    + apply IH; auto; [now left|]. intros. eapply HR; eauto. now left.
  - simpl. eapply quiet; eauto.
Qed.

Lemma run_acts_preserves l : (forall a n v, In a l -> offers a n v -> O n v) ->
  forall p, I p -> I (run_acts c p l).
Proof.
  induction l as [|a l IH]; intros HO p HI; simpl; [exact HI|].
  apply IH; [intros; eapply HO; eauto; now right|].
  apply assign_preserves; auto. intros. eapply HO; eauto. now left.
Qed.

Lemma init_args_preserves args : forall fl p,
  (forall i fd a n v, nth_error fl i = Some fd -> nth_error args i = Some a ->
     offers (arg_act (f_name fd) a) n v -> O n v) ->
  I p -> I (fst (init_args convert c p fl args)).
Proof.
  induction args as [|a args IH]; intros [|fd fl] p HO HI; try exact HI. simpl.
  assert (H1 : I (fst (assign c p (arg_act (f_name fd) a)))).
  { apply assign_preserves; auto. intros n v. apply (HO 0 fd a n v); reflexivity. }
  destruct (assign c p (arg_act (f_name fd) a)) as [p' [e|]]; [exact H1|].
  apply IH; auto. intros i. apply (HO (S i)).
Qed.

Lemma init_kwargs_preserves kw : forall p,
  (forall m a n v, In (m, a) kw -> offers (arg_act m a) n v -> O n v) ->
  I p -> I (fst (init_kwargs convert c p kw)).
Proof.
  induction kw as [|[m a] kw IH]; intros p HO HI; [exact HI|]. simpl.
  destruct (find_field c m); [|exact HI]. destruct (negb _); [exact HI|].
  assert (H1 : I (fst (assign c p (arg_act m a)))).
  { apply assign_preserves; auto. intros n v. apply HO. now left. }
  destruct (assign c p (arg_act m a)) as [p' [e|]]; [exact H1|].
  apply IH; auto. intros. eapply HO; eauto. now right.
Qed.

Lemma init_rest_preserves react fl : forall p,
  (forall fd x n v, In fd fl -> f_initial fd = Some x ->
     offers (Act (f_name fd) x (fst (react (f_name fd))) (snd (react (f_name fd)))) n v -> O n v) ->
  I p -> I (fst (init_rest convert c react p fl)).
Proof.
  induction fl as [|fd fl IH]; intros p HO HI; [exact HI|]. simpl.
  destruct (negb _). { apply IH; auto. intros. eapply HO; eauto. now right. }
  destruct (f_initial fd) as [x|] eqn:X; [|exact HI].
  destruct (react (f_name fd)) as [rs ex] eqn:RE.
  assert (H1 : I (fst (assign c p (Act (f_name fd) x rs ex)))).
  { apply assign_preserves; auto. intros n v V. apply (HO fd x n v); auto; [now left|].
    rewrite RE. exact V. }
  destruct (assign c p (Act (f_name fd) x rs ex)) as [p' [e|]]; [exact H1|].
  apply IH; auto. intros. eapply HO; eauto. now right.
Qed.

Lemma init_preserves args kw react :
  (forall n v, initial_offers c args kw react n v -> O n v) ->
  I (mk_pod (map (fun fd => (f_name fd, VUnset)) c) []) ->
  I (fst (init c args kw react)).
Proof.
  intros HO HI. unfold PodModel.init. destruct (Nat.ltb _ _); [exact HI|].
  pose proof (init_args_preserves args c _ (fun i fd a n v E1 E2 V =>
    HO n v (or_introl (ex_intro _ i (ex_intro _ fd (ex_intro _ a (conj E1 (conj E2 V))))))) HI) as H1.
  destruct (init_args _ _ _ _ _) as [p1 [e|]]; [exact H1|]. simpl in H1.
  pose proof (init_kwargs_preserves kw p1 (fun m a n v E V =>
    HO n v (or_intror (or_introl (ex_intro _ m (ex_intro _ a (conj E V)))))) H1) as H2.
  destruct (init_kwargs _ _ _ _) as [p2 [e|]]; [exact H2|]. simpl in H2.
  apply init_rest_preserves; [|exact H2].
  intros fd x n v E X V. apply HO. right. right. eauto.
Qed.
End Preserve.

(** * The fields are there *)

Lemma find_declares c n fd : NoDup (map f_name c) -> declares c n fd -> find_field c n = Some fd.
Proof.
  intros N [Hin <-]. induction c as [|g c IH]; [destruct Hin|]. simpl in N.
  apply NoDup_cons_iff in N as [N1 N2]. unfold find_field. simpl.
  destruct Hin as [->|Hin].
  - rewrite String.eqb_refl. reflexivity.
  - destruct (String.eqb_spec (f_name fd) (f_name g)) as [E|_].
    + exfalso. apply N1. rewrite <- E. apply in_map, Hin.
    + apply IH; auto.
Qed.
Lemma declares_find c n fd : find_field c n = Some fd -> declares c n fd.
Proof.
  intros F. apply find_some in F as [F1 F2]. apply String.eqb_eq in F2. split; auto.
Qed.

(** Every field of the class has an attribute. *)
Definition complete (c : cls) (p : pod) : Prop :=
  forall fd, In fd c -> dmem (f_name fd) (p_store p) = true.

Lemma dmem_dset {A} k n (v : A) d : dmem k d = true -> dmem k (dset n v d) = true.
Proof.
  unfold dmem. rewrite dget_dset. destruct (String.eqb _ _); auto.
Qed.

Lemma complete_start c : complete c (mk_pod (map (fun fd => (f_name fd, VUnset)) c) []).
Proof.
  intros fd Hin. apply dmem_In. unfold dkeys. simpl. rewrite map_map. simpl.
  apply in_map_iff. eauto.
Qed.

Lemma old_of_holds p n : dmem n (p_store p) = true -> holds p n (old_of p n).
Proof.
  unfold holds, old_of, dmem. destruct (dget n (p_store p)); [reflexivity|discriminate].
Qed.
Lemma holds_old_of p n v : holds p n v -> old_of p n = v.
Proof. unfold holds, old_of. intros ->. reflexivity. Qed.

Lemma start_unset c n v : holds (mk_pod (map (fun fd => (f_name fd, VUnset)) c) []) n v -> v = VUnset.
Proof.
  unfold holds. simpl. induction c as [|fd c IH]; simpl; [discriminate|].
  destruct (String.eqb n (f_name fd)); [intros [= <-]; reflexivity|exact IH].
Qed.

(** * Filters cannot be bypassed *)

Definition filtered (c : cls) (O : name -> pyv -> Prop) (p : pod) : Prop :=
  forall n fd v, find_field c n = Some fd -> holds p n v ->
  v = VUnset \/ exists st old x, O n x /\ passes fd st old (f_filters fd) x v.

Lemma filtered_write c (O : name -> pyv -> Prop) p n fd v w l : filtered c O p -> O n v -> find_field c n = Some fd ->
  passes fd (p_store p) (old_of p n) (f_filters fd) v w ->
  filtered c O (mk_pod (dset n w (p_store p)) l).
Proof.
  intros H HO F R m gd x G Hx. unfold holds in Hx. simpl in Hx. rewrite dget_dset in Hx.
  destruct (String.eqb_spec m n) as [->|D]; [|eapply H; eauto].
  injection Hx as <-. rewrite F in G. injection G as <-. right. eauto 6.
Qed.

Lemma filtered_start c O : filtered c O (mk_pod (map (fun fd => (f_name fd, VUnset)) c) []).
Proof. intros n fd v _ H. left. eapply start_unset, H. Qed.

Definition settled (c : cls) (O : name -> pyv -> Prop) (fl : list field) (p : pod) : Prop :=
  forall n fd v, In fd fl -> find_field c n = Some fd -> holds p n v ->
  exists st old x, O n x /\ passes fd st old (f_filters fd) x v.

Lemma settled_write c (O : name -> pyv -> Prop) fl p n fd v w l : settled c O fl p -> O n v -> find_field c n = Some fd ->
  passes fd (p_store p) (old_of p n) (f_filters fd) v w ->
  settled c O fl (mk_pod (dset n w (p_store p)) l).
Proof.
  intros H HO F R m gd x Hin G Hx. unfold holds in Hx. simpl in Hx. rewrite dget_dset in Hx.
  destruct (String.eqb_spec m n) as [->|D]; [|eapply H; eauto].
  injection Hx as <-. rewrite F in G. injection G as <-. eauto 6.
Qed.

Lemma pyeq_unset w : pyeq w VUnset = true -> w = VUnset.
Proof. destruct w; simpl; congruence. Qed.

Lemma find_own c fd : NoDup (map f_name c) -> In fd c -> find_field c (f_name fd) = Some fd.
Proof. intros N Hin. apply find_declares; [exact N|split; auto]. Qed.

(** What an assignment that raises nothing has done. *)
Lemma assign_settles c O p fd x rs ex p' :
  NoDup (map f_name c) -> In fd c -> complete c p -> filtered c O p ->
  is_unset (old_of p (f_name fd)) = true ->
  (forall n v, offers (Act (f_name fd) x rs ex) n v -> O n v) ->
  assign c p (Act (f_name fd) x rs ex) = (p', None) ->
  settled c O [fd] p'.
Proof.
  intros N Hin C FI U HO E. rewrite assign_eq, (find_own c fd N Hin) in E.
  destruct (run_filters _ _ _ _ _) as [e|w] eqn:R; [discriminate|].
  apply run_filters_passes in R.
  assert (OX : O (f_name fd) x) by (apply HO; constructor).
  assert (W : forall l, settled c O [fd] (mk_pod (dset (f_name fd) w (p_store p)) l)).
  { intros l m gd v [<-|[]] G Hv. apply declares_find in G as [_ <-].
    unfold holds in Hv. simpl in Hv. rewrite dget_dset_same in Hv. injection Hv as <-.
    eauto 6. }
  destruct (f_notify fd && dmem (f_name fd) (p_store p)) eqn:ND.
  - destruct (pyeq w (old_of p (f_name fd))) eqn:Q; simpl in E.
    + injection E as <-. destruct (old_of p (f_name fd)) eqn:OO; try discriminate U.
      apply pyeq_unset in Q. subst w.
      intros m gd v [<-|[]] G Hv. apply declares_find in G as [_ <-].
      apply holds_old_of in Hv. rewrite OO in Hv. subst v. eauto 6.
    + injection E as <- _.
      apply (run_acts_preserves c (settled c O [fd]) O); auto.
      * intros. eapply settled_write; eauto.
      * intros. eapply settled_write; eauto.
      * intros a n v Ia Ha. apply HO. eapply offers_reaction; eauto.
  - injection E as <-. apply W.
Qed.

Lemma complete_assign c p a : complete c p -> complete c (fst (assign c p a)).
Proof.
  intros H. apply (assign_preserves c (complete c) (fun _ _ => True)); auto.
  - intros q n fd v w C _ _ _ _ _ _ g G. simpl. apply dmem_dset, C, G.
  - intros q n fd v w C _ _ _ _ g G. simpl. apply dmem_dset, C, G.
Qed.

Lemma init_rest_settles c (O : name -> pyv -> Prop) react :
  NoDup (map f_name c) ->
  forall fl done p p',
  incl fl c -> complete c p -> filtered c O p -> settled c O done p ->
  (forall fd x n v, In fd fl -> f_initial fd = Some x ->
     offers (Act (f_name fd) x (fst (react (f_name fd))) (snd (react (f_name fd)))) n v -> O n v) ->
  init_rest convert c react p fl = (p', None) ->
  settled c O (done ++ fl) p'.
Proof.
  intros N. induction fl as [|fd fl IH]; intros done p p' SUB C FI SE HO E.
  - simpl in E. injection E as <-. rewrite app_nil_r. exact SE.
  - simpl in E.
    assert (Hin : In fd c) by (apply SUB; now left).
    assert (SUB' : incl fl c) by (intros g G; apply SUB; now right).
    assert (HO' : forall gd x n v, In gd fl -> f_initial gd = Some x ->
       offers (Act (f_name gd) x (fst (react (f_name gd))) (snd (react (f_name gd)))) n v -> O n v)
      by (intros; eapply HO; eauto; now right).
    replace (done ++ fd :: fl) with ((done ++ [fd]) ++ fl) by (rewrite <- app_assoc; reflexivity).
    destruct (is_unset (old_of p (f_name fd))) eqn:U; simpl in E.
    + destruct (f_initial fd) as [x|] eqn:X; [|discriminate].
      destruct (react (f_name fd)) as [rs ex] eqn:RE.
      assert (HOF : forall n v, offers (Act (f_name fd) x rs ex) n v -> O n v).
      { intros n v V. apply (HO fd x n v); auto; [now left|]. rewrite RE. exact V. }
      destruct (assign c p (Act (f_name fd) x rs ex)) as [q [e|]] eqn:A; [discriminate|].
      pose proof (complete_assign c p (Act (f_name fd) x rs ex) C) as C'.
      rewrite A in C'.
      apply IH with (p := q); auto.
      * assert (X1 : filtered c O (fst (assign c p (Act (f_name fd) x rs ex)))).
        { apply (assign_preserves c (filtered c O) O); auto; intros; eapply filtered_write; eauto. }
        rewrite A in X1. exact X1.
      * intros m gd v G F Hv. apply in_app_or in G as [G|G].
        -- assert (X1 : settled c O done (fst (assign c p (Act (f_name fd) x rs ex)))).
           { apply (assign_preserves c (settled c O done) O); auto; intros; eapply settled_write; eauto. }
           rewrite A in X1. eapply X1; eauto.
        -- eapply (assign_settles c O p fd x rs ex q); eauto.
    + apply IH with (p := p); auto.
      intros m gd v G F Hv. apply in_app_or in G as [G|[<-|[]]]; [eapply SE; eauto|].
      apply declares_find in F as F'. destruct F' as [_ <-].
      destruct (FI _ _ _ F Hv) as [->|H]; [|exact H].
      apply holds_old_of in Hv. rewrite Hv in U. discriminate.
Qed.

(** After the initializer returns, whatever is assigned, by anyone, each field holds
    a value that was offered to that field (an argument, its initial value or an
    assigned value) and went through the whole list of its filters. *)
Theorem C32_filtered c args kw react p acts n fd v :
  NoDup (map f_name c) ->
  init c args kw react = (p, None) ->
  declares c n fd -> holds (run_acts c p acts) n v ->
  exists st old x,
    (initial_offers c args kw react n x \/ exists a, In a acts /\ offers a n x) /\
    passes fd st old (f_filters fd) x v.
Proof.
  intros N E D Hv.
  set (O0 := initial_offers c args kw react).
  set (O := fun n x => initial_offers c args kw react n x \/ exists a, In a acts /\ offers a n x).
  assert (S0 : settled c O0 c p).
  { unfold PodModel.init in E. destruct (Nat.ltb _ _); [discriminate|].
    set (p0 := mk_pod (map (fun fd => (f_name fd, VUnset)) c) []) in E.
    pose proof (complete_start c) as C0.
    assert (C1 : complete c (fst (init_args convert c p0 c args))).
    { apply (init_args_preserves c (complete c) (fun _ _ => True)); auto.
      - intros q m gd x w C _ _ _ _ _ _ g G. simpl. apply dmem_dset, C, G.
      - intros q m gd x w C _ _ _ _ g G. simpl. apply dmem_dset, C, G. }
    assert (F1 : filtered c O0 (fst (init_args convert c p0 c args))).
    { apply (init_args_preserves c (filtered c O0) O0);
        try (intros; eapply filtered_write; eauto; fail).
      - intros i gd a m x E1 E2 V. left. eauto 6.
      - apply filtered_start. }
    destruct (init_args convert c p0 c args) as [p1 [e|]]; [discriminate|]. simpl in C1, F1.
    assert (C2 : complete c (fst (init_kwargs convert c p1 kw))).
    { apply (init_kwargs_preserves c (complete c) (fun _ _ => True)); auto.
      - intros q m gd x w C _ _ _ _ _ _ g G. simpl. apply dmem_dset, C, G.
      - intros q m gd x w C _ _ _ _ g G. simpl. apply dmem_dset, C, G. }
    assert (F2 : filtered c O0 (fst (init_kwargs convert c p1 kw))).
    { apply (init_kwargs_preserves c (filtered c O0) O0);
        try (intros; eapply filtered_write; eauto; fail); auto.
      intros m a k x E1 V. right. left. eauto. }
    destruct (init_kwargs convert c p1 kw) as [p2 [e|]]; [discriminate|]. simpl in C2, F2.
    change c with ([] ++ c) at 2.
    eapply init_rest_settles; eauto.
    - intros g G. exact G.
    - intros m gd x [].
    - intros gd x m y G X V. right. right. eauto 6. }
  assert (S1 : settled c O c p).
  { intros m gd x G F Hx. destruct (S0 m gd x G F Hx) as (st & old & y & Y1 & Y2).
    exists st, old, y. split; [left; exact Y1|exact Y2]. }
  assert (S2 : settled c O c (run_acts c p acts)).
  { apply (run_acts_preserves c (settled c O c) O); auto.
    - intros. eapply settled_write; eauto.
    - intros. eapply settled_write; eauto.
    - intros a m x Ia Ha. right. eauto. }
  destruct D as [D1 D2]. apply (S2 n fd v); auto. apply find_declares; auto. split; auto.
Qed.

(** * Type checks *)

Lemma checks_same fd st old f v w :
  only_checks f -> run_filter convert fd st old v f = inr w -> w = v.
Proof.
  assert (U : forall l new seen, unique_loop new seen l = inr w -> w = new).
  { induction l as [|i l IH]; intros new seen; simpl; [intros [= <-]; reflexivity|].
    destruct (negb (hashable new)); [discriminate|]. destruct (existsb _ _); [discriminate|].
    destruct (negb (hashable i)); [discriminate|]. apply IH. }
  assert (T : forall t, type_check t v = inr w -> w = v).
  { intros t. unfold type_check. destruct (isinstance v t); [intros [= <-]; reflexivity|discriminate]. }
  assert (Q : forall t, seq_check t v = inr w -> w = v).
  { intros t. unfold seq_check. destruct (items v); [|discriminate].
    destruct (forallb _ _); [intros [= <-]; reflexivity|discriminate]. }
  destruct f; simpl; intros C; try (destruct C; fail).
  - destruct old; intros [= <-]; reflexivity.
  - apply T.
  - destruct v; (intros [= <-]; reflexivity) || apply T.
  - apply Q.
  - destruct v; (intros [= <-]; reflexivity) || apply Q.
  - destruct (items v); [apply U|discriminate].
Qed.

Lemma passes_app fd st old f1 f2 v w : passes fd st old (f1 ++ f2) v w ->
  exists x, passes fd st old f1 v x /\ passes fd st old f2 x w.
Proof.
  revert v. induction f1 as [|f f1 IH]; intros v H; simpl in H.
  - exists v. split; [constructor|exact H].
  - inversion H; subst.
    match goal with X : PodSpec.passes _ _ _ _ _ _ _ |- _ => destruct (IH _ X) as (x & X1 & X2) end.
    exists x. split; [econstructor; eauto|exact X2].
Qed.
Lemma passes_checks fd st old fs v w : Forall only_checks fs ->
  passes fd st old fs v w -> w = v.
Proof.
  intros C. revert v. induction C as [|f fs C1 C2 IH]; intros v H; inversion H; subst; auto.
  match goal with X : run_filter _ _ _ _ _ _ = inr _ |- _ => apply checks_same in X; auto; subst v' end. auto.
Qed.

Lemma passes_at fd st old before f after x v : Forall only_checks after ->
  passes fd st old (before ++ f :: after) x v ->
  exists y, run_filter convert fd st old y f = inr v.
Proof.
  intros AF P. apply passes_app in P as (y & _ & P). exists y. inversion P; subst.
  match goal with X : PodSpec.passes _ _ _ _ after _ _ |- _ => apply passes_checks in X; auto; subst end.
  assumption.
Qed.

(** A field whose filters check its type, with nothing but checks afterwards, holds
    a value of that type at all times. *)
Theorem C32_typed c args kw react p acts n fd v before after :
  NoDup (map f_name c) ->
  init c args kw react = (p, None) ->
  declares c n fd -> f_filters fd = before ++ FTyped :: after -> Forall only_checks after ->
  holds (run_acts c p acts) n v ->
  isinstance v (f_type fd) = true.
Proof.
  intros N E D FS AF Hv.
  destruct (C32_filtered c args kw react p acts n fd v N E D Hv) as (st & old & x & _ & P).
  rewrite FS in P. apply passes_at in P as (y & H2); auto. simpl in H2. unfold type_check in H2.
  destruct (isinstance y (f_type fd)) eqn:T; [|discriminate]. congruence.
Qed.

(** The same for the items of a field with a typed sequence. *)
Theorem C32_typed_items c args kw react p acts n fd v before after t :
  NoDup (map f_name c) ->
  init c args kw react = (p, None) ->
  declares c n fd -> f_filters fd = before ++ FSeq t :: after -> Forall only_checks after ->
  holds (run_acts c p acts) n v ->
  exists l, items v = Some l /\ forall i, In i l -> isinstance i t = true.
Proof.
  intros N E D FS AF Hv.
  destruct (C32_filtered c args kw react p acts n fd v N E D Hv) as (st & old & x & _ & P).
  rewrite FS in P. apply passes_at in P as (y & H2); auto. simpl in H2. unfold seq_check in H2.
  destruct (items y) as [l|] eqn:L; [|discriminate].
  destruct (forallb _ l) eqn:A; [|discriminate]. injection H2 as ->. exists l. split; auto.
  apply forallb_forall, A.
Qed.

(** Fields that may be unset hold UNSET or a value of the type. *)
Theorem C32_unset_or_typed c args kw react p acts n fd v before after :
  NoDup (map f_name c) ->
  init c args kw react = (p, None) ->
  declares c n fd -> f_filters fd = before ++ FUnsetTyped :: after -> Forall only_checks after ->
  holds (run_acts c p acts) n v ->
  v = VUnset \/ isinstance v (f_type fd) = true.
Proof.
  intros N E D FS AF Hv.
  destruct (C32_filtered c args kw react p acts n fd v N E D Hv) as (st & old & x & _ & P).
  rewrite FS in P. apply passes_at in P as (y & H2); auto. simpl in H2.
  destruct y; try (left; congruence); right; unfold type_check in H2;
    destruct (isinstance _ (f_type fd)) eqn:T; congruence.
Qed.

(** * Constant fields *)

Lemma const_blocks fd st old fs v w : In FConst fs -> passes fd st old fs v w -> old = VUnset.
Proof.
  intros Hin H. induction H; [destruct Hin|]. destruct Hin as [->|Hin]; [|auto].
  simpl in H. destruct old; [reflexivity|discriminate..].
Qed.

(** The value of a constant field, once it is set, is there for good: nothing that is
    ever assigned changes it or announces a change of it. *)
Theorem C32_const c p acts n fd v :
  declares c n fd -> NoDup (map f_name c) -> In FConst (f_filters fd) ->
  holds p n v -> v <> VUnset ->
  holds (run_acts c p acts) n v /\ about n (p_log (run_acts c p acts)) = about n (p_log p).
Proof.
  intros D N FC Hv NV.
  apply (run_acts_preserves c (fun q => holds q n v /\ about n (p_log q) = about n (p_log p))
          (fun _ _ => True)); auto.
  - intros q m gd x w [H1 H2] _ F P _ _ _.
    destruct (String.eqb_spec n m) as [<-|D'].
    + exfalso. rewrite (find_declares c n fd N D) in F. injection F as <-.
      apply NV. rewrite <- (holds_old_of _ _ _ H1). eapply const_blocks; eauto.
    + split.
      * unfold holds. simpl. rewrite dget_dset_other; auto.
      * unfold about. simpl. rewrite filter_app. simpl.
        destruct (String.eqb_spec n m); [contradiction|]. rewrite app_nil_r. exact H2.
  - intros q m gd x w [H1 H2] _ F P _.
    destruct (String.eqb_spec n m) as [<-|D'].
    + exfalso. rewrite (find_declares c n fd N D) in F. injection F as <-.
      apply NV. rewrite <- (holds_old_of _ _ _ H1). eapply const_blocks; eauto.
    + split; [|exact H2]. unfold holds. simpl. rewrite dget_dset_other; auto.
Qed.

(** Assigning to it raises and does nothing else. *)
Theorem C32_const_raises c p n fd v x rs ex :
  declares c n fd -> NoDup (map f_name c) -> In FConst (f_filters fd) ->
  holds p n v -> v <> VUnset ->
  exists e, assign c p (Act n x rs ex) = (p, Some e).
Proof.
  intros D N FC Hv NV. rewrite assign_eq, (find_declares c n fd N D).
  destruct (run_filters _ _ _ _ _) as [e|w] eqn:R; [eauto|].
  apply run_filters_passes in R. apply const_blocks in R; auto.
  rewrite (holds_old_of _ _ _ Hv) in R. contradiction.
Qed.

(** A rejected value reaches nobody: the error of the filter is raised, the instance
    is as before and nothing is announced. *)
Theorem C32_rejected c p n fd x rs ex e :
  declares c n fd -> NoDup (map f_name c) ->
  raises fd (p_store p) (old_of p n) (f_filters fd) x e ->
  assign c p (Act n x rs ex) = (p, Some e).
Proof.
  intros D N R. rewrite assign_eq, (find_declares c n fd N D).
  apply run_filters_raises in R. rewrite R. reflexivity.
Qed.

(** * Change notifications *)

Lemma accounts_snoc v es w n x :
  accounts v es w -> pyeq x w = false -> accounts v (es ++ [mk_event n w x]) x.
Proof.
  induction 1; intros Q; simpl.
  - constructor; [exact Q|constructor].
  - constructor; auto.
Qed.

Definition accounted (c : cls) (n : name) (p : pod) : Prop :=
  complete c p /\ forall v, holds p n v -> accounts VUnset (about n (p_log p)) v.

Lemma accounted_loud c (n : name) fd : find_field c n = Some fd -> f_notify fd = true ->
  forall p m gd v w, accounted c n p -> True -> find_field c m = Some gd ->
  passes gd (p_store p) (old_of p m) (f_filters gd) v w ->
  f_notify gd = true -> dmem m (p_store p) = true -> pyeq w (old_of p m) = false ->
  accounted c n (mk_pod (dset m w (p_store p)) (p_log p ++ [mk_event m (old_of p m) w])).
Proof.
  intros F NO p m gd v w [C A] _ G P _ D Q. split.
  { intros g Hg. simpl. apply dmem_dset, C, Hg. }
  intros x Hx. unfold holds in Hx. simpl in Hx. rewrite dget_dset in Hx.
  unfold about. simpl. rewrite filter_app. simpl.
  destruct (String.eqb_spec n m) as [->|D'].
  - injection Hx as <-. apply accounts_snoc; auto. apply A, old_of_holds, D.
  - rewrite app_nil_r. apply A. exact Hx.
Qed.
Lemma accounted_quiet c (n : name) fd : find_field c n = Some fd -> f_notify fd = true ->
  forall p m gd v w, accounted c n p -> True -> find_field c m = Some gd ->
  passes gd (p_store p) (old_of p m) (f_filters gd) v w ->
  f_notify gd && dmem m (p_store p) = false ->
  accounted c n (mk_pod (dset m w (p_store p)) (p_log p)).
Proof.
  intros F NO p m gd v w [C A] _ G P ND. split.
  { intros g Hg. simpl. apply dmem_dset, C, Hg. }
  intros x Hx. unfold holds in Hx. simpl in Hx. rewrite dget_dset in Hx. simpl.
  destruct (String.eqb_spec n m) as [->|D']; [|apply A; exact Hx].
  exfalso. rewrite F in G. injection G as <-. rewrite NO in ND. simpl in ND.
  apply declares_find in F as [F1 F2]. specialize (C fd F1). rewrite F2 in C. congruence.
Qed.

(** For a field that sends notifications, the notifications sent since the object was
    made account for every change of its value, from UNSET to what it holds now: none
    is missing, and none is sent without a change. *)
Theorem C32_notified c args kw react acts n fd v :
  declares c n fd -> NoDup (map f_name c) -> f_notify fd = true ->
  holds (run_acts c (fst (init c args kw react)) acts) n v ->
  accounts VUnset (about n (p_log (run_acts c (fst (init c args kw react)) acts))) v.
Proof.
  intros D N NO Hv.
  pose proof (find_declares c n fd N D) as F.
  assert (A0 : accounted c n (fst (init c args kw react))).
  { apply (init_preserves c (accounted c n) (fun _ _ => True)); auto.
    - intros. eapply accounted_loud; eauto.
    - intros. eapply accounted_quiet; eauto.
    - split; [apply complete_start|]. intros x Hx. apply start_unset in Hx. subst x. constructor. }
  assert (A1 : accounted c n (run_acts c (fst (init c args kw react)) acts)).
  { apply (run_acts_preserves c (accounted c n) (fun _ _ => True)); auto.
    - intros. eapply accounted_loud; eauto.
    - intros. eapply accounted_quiet; eauto. }
  apply A1, Hv.
Qed.

(** One assignment, of a value whose filtered form is [w]: if it differs from the old
    one it is stored, announced once with both, and only then do the listeners act;
    otherwise nothing happens. *)
Theorem C32_notify_exactly c p n fd x w rs ex old :
  declares c n fd -> NoDup (map f_name c) -> f_notify fd = true -> holds p n old ->
  passes fd (p_store p) old (f_filters fd) x w ->
  assign c p (Act n x rs ex) =
    if pyeq w old then (p, None)
    else (run_acts c (mk_pod (dset n w (p_store p)) (p_log p ++ [mk_event n old w])) rs, ex).
Proof.
  intros D N NO Hv P. rewrite assign_eq, (find_declares c n fd N D).
  rewrite (holds_old_of _ _ _ Hv). apply run_filters_passes in P. rewrite P, NO.
  unfold dmem. unfold holds in Hv. rewrite Hv. simpl. destruct (pyeq w old); reflexivity.
Qed.

(** A field that sends no notifications stores the value and is never announced. *)
Theorem C32_silent c p acts n fd :
  declares c n fd -> NoDup (map f_name c) -> f_notify fd = false ->
  about n (p_log (run_acts c p acts)) = about n (p_log p).
Proof.
  intros D N NO.
  apply (run_acts_preserves c (fun q => about n (p_log q) = about n (p_log p)) (fun _ _ => True)); auto.
  intros q m gd v w H _ F P NO' _ _. simpl. unfold about. rewrite filter_app. simpl.
  destruct (String.eqb_spec n m) as [->|D'].
  - exfalso. rewrite (find_declares c m fd N D) in F. congruence.
  - rewrite app_nil_r. exact H.
Qed.
Theorem C32_silent_stores c p n fd x w rs ex old :
  declares c n fd -> NoDup (map f_name c) -> f_notify fd = false -> holds p n old ->
  passes fd (p_store p) old (f_filters fd) x w ->
  holds (fst (assign c p (Act n x rs ex))) n w /\ snd (assign c p (Act n x rs ex)) = None /\
  forall m, m <> n -> dget m (p_store (fst (assign c p (Act n x rs ex)))) = dget m (p_store p).
Proof.
  intros D N NO Hv P. rewrite assign_eq, (find_declares c n fd N D).
  rewrite (holds_old_of _ _ _ Hv). apply run_filters_passes in P. rewrite P, NO. simpl.
  split; [apply dget_dset_same|]. split; [reflexivity|]. intros m M. apply dget_dset_other. exact M.
Qed.


(** * What the initializer binds *)

Lemma assign_unset c p n fd x ex p' :
  NoDup (map f_name c) -> declares c n fd -> holds p n VUnset ->
  assign c p (Act n x [] ex) = (p', None) ->
  exists w, passes fd (p_store p) VUnset (f_filters fd) x w /\ holds p' n w.
Proof.
  intros N D Hv E. rewrite assign_eq, (find_declares c n fd N D) in E.
  rewrite (holds_old_of _ _ _ Hv) in E.
  destruct (run_filters _ _ _ _ _) as [e|w] eqn:R; [discriminate|].
  apply run_filters_passes in R. exists w. split; [exact R|].
  destruct (f_notify fd && dmem n (p_store p)).
  - destruct (pyeq w VUnset) eqn:Q; simpl in E.
    + apply pyeq_unset in Q. subst w. injection E as <-. exact Hv.
    + injection E as <- _. apply dget_dset_same.
  - injection E as <-. apply dget_dset_same.
Qed.
Lemma assign_other c p n m x ex : m <> n ->
  dget m (p_store (fst (assign c p (Act n x [] ex)))) = dget m (p_store p).
Proof.
  intros D. rewrite assign_eq. destruct (find_field c n); [|reflexivity].
  destruct (run_filters _ _ _ _ _); [reflexivity|].
  destruct (_ && _); [destruct (negb _)|]; simpl; try reflexivity; apply dget_dset_other; exact D.
Qed.

Definition no_reaction (a : arg) : Prop := snd (fst a) = [].

Lemma arg_other c p n m a p' r : no_reaction a -> m <> n ->
  assign c p (arg_act n a) = (p', r) -> dget m (p_store p') = dget m (p_store p).
Proof.
  intros Q D E. unfold arg_act in E. unfold no_reaction in Q. rewrite Q in E.
  rewrite <- (assign_other c p n m (fst (fst a)) (snd a) D), E. reflexivity.
Qed.

Lemma args_other c m : forall args fl p p',
  Forall no_reaction args -> (forall fd, In fd fl -> m <> f_name fd) ->
  init_args convert c p fl args = (p', None) -> dget m (p_store p') = dget m (p_store p).
Proof.
  induction args as [|a args IH]; intros [|fd fl] p p' Q D E; simpl in E;
    try (injection E as <-; reflexivity).
  apply Forall_cons_iff in Q as [Q1 Q2].
  destruct (assign c p (arg_act (f_name fd) a)) as [q [e|]] eqn:A; [discriminate|].
  rewrite (IH fl q p' Q2); auto; [|intros g G; apply D; now right].
  eapply arg_other; eauto. apply D. now left.
Qed.

Lemma kwargs_stay c n w : w <> VUnset -> forall kw p p',
  Forall (fun k => no_reaction (snd k)) kw -> holds p n w ->
  init_kwargs convert c p kw = (p', None) -> holds p' n w /\ ~ In n (map fst kw).
Proof.
  intros NV. induction kw as [|[m a] kw IH]; intros p p' Q Hv E; simpl in E.
  - injection E as <-. auto.
  - apply Forall_cons_iff in Q as [Q1 Q2].
    destruct (find_field c m); [|discriminate].
    destruct (is_unset (old_of p m)) eqn:U; [|discriminate]. simpl in E.
    destruct (assign c p (arg_act m a)) as [q [e|]] eqn:A; [discriminate|].
    assert (D : n <> m).
    { intros <-. rewrite (holds_old_of _ _ _ Hv) in U. destruct w; try discriminate; contradiction. }
    destruct (IH q p' Q2) as [I1 I2]; auto.
    + unfold holds. rewrite (arg_other _ _ _ _ _ _ _ Q1 D A). exact Hv.
    + split; [exact I1|]. simpl. intuition.
Qed.
Lemma kwargs_other c n : forall kw p p',
  Forall (fun k => no_reaction (snd k)) kw -> ~ In n (map fst kw) ->
  init_kwargs convert c p kw = (p', None) -> dget n (p_store p') = dget n (p_store p).
Proof.
  induction kw as [|[m a] kw IH]; intros p p' Q D E; simpl in E.
  - injection E as <-. reflexivity.
  - apply Forall_cons_iff in Q as [Q1 Q2].
    destruct (find_field c m); [|discriminate].
    destruct (negb _); [discriminate|].
    destruct (assign c p (arg_act m a)) as [q [e|]] eqn:A; [discriminate|].
    simpl in D. rewrite (IH q p' Q2); auto. eapply arg_other; eauto.
Qed.

Lemma rest_stay c react n w : (forall m, fst (react m) = []) -> w <> VUnset -> forall fl p p',
  holds p n w -> init_rest convert c react p fl = (p', None) -> holds p' n w.
Proof.
  intros Q NV. induction fl as [|fd fl IH]; intros p p' Hv E; simpl in E.
  - injection E as <-. exact Hv.
  - destruct (is_unset (old_of p (f_name fd))) eqn:U; simpl in E; [|eauto].
    destruct (f_initial fd) as [x|]; [|discriminate].
    pose proof (Q (f_name fd)) as Q1. destruct (react (f_name fd)) as [rs ex]. simpl in Q1. subst rs.
    destruct (assign c p _) as [q [e|]] eqn:A; [discriminate|].
    assert (D : n <> f_name fd).
    { intros ->. rewrite (holds_old_of _ _ _ Hv) in U. destruct w; try discriminate; contradiction. }
    apply (IH q p'); auto. unfold holds.
    pose proof (assign_other c p (f_name fd) n x ex D) as AO. rewrite A in AO. simpl in AO.
    rewrite AO. exact Hv.
Qed.
Lemma rest_binds c react : NoDup (map f_name c) -> (forall m, fst (react m) = []) ->
  forall fl fd p p', NoDup (map f_name fl) -> incl fl c -> In fd fl ->
  holds p (f_name fd) VUnset ->
  init_rest convert c react p fl = (p', None) ->
  exists st x w, f_initial fd = Some x /\
  passes fd st VUnset (f_filters fd) x w /\ holds p' (f_name fd) w.
Proof.
  intros N Q. induction fl as [|g fl IH]; intros fd p p' NF SUB Hin Hv E; [destruct Hin|].
  simpl in NF. apply NoDup_cons_iff in NF as [NF1 NF2]. simpl in E.
  assert (SUB' : incl fl c) by (intros h G; apply SUB; now right).
  assert (O : forall fl p p', (forall g, In g fl -> f_name fd <> f_name g) ->
     init_rest convert c react p fl = (p', None) ->
     dget (f_name fd) (p_store p') = dget (f_name fd) (p_store p)).
  { clear - Q. induction fl as [|g fl IH]; intros p p' D E; simpl in E; [injection E as <-; reflexivity|].
    destruct (negb _); [apply IH; auto; intros h G; apply D; now right|].
    destruct (f_initial g) as [x|]; [|discriminate].
    pose proof (Q (f_name g)) as Q1. destruct (react (f_name g)) as [rs ex]. simpl in Q1. subst rs.
    destruct (assign c p _) as [q [e|]] eqn:A; [discriminate|].
    rewrite (IH q p'); auto; [|intros h G; apply D; now right].
    pose proof (assign_other c p (f_name g) (f_name fd) x ex (D g (or_introl eq_refl))) as AO.
    rewrite A in AO. exact AO. }
  destruct Hin as [->|Hin].
  - rewrite (holds_old_of _ _ _ Hv) in E. simpl in E.
    destruct (f_initial fd) as [x|] eqn:X; [|discriminate].
    pose proof (Q (f_name fd)) as Q1. destruct (react (f_name fd)) as [rs ex]. simpl in Q1. subst rs.
    destruct (assign c p _) as [q [e|]] eqn:A; [discriminate|].
    destruct (assign_unset c p (f_name fd) fd x ex q N) as (w & W1 & W2); auto.
    { split; auto. apply SUB. now left. }
    exists (p_store p), x, w. split; auto. split; [exact W1|].
    unfold holds. rewrite (O fl q p'); auto.
    intros g G EQ. apply NF1. rewrite EQ. apply in_map, G.
  - assert (D : f_name fd <> f_name g).
    { intros EQ. apply NF1. rewrite <- EQ. apply in_map, Hin. }
    destruct (negb _); [eapply IH; eauto|].
    destruct (f_initial g) as [x|]; [|discriminate].
    pose proof (Q (f_name g)) as Q1. destruct (react (f_name g)) as [rs ex]. simpl in Q1. subst rs.
    destruct (assign c p _) as [q [e|]] eqn:A; [discriminate|].
    apply (IH fd q p'); auto. unfold holds.
    pose proof (assign_other c p (f_name g) (f_name fd) x ex D) as AO. rewrite A in AO. simpl in AO.
    rewrite AO. exact Hv.
Qed.

Lemma args_bind c : NoDup (map f_name c) -> forall fl args p p' i fd a,
  NoDup (map f_name fl) -> incl fl c -> Forall no_reaction args ->
  nth_error fl i = Some fd -> nth_error args i = Some a ->
  holds p (f_name fd) VUnset ->
  init_args convert c p fl args = (p', None) ->
  exists st w, passes fd st VUnset (f_filters fd) (fst (fst a)) w /\ holds p' (f_name fd) w.
Proof.
  intros N. induction fl as [|g fl IH]; intros args p p' i fd a NF SUB Q E1 E2 Hv E.
  { destruct i; discriminate. }
  destruct args as [|b args]; [destruct i; discriminate|].
  simpl in NF. apply NoDup_cons_iff in NF as [NF1 NF2]. simpl in E.
  apply Forall_cons_iff in Q as [Q1 Q2].
  destruct (assign c p (arg_act (f_name g) b)) as [q [e|]] eqn:A; [discriminate|].
  destruct i as [|i]; simpl in E1, E2.
  - injection E1 as ->. injection E2 as ->. unfold arg_act in A. rewrite Q1 in A.
    destruct (assign_unset c p (f_name fd) fd (fst (fst a)) (snd a) q N) as (w & W1 & W2); auto.
    { split; auto. apply SUB. now left. }
    exists (p_store p), w. split; [exact W1|]. unfold holds.
    rewrite (args_other c (f_name fd) args fl q p'); auto.
    intros h G EQ. apply NF1. rewrite EQ. apply in_map, G.
  - assert (D : f_name fd <> f_name g).
    { intros EQ. apply NF1. rewrite <- EQ. apply in_map. eapply nth_error_In, E1. }
    apply (IH args q p' i fd a); auto.
    + intros h G. apply SUB. now right.
    + unfold holds. rewrite (arg_other _ _ _ _ _ _ _ Q1 D A). exact Hv.
Qed.

Lemma start_holds c fd : In fd c ->
  holds (mk_pod (map (fun fd => (f_name fd, VUnset)) c) []) (f_name fd) VUnset.
Proof.
  intros Hin. pose proof (complete_start c fd Hin) as H. apply old_of_holds in H.
  pose proof (start_unset c _ _ H) as U. rewrite U in H. exact H.
Qed.

(** When no listener interferes, an initializer that succeeds has bound the i-th
    argument to the i-th field, a keyword argument to the field of that name, and the
    initial value to every other field, each through the filters of the field.  (An
    argument that comes out of the filters as UNSET does not count.) *)
Theorem C32_bound c args kw react p fd :
  NoDup (map f_name c) -> init c args kw react = (p, None) ->
  Forall no_reaction args -> Forall (fun k => no_reaction (snd k)) kw ->
  (forall m, fst (react m) = []) -> In fd c ->
  length args <= length c /\ (forall m, In m (map fst kw) -> In m (map f_name c)) /\
  (forall i a, nth_error c i = Some fd -> nth_error args i = Some a ->
     exists st w, passes fd st VUnset (f_filters fd) (fst (fst a)) w /\
     (w <> VUnset -> holds p (f_name fd) w /\ ~ In (f_name fd) (map fst kw))) /\
  (forall i a, nth_error c i = Some fd -> nth_error args i = None ->
     NoDup (map fst kw) -> In (f_name fd, a) kw ->
     exists st w, passes fd st VUnset (f_filters fd) (fst (fst a)) w /\
     (w <> VUnset -> holds p (f_name fd) w)) /\
  (forall i, nth_error c i = Some fd -> nth_error args i = None -> ~ In (f_name fd) (map fst kw) ->
     exists st x w, f_initial fd = Some x /\
     passes fd st VUnset (f_filters fd) x w /\ holds p (f_name fd) w).
Proof.
  intros N E QA QK QR Hin. unfold PodModel.init in E.
  destruct (Nat.ltb_spec (length c) (length args)) as [L|L]; [discriminate|].
  set (p0 := mk_pod (map (fun fd => (f_name fd, VUnset)) c) []) in E.
  destruct (init_args convert c p0 c args) as [p1 [e|]] eqn:E1; [discriminate|].
  destruct (init_kwargs convert c p1 kw) as [p2 [e|]] eqn:E2; [discriminate|].
  split; [exact L|].
  assert (SUB : incl c c) by (intros h G; exact G).
  assert (NOARG : forall i, nth_error c i = Some fd -> nth_error args i = None ->
    holds p1 (f_name fd) VUnset).
  { intros i C1 C2.
    assert (X : forall fl args q q' i, NoDup (map f_name fl) -> Forall no_reaction args ->
      nth_error fl i = Some fd -> nth_error args i = None ->
      init_args convert c q fl args = (q', None) ->
      dget (f_name fd) (p_store q') = dget (f_name fd) (p_store q)).
    { clear. induction fl as [|g fl IH]; intros args q q' i NF Q C1 C2 E; [destruct i; discriminate|].
      destruct args as [|b args]; simpl in E; [injection E as <-; reflexivity|].
      destruct i as [|i]; [discriminate|]. simpl in C1, C2, NF.
      apply NoDup_cons_iff in NF as [NF1 NF2]. apply Forall_cons_iff in Q as [Q1 Q2].
      destruct (assign c q (arg_act (f_name g) b)) as [r [e|]] eqn:A; [discriminate|].
      rewrite (IH args r q' i); auto.
      eapply arg_other; eauto. intros EQ. apply NF1. rewrite <- EQ. apply in_map.
      eapply nth_error_In, C1. }
    unfold holds. rewrite (X c args p0 p1 i N QA C1 C2 E1). apply start_holds, Hin. }
  split; [|split; [|split]].
  - clear - E2. revert p1 E2. induction kw as [|[m a] kw IH]; intros p1 E2; simpl in *; [tauto|].
    destruct (find_field c m) as [gd|] eqn:F; [|discriminate].
    destruct (negb _); [discriminate|].
    destruct (assign c p1 (arg_act m a)) as [r [e|]]; [discriminate|].
    intros k [<-|K]; [|eapply IH; eauto].
    apply declares_find in F as [F1 F2]. rewrite <- F2. apply in_map, F1.
  - intros i a C1 C2.
    destruct (args_bind c N c args p0 p1 i fd a) as (st & w & W1 & W2); auto.
    { apply start_holds, Hin. }
    exists st, w. split; [exact W1|]. intros NV.
    destruct (kwargs_stay c _ w NV kw p1 p2 QK W2 E2) as [K1 K2].
    split; [|exact K2]. eapply rest_stay; eauto.
  - intros i a C1 C2 NK IK.
    assert (X : forall kw q q', NoDup (map fst kw) -> In (f_name fd, a) kw ->
      Forall (fun k => no_reaction (snd k)) kw -> holds q (f_name fd) VUnset ->
      init_kwargs convert c q kw = (q', None) ->
      exists st w, passes fd st VUnset (f_filters fd) (fst (fst a)) w /\ holds q' (f_name fd) w).
    { clear - N Hin. induction kw as [|[m b] kw IH]; intros q q' NK IK QK Hv E; [destruct IK|].
      simpl in NK. apply NoDup_cons_iff in NK as [NK1 NK2]. apply Forall_cons_iff in QK as [Q1 Q2].
      simpl in E. destruct (find_field c m) eqn:F; [|discriminate].
      destruct (negb _); [discriminate|].
      destruct (assign c q (arg_act m b)) as [r [e|]] eqn:A; [discriminate|].
      destruct IK as [IK|IK].
      - injection IK as -> ->. unfold arg_act in A. simpl in Q1. unfold no_reaction in Q1. rewrite Q1 in A.
        destruct (assign_unset c q (f_name fd) fd (fst (fst a)) (snd a) r N) as (w & W1 & W2); auto.
        { split; auto. }
        exists (p_store q), w. split; [exact W1|]. unfold holds.
        rewrite (kwargs_other c (f_name fd) kw r q'); auto.
      - assert (D : f_name fd <> m).
        { intros <-. apply NK1. apply in_map_iff. exists (f_name fd, a). auto. }
        apply (IH r q'); auto. unfold holds. rewrite (arg_other _ _ _ _ _ _ _ Q1 D A). exact Hv. }
    destruct (X kw p1 p2) as (st & w & W1 & W2); eauto.
    exists st, w. split; [exact W1|]. intros NV. eapply rest_stay; eauto.
  - intros i C1 C2 NK. eapply (rest_binds c react N QR c fd p2 p); auto.
    unfold holds. rewrite (kwargs_other c (f_name fd) kw p1 p2); auto. apply (NOARG i); auto.
Qed.

(** A mandatory field without an argument: no object is made. *)
Corollary mandatory_needed c args kw react fd i :
  NoDup (map f_name c) -> Forall no_reaction args -> Forall (fun k => no_reaction (snd k)) kw ->
  (forall m, fst (react m) = []) ->
  nth_error c i = Some fd -> f_initial fd = None -> nth_error args i = None ->
  ~ In (f_name fd) (map fst kw) ->
  snd (init c args kw react) <> None.
Proof.
  intros N QA QK QR C1 M C2 NK E.
  destruct (init c args kw react) as [p r] eqn:I0. simpl in E. subst r.
  destruct (C32_bound c args kw react p fd N I0 QA QK QR (nth_error_In _ _ C1))
    as (_ & _ & _ & _ & H).
  destruct (H i C1 C2 NK) as (st & x & w & X & _). congruence.
Qed.
End Pod.
Print Assumptions C32_filtered.
Print Assumptions C32_typed.
Print Assumptions C32_typed_items.
Print Assumptions C32_unset_or_typed.
Print Assumptions C32_const.
Print Assumptions C32_const_raises.
Print Assumptions C32_rejected.
Print Assumptions C32_notified.
Print Assumptions C32_notify_exactly.
Print Assumptions C32_silent.
Print Assumptions C32_silent_stores.
Print Assumptions C32_bound.

(** * Classes *)

Lemma NoDup_app_remove_r {A} (l m : list A) : NoDup (l ++ m) -> NoDup l.
Proof.
  induction l as [|x l IH]; simpl; intros H; [constructor|].
  apply NoDup_cons_iff in H as [H1 H2]. constructor; auto.
  intros X. apply H1, in_or_app. now left.
Qed.
Lemma NoDup_app_remove_l {A} (l m : list A) : NoDup (l ++ m) -> NoDup m.
Proof.
  induction l as [|x l IH]; simpl; intros H; [exact H|]. apply NoDup_cons_iff in H as [H1 H2]. auto.
Qed.
Lemma add_fields_ok new : forall acc c, add_fields acc new = inr c <->
  (c = acc ++ new /\ (NoDup (map f_name acc) -> NoDup (map f_name c))
   /\ forall f, In f new -> ~ In (f_name f) (map f_name acc) /\ NoDup (map f_name new)).
Proof.
  induction new as [|fd new IH]; intros acc c; simpl.
  - split.
    + intros [= <-]. rewrite app_nil_r. intuition.
    + intros (-> & _). rewrite app_nil_r. reflexivity.
  - destruct (existsb _ acc) eqn:X.
    + split; [discriminate|]. intros (_ & _ & H). destruct (H fd (or_introl eq_refl)) as [H1 _].
      exfalso. apply H1. apply existsb_exists in X as (g & G & E). apply String.eqb_eq in E.
      rewrite E. apply in_map, G.
    + assert (NX : ~ In (f_name fd) (map f_name acc)).
      { intros H. apply in_map_iff in H as (g & E & G).
        assert (existsb (fun g => String.eqb (f_name fd) (f_name g)) acc = true); [|congruence].
        apply existsb_exists. exists g. split; auto. rewrite E. apply String.eqb_refl. }
      rewrite IH, <- app_assoc. simpl. rewrite map_app. simpl. split.
      * intros (-> & H1 & H2). split; [reflexivity|]. split.
        -- intros NA. apply H1. apply NoDup_app_snoc; auto.
        -- assert (ND : NoDup (f_name fd :: map f_name new)).
           { destruct new as [|h new']; [repeat constructor; simpl; tauto|].
             assert (D : forall f, In f (h :: new') -> f_name fd <> f_name f).
             { intros f F. destruct (H2 f F) as [Q _]. intros EQ. apply Q. rewrite in_app_iff. right. left. exact EQ. }
             destruct (H2 h (or_introl eq_refl)) as [_ Q]. constructor; [|exact Q].
             intros K. apply in_map_iff in K as (f & EQ & F). apply (D f F). auto. }
           intros f [<-|F]; split; auto. destruct (H2 f F) as [Q _]. rewrite in_app_iff in Q. intuition.
      * intros (-> & H1 & H2). split; [reflexivity|].
        destruct (H2 fd (or_introl eq_refl)) as [_ ND]. apply NoDup_cons_iff in ND as [ND1 ND2].
        split.
        -- intros NA. apply H1. apply NoDup_app_remove_r in NA. exact NA.
        -- intros f F. split; [|exact ND2]. rewrite in_app_iff. simpl. intros [Q|[Q|[]]].
           ++ destruct (H2 f (or_intror F)) as [R _]. contradiction.
           ++ apply ND1. rewrite Q. apply in_map, F.
Qed.

Lemma insert_perm fd l : Permutation (insert_counter fd l) (fd :: l).
Proof.
  induction l as [|g l IH]; simpl; [reflexivity|]. destruct (Nat.leb _ _); [reflexivity|].
  rewrite IH. apply perm_swap.
Qed.
Lemma insert_sorted fd l : StronglySorted (fun a b => f_counter a <= f_counter b) l ->
  StronglySorted (fun a b => f_counter a <= f_counter b) (insert_counter fd l).
Proof.
  induction l as [|g l IH]; intros H; simpl; [repeat constructor|].
  inversion H; subst. destruct (Nat.leb_spec (f_counter fd) (f_counter g)).
  - constructor; [exact H|]. constructor; [exact H0|].
    eapply Forall_impl; [|exact H3]. simpl. lia.
  - constructor; [auto|]. eapply Permutation_Forall; [symmetry; apply insert_perm|].
    constructor; [lia|exact H3].
Qed.

(** The fields of a class: those of its bases in order, then its own in the order in
    which they were declared.  No name occurs twice; a class in which one would is
    refused. *)
Theorem C32_class bases own c :
  make_cls bases own = inr c <->
  NoDup (map f_name c) /\
  c = concat bases ++ fold_right insert_counter [] own.
Proof.
  unfold make_cls. split.
  - destruct (add_fields [] (concat bases)) as [e|fl] eqn:A; [discriminate|].
    apply add_fields_ok in A as (-> & A1 & A2). simpl in *. intros B.
    apply add_fields_ok in B as (-> & B1 & B2). split; [|reflexivity].
    apply B1, A1. constructor.
  - intros [N ->]. rewrite map_app in N.
    assert (A : add_fields [] (concat bases) = inr (concat bases)).
    { apply add_fields_ok. apply NoDup_app_remove_r in N. intuition. }
    rewrite A. apply add_fields_ok. split; [reflexivity|]. rewrite map_app. split; [auto|].
    intros f F. split.
    + intros X. apply in_split in X as (l1 & l2 & X). rewrite X in N.
      rewrite <- app_assoc in N. simpl in N. apply NoDup_remove_2 in N. apply N.
      rewrite !in_app_iff. right. right. apply in_map, F.
    + apply NoDup_app_remove_l in N. exact N.
Qed.
Print Assumptions C32_class.
Theorem C32_class_order own :
  Permutation (fold_right insert_counter [] own) own /\
  StronglySorted (fun a b => f_counter a <= f_counter b) (fold_right insert_counter [] own).
Proof.
  induction own as [|fd own [IH1 IH2]]; simpl; [repeat constructor|]. split.
  - rewrite insert_perm, IH1. reflexivity.
  - apply insert_sorted, IH2.
Qed.
Print Assumptions C32_class_order.

(** * The unique filter *)

Fixpoint vsize (v : pyv) : nat :=
  match v with
  | VTuple l | VList l => S (list_sum (map vsize l))
  | _ => 1
  end.
Fixpoint pyv_induction (P : pyv -> Prop)
  (Hleaf : forall v, match v with VTuple _ | VList _ => False | _ => True end -> P v)
  (Htuple : forall l, Forall P l -> P (VTuple l)) (Hlist : forall l, Forall P l -> P (VList l))
  (v : pyv) : P v.
Proof.
  destruct v; try (apply Hleaf; exact I).
  - apply Htuple. induction l; constructor; auto. apply pyv_induction; auto.
  - apply Hlist. induction l; constructor; auto. apply pyv_induction; auto.
Defined.
Lemma pyeq_size a : forall b, pyeq a b = true -> vsize a = vsize b.
Proof.
  induction a using pyv_induction; intros b E.
  - destruct a; try destruct H; destruct b; try discriminate E; reflexivity.
  - destruct b as [| | | | |m|m|]; try discriminate E. simpl in *. f_equal.
    revert m E. induction H as [|x l Hx Hl IH]; intros [|y m] E; try discriminate E; [reflexivity|].
    apply andb_true_iff in E as [E1 E2]. simpl. rewrite (Hx y E1), (IH m E2). reflexivity.
  - destruct b as [| | | | |m|m|]; try discriminate E. simpl in *. f_equal.
    revert m E. induction H as [|x l Hx Hl IH]; intros [|y m] E; try discriminate E; [reflexivity|].
    apply andb_true_iff in E as [E1 E2]. simpl. rewrite (Hx y E1), (IH m E2). reflexivity.
Qed.
Lemma list_sum_in x l : In x l -> x <= list_sum l.
Proof. induction l; simpl; intros H; [destruct H|]. destruct H; [lia|]. specialize (IHl H). lia. Qed.

(** The filter for unique elements does not look for repeated elements: every tuple
    (of hashable elements) passes, repeated or not, and every non-empty list is
    refused. *)
Theorem C32_unique_refuted convert fd st old :
  (forall l, forallb hashable l = true ->
     run_filter convert fd st old (VTuple l) FUnique = inr (VTuple l)) /\
  (forall x l, run_filter convert fd st old (VList (x :: l)) FUnique = inl TypeError).
Proof.
  split; [|reflexivity]. intros l H. simpl.
  assert (HT : hashable (VTuple l) = true) by exact H.
  assert (X : forall rest seen, incl seen l -> incl rest l ->
    unique_loop (VTuple l) seen rest = inr (VTuple l)).
  { induction rest as [|i rest IH]; intros seen S1 S2; [reflexivity|].
    cbn [unique_loop]. rewrite HT. cbn [negb].
    replace (existsb (pyeq (VTuple l)) seen) with false.
    - rewrite forallb_forall in H. rewrite (H i) by (apply S2; now left). cbn [negb].
      apply IH.
      + intros y Y. apply in_app_or in Y as [Y|[<-|[]]]; [apply S1, Y|apply S2; now left].
      + intros y Y. apply S2. now right.
    - symmetry. apply not_true_is_false. intros E. apply existsb_exists in E as (y & Y & E).
      apply pyeq_size in E. simpl in E.
      assert (vsize y <= list_sum (map vsize l)) by (apply list_sum_in, in_map, S1, Y). lia. }
  apply X; intros y; [intros []|auto].
Qed.
Print Assumptions C32_unique_refuted.

(** * Examples *)
Local Open Scope string_scope.
Definition no_convert (t : pytype) (v : pyv) : result pyv := inl ValueError.

(** A class with a mandatory constant, a typed field that is announced and a plain one. *)
Definition f_id := mk_field "id" TStr None false [FTyped; FConst] 0.
Definition f_count := mk_field "count" TInt (Some (VInt 0)) true [FTyped] 1.
Definition f_note := mk_field "note" TObject (Some VNone) false [] 2.
Definition ex_cls : cls := [f_id; f_count; f_note].
Definition quiet_react : name -> list act * option exn := fun _ => ([], None).
Definition plain_arg (v : pyv) : arg := (v, [], None).

Example ex_make : make_cls [[f_id]] [f_note; f_count] = inr ex_cls.
Proof. reflexivity. Qed.
Example ex_make_clash : make_cls [[f_id]; [f_note; f_id]] [] = inl TypeError.
Proof. reflexivity. Qed.
Example ex_nodup : NoDup (map f_name ex_cls).
Proof. repeat constructor; simpl; intuition discriminate. Qed.
Example ex_init : exists p,
  init no_convert ex_cls [plain_arg (VStr "x")] [("note", plain_arg (VInt 5))] quiet_react = (p, None) /\
  as_tuple ex_cls p = [VStr "x"; VInt 0; VInt 5] /\
  p_log p = [mk_event "count" VUnset (VInt 0)].
Proof. eexists. split; [vm_compute; reflexivity|]. split; reflexivity. Qed.
Example ex_init_missing : snd (init no_convert ex_cls [] [] quiet_react) = Some TypeError.
Proof. reflexivity. Qed.
Example ex_init_twice :
  snd (init no_convert ex_cls [plain_arg (VStr "x")] [("id", plain_arg (VStr "y"))] quiet_react) = Some TypeError.
Proof. reflexivity. Qed.
Example ex_init_unknown :
  snd (init no_convert ex_cls [plain_arg (VStr "x")] [("what", plain_arg (VStr "y"))] quiet_react) = Some TypeError.
Proof. reflexivity. Qed.
Example ex_init_many :
  snd (init no_convert ex_cls (repeat (plain_arg VNone) 4) [] quiet_react) = Some TypeError.
Proof. reflexivity. Qed.

Definition ex_pod := fst (init no_convert ex_cls [plain_arg (VStr "x")] [] quiet_react).
(** A listener that resets the count when it is told about it. *)
Definition reset := Act "count" (VInt 7) [Act "count" (VInt 0) [] None; Act "id" (VStr "z") [] None] None.
Example ex_history :
  let p := run_acts no_convert ex_cls ex_pod
    [reset; Act "count" (VStr "bad") [] None; Act "count" (VBool false) [] None; Act "id" (VStr "y") [] None] in
  as_tuple ex_cls p = [VStr "x"; VInt 0; VNone] /\
  about "count" (p_log p) = [mk_event "count" VUnset (VInt 0); mk_event "count" (VInt 0) (VInt 7);
                             mk_event "count" (VInt 7) (VInt 0)].
Proof. vm_compute. split; reflexivity. Qed.
(** A value that compares equal to the old one is not stored: 0 stays although False
    was assigned. *)
Example ex_equal_dropped :
  assign no_convert ex_cls ex_pod (Act "count" (VBool false) [] None) = (ex_pod, None).
Proof. vm_compute. reflexivity. Qed.

(** "Constant" means constant once set: a constant field whose initial value is
    UNSET can be set later, once. *)
Definition f_late := mk_field "late" TStr (Some VUnset) false [FConst] 0.
Theorem C32_const_unset_refuted : exists c p fd, init no_convert c [] [] quiet_react = (p, None) /\
  declares c "late" fd /\ In FConst (f_filters fd) /\
  holds p "late" VUnset /\
  holds (run_acts no_convert c p [Act "late" (VStr "v") [] None]) "late" (VStr "v").
Proof.
  exists [f_late]. eexists. exists f_late. split; [vm_compute; reflexivity|].
  split; [split; [left; reflexivity|reflexivity]|]. split; [left; reflexivity|]. split; reflexivity.
Qed.
Print Assumptions C32_const_unset_refuted.
Example unique_passes : run_filter no_convert f_note [] VUnset (VTuple [VInt 1; VInt 1]) FUnique
  = inr (VTuple [VInt 1; VInt 1]).
Proof. reflexivity. Qed.

