(** C23, C24: resource programs.  C43: import statements. *)
From Coq Require Import String Ascii List Bool Arith Lia.
From Verif Require Import ResourceModel ResourceSpec.
Import ListNotations.
Open Scope string_scope.
Open Scope list_scope.

Lemma mem_true x l : mem x l = true <-> In x l.
Proof.
  unfold mem. rewrite existsb_exists. split.
  - intros [y [H E]]. apply String.eqb_eq in E. subst. exact H.
  - intros H. exists x. split; auto. apply String.eqb_refl.
Qed.
Lemma mem_false x l : mem x l = false <-> ~ In x l.
Proof. rewrite <- mem_true. destruct (mem x l); split; congruence. Qed.

(** Induction on trees. *)
Section NodeInd.
  Variable P : node -> Prop.
  Hypothesis HName : forall id, P (Name id).
  Hypothesis HCall : forall f args, P f -> (forall x, In x args -> P x) -> P (Call f args).
  Hypothesis HNode : forall c l, (forall x, In x l -> P x) -> P (Node c l).
  Fixpoint node_induction (n : node) : P n.
  Proof.
    assert (L : forall l : list node, forall x, In x l -> P x).
    { fix go 1. intros [|y l] x H; [destruct H|]. destruct H as [<-|H].
      - apply node_induction.
      - exact (go l x H). }
    destruct n as [id|f args|c l].
    - apply HName.
    - apply HCall; [apply node_induction|apply L].
    - apply HNode, L.
  Defined.
End NodeInd.

(** The visits of the children. *)
Fixpoint visit_list (l : list node) (seen : list string) : list string + problem :=
  match l with
  | [] => inl seen
  | x :: r => match visit x seen with inl seen' => visit_list r seen' | inr p => inr p end
  end.
Lemma visit_node c l seen : visit (Node c l) seen = if allowed c then visit_list l seen else inr (CodeNotAllowed (Node c l)).
Proof.
  simpl. destruct (allowed c); reflexivity.
Qed.

(** ** C23 *)

Definition good_visit (n : node) (seen seen' : list string) : Prop :=
  (forall m, visible n m -> whitelisted m) /\
  (forall id, In id seen' <-> In id seen \/ visible n (Name id)) /\
  (NoDup seen -> NoDup seen') /\ exists t, seen' = seen ++ t.

Lemma visit_sound n : forall seen seen', visit n seen = inl seen' -> good_visit n seen seen'.
Proof.
  induction n as [id|f args IHf IHa|c l IH] using node_induction; intros seen seen' H.
  - simpl in H. injection H as <-. split; [|split; [|split]].
    + intros m V. inversion V; subst. simpl. exact I.
    + intros x. destruct (mem id seen) eqn:E.
      * apply mem_true in E. split; auto. intros [K|K]; auto. inversion K; subst. exact E.
      * rewrite in_app_iff. simpl. split.
        -- intros [K|[K|[]]]; auto. subst. right. constructor.
        -- intros [K|K]; auto. inversion K; subst. auto.
    + destruct (mem id seen) eqn:E; auto. apply mem_false in E. intros N.
      apply NoDup_Add with (a := id) (l := seen); auto.
      rewrite <- (app_nil_r seen) at 1. apply Add_app.
    + destruct (mem id seen); [exists []; rewrite app_nil_r; auto|eauto].
  - cbn [visit] in H. destruct f as [id| |]; try discriminate.
    destruct (mem id allowed_calls) eqn:E; [|discriminate]. injection H as <-.
    apply mem_true in E. split; [|split; [|split]].
    + intros m V. inversion V; subst. exact E.
    + intros x. split; auto. intros [K|K]; auto. inversion K.
    + auto.
    + exists []. rewrite app_nil_r. reflexivity.
  - rewrite visit_node in H. destruct (allowed c) eqn:Ec; [|discriminate].
    assert (G : (forall x m, In x l -> visible x m -> whitelisted m) /\
      (forall id, In id seen' <-> In id seen \/ exists x, In x l /\ visible x (Name id)) /\
      (NoDup seen -> NoDup seen') /\ exists t, seen' = seen ++ t).
    { revert seen H. induction l as [|x l IHl]; intros seen H.
      - simpl in H. injection H as <-. split; [intros x m []|]. split; [|split; auto; exists []; rewrite app_nil_r; auto].
        intros id. split; auto. intros [K|[x [[] _]]]. exact K.
      - simpl in H. destruct (visit x seen) as [s1|] eqn:E; [|discriminate].
        destruct (IH x (or_introl eq_refl) _ _ E) as [G1 [G2 [G3 [t1 G4]]]].
        destruct (IHl (fun y Hy => IH y (or_intror Hy)) _ H) as [K1 [K2 [K3 [t2 K4]]]].
        split; [|split; [|split; auto]].
        + intros y m [<-|Hy]; eauto.
        + intros id. rewrite K2, G2. split.
          * intros [[A|A]|[y [A B]]]; auto; right; [exists x|exists y]; simpl; auto.
          * intros [A|[y [[<-|A] B]]]; auto. right. exists y. auto.
        + exists (t1 ++ t2). rewrite K4, G4, app_assoc. reflexivity. }
    destruct G as [G1 [G2 [G3 G4]]]. split; [|split; [|split; auto]].
    + intros m V. inversion V; subst; eauto. destruct c; simpl in *; auto; discriminate.
    + intros id. rewrite G2. split.
      * intros [A|[x [A B]]]; auto. right. econstructor; eauto.
      * intros [A|A]; auto. inversion A; subst. right. eauto.
Qed.

Lemma visit_complete n : forall seen, (forall m, visible n m -> whitelisted m) ->
  exists seen', visit n seen = inl seen'.
Proof.
  induction n as [id|f args IHf IHa|c l IH] using node_induction; intros seen H.
  - simpl. eauto.
  - specialize (H _ (vis_self _)). cbn [whitelisted visit] in *. destruct f; try contradiction.
    apply (mem_true id allowed_calls) in H. rewrite H. eauto.
  - rewrite visit_node. pose proof (H _ (vis_self _)) as Hc.
    assert (allowed c = true) as -> by (destruct c; simpl in *; auto; contradiction).
    assert (H' : forall x, In x l -> forall m, visible x m -> whitelisted m).
    { intros x Hx m V. apply H. econstructor; eauto. }
    clear Hc H. revert seen. induction l as [|x l IHl]; intros seen; simpl; eauto.
    destruct (IH x (or_introl eq_refl) seen (H' x (or_introl eq_refl))) as [s1 ->].
    apply IHl; intros y Hy; [apply IH|apply H']; right; exact Hy.
Qed.

(** Accepted are exactly the expressions that have a name outside of calls and in
    which every node outside of calls is white-listed. *)
Theorem C23_accepted_exactly : forall body b,
  (exists ids, analyze (Source body b) = inl ids) <->
  (forall m, visible (Node Module body) m -> whitelisted m) /\
  (exists id, visible (Node Module body) (Name id)).
Proof.
  intros body b. unfold analyze. split.
  - intros [ids H]. destruct (visit (Node Module body) []) as [seen|] eqn:E; [|discriminate].
    destruct (visit_sound _ _ _ E) as [G1 [G2 _]]. split; auto.
    destruct seen as [|id seen]; [discriminate|]. exists id.
    destruct (proj1 (G2 id) (or_introl eq_refl)) as [[]|K]. exact K.
  - intros [H [id V]]. destruct (visit_complete _ [] H) as [seen E]. rewrite E.
    destruct (visit_sound _ _ _ E) as [_ [G2 _]].
    assert (K : In id seen) by (apply G2; auto). destruct seen; [destruct K|]. eauto.
Qed.
Print Assumptions C23_accepted_exactly.

(** The ids are the names outside of calls, without repetition. *)
Theorem C23_ids : forall body b ids, analyze (Source body b) = inl ids ->
  NoDup ids /\ forall id, In id ids <-> visible (Node Module body) (Name id).
Proof.
  intros body b ids H. unfold analyze in H.
  destruct (visit (Node Module body) []) as [seen|] eqn:E; [|discriminate].
  destruct (visit_sound _ _ _ E) as [_ [G2 [G3 _]]].
  assert (seen = ids) by (destruct seen; [discriminate|congruence]). subst.
  split; [apply G3; constructor|]. intros id. rewrite G2. simpl. tauto.
Qed.
Print Assumptions C23_ids.

(** Rejected expressions: what is reported is a node that is not white-listed, or
    a call of something that is not a name, or that there is no name at all. *)
Theorem C23_rejected : forall body b p, analyze (Source body b) = inr p ->
  match p with
  | CodeNotAllowed n => visible (Node Module body) n /\ ~ whitelisted n
  | NoAttribute => exists f args, visible (Node Module body) (Call f args) /\ forall id, f <> Name id
  | NoResources => forall id, ~ visible (Node Module body) (Name id)
  | _ => False
  end.
Proof.
  intros body b p H. unfold analyze in H.
  assert (V : forall n seen p, visit n seen = inr p ->
    match p with
    | CodeNotAllowed x => visible n x /\ ~ whitelisted x
    | NoAttribute => exists f args, visible n (Call f args) /\ forall id, f <> Name id
    | _ => False
    end).
  { clear. induction n as [id|f args IHf IHa|c l IH] using node_induction; intros seen p H.
    - discriminate.
    - cbn [visit] in H. destruct f as [id| |].
      + destruct (mem id allowed_calls) eqn:E; [discriminate|]. injection H as <-.
        split; [constructor|]. apply mem_false in E. exact E.
      + injection H as <-. eexists _, _. split; [constructor|]. discriminate.
      + injection H as <-. eexists _, _. split; [constructor|]. discriminate.
    - rewrite visit_node in H. destruct (allowed c) eqn:Ec.
      + assert (G : exists x s, In x l /\ visit x s = inr p).
        { clear IH. revert seen H. induction l as [|x l IHl]; intros seen H; [discriminate|].
          simpl in H. destruct (visit x seen) as [s1|q] eqn:E.
          - destruct (IHl _ H) as [y [s [A B]]]. exists y, s. split; [right|]; auto.
          - injection H as ->. exists x, seen. split; [left|]; auto. }
        destruct G as [x [s [A B]]]. specialize (IH x A s p B).
        destruct p; auto.
        * destruct IH as [I1 I2]. split; auto. econstructor; eauto.
        * destruct IH as [f [args [I1 I2]]]. exists f, args. split; auto. econstructor; eauto.
      + injection H as <-. split; [constructor|]. destruct c; simpl in *; try discriminate. auto. }
  destruct (visit (Node Module body) []) as [seen|q] eqn:E.
  - destruct seen; [|discriminate]. injection H as <-. intros id Hv.
    destruct (visit_sound _ _ _ E) as [_ [G2 _]]. destruct (proj2 (G2 id) (or_intror Hv)).
  - injection H as ->. apply V in E. destruct p; auto; contradiction.
Qed.
Print Assumptions C23_rejected.

(** Without calls, accepted means that every node is white-listed. *)
Theorem C23_without_calls : forall body b ids, analyze (Source body b) = inl ids ->
  (forall f args, ~ inside (Node Module body) (Call f args)) ->
  forall m, inside (Node Module body) m -> whitelisted m.
Proof.
  intros body b ids H NC m Hm.
  assert (A := proj1 (C23_accepted_exactly body b) (ex_intro _ ids H)). destruct A as [A _].
  apply A. clear -NC Hm. revert NC Hm. generalize (Node Module body). intros n NC Hm.
  induction Hm; [constructor| | |].
  - econstructor; eauto. apply IHHm. intros f args K. apply (NC f args). econstructor; eauto.
  - exfalso. apply (NC f args). constructor.
  - exfalso. apply (NC f args). constructor.
Qed.
Print Assumptions C23_without_calls.

(** The arguments of calls are not looked at: an expression is accepted that calls
    a function that is not white-listed. *)
Definition evil_argument : node :=
  Call (Node (Attribute "system") [Call (Name "__import__") [Node (Str "os") []]; Node Load []]) [Node (Str "reboot") []].
Definition evil : source :=
  Source [Node Expr [Node Compare [Node (Attribute "name") [Name "package"; Node Load []];
                                   Node (Cmpop "Eq") []; Call (Name "int") [evil_argument]]]] false.
Theorem C23_calls_refuted :
  analyze evil = inl ["package"] /\
  exists body m, evil = Source body false /\ inside (Node Module body) m /\ ~ whitelisted m.
Proof.
  split; [vm_compute; reflexivity|]. eexists. exists (Call (Name "__import__") [Node (Str "os") []]).
  split; [reflexivity|]. split.
  - eapply in_child; [left; reflexivity|]. eapply in_child; [left; reflexivity|].
    eapply in_child; [right; right; left; reflexivity|]. eapply in_arg; [left; reflexivity|].
    apply in_func. eapply in_child; [left; reflexivity|]. constructor.
  - simpl. intros [H|[H|[H|[H|[]]]]]; discriminate H.
Qed.
Print Assumptions C23_calls_refuted.

(** If the arguments of all calls are safe, an accepted expression is safe. *)
Theorem C23_accepted_safe : forall body b ids, analyze (Source body b) = inl ids ->
  (forall f args x, inside (Node Module body) (Call f args) -> In x args -> safe ids x) ->
  safe ids (Node Module body).
Proof.
  intros body b ids H Args.
  destruct (C23_ids body b ids H) as [_ I].
  destruct (proj1 (C23_accepted_exactly body b) (ex_intro _ ids H)) as [A _]. clear H.
  revert A I Args. generalize (Node Module body). intros n A I Args.
  assert (I' : forall id, visible n (Name id) -> In id ids) by (intros id; apply I). clear I.
  induction n as [id|f args IHf IHa|c l IH] using node_induction.
  - constructor. apply I'. constructor.
  - specialize (A _ (vis_self _)). simpl in A. destruct f; try contradiction. constructor; auto.
    intros x Hx. eapply Args; [constructor|exact Hx].
  - constructor.
    + intros name ->. exact (A _ (vis_self _)).
    + intros x Hx. apply IH; auto.
      * intros m V. apply A. econstructor; eauto.
      * intros f args y V Hy. eapply Args; eauto. econstructor; eauto.
      * intros id V. apply I'. econstructor; eauto.
Qed.
Print Assumptions C23_accepted_safe.

Section Sem.
  Variable value : Type.
  Variable truth : value -> bool.
  Variable constant : cls -> option value.
  Variable attribute : value -> string -> option value.
  Variable compare : string -> value -> value -> option value.
  Variable sequence : cls -> list value -> option value.

  (** Evaluating a safe expression depends only on the records and on the four
      functions: not on what else is defined, and no other function is called. *)
  Theorem C23_safe_is_confined : forall call1 global1 call2 global2 ids env n,
    safe ids n ->
    (forall id, In id ids -> In id (map fst env)) ->
    (forall f vs, In f ["len"; "bool"; "int"; "float"] -> call1 f vs = call2 f vs) ->
    eval value truth constant attribute compare sequence call1 global1 env n =
    eval value truth constant attribute compare sequence call2 global2 env n.
  Proof.
    intros call1 global1 call2 global2 ids env n S B C.
    induction n as [id|f args IHf IHa|c l IH] using node_induction.
    - simpl. inversion S as [? Hin| |]; subst.
      destruct (find (fun p => String.eqb id (fst p)) env) eqn:F; [reflexivity|].
      exfalso. specialize (B id Hin). apply in_map_iff in B as [[k v] [<- Hk]].
      apply (find_none _ _ F) in Hk. simpl in Hk. rewrite String.eqb_refl in Hk. discriminate.
    - inversion S as [|f' args' Hf Ha|]; subst. simpl.
      match goal with |- match ?a with _ => _ end = match ?b with _ => _ end => assert (E : a = b) end.
      { clear IHf. induction args as [|x args IHl]; [reflexivity|].
        rewrite (IHa x (or_introl eq_refl)) by (apply Ha; left; auto).
        rewrite IHl; [reflexivity| | |].
        - intros y Hy. apply IHa. right; exact Hy.
        - constructor; auto. intros y Hy. apply Ha. right; exact Hy.
        - intros y Hy. apply Ha. right; exact Hy. }
      rewrite E. match goal with |- match ?a with _ => _ end = _ => destruct a end; auto.
    - inversion S as [| |c' l' Hc Hl]; subst.
      assert (IH' : forall x, In x l ->
        eval value truth constant attribute compare sequence call1 global1 env x =
        eval value truth constant attribute compare sequence call2 global2 env x) by (intros x Hx; apply IH; auto).
      clear IH S Hl.
      destruct c; try reflexivity.
      + simpl. destruct l as [|x l]; [reflexivity|]. rewrite (IH' x (or_introl eq_refl)). reflexivity.
      + simpl. destruct l as [|x l]; [reflexivity|]. destruct x as [| |[] ?]; try reflexivity.
        assert (IH2 : forall x, In x l -> _) by (intros x Hx; exact (IH' x (or_intror Hx))). clear IH'.
        induction l as [|y l IHl]; [reflexivity|]. rewrite (IH2 y (or_introl eq_refl)).
        rewrite IHl by (intros z Hz; apply IH2; right; exact Hz). reflexivity.
      + simpl. destruct l as [|x l]; [reflexivity|]. rewrite (IH' x (or_introl eq_refl)).
        destruct (eval value truth constant attribute compare sequence call2 global2 env x) as [v|]; [|reflexivity].
        assert (IH2 : forall x, In x l -> eval value truth constant attribute compare sequence call1 global1 env x =
          eval value truth constant attribute compare sequence call2 global2 env x)
          by (intros z Hz; exact (IH' z (or_intror Hz))). clear IH'.
        generalize v at 1 3. revert v.
        assert (LL : forall k l, length l <= k -> (forall x, In x l -> eval value truth constant attribute compare sequence call1 global1 env x =
          eval value truth constant attribute compare sequence call2 global2 env x) -> forall v a, 
          (fix go (l0 : list node) (left acc : value) {struct l0} : option value :=
     match l0 with
     | Node (Cmpop op) _ :: y :: r =>
         match eval value truth constant attribute compare sequence call1 global1 env y with
         | Some w =>
             match compare op left w with
             | Some b => if truth b then go r w b else Some b
             | None => None
             end
         | None => None
         end
     | _ => Some acc
     end) l v a = (fix go (l0 : list node) (left acc : value) {struct l0} : option value :=
     match l0 with
     | Node (Cmpop op) _ :: y :: r =>
         match eval value truth constant attribute compare sequence call2 global2 env y with
         | Some w =>
             match compare op left w with
             | Some b => if truth b then go r w b else Some b
             | None => None
             end
         | None => None
         end
     | _ => Some acc
     end) l v a).
        { induction k as [|k IHk]; intros l0 Hk H0 v a.
          - destruct l0; [reflexivity|simpl in Hk; lia].
          - destruct l0 as [|p [|q r]]; [reflexivity|destruct p as [| |[] ?]; reflexivity|].
            destruct p as [| |[] ?]; try reflexivity.
            rewrite (H0 q) by (right; left; auto).
            destruct (eval value truth constant attribute compare sequence call2 global2 env q); [|reflexivity].
            destruct (compare op v v0); [|reflexivity]. destruct (truth v1); [|reflexivity].
            apply IHk; [simpl in Hk; lia|]. intros z Hz. apply H0. right; right; exact Hz. }
        intros v a. apply (LL (length l)); auto.
      + simpl.
        match goal with |- match ?a with _ => _ end = match ?b with _ => _ end => assert (E : a = b) end.
        { induction l as [|x l IHl]; [reflexivity|]. rewrite (IH' x (or_introl eq_refl)).
          rewrite IHl by (intros z Hz; apply IH'; right; exact Hz). reflexivity. }
        rewrite E. reflexivity.
      + simpl.
        match goal with |- match ?a with _ => _ end = match ?b with _ => _ end => assert (E : a = b) end.
        { induction l as [|x l IHl]; [reflexivity|]. rewrite (IH' x (or_introl eq_refl)).
          rewrite IHl by (intros z Hz; apply IH'; right; exact Hz). reflexivity. }
        rewrite E. reflexivity.
  Qed.
End Sem.
Print Assumptions C23_safe_is_confined.

(** ** C24 *)
Section C24.
  Variable value : Type.
  Variable truth : value -> bool.
  Variable constant : cls -> option value.
  Variable attribute : value -> string -> option value.
  Variable compare : string -> value -> value -> option value.
  Variable sequence : cls -> list value -> option value.
  Variable call : string -> list value -> option value.
  Variable global : string -> option value.
  Notation run := (evaluate_or_raise value truth constant attribute compare sequence call global).
  Notation sat := (satisfied value truth constant attribute compare sequence call global).

  Definition shaped (e : expression) : Prop := length (e_aliases e) = length (e_ids e).

  Lemma product_in ls pack : In pack (product value ls) <-> Forall2 (fun l x => In x l) ls pack.
  Proof.
    revert pack. induction ls as [|l ls IH]; intros pack; simpl.
    - split; [intros [<-|[]]; constructor|]. intros H. inversion H. auto.
    - rewrite in_flat_map. split.
      + intros [x [Hx H]]. apply in_map_iff in H as [p [<- Hp]]. constructor; auto. apply IH, Hp.
      + intros H. inversion H as [|? x ? p Hx Hp]; subst. exists x. split; auto. apply in_map, IH, Hp.
  Qed.
  Lemma try_packs_true e packs :
    try_packs value truth constant attribute compare sequence call global e packs = true <->
    exists p v, In p packs /\
      apply_lambda value truth constant attribute compare sequence call global e p = Some v /\ truth v = true.
  Proof.
    induction packs as [|p packs IH]; simpl.
    - split; [discriminate|]. intros [p [v [[] _]]].
    - assert (D : forall b, (b = true <-> exists q v, In q packs /\
          apply_lambda value truth constant attribute compare sequence call global e q = Some v /\ truth v = true) ->
        (forall v, apply_lambda value truth constant attribute compare sequence call global e p = Some v -> truth v = false) ->
        (b = true <-> exists q v, (p = q \/ In q packs) /\
          apply_lambda value truth constant attribute compare sequence call global e q = Some v /\ truth v = true)).
      { intros b Hb N. rewrite Hb. split.
        - intros [q [v [H1 H2]]]. exists q, v. auto.
        - intros [q [v [[<-|H1] [H2 H3]]]]; [rewrite (N v H2) in H3; discriminate|]. exists q, v. auto. }
      destruct (apply_lambda value truth constant attribute compare sequence call global e p) as [v|] eqn:E.
      + destruct (truth v) eqn:Tv.
        * split; auto. intros _. exists p, v. auto.
        * apply D; auto. intros w [= <-]. exact Tv.
      + apply D; auto. discriminate.
  Qed.

  Lemma lookup_in m id x : In x (lookup0 value m id) <-> exists l, lookup value m id = Some l /\ In x l.
  Proof.
    unfold lookup0. destruct (lookup value m id) as [l|].
    - split; eauto. intros [l' [[= <-] H]]. exact H.
    - split; [intros []|]. intros [l [H _]]. discriminate.
  Qed.

  Lemma evaluate_satisfied m e : shaped e ->
    (evaluate value truth constant attribute compare sequence call global e (map (lookup0 value m) (e_ids e)) = true
     <-> sat m e).
  Proof.
    intros Sh. unfold evaluate. rewrite try_packs_true. unfold satisfied. split.
    - intros [p [v [H1 [H2 H3]]]]. apply product_in in H1. unfold apply_lambda in H2.
      destruct (e_body e) as [b|] eqn:Eb; [|discriminate]. destruct (Nat.eqb _ _); [|discriminate].
      exists p, b, v. repeat split; auto.
      clear -H1. revert p H1. induction (e_ids e) as [|i ids IH]; simpl; intros p H; inversion H; subst; constructor; auto.
      apply lookup_in. assumption.
    - intros [p [b [v [H1 [H2 [H3 H4]]]]]]. exists p, v. split; [|split; auto].
      + apply product_in. clear -H1. induction H1; simpl; constructor; auto. apply lookup_in. assumption.
      + unfold apply_lambda. rewrite H2. assert (L : length (e_ids e) = length p) by (clear -H1; induction H1; simpl; congruence). unfold shaped in Sh.
        replace (Nat.eqb (length p) (length (e_aliases e))) with true; auto. symmetry. apply Nat.eqb_eq. congruence.
  Qed.

  Lemma missing_none m ids : missing_id value m ids = None <-> forall id, In id ids -> lookup value m id <> None.
  Proof.
    induction ids as [|i ids IH]; simpl.
    - split; auto.
    - destruct (lookup value m i) eqn:E.
      + rewrite IH. split.
        * intros H id [<-|Hin]; [congruence|auto].
        * intros H id Hin. apply H. auto.
      + split; [discriminate|]. intros H. exfalso. apply (H i); auto.
  Qed.
  Lemma missing_some m ids id : missing_id value m ids = Some id <->
    exists l1 l2, ids = l1 ++ id :: l2 /\ lookup value m id = None /\ forall x, In x l1 -> lookup value m x <> None.
  Proof.
    induction ids as [|i ids IH]; simpl.
    - split; [discriminate|]. intros [[|] [l2 [H _]]]; discriminate.
    - destruct (lookup value m i) eqn:E.
      + rewrite IH. split.
        * intros [l1 [l2 [-> [H1 H2]]]]. exists (i :: l1), l2. repeat split; auto.
          intros x [<-|Hx]; [congruence|auto].
        * intros [[|y l1] [l2 [H [H1 H2]]]]; injection H as -> ->; [congruence|].
          exists l1, l2. repeat split; auto. intros x Hx. apply H2. right; exact Hx.
      + split.
        * intros [= <-]. exists [], ids. repeat split; auto.
        * intros [[|y l1] [l2 [H [H1 H2]]]]; injection H as -> ->; auto. exfalso. apply (H2 y); simpl; auto.
  Qed.
  Lemma check_none m es : check_ids value m es = None <-> Forall (available value m) es.
  Proof.
    induction es as [|e es IH]; simpl; [split; auto|].
    destruct (missing_id value m (e_ids e)) eqn:E.
    - split; [discriminate|]. intros H. inversion_clear H as [|? ? H1 _]. apply missing_none in H1. congruence.
    - rewrite IH. pose proof (proj1 (missing_none m _) E) as A. split; [constructor; auto|]. intros H. inversion H; auto.
  Qed.
  Lemma sat_available m e : sat m e -> available value m e.
  Proof.
    intros [rs [b [v [H _]]]] id Hin. clear -H Hin. induction H as [|i r ids rs [l [H _]] _ IH]; [destruct Hin|].
    destruct Hin as [<-|Hin]; [congruence|auto].
  Qed.

  (** The program holds exactly if every expression is satisfied. *)
  Theorem C24_holds : forall m es, Forall shaped es -> (run m es = Holds <-> Forall (sat m) es).
  Proof.
    intros m es Sh. unfold evaluate_or_raise. split.
    - destruct (check_ids value m es) as [[? ?]|] eqn:E; [discriminate|]. clear E.
      induction Sh as [|e es He _ IH]; intros H; [constructor|]. simpl in H.
      destruct (evaluate _ _ _ _ _ _ _ _ e _) eqn:E; [|discriminate]. constructor; auto.
      apply evaluate_satisfied; auto.
    - intros H. assert (E : check_ids value m es = None).
      { apply check_none. eapply Forall_impl; [|exact H]. intros e. apply sat_available. }
      rewrite E. clear E. induction H as [|e es He _ IH]; [reflexivity|]. inversion_clear Sh as [|? ? S1 S2]. simpl.
      rewrite (proj2 (evaluate_satisfied m e S1) He). auto.
  Qed.

  (** A failure names the first expression that is not satisfied. *)
  Theorem C24_failed : forall m es e, Forall shaped es ->
    (run m es = Failed e <->
     Forall (available value m) es /\
     exists es1 es2, es = es1 ++ e :: es2 /\ Forall (sat m) es1 /\ ~ sat m e).
  Proof.
    intros m es e Sh. unfold evaluate_or_raise. split.
    - destruct (check_ids value m es) as [[? ?]|] eqn:E; [discriminate|]. apply check_none in E.
      intros H. split; auto. clear E. induction Sh as [|e1 es He _ IH]; [discriminate H|]. simpl in H.
      destruct (evaluate _ _ _ _ _ _ _ _ e1 _) eqn:E.
      + destruct (IH H) as [es1 [es2 [-> [H1 H2]]]]. exists (e1 :: es1), es2. split; auto. split; auto.
        constructor; auto. apply evaluate_satisfied; auto.
      + injection H as <-. exists [], es. split; auto. split; [constructor|]. intros K.
        apply evaluate_satisfied in K; auto. congruence.
    - intros [A [es1 [es2 [-> [H1 H2]]]]]. rewrite (proj2 (check_none m _) A). clear A.
      apply Forall_app in Sh as [Sh1 Sh2]. induction H1 as [|e1 es1 He _ IH]; simpl.
      + inversion_clear Sh2 as [|? ? S1 S2]. destruct (evaluate _ _ _ _ _ _ _ _ e _) eqn:E; auto.
        apply evaluate_satisfied in E; auto. contradiction.
      + inversion_clear Sh1 as [|? ? S1 S2]. rewrite (proj2 (evaluate_satisfied m e1 S1) He). auto.
  Qed.

  (** If a resource is not there at all, that is reported before anything is
      evaluated, with the first expression and the first id that is missing. *)
  Theorem C24_cannot : forall m es e id,
    (run m es = Cannot e id <->
     exists es1 es2 l1 l2, es = es1 ++ e :: es2 /\ Forall (available value m) es1 /\
       e_ids e = l1 ++ id :: l2 /\ lookup value m id = None /\
       forall x, In x l1 -> lookup value m x <> None).
  Proof.
    intros m es e id. unfold evaluate_or_raise. split.
    - intros H. assert (E : check_ids value m es = Some (e, id)).
      { destruct (check_ids value m es) as [[? ?]|]; [congruence|]. exfalso. clear -H.
        induction es; simpl in H; [discriminate|]. destruct (evaluate _ _ _ _ _ _ _ _ a _); [auto|discriminate]. }
      clear H. induction es as [|e1 es IH]; [discriminate|]. simpl in E.
      destruct (missing_id value m (e_ids e1)) eqn:M.
      + injection E as -> ->. apply missing_some in M as [l1 [l2 [M1 [M2 M3]]]].
        exists [], es, l1, l2. repeat split; auto.
      + destruct (IH E) as [es1 [es2 [l1 [l2 [-> [H1 H2]]]]]]. exists (e1 :: es1), es2, l1, l2.
        split; auto. split; auto. constructor; auto. exact (proj1 (missing_none m _) M).
    - intros [es1 [es2 [l1 [l2 [-> [H1 [H2 [H3 H4]]]]]]]].
      assert (E : check_ids value m (es1 ++ e :: es2) = Some (e, id)); [|rewrite E; reflexivity].
      induction H1 as [|e1 es1 He _ IH]; simpl.
      + assert (missing_id value m (e_ids e) = Some id) as -> by (apply missing_some; eauto). reflexivity.
      + rewrite (proj2 (missing_none m _) He). exact IH.
  Qed.

  (** More records never make a program fail. *)
  Theorem C24_more_records : forall m m' es, Forall shaped es ->
    (forall id l, lookup value m id = Some l -> exists l', lookup value m' id = Some l' /\ incl l l') ->
    run m es = Holds -> run m' es = Holds.
  Proof.
    intros m m' es Sh I H. apply C24_holds; auto. apply C24_holds in H; auto.
    eapply Forall_impl; [|exact H]. intros e [rs [b [v [H1 HH]]]]. exists rs, b, v. split; auto.
    clear -I H1. induction H1 as [|i r ids rs [l [A B]] _ IH]; constructor; auto.
    destruct (I i l A) as [l' [A' B']]. eauto.
  Qed.
End C24.
Print Assumptions C24_holds.
Print Assumptions C24_failed.
Print Assumptions C24_cannot.
Print Assumptions C24_more_records.

(** The expressions of a program have an id for every alias, and the id is the one
    that the first import with that alias gives, or the alias itself; in the name
    space of the job unless it already has one. *)
Theorem C24_ids_of_aliases : forall ns imports lines es,
  make_program ns imports lines = inl es ->
  Forall shaped es /\
  forall e, In e es -> Forall2 (fun a i =>
    exists partial,
      ((exists l1 l2, imports = l1 ++ (partial, a) :: l2 /\ ~ In a (map snd l1)) \/
       (partial = a /\ ~ In a (map snd imports))) /\
      i = match ns with
          | Some n => if (contains "::" partial || String.eqb n "")%bool then partial else String.append n (String.append "::" partial)
          | None => partial
          end) (e_aliases e) (e_ids e).
Proof.
  intros ns imports lines es H.
  assert (A : forall e, In e es -> e_ids e = map (fun a => qualified ns (imported a imports)) (e_aliases e)).
  { revert es H. induction lines as [|src lines IH]; intros es H; simpl in H.
    - injection H as <-. intros e [].
    - destruct (make_expression ns imports src) as [e0|] eqn:E; [|discriminate].
      destruct (make_program ns imports lines) as [es'|]; [|discriminate]. injection H as <-.
      intros e [<-|He]; [|eapply IH; eauto].
      unfold make_expression in E. destruct (analyze src); [|discriminate].
      destruct src as [|[|[| |[] [|? [|? ?]]] [|? ?]] []]; try discriminate; injection E as <-; reflexivity. }
  split.
  - apply Forall_forall. intros e He. unfold shaped. rewrite (A e He), map_length. reflexivity.
  - intros e He. rewrite (A e He). generalize (e_aliases e). induction l as [|a l IH]; [constructor|].
    simpl. constructor; auto. exists (imported a imports). split.
    + clear. induction imports as [|[p b] imports IH]; simpl; [right; auto|].
      destruct (String.eqb_spec b a) as [->|Ne].
      * left. exists [], imports. auto.
      * destruct IH as [[l1 [l2 [E H]]]|[E H]].
        -- left. exists ((p, b) :: l1), l2. simpl. rewrite <- E. split; auto. tauto.
        -- right. split; auto. intros [K|K]; auto.
    + unfold qualified, qualify. destruct ns as [n|]; auto.
      destruct (contains "::" (imported a imports)), (String.eqb n ""); reflexivity.
Qed.
Print Assumptions C24_ids_of_aliases.

(** A tuple that is written without parentheses never holds (it makes a tuple of a
    function and something), and two expressions on a line are a SyntaxError
    that is not one of the program errors. *)
Theorem C24_bare_tuple_refuted :
  exists b : node, forall value truth constant attribute compare sequence call global m e,
  make_expression None [] (Source [Node Expr [b]] true) = inl e ->
  Forall (available value m) [e] ->
  evaluate_or_raise value truth constant attribute compare sequence call global m [e] = Failed e.
Proof.
  exists (Node Tuple [Node (Attribute "name") [Name "package"; Node Load []]; Node (Num 1) []; Node Load []]).
  intros value truth constant attribute compare sequence call global m e H A. vm_compute in H. injection H as <-.
  apply C24_failed; [repeat constructor|]. split; auto. eexists [], []. split; [reflexivity|].
  split; [constructor|]. intros [rs [b [v [_ [K _]]]]]. discriminate K.
Qed.
Print Assumptions C24_bare_tuple_refuted.

(** An example: packages and cpus. *)
Section Example24.
  Inductive V := VS (s : string) | VB (b : bool) | VR (fields : list (string * string)).
  Definition vtruth v := match v with VS s => negb (String.eqb s "") | VB b => b | VR _ => true end.
  Definition vconst c := match c with Str s => Some (VS s) | _ => None end.
  Definition vattr v a := match v with
    | VR f => match find (fun p => String.eqb a (fst p)) f with Some (_, x) => Some (VS x) | None => None end
    | _ => None end.
  Definition vcmp op a b := match op, a, b with
    | "Eq", VS x, VS y => Some (VB (String.eqb x y))
    | "NotEq", VS x, VS y => Some (VB (negb (String.eqb x y)))
    | _, _, _ => None end.
  Definition attr_of x a := Node (Attribute a) [Name x; Node Load []].
  Definition line1 := Source [Node Expr [Node BoolOp [Node (Boolop "And") [];
     Node Compare [attr_of "package" "name"; Node (Cmpop "Eq") []; Node (Str "fwts") []];
     Node Compare [attr_of "cpu" "arch"; Node (Cmpop "Eq") []; Node (Str "x86") []]]]] false.
  Definition vmap : rmap V := [("ns::package", [VR [("version", "1")]; VR [("name", "fwts")]]);
                               ("hw::cpuinfo", [VR [("arch", "x86")]])].
  Example program_example : exists es,
    make_program (Some "ns") [("hw::cpuinfo", "cpu")] [line1] = inl es /\
    map e_ids es = [["ns::package"; "hw::cpuinfo"]] /\
    evaluate_or_raise V vtruth vconst vattr vcmp (fun _ _ => None) (fun _ _ => None) (fun _ => None) vmap es = Holds /\
    evaluate_or_raise V vtruth vconst vattr vcmp (fun _ _ => None) (fun _ _ => None) (fun _ => None)
      [("ns::package", [VR [("name", "fwts")]])] es = Cannot (hd (mk_expression [] [] None) es) "hw::cpuinfo" /\
    evaluate_or_raise V vtruth vconst vattr vcmp (fun _ _ => None) (fun _ _ => None) (fun _ => None)
      [("ns::package", [VR [("name", "fwts")]]); ("hw::cpuinfo", [])] es = Failed (hd (mk_expression [] [] None) es).
  Proof. eexists. split; [vm_compute; reflexivity|]. repeat split; vm_compute; reflexivity. Qed.
End Example24.

(** ** C43: import statements *)

(** An import line is accepted exactly if it has one of the two forms. *)
Theorem C43_import_line : forall parts id alias,
  parse_import parts = Some (id, alias) <->
  exists ns job, contains "::" ns = false /\ contains "::" job = false /\
    id = String.append ns (String.append "::" job) /\
    (parts = ["from"; ns; "import"; job] /\ alias = job \/
     parts = ["from"; ns; "import"; job; "as"; alias]).
Proof.
  intros parts id alias. split.
  - intros H. unfold parse_import, qualify in H.
    destruct parts as [|p0 [|ns [|p2 [|job [|p4 [|p5 [|]]]]]]]; try discriminate H.
    + destruct (String.eqb_spec p0 "from") as [->|]; [|discriminate H]. cbn [negb] in H.
      destruct (contains "::" ns) eqn:E1; [discriminate H|].
      destruct (String.eqb_spec p2 "import") as [->|]; [|discriminate H]. cbn [negb] in H.
      destruct (contains "::" job) eqn:E2; [discriminate H|]. injection H as <- <-. exists ns, job. auto 7.
    + destruct (String.eqb_spec p0 "from") as [->|]; [|discriminate H]. cbn [negb] in H.
      destruct (contains "::" ns) eqn:E1; [discriminate H|].
      destruct (String.eqb_spec p2 "import") as [->|]; [|discriminate H]. cbn [negb] in H.
      destruct (contains "::" job) eqn:E2; [discriminate H|].
      destruct (String.eqb_spec p4 "as") as [->|]; [|discriminate H]. injection H as <- <-. exists ns, job. auto 7.
  - intros [ns [job [E1 [E2 [-> [[-> ->] | ->]]]]]]; unfold parse_import, qualify; rewrite ?String.eqb_refl;
      cbn [negb]; rewrite E1, E2; reflexivity.
Qed.
Print Assumptions C43_import_line.

(** Imports as a whole: all lines in order, or none. *)
Theorem C43_imports : forall lines,
  (parse_imports lines = None <-> exists l, In l lines /\ parse_import l = None) /\
  (forall r, parse_imports lines = Some r -> map Some r = map parse_import lines).
Proof.
  induction lines as [|l lines [IH1 IH2]]; simpl.
  - split; [split; [discriminate|intros [l [[] _]]]|]. intros r [= <-]. reflexivity.
  - destruct (parse_import l) as [x|] eqn:E.
    + destruct (parse_imports lines) as [xs|]; split.
      * split; [discriminate|]. intros [y [[<-|Hy] K]]; [congruence|].
        assert (Some xs = None) by (apply IH1; eauto). discriminate.
      * intros r [= <-]. simpl. rewrite (IH2 xs eq_refl). reflexivity.
      * split; auto. intros _. destruct (proj1 IH1 eq_refl) as [y [Hy K]]. eauto.
      * discriminate.
    + split; [|discriminate]. split; eauto.
Qed.
Print Assumptions C43_imports.

(** An imported alias always means the imported id, whatever the name space. *)
Theorem C43_import_wins : forall ns imports parts id alias,
  parse_import parts = Some (id, alias) ->
  qualified ns (imported alias ((id, alias) :: imports)) = id.
Proof.
  intros ns imports parts id alias H. apply C43_import_line in H as [n [j [_ [_ [-> _]]]]].
  cbn [imported]. rewrite String.eqb_refl.
  assert (C : contains "::" (String.append n (String.append "::" j)) = true).
  { clear. change (String.append "::" j) with (String ":" (String ":" j)). induction n as [|c n IH].
    - destruct j; reflexivity.
    - cbn [String.append contains]. rewrite IH. apply orb_true_r. }
  unfold qualified. destruct ns; auto. rewrite C. reflexivity.
Qed.
Print Assumptions C43_import_wins.

Example import_example :
  parse_imports [["from"; "2013.com.canonical"; "import"; "package"];
                 ["from"; "hw"; "import"; "cpuinfo"; "as"; "cpu"]] =
  Some [("2013.com.canonical::package", "package"); ("hw::cpuinfo", "cpu")].
Proof. vm_compute. reflexivity. Qed.
