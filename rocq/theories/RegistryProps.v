(** * Theorems about the registry of services (C105) *)
From Coq Require Import String Ascii List Bool Arith Lia Permutation Sorted.
From Verif Require Import ScanModel Rfc822Model Rfc822Proofs AccessModel RegistryModel.
Import ListNotations.
Local Open Scope list_scope.

(** ** Specification *)

(** When a server was last heard of under a name, by the history of commands; unregistering forgets it *)
Definition heard (n : text) (a : addr) (so_far : option nat) (c : nat * command) : option nat :=
  match c with
  | (t, Register names b) => if addr_eqb a b && existsb (fun m => text_eqb n (upper m)) names then Some t else so_far
  | (_, Unregister b) => if addr_eqb a b then None else so_far
  | (_, Query _) => so_far
  end.
Definition last_heard (h : list (nat * command)) (n : text) (a : addr) : option nat := fold_left (heard n a) h None.
(** Time does not run backwards *)
Fixpoint steady (now : nat) (h : list (nat * command)) : Prop :=
  match h with [] => True | (t, _) :: r => now <= t /\ steady t r end.
Definition until (h : list (nat * command)) (now : nat) : Prop := forall t c, In (t, c) h -> t <= now.

(** ** Lemmas *)
Lemma teq n : text_eqb n n = true.
Proof. now apply text_eqb_eq. Qed.
Lemma tneq n m : n <> m -> text_eqb n m = false.
Proof. intros H. destruct (text_eqb n m) eqn:E; [|reflexivity]. apply text_eqb_eq in E. contradiction. Qed.
Lemma tsym n m : text_eqb n m = text_eqb m n.
Proof.
  destruct (text_eqb n m) eqn:E.
  - apply text_eqb_eq in E. subst. symmetry. apply teq.
  - symmetry. apply tneq. intros ->. rewrite teq in E. discriminate.
Qed.
Lemma addr_eqb_eq a b : addr_eqb a b = true <-> a = b.
Proof.
  unfold addr_eqb. rewrite andb_true_iff, !Nat.eqb_eq. destruct a, b. cbn. split; [intros [-> ->]; reflexivity|].
  intros E. now injection E as -> ->.
Qed.
Lemma aeq a : addr_eqb a a = true.
Proof. now apply addr_eqb_eq. Qed.
Lemma aneq a b : a <> b -> addr_eqb a b = false.
Proof. intros H. destruct (addr_eqb a b) eqn:E; [|reflexivity]. apply addr_eqb_eq in E. contradiction. Qed.
Lemma asym a b : addr_eqb a b = addr_eqb b a.
Proof. unfold addr_eqb. now rewrite (Nat.eqb_sym (fst a)), (Nat.eqb_sym (snd a)). Qed.

Lemma find_put_name n s m : forall t, find_name m (put_name n s t) = if text_eqb m n then Some s else find_name m t.
Proof.
  induction t as [|[k x] t IH]; cbn; [reflexivity|]. destruct (text_eqb n k) eqn:E; cbn.
  - apply text_eqb_eq in E. subst k. now destruct (text_eqb m n).
  - rewrite IH. destruct (text_eqb m k) eqn:F; [|reflexivity]. apply text_eqb_eq in F. subst k. now rewrite tsym, E.
Qed.
Lemma find_put_addr a now b : forall s, find_addr b (put_addr a now s) = if addr_eqb b a then Some now else find_addr b s.
Proof.
  induction s as [|[k x] t IH]; cbn; [reflexivity|]. destruct (addr_eqb a k) eqn:E; cbn.
  - apply addr_eqb_eq in E. subst k. now destruct (addr_eqb b a).
  - rewrite IH. destruct (addr_eqb b k) eqn:F; [|reflexivity]. apply addr_eqb_eq in F. subst k. now rewrite asym, E.
Qed.
Lemma find_del_name n m : forall t, find_name m (del_name n t) = if text_eqb m n then None else find_name m t.
Proof.
  unfold del_name. induction t as [|[k x] t IH]; cbn; [now destruct (text_eqb m n)|]. destruct (text_eqb n k) eqn:E; cbn.
  - apply text_eqb_eq in E. subst k. rewrite IH. now destruct (text_eqb m n).
  - rewrite IH. destruct (text_eqb m k) eqn:F; [|reflexivity]. apply text_eqb_eq in F. subst k. now rewrite tsym, E.
Qed.
Lemma find_del_addr a b : forall s, find_addr b (del_addr a s) = if addr_eqb b a then None else find_addr b s.
Proof.
  unfold del_addr. induction s as [|[k x] t IH]; cbn; [now destruct (addr_eqb b a)|]. destruct (addr_eqb a k) eqn:E; cbn.
  - apply addr_eqb_eq in E. subst k. rewrite IH. now destruct (addr_eqb b a).
  - rewrite IH. destruct (addr_eqb b k) eqn:F; [|reflexivity]. apply addr_eqb_eq in F. subst k. now rewrite asym, E.
Qed.
Lemma put_addr_keys a now : forall s, map fst (put_addr a now s) = map fst s \/
  (map fst (put_addr a now s) = map fst s ++ [a] /\ ~ In a (map fst s)).
Proof.
  induction s as [|[k x] s IH]; cbn; [right; auto|]. destruct (addr_eqb a k) eqn:E; cbn; [now left|].
  destruct IH as [IH|[IH N]]; [left; now rewrite IH|]. right. rewrite IH. split; [reflexivity|].
  intros [->|H]; [rewrite aeq in E; discriminate|contradiction].
Qed.
Lemma put_name_keys n s : forall t, map fst (put_name n s t) = map fst t \/
  (map fst (put_name n s t) = map fst t ++ [n] /\ ~ In n (map fst t)).
Proof.
  induction t as [|[k x] t IH]; cbn; [right; auto|]. destruct (text_eqb n k) eqn:E; cbn; [now left|].
  destruct IH as [IH|[IH N]]; [left; now rewrite IH|]. right. rewrite IH. split; [reflexivity|].
  intros [->|H]; [rewrite teq in E; discriminate|contradiction].
Qed.
Lemma filter_keys {A B} (f : A * B -> bool) (l : list (A * B)) : NoDup (map fst l) -> NoDup (map fst (filter f l)).
Proof.
  induction l as [|x l IH]; cbn; [auto|]. intros N. inversion N as [|? ? NI N']; subst.
  destruct (f x); [|now apply IH]. cbn. constructor; [|now apply IH].
  intros H. apply NI. apply in_map_iff in H. destruct H as [y [E I]]. apply filter_In in I. rewrite <- E. apply in_map. tauto.
Qed.
Lemma nodup_snoc {A} (l : list A) x : NoDup l -> ~ In x l -> NoDup (l ++ [x]).
Proof.
  intros N I. apply (Permutation_NoDup (l := x :: l)); [|now constructor].
  apply Permutation_cons_append.
Qed.
Lemma find_addr_in a t : forall s, NoDup (map fst s) -> (In (a, t) s <-> find_addr a s = Some t).
Proof.
  induction s as [|[k x] s IH]; cbn; [split; [easy|discriminate]|]. intros N. inversion N as [|? ? NI N']; subst.
  destruct (addr_eqb a k) eqn:E.
  - apply addr_eqb_eq in E. subst k. split.
    + intros [F|I]; [now injection F as ->|]. destruct NI. now apply (in_map fst) in I.
    + intros F. injection F as ->. now left.
  - rewrite <- IH by assumption. split; [intros [F|I]; [injection F as -> ->; rewrite aeq in E; discriminate|exact I]|now right].
Qed.

(** The table has each name once, with servers, each once *)
Definition good (t : table) : Prop := NoDup (map fst t) /\ forall n s, find_name n t = Some s -> s <> [] /\ NoDup (map fst s).
Definition seen (r : registry) (n : text) (a : addr) : option nat :=
  match find_name n (services r) with Some s => find_addr a s | None => None end.

Lemma put_addr_good a now s : NoDup (map fst s) -> put_addr a now s <> [] /\ NoDup (map fst (put_addr a now s)).
Proof.
  intros B. split.
  - destruct s as [|[k x] s]; cbn; [discriminate|]. now destruct (addr_eqb a k).
  - destruct (put_addr_keys a now s) as [->|[-> I]]; [exact B|now apply nodup_snoc].
Qed.
Lemma add_good n a now r : good (services r) -> good (services (add_service n a now r)).
Proof.
  intros [N G]. unfold add_service. cbn [services]. split.
  - destruct (put_name_keys n (put_addr a now match find_name n (services r) with Some s => s | None => [] end) (services r))
      as [->|[-> I]]; [exact N|now apply nodup_snoc].
  - intros m s. rewrite find_put_name. destruct (text_eqb m n) eqn:E; [|apply G]. intros F. injection F as <-.
    assert (B : NoDup (map fst match find_name n (services r) with Some s => s | None => [] end)).
    { destruct (find_name n (services r)) as [s|] eqn:F; [now apply (G n)|constructor]. }
    now apply put_addr_good.
Qed.
Lemma add_seen n a now r m b :
  seen (add_service n a now r) m b = if text_eqb m n && addr_eqb b a then Some now else seen r m b.
Proof.
  unfold seen, add_service. cbn [services]. rewrite find_put_name. destruct (text_eqb m n) eqn:E; cbn [andb]; [|reflexivity].
  apply text_eqb_eq in E. subst m. rewrite find_put_addr. destruct (addr_eqb b a); [reflexivity|].
  now destruct (find_name n (services r)).
Qed.
Lemma remove_ok n a r s : good (services r) -> find_name n (services r) = Some s ->
  exists r', remove_service n a r = Some r' /\ good (services r') /\
    (forall m b, seen r' m b = if text_eqb m n && addr_eqb b a then None else seen r m b) /\
    (forall m, m <> n -> find_name m (services r') = find_name m (services r)).
Proof.
  intros [N G] F. unfold remove_service. rewrite F. destruct (G n s F) as [_ ND].
  destruct (del_addr a s) as [|x l] eqn:D; eexists; (split; [reflexivity|]); cbn [services].
  - split; [split|split].
    + unfold del_name. now apply filter_keys.
    + intros m s'. rewrite find_del_name. destruct (text_eqb m n); [discriminate|apply G].
    + intros m b. unfold seen. cbn [services]. rewrite find_del_name. destruct (text_eqb m n) eqn:E; cbn [andb]; [|reflexivity].
      apply text_eqb_eq in E. subst m. rewrite F. destruct (addr_eqb b a) eqn:B; [reflexivity|].
      pose proof (find_del_addr a b s) as Q. rewrite D, B in Q. cbn in Q. now rewrite <- Q.
    + intros m NE. now rewrite find_del_name, tneq.
  - split; [split|split].
    + destruct (put_name_keys n (x :: l) (services r)) as [->|[-> I]]; [exact N|now apply nodup_snoc].
    + intros m s'. rewrite find_put_name. destruct (text_eqb m n); [|apply G]. intros E. injection E as <-.
      split; [discriminate|]. rewrite <- D. unfold del_addr. now apply filter_keys.
    + intros m b. unfold seen. cbn [services]. rewrite find_put_name. destruct (text_eqb m n) eqn:E; cbn [andb]; [|reflexivity].
      apply text_eqb_eq in E. subst m. rewrite F, <- D. now rewrite find_del_addr.
    + intros m NE. now rewrite find_put_name, tneq.
Qed.
Lemma register_ok now a : forall names r, good (services r) ->
  good (services (register now names a r)) /\
  forall m b, seen (register now names a r) m b =
    if addr_eqb b a && existsb (fun x => text_eqb m (upper x)) names then Some now else seen r m b.
Proof.
  unfold register. induction names as [|x names IH]; intros r G; cbn [fold_left existsb].
  - split; [exact G|]. intros m b. now rewrite andb_false_r.
  - destruct (IH (add_service (upper x) a now r)) as [A B]; [now apply add_good|]. split; [exact A|].
    intros m b. rewrite B, add_seen. destruct (addr_eqb b a), (text_eqb m (upper x)); cbn; try reflexivity.
    now destruct (existsb _ names).
Qed.
Lemma unregister_ok a : forall names r, good (services r) -> NoDup names ->
  (forall n, In n names -> find_name n (services r) <> None) ->
  exists r', unregister_all names a r = Some r' /\ good (services r') /\
    forall m b, seen r' m b = if addr_eqb b a && existsb (text_eqb m) names then None else seen r m b.
Proof.
  induction names as [|n names IH]; intros r G ND H; cbn [unregister_all].
  - exists r. split; [reflexivity|]. split; [exact G|]. intros m b. cbn. now rewrite andb_false_r.
  - inversion ND as [|? ? NI ND']; subst. destruct (find_name n (services r)) as [s|] eqn:F; [|destruct (H n); [now left|exact F]].
    destruct (remove_ok n a r s G F) as [r1 [-> [G1 [S1 O1]]]].
    destruct (IH r1 G1 ND') as [r' [R [G' S']]].
    { intros m I. rewrite O1; [apply H; now right|]. intros ->. contradiction. }
    exists r'. split; [exact R|]. split; [exact G'|]. intros m b. rewrite S', S1. cbn [existsb].
    destruct (addr_eqb b a), (text_eqb m n); cbn; try reflexivity; now destruct (existsb _ names).
Qed.
Lemma find_name_none n : forall t, find_name n t = None <-> ~ In n (map fst t).
Proof.
  induction t as [|[k x] t IH]; cbn; [tauto|]. destruct (text_eqb n k) eqn:E.
  - apply text_eqb_eq in E. subst. split; [discriminate|intros H; destruct H; now left].
  - rewrite IH. split; [intros H [->|I]; [rewrite teq in E; discriminate|contradiction]|tauto].
Qed.
Lemma unregister_seen a r : good (services r) -> exists r', unregister a r = Some r' /\ good (services r') /\
  forall m b, seen r' m b = if addr_eqb b a then None else seen r m b.
Proof.
  intros G. destruct (unregister_ok a (map fst (services r)) r G (proj1 G)) as [r' [R [G' S]]].
  { intros n I H. apply find_name_none in H. contradiction. }
  exists r'. split; [exact R|]. split; [exact G'|]. intros m b. rewrite S. destruct (addr_eqb b a); cbn; [|reflexivity].
  destruct (existsb (text_eqb m) (map fst (services r))) eqn:E; [reflexivity|]. unfold seen.
  destruct (find_name m (services r)) eqn:F; [|reflexivity]. exfalso.
  assert (I : In m (map fst (services r))).
  { destruct (in_dec (list_eq_dec ascii_dec) m (map fst (services r))) as [I|I]; [exact I|]. apply find_name_none in I. congruence. }
  assert (existsb (text_eqb m) (map fst (services r)) = true); [|congruence].
  apply existsb_exists. exists m. split; [exact I|apply teq].
Qed.
Definition stale (timeout now : nat) (x : addr * nat) : bool := Nat.ltb (snd x + timeout) now.
Lemma sift_ok n timeout now : forall l r, good (services r) -> NoDup (map fst l) ->
  (forall a t, In (a, t) l -> seen r n a = Some t) ->
  exists r', sift n timeout now l r = Some (r', map fst (filter (fun x => negb (stale timeout now x)) l)) /\
    good (services r') /\
    forall m b, seen r' m b =
      if text_eqb m n && existsb (fun x => addr_eqb b (fst x) && stale timeout now x) l then None else seen r m b.
Proof.
  induction l as [|[a t] l IH]; intros r G ND H; cbn [sift].
  - exists r. split; [reflexivity|]. split; [exact G|]. intros m b. cbn. now rewrite andb_false_r.
  - cbn in ND. inversion ND as [|? ? NI ND']; subst. cbn [filter existsb fst].
    change (stale timeout now (a, t)) with (Nat.ltb (t + timeout) now).
    destruct (Nat.ltb (t + timeout) now) eqn:E; cbn [negb].
    + pose proof (H a t (or_introl eq_refl)) as Q. unfold seen in Q. destruct (find_name n (services r)) as [s|] eqn:F; [|discriminate].
      destruct (remove_ok n a r s G F) as [r1 [-> [G1 [S1 _]]]].
      destruct (IH r1 G1 ND') as [r' [R [G' S']]].
      { intros b u I. rewrite S1, teq. cbn. rewrite aneq; [apply H; now right|]. intros ->. apply NI. now apply (in_map fst) in I. }
      exists r'. split; [exact R|]. split; [exact G'|]. intros m b. rewrite S', S1.
      destruct (text_eqb m n); cbn [andb]; [|reflexivity]. destruct (addr_eqb b a); cbn [andb orb]; [|reflexivity].
      now destruct (existsb _ l).
    + destruct (IH r G ND') as [r' [R [G' S']]]; [intros b u I; apply H; now right|].
      rewrite R. exists r'. split; [reflexivity|]. split; [exact G'|]. intros m b. rewrite S'. now rewrite andb_false_r.
Qed.
Lemma insert_perm x : forall l, Permutation (insert_time x l) (x :: l).
Proof.
  induction l as [|y l IH]; cbn; [reflexivity|]. destruct (Nat.leb (snd x) (snd y)); [reflexivity|].
  rewrite IH. apply perm_swap.
Qed.
Lemma by_time_perm l : Permutation (by_time l) l.
Proof. induction l as [|x l IH]; cbn; [constructor|]. now rewrite insert_perm, IH. Qed.
Definition earlier (x y : addr * nat) : Prop := snd x <= snd y.
Lemma insert_sorted x : forall l, StronglySorted earlier l -> StronglySorted earlier (insert_time x l).
Proof.
  induction l as [|y l IH]; cbn; intros S; [repeat constructor|]. inversion S as [|? ? S' F]; subst.
  destruct (Nat.leb (snd x) (snd y)) eqn:E.
  - apply Nat.leb_le in E. constructor; [exact S|]. constructor; [exact E|].
    eapply Forall_impl; [|exact F]. unfold earlier. intros z Z. lia.
  - apply Nat.leb_gt in E. constructor; [now apply IH|].
    apply (Permutation_Forall (Permutation_sym (insert_perm x l))). constructor; [unfold earlier; lia|exact F].
Qed.
Lemma by_time_sorted l : StronglySorted earlier (by_time l).
Proof. induction l as [|x l IH]; cbn; [constructor|now apply insert_sorted]. Qed.
Lemma sorted_filter (f : addr * nat -> bool) l : StronglySorted earlier l -> StronglySorted earlier (filter f l).
Proof.
  induction 1 as [|x l S IH F]; cbn; [constructor|]. destruct (f x); [|exact IH]. constructor; [exact IH|].
  apply Forall_forall. intros y Y. apply filter_In in Y. rewrite Forall_forall in F. apply F. tauto.
Qed.

Lemma query_ok timeout now name r : good (services r) ->
  exists r' found, query timeout now name r = Some (r', map fst found) /\ good (services r') /\
    NoDup (map fst found) /\ StronglySorted earlier found /\
    (forall a t, In (a, t) found <-> seen r (upper name) a = Some t /\ now <= t + timeout) /\
    forall m b, seen r' m b = seen r m b \/
      (seen r' m b = None /\ exists t, seen r m b = Some t /\ t + timeout < now).
Proof.
  intros G. unfold query. destruct (find_name (upper name) (services r)) as [s|] eqn:F.
  - destruct (proj2 G _ s F) as [_ ND].
    assert (P : Permutation (map fst (by_time s)) (map fst s)) by (apply Permutation_map, by_time_perm).
    assert (ND' : NoDup (map fst (by_time s))) by (eapply Permutation_NoDup; [apply Permutation_sym, P|exact ND]).
    assert (IN : forall a t, In (a, t) (by_time s) <-> seen r (upper name) a = Some t).
    { intros a t. unfold seen. rewrite F, <- find_addr_in by exact ND. split; apply Permutation_in; [|apply Permutation_sym]; apply by_time_perm. }
    destruct (sift_ok (upper name) timeout now (by_time s) r G ND') as [r' [R [G' S']]]; [intros a t; apply IN|].
    exists r', (filter (fun x => negb (stale timeout now x)) (by_time s)).
    split; [exact R|]. split; [exact G'|]. split; [now apply filter_keys|]. split; [apply sorted_filter, by_time_sorted|]. split.
    + intros a t. rewrite filter_In, IN. unfold stale. cbn [fst snd]. rewrite negb_true_iff, Nat.ltb_ge. tauto.
    + intros m b. rewrite S'. destruct (text_eqb m (upper name)) eqn:E; cbn [andb]; [|now left].
      apply text_eqb_eq in E. subst m.
      destruct (existsb _ (by_time s)) eqn:X; [|now left]. right. split; [reflexivity|].
      apply existsb_exists in X. destruct X as [[a t] [I X]]. cbn [fst] in X. apply andb_true_iff in X. destruct X as [X1 X2].
      apply addr_eqb_eq in X1. subst a. exists t. split; [now apply IN|]. unfold stale in X2. cbn [snd] in X2. now apply Nat.ltb_lt.
  - exists r, []. split; [reflexivity|]. split; [exact G|]. split; [constructor|]. split; [constructor|]. split; [|now left].
    intros a t. unfold seen. rewrite F. split; [intros []|intros [E _]; discriminate].
Qed.

(** ** C105 *)

Lemma empty_good : good (services empty).
Proof. split; [constructor|discriminate]. Qed.
Lemma execute_good timeout c r : good (services r) -> exists r', execute timeout c r = Some r' /\ good (services r').
Proof.
  intros G. destruct c as [t [names a|a|name]]; unfold execute; cbn [fst snd].
  - eexists. split; [reflexivity|]. now apply register_ok.
  - destruct (unregister_seen a r G) as [r' [-> [G' _]]]. exists r'. now split.
  - destruct (query_ok timeout t name r G) as [r' [f [-> [G' _]]]]. exists r'. now split.
Qed.
Lemma executes_good timeout : forall h r, good (services r) -> exists r', executes timeout h r = Some r' /\ good (services r').
Proof.
  induction h as [|c h IH]; intros r G; cbn [executes]; [eauto|].
  destruct (execute_good timeout c r G) as [r1 [-> G1]]. now apply IH.
Qed.
(** No history of commands ever fails, even when time runs backwards *)
Theorem C105_never_fails timeout h : exists r, executes timeout h empty = Some r.
Proof. destruct (executes_good timeout h empty empty_good) as [r [E _]]. eauto. Qed.

Lemma heard_inv timeout : forall h r r' acc now, good (services r) -> steady now h ->
  (forall n a, seen r n a = acc n a \/ (seen r n a = None /\ exists t, acc n a = Some t /\ t + timeout < now)) ->
  executes timeout h r = Some r' ->
  good (services r') /\ forall n a later, until h later -> now <= later ->
    seen r' n a = fold_left (heard n a) h (acc n a) \/
    (seen r' n a = None /\ exists t, fold_left (heard n a) h (acc n a) = Some t /\ t + timeout < later).
Proof.
  induction h as [|[t c] h IH]; intros r r' acc now G ST I E.
  { cbn in E. injection E as <-. split; [exact G|]. intros n a later _ L. cbn [fold_left].
    destruct (I n a) as [Q|[Q [u [A B]]]]; [now left|]. right. split; [exact Q|]. exists u. split; [exact A|lia]. }
  destruct ST as [LE ST]. cbn [executes] in E.
  destruct (execute timeout (t, c) r) as [r1|] eqn:E1; [|discriminate].
  assert (Z : good (services r1) /\ forall n a, seen r1 n a = heard n a (acc n a) (t, c) \/
    (seen r1 n a = None /\ exists u, heard n a (acc n a) (t, c) = Some u /\ u + timeout < t)).
  { unfold execute in E1. destruct c as [names b|b|name]; cbn [fst snd] in E1; cbn [heard].
    - injection E1 as <-. destruct (register_ok t b names r G) as [G1 S1]. split; [exact G1|].
      intros n a. rewrite S1. destruct (addr_eqb a b && existsb _ names); [now left|].
      destruct (I n a) as [Q|[Q [u [A B]]]]; [now left|right]. split; [exact Q|]. exists u. split; [exact A|lia].
    - destruct (unregister_seen b r G) as [r2 [R2 [G2 S2]]]. rewrite R2 in E1. injection E1 as <-. split; [exact G2|].
      intros n a. rewrite S2. destruct (addr_eqb a b); [now left|].
      destruct (I n a) as [Q|[Q [u [A B]]]]; [now left|right]. split; [exact Q|]. exists u. split; [exact A|lia].
    - destruct (query_ok timeout t name r G) as [r2 [f [R2 [G2 [_ [_ [_ S2]]]]]]]. rewrite R2 in E1. injection E1 as <-.
      split; [exact G2|]. intros n a. cbn [fst].
      destruct (I n a) as [Q|[Q [u [A B]]]].
      + destruct (S2 n a) as [X|[X [u [Y W]]]]; [left; now rewrite X|]. right. split; [exact X|]. exists u. now rewrite <- Q.
      + right. split; [|exists u; split; [exact A|lia]]. destruct (S2 n a) as [X|[X _]]; congruence. }
  destruct Z as [G1 I1].
  destruct (IH r1 r' (fun n a => heard n a (acc n a) (t, c)) t G1 ST I1 E) as [G' K]. split; [exact G'|].
  intros n a later U L. cbn [fold_left]. apply K.
  - intros u d H. apply (U u d). now right.
  - apply (U t c). now left.
Qed.
(** A query finds exactly the servers last heard of under that name (in whatever case it is written) no longer ago than
    the time-out and not unregistered since; each once, those heard of longest ago first *)
Theorem C105_query_is_exact timeout h now name r : steady 0 h -> until h now -> executes timeout h empty = Some r ->
  exists r' found, query timeout now name r = Some (r', map fst found) /\
    NoDup (map fst found) /\ StronglySorted (fun x y => snd x <= snd y) found /\
    forall a t, In (a, t) found <-> last_heard h (upper name) a = Some t /\ now <= t + timeout.
Proof.
  intros ST U E.
  destruct (heard_inv timeout h empty r (fun _ _ => None) 0 empty_good ST) as [G K]; [now left|exact E|].
  destruct (query_ok timeout now name r G) as [r' [f [Q [_ [ND [SS [IN _]]]]]]].
  exists r', f. split; [exact Q|]. split; [exact ND|]. split; [exact SS|]. intros a t. rewrite IN.
  specialize (K (upper name) a now U (Nat.le_0_l _)). fold (last_heard h (upper name) a) in K.
  destruct K as [->|[-> [u [-> L]]]]; [tauto|]. split; [intros [X _]; discriminate|]. intros [X Y]. injection X as ->. lia.
Qed.
(** The last notice about a name says whether it has any servers *)
Fixpoint announced (n : text) (so_far : bool) (l : list notice) : bool :=
  match l with
  | [] => so_far
  | Added m _ :: r => announced n (if text_eqb n m then true else so_far) r
  | Removed m _ :: r => announced n (if text_eqb n m then false else so_far) r
  end.
Lemma announced_app n : forall a b x, announced n x (a ++ b) = announced n (announced n x a) b.
Proof. induction a as [|[m d|m d] a IH]; intros b x; cbn; auto. Qed.
Definition told (r : registry) : Prop := forall n,
  announced n false (notices r) = match find_name n (services r) with Some _ => true | None => false end.
Lemma add_told n a now r : told r -> told (add_service n a now r).
Proof.
  intros T m. unfold add_service. cbn [services notices]. rewrite find_put_name.
  destruct (find_addr a match find_name n (services r) with Some s => s | None => [] end) eqn:F.
  - rewrite T. destruct (text_eqb m n) eqn:E; [|reflexivity]. apply text_eqb_eq in E. subst m.
    destruct (find_name n (services r)); [reflexivity|discriminate].
  - rewrite announced_app, T. cbn. now destruct (text_eqb m n).
Qed.
Lemma remove_told n a r r' : told r -> remove_service n a r = Some r' -> told r'.
Proof.
  intros T E m. unfold remove_service in E. destruct (find_name n (services r)) as [s|] eqn:F; [|discriminate].
  destruct (del_addr a s) as [|x l]; injection E as <-; cbn [services notices].
  - rewrite announced_app, T, find_del_name. cbn. now destruct (text_eqb m n).
  - rewrite T, find_put_name. destruct (text_eqb m n) eqn:X; [|reflexivity]. apply text_eqb_eq in X. subst m. now rewrite F.
Qed.
Theorem C105_notices timeout h r n : executes timeout h empty = Some r ->
  (announced n false (notices r) = true <-> exists a t, seen r n a = Some t).
Proof.
  assert (K : forall h r r', good (services r) -> told r -> executes timeout h r = Some r' -> good (services r') /\ told r').
  { clear h r. induction h as [|[t c] h IH]; intros r r' G T E; cbn [executes] in E; [injection E as <-; now split|].
    destruct (execute_good timeout (t, c) r G) as [r1 [E1 G1]]. rewrite E1 in E. apply (IH r1); [exact G1| |exact E].
    unfold execute in E1. destruct c as [names b|b|name]; cbn [fst snd] in E1.
    - injection E1 as <-. clear -T. unfold register. revert r T. induction names as [|x l IH]; intros r T; cbn; [exact T|].
      apply IH. now apply add_told.
    - unfold unregister in E1. revert E1. generalize (map fst (services r)). intros l. clear -T. revert r T.
      induction l as [|x l IH]; intros r T; cbn; [intros E; now injection E as <-|].
      destruct (remove_service x b r) as [r2|] eqn:R; [|discriminate]. apply IH. eapply remove_told; eauto.
    - unfold query in E1. destruct (find_name (upper name) (services r)) as [s|]; [|now injection E1 as <-].
      revert E1. generalize (by_time s). intros l. clear -T. revert r r1 T.
      induction l as [|[a u] l IH]; intros r r1 T; cbn [sift]; [intros E; now injection E as <-|].
      destruct (Nat.ltb (u + timeout) t).
      + destruct (remove_service (upper name) a r) as [r2|] eqn:R; [|discriminate]. apply IH. eapply remove_told; eauto.
      + intros E. apply (IH r r1 T). destruct (sift (upper name) timeout t l r) as [[r3 f]|]; [exact E|discriminate]. }
  intros E. destruct (K h empty r empty_good) as [G T]; [intros m; reflexivity|exact E|].
  rewrite T. unfold seen. destruct (find_name n (services r)) as [s|] eqn:F; split; try easy.
  - intros _. destruct (proj2 G n s F) as [NE ND]. destruct s as [|[a t] s]; [easy|]. exists a, t. cbn. now rewrite aeq.
  - intros [a [t Q]]. discriminate.
Qed.
(** Refuted: that whoever is told of a server that joins is told when it leaves; that is so for the last one of a name only *)
Theorem C105_leaving_is_told_refuted :
  ~ (forall timeout h r n a, executes timeout h empty = Some r -> In (Added n a) (notices r) -> seen r n a = None ->
     In (Removed n a) (notices r)).
Proof.
  intros H.
  specialize (H 10 [(0, Register [L "calc"] (1, 5)); (1, Register [L "calc"] (2, 5)); (2, Unregister (1, 5))]
    _ (L "CALC") (1, 5) eq_refl
    (or_introl eq_refl) eq_refl). cbn in H. destruct H as [H|[H|H]]; [discriminate|discriminate|exact H].
Qed.
Print Assumptions C105_never_fails.
Print Assumptions C105_query_is_exact.
Print Assumptions C105_notices.
Print Assumptions C105_leaving_is_told_refuted.
Example C105_case :
  let h := [(0, Register [L "calc"; L "Math"] (1, 5)); (3, Register [L "CALC"] (2, 5)); (4, Register [L "Calc"] (3, 7));
            (9, Register [L "calc"] (1, 5)); (9, Unregister (3, 7)); (12, Query (L "math"))] in
  steady 0 h /\ until h 14 /\
  match executes 10 h empty with
  | Some r => option_map snd (query 10 13 (L "cALC") r) = Some [(2, 5); (1, 5)] /\
              option_map snd (query 10 14 (L "calc") r) = Some [(1, 5)] /\
              option_map snd (query 10 13 (L "math") r) = Some [] /\
              notices r = [Added (L "CALC") (1, 5); Added (L "MATH") (1, 5); Added (L "CALC") (2, 5); Added (L "CALC") (3, 7);
                           Removed (L "MATH") (1, 5)]
  | None => False
  end.
Proof.
  split; [cbn; repeat split; lia|]. split; [|vm_compute; repeat split].
  intros t c H. cbn in H. repeat (destruct H as [H|H]; [injection H as <- <-; lia|]). destruct H.
Qed.
