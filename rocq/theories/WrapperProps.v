(** * Theorems about asynchronous wrappers (C111) *)
From Coq Require Import List Bool Arith Lia.
From Verif Require Import WrapperModel.
Import ListNotations.

Record good (m : memory) : Prop := mk_good {
  g_addr : forall o o', In o (live m) -> In o' (live m) -> addr o = addr o' -> o = o';
  g_serial : forall o o', In o (live m) -> In o' (live m) -> serial o = serial o' -> o = o';
  g_next : forall o, In o (live m) -> serial o < next m;
  g_held : forall w a p, In (mk_obj w a (Wrapper p)) (live m) -> In w (held m);
  g_cache : forall k w, cache m k = Some w -> exists a p, In (mk_obj w a (Wrapper p)) (live m) /\
              (k = a \/ In (mk_obj p k (Plain true)) (live m));
  g_wrapper : forall w a p, In (mk_obj w a (Wrapper p)) (live m) -> cache m a = Some w /\
              exists k, In (mk_obj p k (Plain true)) (live m) /\ cache m k = Some w }.

Lemma mem_in n l : mem n l = true <-> In n l.
Proof.
  unfold mem. rewrite existsb_exists. split; [intros [x [I E]]; apply Nat.eqb_eq in E; now subst|intros I; exists n; split; [exact I|apply Nat.eqb_refl]].
Qed.
Lemma used_not a l o : used a l = false -> In o l -> addr o <> a.
Proof.
  unfold used. intros U I E. assert (existsb (fun o => Nat.eqb (addr o) a) l = true); [|congruence].
  apply existsb_exists. exists o. split; [exact I|]. now apply Nat.eqb_eq.
Qed.
Lemma find_in s l o : find_obj s l = Some o -> In o l /\ serial o = s.
Proof. intros F. apply find_some in F as [I E]. apply Nat.eqb_eq in E. auto. Qed.

Lemma good_nothing : good nothing.
Proof. split; cbn; try tauto; discriminate. Qed.

Lemma good_new a u m : good m -> used a (live m) = false ->
  good (mk_memory (S (next m)) (mk_obj (next m) a (Plain u) :: live m) (next m :: held m) (cache m)).
Proof.
  intros [A B C D E F] U. split; cbn [live next held cache].
  - intros o o' [<-|I] [<-|I'] Q; auto; cbn in Q; exfalso; eapply used_not; eauto.
  - intros o o' [<-|I] [<-|I'] Q; auto; cbn in Q; [apply C in I'|apply C in I]; lia.
  - intros o [<-|I]; cbn; [lia|]. apply C in I. lia.
  - intros w b p [Q|I]; [discriminate|]. right. eauto.
  - intros k w Q. destruct (E k w Q) as [b [p [I J]]]. exists b, p. split; [now right|]. destruct J; [now left|right; now right].
  - intros w b p [Q|I]; [discriminate|]. destruct (F w b p I) as [G [k [J K]]]. split; [exact G|]. exists k. split; [now right|exact K].
Qed.
Lemma good_hold w m : good m -> good (mk_memory (next m) (live m) (w :: held m) (cache m)).
Proof. intros [A B C D E F]. split; cbn [live next held cache]; auto. intros x b p I. right. eauto. Qed.

Lemma good_wrap m o a : good m -> In o (live m) -> what o = Plain true -> cache m (addr o) = None -> used a (live m) = false ->
  good (mk_memory (S (next m)) (mk_obj (next m) a (Wrapper (serial o)) :: live m) (next m :: held m)
          (set (addr o) (next m) (set a (next m) (cache m)))).
Proof.
  intros [A B C D E F] IO WO NC U. destruct o as [s k q]. cbn [serial addr what] in *. subst q.
  assert (KA : k <> a) by exact (used_not a (live m) _ U IO).
  assert (CA : forall w b p, In (mk_obj w b (Wrapper p)) (live m) -> b <> a /\ b <> k).
  { intros w b p I. split; [exact (used_not a (live m) _ U I)|]. intros ->. pose proof (A _ _ I IO eq_refl). discriminate. }
  split; cbn [live next held cache].
  - intros x y [<-|I] [<-|I'] Q; auto; cbn in Q; exfalso; eapply used_not; eauto.
  - intros x y [<-|I] [<-|I'] Q; auto; cbn in Q; [apply C in I'|apply C in I]; lia.
  - intros x [<-|I]; cbn; [lia|]. apply C in I. lia.
  - intros w b p [Q|I]; [injection Q as <- _ _; now left|]. right. eauto.
  - intros j w. unfold set. destruct (Nat.eqb_spec j k) as [->|D1].
    + intros Q. injection Q as <-. exists a, s. split; [now left|]. right. now right.
    + destruct (Nat.eqb_spec j a) as [->|D2].
      * intros Q. injection Q as <-. exists a, s. split; [now left|now left].
      * intros Q. destruct (E j w Q) as [b [p [I J]]]. exists b, p. split; [now right|]. destruct J; [now left|right; now right].
  - intros w b p [Q|I].
    + injection Q as <- <- <-. unfold set. split.
      * destruct (Nat.eqb_spec a k); [congruence|]. now rewrite Nat.eqb_refl.
      * exists k. split; [now right|]. now rewrite Nat.eqb_refl.
    + destruct (CA w b p I) as [Na Nk]. destruct (F w b p I) as [G [j [J K]]]. unfold set. split.
      * destruct (Nat.eqb_spec b k); [congruence|]. destruct (Nat.eqb_spec b a); [congruence|]. exact G.
      * exists j. split; [now right|]. destruct (Nat.eqb_spec j k) as [->|_]; [congruence|].
        destruct (Nat.eqb_spec j a) as [->|_]; [|exact K]. exfalso. exact (used_not a (live m) _ U J eq_refl).
Qed.

Lemma collect_in m o : In o (live (collect m)) <->
  In o (live m) /\ match what o with
                   | Wrapper _ => In (serial o) (held m)
                   | Plain _ => In (serial o) (held m) \/
                       exists w a, In (mk_obj w a (Wrapper (serial o))) (live m) /\ In w (held m)
                   end.
Proof.
  unfold collect. cbn [live]. rewrite filter_In, filter_In. destruct (what o) as [u|p] eqn:W.
  - rewrite orb_true_iff, mem_in, existsb_exists. split.
    + intros [[I _] [H|[x [J Q]]]]; (split; [exact I|]); [now left|]. right. apply filter_In in J as [J1 J2].
      destruct x as [w a [v|q]]; cbn in *; [discriminate|]. apply Nat.eqb_eq in Q. subst q. exists w, a. split; [exact J1|].
      now apply mem_in.
    + intros [I [H|[w [a [J H]]]]]; (split; [now split|]); [now left|]. right. exists (mk_obj w a (Wrapper (serial o))).
      split; [apply filter_In; split; [exact J|now apply mem_in]|]. cbn. apply Nat.eqb_refl.
  - rewrite mem_in. tauto.
Qed.
Lemma collect_cache m k w : cache (collect m) k = Some w -> cache m k = Some w /\ 
  exists o, In o (live m) /\ serial o = w /\ match what o with Wrapper _ => In w (held m) | Plain _ => True end.
Proof.
  unfold collect. cbn [cache]. unfold removed. destruct (cache m k) as [v|]; [|discriminate].
  destruct (existsb _ _) eqn:X; [|discriminate]. intros Q. injection Q as ->. split; [reflexivity|].
  apply existsb_exists in X as [o [I Q]]. apply Nat.eqb_eq in Q. apply filter_In in I as [I J]. exists o. split; [exact I|].
  split; [exact Q|]. subst w. destruct (what o); [trivial|]. now apply mem_in.
Qed.
Lemma collect_keeps m k w a p : cache m k = Some w -> In (mk_obj w a (Wrapper p)) (live m) -> In w (held m) ->
  cache (collect m) k = Some w.
Proof.
  intros Q I H. unfold collect. cbn [cache]. unfold removed. rewrite Q.
  assert (X : existsb (fun o => Nat.eqb (serial o) w)
    (filter (fun o => match what o with Wrapper _ => mem (serial o) (held m) | Plain _ => true end) (live m)) = true).
  { apply existsb_exists. exists (mk_obj w a (Wrapper p)). split; [|apply Nat.eqb_refl]. apply filter_In. split; [exact I|].
    now apply mem_in. }
  now rewrite X.
Qed.

Lemma good_drop m h : good m -> good (collect (mk_memory (next m) (live m) h (cache m))).
Proof.
  intros [A B C D E F]. set (m' := mk_memory (next m) (live m) h (cache m)).
  assert (SUB : forall o, In o (live (collect m')) -> In o (live m)) by (intros o I; now apply collect_in in I).
  split.
  - intros o o' I I'. apply A; auto.
  - intros o o' I I'. apply B; auto.
  - intros o I. apply (C o). auto.
  - intros w a p I. apply collect_in in I as [_ I]. exact I.
  - intros k w Q. apply collect_cache in Q as [Q [o [I [S J]]]]. cbn [cache live held] in *.
    destruct (E k w Q) as [a [p [IW K]]]. pose proof (B o _ I IW S) as EO. subst o. cbn [what] in J.
    exists a, p. split; [apply collect_in; now split|]. destruct K as [K|K]; [now left|]. right. apply collect_in.
    split; [exact K|]. cbn [what serial]. right. exists w, a. now split.
  - intros w a p I. apply collect_in in I as [I H]. cbn [what serial] in H. destruct (F w a p I) as [G [k [J K]]]. split.
    + eapply collect_keeps; eauto.
    + exists k. split; [|eapply collect_keeps; eauto]. apply collect_in. split; [exact J|]. cbn [what serial]. right. exists w, a. now split.
Qed.
Lemma good_step e m m' x : good m -> step e m = Some (m', x) -> good m'.
Proof.
  intros G. destruct e as [a u|s a|s]; cbn [step].
  - destruct (used a (live m)) eqn:U; [discriminate|]. intros E. injection E as <- _. now apply good_new.
  - destruct (mem s (held m)); [|discriminate]. destruct (find_obj s (live m)) as [o|] eqn:F; [|discriminate].
    apply find_in in F as [I S]. destruct (cache m (addr o)) as [w|] eqn:C.
    + intros E. injection E as <- _. now apply good_hold.
    + destruct (what o) as [[|]|p] eqn:W; try (intros E; injection E as <- _; exact G).
      destruct (used a (live m)) eqn:U; [discriminate|]. intros E. injection E as <- _. subst s. now apply good_wrap.
  - intros E. injection E as <- _. now apply good_drop.
Qed.
Lemma good_run l : forall m m', good m -> run l m = Some m' -> good m'.
Proof.
  induction l as [|e l IH]; intros m m' G E; cbn in E; [now injection E as <-|].
  destruct (step e m) as [[m1 x]|] eqn:S; [|discriminate]. eapply IH; [|exact E]. eapply good_step; eauto.
Qed.

(** ** C111 *)

(** Whatever was wrapped and dropped before, wrapping an object gives a wrapper of that object, wrapping a wrapper gives
    itself, and what is no callable Netref is refused *)
Theorem C111_the_right_wrapper l m s a m' x : run l nothing = Some m -> step (Wrap s a) m = Some (m', x) ->
  exists o, In o (live m) /\ serial o = s /\
    match what o with
    | Plain true => exists w b, x = Given w /\ In (mk_obj w b (Wrapper s)) (live m')
    | Plain false => x = Type_error
    | Wrapper _ => x = Given s
    end.
Proof.
  intros R. pose proof (good_run l _ _ good_nothing R) as [A B C D E F]. cbn [step].
  destruct (mem s (held m)); [|discriminate]. destruct (find_obj s (live m)) as [o|] eqn:FI; [|discriminate].
  apply find_in in FI as [I S]. intros ST. exists o. split; [exact I|]. split; [exact S|]. destruct o as [s' k q]. cbn in S. subst s'.
  cbn [addr what] in *. destruct (cache m k) as [w|] eqn:CK.
  - injection ST as <- <-. destruct (E k w CK) as [b [p [IW J]]]. destruct J as [->|J].
    + pose proof (A _ _ I IW eq_refl) as Q. injection Q as -> ->. reflexivity.
    + pose proof (A _ _ I J eq_refl) as Q. injection Q as -> ->. exists w, b. split; [reflexivity|exact IW].
  - destruct q as [[|]|p].
    + destruct (used a (live m)); [discriminate|]. injection ST as <- <-. exists (next m), a. split; [reflexivity|now left].
    + now injection ST as <- <-.
    + destruct (F s k p I) as [G _]. congruence.
Qed.
(** There is one wrapper of an object at a time *)
Theorem C111_one_wrapper l m w w' a a' p : run l nothing = Some m ->
  In (mk_obj w a (Wrapper p)) (live m) -> In (mk_obj w' a' (Wrapper p)) (live m) -> w = w'.
Proof.
  intros R I J. pose proof (good_run l _ _ good_nothing R) as [A B C D E F].
  destruct (F w a p I) as [_ [k [K1 K2]]]. destruct (F w' a' p J) as [_ [k' [K1' K2']]].
  pose proof (B _ _ K1 K1' eq_refl) as Q. injection Q as ->. congruence.
Qed.
(** A wrapper keeps its object *)
Theorem C111_object_is_kept l m w a p : run l nothing = Some m -> In (mk_obj w a (Wrapper p)) (live m) ->
  exists k, In (mk_obj p k (Plain true)) (live m).
Proof.
  intros R I. pose proof (good_run l _ _ good_nothing R) as G. destruct (g_wrapper m G w a p I) as [_ [k [K _]]]. now exists k.
Qed.
(** The cache keeps nothing alive: it has entries of wrappers the program holds and of no others, and wrappers and objects
    nobody holds are gone *)
Theorem C111_nothing_is_kept l m : run l nothing = Some m ->
  (forall k w, cache m k = Some w -> In w (held m)) /\
  forall s m', step (Drop s) m = Some (m', No_answer) ->
    (forall o, In o (live m') -> serial o = s -> exists w a, In (mk_obj w a (Wrapper s)) (live m') /\ w <> s /\ In w (held m')) /\
    (forall k, cache m' k <> Some s).
Proof.
  intros R. pose proof (good_run l _ _ good_nothing R) as G. split.
  - intros k w Q. destruct (g_cache m G k w Q) as [a [p [I _]]]. exact (g_held m G w a p I).
  - intros s m' ST. assert (NH : ~ In s (held m')).
    { cbn [step] in ST. injection ST as <-. cbn [collect held]. intros I. apply filter_In in I as [_ I].
      now rewrite Nat.eqb_refl in I. }
    pose proof (good_step _ _ _ _ G ST) as G'. split.
    + intros o I S. cbn [step] in ST. injection ST as E.
      pose proof I as I'. rewrite <- E in I'. apply collect_in in I' as [I1 I2]. cbn [held live] in *.
      assert (HH : held m' = filter (fun x => negb (Nat.eqb x s)) (held m)) by now rewrite <- E.
      destruct o as [s' k q]. cbn in S, I2. subst s'. rewrite <- HH in I2. destruct q as [u|p]; [|contradiction].
      destruct I2 as [I2|[w [a [J H]]]]; [contradiction|]. exists w, a. split; [|split; [intros ->; contradiction|exact H]].
      rewrite <- E. apply collect_in. cbn [live held what serial]. split; [exact J|]. now rewrite <- HH.
    + intros k Q. destruct (g_cache m' G' k s Q) as [a [p [I _]]]. exact (NH (g_held m' G' s a p I)).
Qed.
Print Assumptions C111_the_right_wrapper.
Print Assumptions C111_one_wrapper.
Print Assumptions C111_object_is_kept.
Print Assumptions C111_nothing_is_kept.
(** An object wrapped, wrapped again and dropped while the wrapper is held; then all goes and the address is used again *)
Definition story := [New 10 true; Wrap 0 20; Drop 0; New 30 true; Wrap 2 40; Wrap 1 50].
Example C111_case :
  match run story nothing with
  | Some m => live m = [mk_obj 3 40 (Wrapper 2); mk_obj 2 30 (Plain true); mk_obj 1 20 (Wrapper 0); mk_obj 0 10 (Plain true)] /\
      cache m 10 = Some 1 /\ cache m 20 = Some 1 /\
      match run [Drop 1; New 10 true] m with
      | Some m2 => cache m2 10 = None /\ option_map snd (step (Wrap 4 20) m2) = Some (Given 5) /\
                   option_map snd (step (Wrap 2 20) m2) = Some (Given 3) /\ step (New 30 true) m2 = None
      | None => False
      end
  | None => False
  end.
Proof. vm_compute. repeat split. Qed.
