(** * Theorems about what the other side of a connection may do with attributes (C100) and about the services
      and modules it names (C101) *)
From Coq Require Import String Ascii List Bool Arith Lia.
From Verif Require Import ScanModel Rfc822Model Rfc822Proofs IniModel AccessModel.
Import ListNotations.
Local Open Scope list_scope.

(** ** Specification of C100 *)

(** The attribute a request for [n] reaches on an object with attributes [a], if any *)
Inductive reaches (c : config) (a : attrs) (n : text) : text -> Prop :=
| by_prefix v : allow_exposed_attrs c = true -> (exists r, n = exposed_prefix c ++ r) ->
    find_attr n a = Some v -> reaches c a n n
| by_name v : allow_exposed_attrs c = true -> (forall r, n <> exposed_prefix c ++ r) ->
    find_attr (exposed_prefix c ++ n) a = Some v -> reaches c a n (exposed_prefix c ++ n)
| by_leave : ~ (allow_exposed_attrs c = true /\ exists x v, find_attr x a = Some v /\
                ((x = n /\ exists r, n = exposed_prefix c ++ r) \/
                 (x = exposed_prefix c ++ n /\ forall r, n <> exposed_prefix c ++ r))) ->
    (allow_all_attrs c = true \/ (allow_safe_attrs c = true /\ In n (safe_attrs c)) \/
     (allow_public_attrs c = true /\ forall r, n <> "_"%char :: r)) ->
    reaches c a n n.

Lemma tprefix_ex p : forall t, tprefix p t = true <-> exists r, t = p ++ r.
Proof.
  induction p as [|x p IH]; cbn; intros t.
  - split; [intros _; now exists t|reflexivity].
  - destruct t as [|y t]; [split; [discriminate|intros [r E]; discriminate]|].
    rewrite andb_true_iff, IH, Ascii.eqb_eq. split.
    + intros [-> [r ->]]. now exists r.
    + intros [r E]. injection E as -> ->. split; [reflexivity|now exists r].
Qed.
Lemma tprefix_nex p t : tprefix p t = false <-> forall r, t <> p ++ r.
Proof.
  split.
  - intros E r F. assert (tprefix p t = true) by (apply tprefix_ex; now exists r). congruence.
  - intros H. destruct (tprefix p t) eqn:E; [|reflexivity]. apply tprefix_ex in E. destruct E as [r E]. now destruct (H r).
Qed.
Lemma has_ex n a : has_attr n a = true <-> exists v, find_attr n a = Some v.
Proof. unfold has_attr. destruct (find_attr n a) as [v|]; split; try easy; [intros _; now exists v|intros [v E]; discriminate]. Qed.
Lemma existsb_in n l : existsb (text_eqb n) l = true <-> In n l.
Proof.
  rewrite existsb_exists. split.
  - intros [x [I E]]. apply text_eqb_eq in E. now subst.
  - intros I. exists n. split; [easy|]. now apply text_eqb_eq.
Qed.
Lemma under n : tprefix (L "_") n = false <-> forall r, n <> "_"%char :: r.
Proof. exact (tprefix_nex (L "_") n). Qed.

Lemma blocked c a n :
  (allow_exposed_attrs c && has_attr (exposed_form c n) a = true) <->
  (allow_exposed_attrs c = true /\ exists x v, find_attr x a = Some v /\
                ((x = n /\ exists r, n = exposed_prefix c ++ r) \/
                 (x = exposed_prefix c ++ n /\ forall r, n <> exposed_prefix c ++ r))).
Proof.
  rewrite andb_true_iff. unfold exposed_form. destruct (tprefix (exposed_prefix c) n) eqn:P.
  - pose proof P as P'. apply tprefix_ex in P'. rewrite has_ex. split; intros [A B]; (split; [exact A|]).
    + destruct B as [v B]. exists n, v. split; [exact B|]. left. now split.
    + destruct B as [x [v [F [[-> _]|[-> Q]]]]]; [now exists v|]. destruct P' as [r ->]. now destruct (Q r).
  - pose proof P as P'. rewrite tprefix_nex in P'. rewrite has_ex. split; intros [A B]; (split; [exact A|]).
    + destruct B as [v B]. exists (exposed_prefix c ++ n), v. split; [exact B|]. right. now split.
    + destruct B as [x [v [F [[-> [r Q]]|[-> Q]]]]]; [now destruct (P' r)|now exists v].
Qed.

Lemma check_reaches c a n x : x <> [] -> (check_attr c a n = x <-> reaches c a n x).
Proof.
  intros NE. unfold check_attr. destruct (allow_exposed_attrs c && has_attr (exposed_form c n) a) eqn:B.
  - split.
    + intros <-. apply andb_true_iff in B. destruct B as [A B]. apply has_ex in B. destruct B as [v B].
      unfold exposed_form in *. destruct (tprefix (exposed_prefix c) n) eqn:P.
      * eapply by_prefix; [exact A|now apply tprefix_ex|exact B].
      * eapply by_name; [exact A|now apply tprefix_nex|exact B].
    + intros R. unfold exposed_form. inversion R as [v A P F|v A P F|NB _]; subst.
      * apply tprefix_ex in P. now rewrite P.
      * apply tprefix_nex in P. now rewrite P.
      * destruct NB. now apply blocked.
  - assert (NB : ~ (allow_exposed_attrs c && has_attr (exposed_form c n) a = true)) by congruence.
    rewrite blocked in NB. split.
    + intros E.
      destruct (allow_all_attrs c) eqn:A1; [subst x; apply by_leave; tauto|].
      destruct (allow_safe_attrs c && existsb (text_eqb n) (safe_attrs c)) eqn:A2.
      { subst x. apply by_leave; [exact NB|]. right. left. apply andb_true_iff in A2. rewrite existsb_in in A2. exact A2. }
      destruct (allow_public_attrs c && negb (tprefix (L "_") n)) eqn:A3; [|congruence].
      subst x. apply by_leave; [exact NB|]. right. right. apply andb_true_iff in A3. destruct A3 as [A3 A4].
      split; [exact A3|]. apply under. now apply negb_true_iff.
    + intros R. inversion R as [v A P F E|v A P F E|_ Q E]; subst.
      * destruct NB. split; [exact A|]. exists x, v. split; [exact F|]. left. now split.
      * destruct NB. split; [exact A|]. exists (exposed_prefix c ++ n), v. split; [exact F|]. right. now split.
      * destruct (allow_all_attrs c) eqn:A1; [reflexivity|].
        destruct (allow_safe_attrs c && existsb (text_eqb x) (safe_attrs c)) eqn:A2; [reflexivity|].
        destruct (allow_public_attrs c && negb (tprefix (L "_") x)) eqn:A3; [reflexivity|].
        destruct Q as [Q|[Q|Q]]; [congruence| |].
        { destruct Q as [Q1 Q2]. apply existsb_in in Q2. rewrite Q1, Q2 in A2. discriminate. }
        { destruct Q as [Q1 Q2]. apply under in Q2. rewrite Q1, Q2 in A3. discriminate. }
Qed.

Lemma find_set n v a m : find_attr m (set_attr n v a) = if text_eqb m n then Some v else find_attr m a.
Proof.
  unfold set_attr, del_attr. cbn. destruct (text_eqb m n) eqn:E; [reflexivity|].
  induction a as [|[k w] a IH]; cbn; [reflexivity|].
  destruct (text_eqb n k) eqn:F; cbn.
  - apply text_eqb_eq in F. subst k. now rewrite E.
  - now rewrite IH.
Qed.
Lemma find_del n a m : find_attr m (del_attr n a) = if text_eqb m n then None else find_attr m a.
Proof.
  unfold del_attr. induction a as [|[k w] a IH]; cbn; [now destruct (text_eqb m n)|].
  destruct (text_eqb n k) eqn:F; cbn.
  - apply text_eqb_eq in F. subst k. rewrite IH. now destruct (text_eqb m n).
  - rewrite IH. destruct (text_eqb m k) eqn:G; [|reflexivity].
    apply text_eqb_eq in G. subst k. destruct (text_eqb m n) eqn:H; [|reflexivity].
    apply text_eqb_eq in H. subst n. assert (text_eqb m m = true) by now apply text_eqb_eq. congruence.
Qed.

(** ** C100 *)

Section Plain.
Variable hook : nat -> op -> option (text -> attrs -> attrs * answer).
Variable c : config.

(** Reading gives exactly the value of the attribute the name reaches, when reading is allowed; anything else is
    an AttributeError, and nothing changes *)
Theorem C100_reading b n v : hook (o_class b) Get = None ->
  ((exists a', access hook c Get n b = (a', Value v)) <->
   allow_getattr c = true /\ exists x, x <> [] /\ reaches c (o_attrs b) n x /\ find_attr x (o_attrs b) = Some v).
Proof.
  intros H. unfold access. rewrite H. cbn [param plain].
  destruct (allow_getattr c) eqn:G; cbn [negb orb].
  2:{ split; [intros [a' E]; discriminate|intros [E _]; discriminate]. }
  destruct (check_attr c (o_attrs b) n) as [|x0 x'] eqn:K.
  - split; [intros [a' E]; discriminate|]. intros [_ [x [NE [R _]]]].
    apply check_reaches in R; [congruence|exact NE].
  - split.
    + intros [a' E]. split; [reflexivity|]. exists (x0 :: x'). split; [discriminate|].
      split; [apply check_reaches; [discriminate|exact K]|].
      destruct (find_attr (x0 :: x') (o_attrs b)) as [w|]; [now injection E as _ ->|discriminate].
    + intros [_ [x [NE [R F]]]]. apply check_reaches in R; [|exact NE]. rewrite K in R. subst x. rewrite F. eauto.
Qed.
Theorem C100_reading_changes_nothing b n : hook (o_class b) Get = None ->
  fst (access hook c Get n b) = o_attrs b /\
  ((exists v, snd (access hook c Get n b) = Value v) \/ snd (access hook c Get n b) = Raised AttributeError).
Proof.
  intros H. unfold access. rewrite H. destruct (negb (param c Get) || _); cbn; [now split; [|right]|].
  destruct (find_attr _ _); split; eauto.
Qed.

(** Setting works exactly when it is allowed and the name reaches something, and changes that one attribute *)
Theorem C100_setting b n v : hook (o_class b) (Set_ v) = None ->
  forall a' r, access hook c (Set_ v) n b = (a', r) ->
  (r = Done <-> allow_setattr c = true /\ exists x, x <> [] /\ reaches c (o_attrs b) n x) /\
  (r <> Done -> r = Raised AttributeError /\ a' = o_attrs b) /\
  (forall x, r = Done -> x <> [] -> reaches c (o_attrs b) n x ->
     find_attr x a' = Some v /\ forall y, y <> x -> find_attr y a' = find_attr y (o_attrs b)).
Proof.
  intros H a' r. unfold access. rewrite H. cbn [param plain].
  destruct (allow_setattr c) eqn:G; cbn [negb orb].
  2:{ intros E. injection E as <- <-. repeat split; try easy. }
  destruct (check_attr c (o_attrs b) n) as [|x0 x'] eqn:K; intros E; injection E as <- <-.
  - split; [|split; easy]. split; [discriminate|]. intros [_ [x [NE R]]].
    apply check_reaches in R; [congruence|exact NE].
  - split; [|split; [easy|]].
    + split; [intros _; split; [reflexivity|]|reflexivity]. exists (x0 :: x').
      split; [discriminate|]. apply check_reaches; [discriminate|exact K].
    + intros x _ NE R. apply check_reaches in R; [|exact NE]. rewrite K in R. subst x. split.
      * rewrite find_set. now replace (text_eqb (x0 :: x') (x0 :: x')) with true by (symmetry; now apply text_eqb_eq).
      * intros y NY. rewrite find_set. destruct (text_eqb y (x0 :: x')) eqn:T; [|reflexivity].
        apply text_eqb_eq in T. contradiction.
Qed.

(** Deleting works exactly when it is allowed and the name reaches something that is there *)
Theorem C100_deleting b n : hook (o_class b) Del = None ->
  forall a' r, access hook c Del n b = (a', r) ->
  (r = Done <-> allow_delattr c = true /\
     exists x v, x <> [] /\ reaches c (o_attrs b) n x /\ find_attr x (o_attrs b) = Some v) /\
  (r <> Done -> r = Raised AttributeError /\ a' = o_attrs b) /\
  (forall x, r = Done -> x <> [] -> reaches c (o_attrs b) n x ->
     find_attr x a' = None /\ forall y, y <> x -> find_attr y a' = find_attr y (o_attrs b)).
Proof.
  intros H a' r. unfold access. rewrite H. cbn [param plain].
  destruct (allow_delattr c) eqn:G; cbn [negb orb].
  2:{ intros E. injection E as <- <-. repeat split; try easy. }
  destruct (check_attr c (o_attrs b) n) as [|x0 x'] eqn:K.
  { intros E. injection E as <- <-. split; [|split; easy]. split; [discriminate|]. intros [_ [x [v [NE [R _]]]]].
    apply check_reaches in R; [congruence|exact NE]. }
  destruct (has_attr (x0 :: x') (o_attrs b)) eqn:F; intros E; injection E as <- <-.
  - apply has_ex in F. destruct F as [v F]. split; [|split; [easy|]].
    + split; [intros _; split; [reflexivity|]|reflexivity]. exists (x0 :: x'), v.
      split; [discriminate|]. split; [|exact F]. apply check_reaches; [discriminate|exact K].
    + intros x _ NE R. apply check_reaches in R; [|exact NE]. rewrite K in R. subst x. split.
      * rewrite find_del. now replace (text_eqb (x0 :: x') (x0 :: x')) with true by (symmetry; now apply text_eqb_eq).
      * intros y NY. rewrite find_del. destruct (text_eqb y (x0 :: x')) eqn:T; [|reflexivity].
        apply text_eqb_eq in T. contradiction.
  - split; [|split; easy]. split; [discriminate|]. intros [_ [x [v [NE [R Q]]]]].
    apply check_reaches in R; [|exact NE]. rewrite K in R. subst x.
    assert (has_attr (x0 :: x') (o_attrs b) = true) by (apply has_ex; eauto). congruence.
Qed.

(** Running an attribute runs what reading it gives and fails as reading it fails *)
Theorem C100_running i w args h :
  match snd (handle hook c (RGet i w) h) with
  | Value v => snd (handle hook c (RCallAttr i w args) h) = Ran v args
  | x => snd (handle hook c (RCallAttr i w args) h) = x
  end.
Proof. cbn [handle]. destruct (access_attr hook c i w Get h) as [h' x]. now destruct x. Qed.

(** A name that is not text fails whatever the object, before it is looked up; bytes count as the text they spell *)
Theorem C100_names i h o :
  access_attr hook c i WOther o h = (h, Raised TypeError) /\
  access_attr hook c i (WBytes None) o h = (h, Raised DecodeError) /\
  forall t, access_attr hook c i (WBytes (Some t)) o h = access_attr hook c i (WText t) o h.
Proof. repeat split. Qed.

Theorem C100_pickling i h :
  (exists j, snd (handle hook c (RPickle i) h) = Pickled j) <-> allow_pickle c = true /\ exists b, find_obj i h = Some b.
Proof.
  cbn [handle]. destruct (allow_pickle c); cbn; [|split; [intros [j E]; discriminate|intros [E _]; discriminate]].
  destruct (find_obj i h) as [b|] eqn:F; cbn.
  - split; [intros _; split; eauto|intros _; eauto].
  - split; [intros [j E]; discriminate|intros [_ [b E]]; discriminate].
Qed.
End Plain.

Lemma put_same i b : forall h, find_obj i h = Some b -> put_attrs i (o_attrs b) h = h.
Proof.
  induction h as [|[k b'] h IH]; cbn; [discriminate|]. destruct (Nat.eqb i k).
  - intros E. injection E as ->. now destruct b.
  - intros E. now rewrite IH.
Qed.

(** With the default configuration, and objects whose classes have no hooks, no history of requests changes
    anything; and what was read or run each time was a value of an attribute whose name starts with exposed_ or is
    one of the safe ones *)
Definition opened (h : heap) (v : val) : Prop :=
  exists i b x, find_obj i h = Some b /\ find_attr x (o_attrs b) = Some v /\
    ((exists r, x = L "exposed_" ++ r) \/ In x default_safe).
Lemma default_access hook i w o h : (forall k p, hook k p = None) ->
  fst (access_attr hook default_config i w o h) = h /\
  match snd (access_attr hook default_config i w o h) with
  | Value v => opened h v
  | Raised _ => True
  | _ => False
  end.
Proof.
  intros H. unfold access_attr. destruct (name_of w) as [n|e]; [|now split].
  destruct (find_obj i h) as [b|] eqn:F; [|now split].
  destruct o as [|v|].
  2,3: unfold access; rewrite H; cbn [param negb orb default_config allow_setattr allow_delattr];
       split; [cbn; now apply put_same|exact I].
  destruct (C100_reading_changes_nothing hook default_config b n (H _ _)) as [A B].
  destruct (access hook default_config Get n b) as [a' r] eqn:E. cbn [fst snd] in *. subst a'.
  split; [now apply put_same|]. destruct B as [[v ->]| ->]; [|exact I].
  assert (X : exists a', access hook default_config Get n b = (a', Value v)) by eauto.
  apply C100_reading in X; [|apply H]. destruct X as [_ [x [NE [R G]]]].
  exists i, b, x. split; [exact F|]. split; [exact G|]. inversion R as [v' A P|v' A P|_ Q]; subst.
  - left. exact P.
  - left. now exists n.
  - right. destruct Q as [Q|[[_ Q]|[Q _]]]; [discriminate|exact Q|discriminate].
Qed.
Theorem C100_default_is_closed hook l h : (forall k p, hook k p = None) ->
  fst (serve hook default_config l h) = h /\
  forall x, In x (snd (serve hook default_config l h)) ->
  match x with
  | Value v | Ran v _ => opened h v
  | Names _ | Raised _ => True
  | Done | Pickled _ => False
  end.
Proof.
  intros H. induction l as [|r l IH]; cbn [serve]; [split; [reflexivity|intros x []]|].
  assert (S : fst (handle hook default_config r h) = h /\
    match snd (handle hook default_config r h) with
    | Value v | Ran v _ => opened h v | Names _ | Raised _ => True | Done | Pickled _ => False end).
  { destruct r as [i w|i w v|i w|i w args|i|i]; cbn [handle].
    - destruct (default_access hook i w Get h H) as [A B]. split; [exact A|]. clear A. destruct (access_attr _ _ _ _ _ _) as [h1 [| | | | |]]; cbn in *; tauto.
    - destruct (default_access hook i w (Set_ v) h H) as [A B]. split; [exact A|]. clear A. destruct (access_attr _ _ _ _ _ _) as [h1 [| | | | |]]; cbn in *; tauto.
    - destruct (default_access hook i w Del h H) as [A B]. split; [exact A|]. clear A. destruct (access_attr _ _ _ _ _ _) as [h1 [| | | | |]]; cbn in *; tauto.
    - destruct (default_access hook i w Get h H) as [A B].
      destruct (access_attr hook default_config i w Get h) as [h' x]. cbn in A, B. subst h'.
      destruct x; now split.
    - now split.
    - destruct (find_obj i h); now split. }
  destruct S as [S1 S2]. destruct (handle hook default_config r h) as [h' x]. cbn in S1, S2. subst h'.
  destruct (serve hook default_config l h) as [h'' xs]. cbn in IH |- *. destruct IH as [-> IH].
  split; [reflexivity|]. intros y [<-|I]; [exact S2|now apply IH].
Qed.

(** Whatever the configuration, a service's attributes are never changed by requests about them *)
Theorem C100_services_stay hook c k l : (forall v, hook k (Set_ v) = Some denied) -> hook k Del = Some denied ->
  hook k Get = None -> forall h i b, find_obj i h = Some b -> o_class b = k ->
  find_obj i (fst (serve hook c l h)) = Some b.
Proof.
  intros HS HD HG. assert (PO : forall i a h j b, find_obj j h = Some b -> j <> i -> find_obj j (put_attrs i a h) = Some b).
  { induction h as [|[m x] h IH]; cbn; [discriminate|]. intros j b E NE. destruct (Nat.eqb i m) eqn:IM.
    - apply Nat.eqb_eq in IM. subst m. cbn. destruct (Nat.eqb j i) eqn:JI; [apply Nat.eqb_eq in JI; contradiction|exact E].
    - cbn. destruct (Nat.eqb j m); [exact E|now apply IH]. }
  assert (AA : forall i w o h j b, find_obj j h = Some b -> o_class b = k ->
            find_obj j (fst (access_attr hook c i w o h)) = Some b).
  { intros i w o h j b F K. unfold access_attr. destruct (name_of w) as [n|e]; [|exact F].
    destruct (find_obj i h) as [b'|] eqn:G; [|exact F].
    destruct (Nat.eq_dec j i) as [->|NE].
    - rewrite F in G. injection G as <-.
      assert (Q : fst (access hook c o n b) = o_attrs b).
      { destruct o as [|v|].
        - apply C100_reading_changes_nothing. now rewrite K.
        - unfold access. now rewrite K, HS.
        - unfold access. now rewrite K, HD. }
      destruct (access hook c o n b) as [a' r]. cbn in Q |- *. subst a'. now rewrite put_same.
    - destruct (access hook c o n b') as [a' r]. cbn. now apply PO. }
  induction l as [|r l IH]; cbn [serve]; intros h i b F K; [exact F|].
  assert (S : find_obj i (fst (handle hook c r h)) = Some b).
  { destruct r as [j w|j w v|j w|j w args|j|j]; cbn [handle]; try (now apply AA).
    - pose proof (AA j w Get h i b F K) as Q. destruct (access_attr hook c j w Get h) as [h' x]. now destruct x.
    - destruct (allow_pickle c); [|exact F]. now destruct (find_obj j h).
    - now destruct (find_obj j h). }
  destruct (handle hook c r h) as [h' x]. cbn in S. specialize (IH h' i b S K).
  now destruct (serve hook c l h').
Qed.

(** Once a slave service has connected, every attribute of every object without hooks can be read, unless it is
    hidden behind an exposed one of the same name *)
Theorem C100_slave_opens_all hook c b x v : hook (o_class b) Get = None -> x <> [] ->
  find_attr x (o_attrs b) = Some v ->
  (allow_exposed_attrs c = true -> (forall r, x <> exposed_prefix c ++ r) ->
     find_attr (exposed_prefix c ++ x) (o_attrs b) = None) ->
  access hook (slave_connects c) Get x b = (o_attrs b, Value v).
Proof.
  intros H NE F N. destruct (C100_reading_changes_nothing hook (slave_connects c) b x H) as [A _].
  assert (Q : exists a', access hook (slave_connects c) Get x b = (a', Value v)).
  { apply C100_reading; [exact H|]. split; [reflexivity|]. exists x. split; [exact NE|]. split; [|exact F].
    destruct (allow_exposed_attrs c) eqn:E.
    - destruct (tprefix (exposed_prefix c) x) eqn:P.
      + eapply by_prefix; [exact E|now apply tprefix_ex|exact F].
      + apply by_leave; [|now left]. intros [_ [y [w [G [[-> [r Q]]|[-> Q]]]]]].
        * cbn in Q. rewrite tprefix_nex in P. now apply (P r).
        * cbn in G, Q. rewrite N in G; [discriminate|reflexivity|exact Q].
    - apply by_leave; [|now left]. intros [Q _]. cbn in Q. congruence. }
  destruct Q as [a' Q]. rewrite Q in A |- *. cbn in A. now subst.
Qed.
(** The exposed attribute wins: what has the plain name then cannot be read at all, even when all is allowed *)
Theorem C100_exposed_hides_plain hook c b x w : hook (o_class b) Get = None ->
  allow_exposed_attrs c = true -> allow_getattr c = true -> exposed_prefix c <> [] ->
  (forall r, x <> exposed_prefix c ++ r) -> find_attr (exposed_prefix c ++ x) (o_attrs b) = Some w ->
  access hook c Get x b = (o_attrs b, Value w) /\ access hook c Get (exposed_prefix c ++ x) b = (o_attrs b, Value w).
Proof.
  intros H E G NE NP F.
  assert (NE2 : exposed_prefix c ++ x <> []) by (destruct (exposed_prefix c); [easy|discriminate]).
  assert (Z : forall n, reaches c (o_attrs b) n (exposed_prefix c ++ x) -> access hook c Get n b = (o_attrs b, Value w)).
  { intros n R. destruct (C100_reading_changes_nothing hook c b n H) as [A _].
    assert (Q : exists a', access hook c Get n b = (a', Value w)).
    { apply C100_reading; [exact H|]. split; [exact G|]. eauto. }
    destruct Q as [a' Q]. rewrite Q in A |- *. cbn in A. now subst. }
  split; apply Z; [eapply by_name; eauto|eapply by_prefix; eauto].
Qed.
(** With an empty prefix everything an object has is exposed *)
Theorem C100_empty_prefix hook c b x v : hook (o_class b) Get = None ->
  allow_exposed_attrs c = true -> allow_getattr c = true -> exposed_prefix c = [] -> x <> [] ->
  find_attr x (o_attrs b) = Some v -> access hook c Get x b = (o_attrs b, Value v).
Proof.
  intros H E G P NE F. destruct (C100_reading_changes_nothing hook c b x H) as [A _].
  assert (Q : exists a', access hook c Get x b = (a', Value v)).
  { apply C100_reading; [exact H|]. split; [exact G|]. exists x. split; [exact NE|]. split; [|exact F].
    eapply by_prefix; [exact E|exists x; now rewrite P|exact F]. }
  destruct Q as [a' Q]. rewrite Q in A |- *. cbn in A. now subst.
Qed.
(** Refuted: that forbidding reads in the configuration stops them: a class with a hook of its own is not bound by it *)
Theorem C100_hooks_bypass_refuted :
  ~ (forall hook c i w h v, allow_getattr c = false -> snd (access_attr hook c i w Get h) <> Value v).
Proof.
  intros H.
  refine (H (fun _ _ => Some (fun n a => (a, Value 7)))
    {| allow_safe_attrs := false; allow_exposed_attrs := false; allow_public_attrs := false; allow_all_attrs := false;
       safe_attrs := []; exposed_prefix := L "exposed_"; allow_getattr := false; allow_setattr := false;
       allow_delattr := false; allow_pickle := false |}
    1 (WText (L "secret")) [(1, {| o_class := 0; o_attrs := [(L "secret", 7)] |})] 7 eq_refl _).
  reflexivity.
Qed.
Print Assumptions C100_reading.
Print Assumptions C100_reading_changes_nothing.
Print Assumptions C100_setting.
Print Assumptions C100_deleting.
Print Assumptions C100_running.
Print Assumptions C100_names.
Print Assumptions C100_pickling.
Print Assumptions C100_default_is_closed.
Print Assumptions C100_services_stay.
Print Assumptions C100_slave_opens_all.
Print Assumptions C100_exposed_hides_plain.
Print Assumptions C100_empty_prefix.
Print Assumptions C100_hooks_bypass_refuted.

Definition no_hooks (k : nat) (o : op) : option (text -> attrs -> attrs * answer) := None.
Definition service_hooks (k : nat) (o : op) : option (text -> attrs -> attrs * answer) :=
  match k, o with 1, Set_ _ => Some denied | 1, Del => Some denied | _, _ => None end.
Definition sample : heap :=
  [(4, {| o_class := 1; o_attrs := [(L "exposed_add", 10); (L "secret", 11); (L "__len__", 12); (L "_conn", 13)] |})].
Example C100_case_default :
  serve no_hooks default_config
    [RGet 4 (WText (L "add")); RGet 4 (WBytes (Some (L "exposed_add"))); RGet 4 (WText (L "secret"));
     RCallAttr 4 (WText (L "__len__")) [1]; RSet 4 (WText (L "add")) 3; RDel 4 (WText (L "add")); RPickle 4;
     RGet 5 (WText (L "add")); RGet 5 WOther] sample =
  (sample, [Value 10; Value 10; Raised AttributeError; Ran 12 [1]; Raised AttributeError; Raised AttributeError;
            Raised ValueError; Raised KeyError; Raised TypeError]).
Proof. reflexivity. Qed.
Example C100_case_slave :
  serve no_hooks (slave_connects default_config)
    [RGet 4 (WText (L "_conn")); RSet 4 (WText (L "add")) 3; RDel 4 (WText (L "secret")); RGet 4 (WText (L "exposed_add"));
     RGet 4 (WText (L "secret")); RPickle 4] sample =
  ([(4, {| o_class := 1; o_attrs := [(L "exposed_add", 3); (L "__len__", 12); (L "_conn", 13)] |})],
   [Value 13; Done; Done; Value 3; Raised AttributeError; Pickled 4]).
Proof. reflexivity. Qed.
Example C100_case_service :
  serve service_hooks (slave_connects default_config)
    [RGet 4 (WText (L "secret")); RSet 4 (WText (L "add")) 3; RDel 4 (WText (L "secret"))] sample =
  (sample, [Value 11; Raised AttributeError; Raised AttributeError]).
Proof. reflexivity. Qed.

(** ** C101: names of services and the modules of the other side *)

(** A service is known by its first alias in capitals, or else by the name of its class without Service at the end *)
Theorem C101_alias_given cls x r : service_name cls (x :: r) = upper x /\ aliases cls (x :: r) = upper x :: map upper r.
Proof. split; reflexivity. Qed.
Lemma upper_app a b : upper (a ++ b) = upper a ++ upper b.
Proof. apply map_app. Qed.
Theorem C101_class_name base suffix : upper suffix = L "SERVICE" -> service_name (base ++ suffix) [] = upper base.
Proof.
  intros U. unfold service_name, aliases. cbn [hd]. rewrite upper_app, U.
  assert (E : ends_with (L "SERVICE") (upper base ++ L "SERVICE") = true).
  { unfold ends_with. apply tprefix_ex. exists (rev (upper base)). apply rev_app_distr. }
  rewrite E, app_length. change (List.length (L "SERVICE")) with 7.
  replace (List.length (upper base) + 7 - 7) with (List.length (upper base)) by lia.
  rewrite firstn_app, Nat.sub_diag, firstn_all. cbn. apply app_nil_r.
Qed.
Theorem C101_class_name_kept cls : (forall b, upper cls <> b ++ L "SERVICE") -> service_name cls [] = upper cls.
Proof.
  intros N. unfold service_name, aliases. cbn [hd]. destruct (ends_with (L "SERVICE") (upper cls)) eqn:E; [|reflexivity].
  unfold ends_with in E. apply tprefix_ex in E. destruct E as [r E]. exfalso. apply (N (rev r)).
  rewrite <- (rev_involutive (upper cls)), E, rev_app_distr, rev_involutive. reflexivity.
Qed.

(** The modules of the other side: whatever was looked up, in whatever order and with whatever outcome, a module that
    was found is never asked for again and always the same; a tuple of names is the dotted name *)
Definition sees (l : list lookup) (k : key) (answer : option val) : option val := snd (get_item k answer (looks l)).
Definition lookup_key (x : lookup) : key := match x with LGet k _ | LIn k _ => k end.
Definition lookup_answer (x : lookup) : option val := match x with LGet _ a | LIn _ a => a end.
(** The first answer that was not an error, of all the lookups of a name *)
Fixpoint first_found (n : text) (l : list lookup) : option val :=
  match l with
  | [] => None
  | x :: r => if text_eqb n (key_name (lookup_key x))
              then match lookup_answer x with Some v => Some v | None => first_found n r end
              else first_found n r
  end.
Lemma look_is x s : look x s = fst (get_item (lookup_key x) (lookup_answer x) s).
Proof. destruct x as [k a|k a]; cbn; [reflexivity|]. unfold contains. now destruct (get_item k a s). Qed.
Lemma cache_first n : forall l s, find_attr n (cache (fold_left (fun s x => look x s) l s)) =
  match find_attr n (cache s) with Some v => Some v | None => first_found n l end.
Proof.
  induction l as [|x l IH]; intros s; cbn [fold_left first_found]; [now destruct (find_attr n (cache s))|].
  rewrite IH, look_is. unfold get_item. destruct (text_eqb n (key_name (lookup_key x))) eqn:E.
  - apply text_eqb_eq in E. rewrite <- E. destruct (find_attr n (cache s)) as [v|] eqn:F; cbn; [now rewrite F|].
    destruct (lookup_answer x) as [v|]; cbn.
    + now replace (text_eqb n n) with true by (symmetry; now apply text_eqb_eq).
    + now rewrite F.
  - destruct (find_attr (key_name (lookup_key x)) (cache s)) eqn:F; cbn; [reflexivity|].
    destruct (lookup_answer x) as [v|]; cbn; [now rewrite E|reflexivity].
Qed.
Theorem C101_module_is_the_first_found l k answer :
  sees l k answer = match first_found (key_name k) l with Some v => Some v | None => answer end.
Proof.
  unfold sees, get_item. unfold looks. rewrite cache_first. cbn [cache find_attr].
  destruct (first_found (key_name k) l); [reflexivity|]. now destruct answer.
Qed.
(** It is asked for exactly until it is found *)
Definition times (n : text) (l : list text) : nat := List.length (filter (text_eqb n) l).
Fixpoint tries (n : text) (l : list lookup) : nat :=
  match l with
  | [] => 0
  | x :: r => if text_eqb n (key_name (lookup_key x))
              then match lookup_answer x with Some v => 1 | None => S (tries n r) end
              else tries n r
  end.
Lemma times_app n a b : times n (a ++ b) = times n a + times n b.
Proof. unfold times. now rewrite filter_app, app_length. Qed.
Lemma asked_tries n : forall l s, times n (asked (fold_left (fun s x => look x s) l s)) =
  times n (asked s) + match find_attr n (cache s) with Some _ => 0 | None => tries n l end.
Proof.
  induction l as [|x l IH]; intros s; cbn [fold_left tries]; [destruct (find_attr n (cache s)); lia|].
  rewrite IH, look_is. unfold get_item. destruct (text_eqb n (key_name (lookup_key x))) eqn:E.
  - apply text_eqb_eq in E. rewrite <- E. destruct (find_attr n (cache s)) as [v|] eqn:F; cbn [fst]; [now rewrite F|].
    assert (R : text_eqb n n = true) by now apply text_eqb_eq.
    destruct (lookup_answer x) as [v|]; cbn [fst asked cache find_attr]; rewrite times_app.
    + rewrite R. unfold times at 2. cbn. rewrite R. cbn. lia.
    + rewrite F. unfold times at 2. cbn. rewrite R. cbn. lia.
  - destruct (find_attr (key_name (lookup_key x)) (cache s)) eqn:F; cbn [fst]; [reflexivity|].
    destruct (lookup_answer x) as [v|]; cbn [fst asked cache find_attr]; rewrite times_app.
    + rewrite E. unfold times at 2. cbn. rewrite E. cbn. lia.
    + unfold times at 2. cbn. rewrite E. cbn. lia.
Qed.
Theorem C101_asked_until_found l n : times n (asked (looks l)) = tries n l.
Proof. unfold looks. now rewrite asked_tries. Qed.
Theorem C101_in_tells_the_same s k answer :
  snd (contains k answer s) = true <-> exists v, snd (get_item k answer s) = Some v.
Proof.
  unfold contains. destruct (get_item k answer s) as [s' [v|]]; cbn; split; try easy; [eauto|intros [v E]; discriminate].
Qed.
Theorem C101_tuple_is_dotted s parts answer :
  get_item (KTuple parts) answer s = get_item (KName (join_dots parts)) answer s.
Proof. reflexivity. Qed.
Print Assumptions C101_alias_given.
Print Assumptions C101_class_name.
Print Assumptions C101_class_name_kept.
Print Assumptions C101_module_is_the_first_found.
Print Assumptions C101_asked_until_found.
Print Assumptions C101_in_tells_the_same.
Print Assumptions C101_tuple_is_dotted.
Example C101_case_names :
  service_name (L "FooService") [] = L "FOO" /\ service_name (L "Foobar") [L "foo"; L "bar"] = L "FOO" /\
  service_name (L "Calc") [] = L "CALC".
Proof. repeat split. Qed.
Example C101_case_modules :
  let l := [LIn (KName (L "os.path")) None; LGet (KTuple [L "os"; L "path"]) (Some 5); LGet (KName (L "os.path")) (Some 6);
            LGet (KName (L "sys")) None] in
  sees l (KName (L "os.path")) (Some 9) = Some 5 /\ asked (looks l) = [L "os.path"; L "os.path"; L "sys"].
Proof. split; reflexivity. Qed.
