(** * C53: results hold what was set, and can be rebuilt *)
From Coq Require Import String Ascii List Bool Arith NArith ZArith Lia.
From Verif Require Import ScanModel Rfc822Model Rfc822Proofs JsonModel IniModel IniProofs Utf8Model ResultModel ResultSpec.
Import ListNotations.
Local Open Scope nat_scope.
Local Open Scope list_scope.

Definition name_of (a : attr) : text :=
  match a with
  | A_outcome => T "outcome" | A_duration => T "execution_duration" | A_comments => T "comments"
  | A_return_code => T "return_code" | A_io_log => T "io_log" | A_filename => T "io_log_filename"
  end.
Definition field (a : attr) (b : builder) : option value :=
  match a with
  | A_outcome => b_outcome b | A_duration => b_duration b | A_comments => b_comments b
  | A_return_code => b_return_code b | A_io_log => b_io_log b | A_filename => b_filename b
  end.
Lemma attr_of_name a : attr_of (name_of a) = Some a.
Proof. destruct a; reflexivity. Qed.
Lemma attr_of_some k a : attr_of k = Some a -> k = name_of a.
Proof.
  unfold attr_of. intros H.
  repeat match type of H with (if ?c then _ else _) = _ => destruct c eqn:? end; try discriminate H; injection H as <-;
    match goal with E : text_eqb _ _ = true |- _ => apply text_eqb_eq in E; exact E end.
Qed.
Lemma attr_of_none k : attr_of k = None <-> ~ In k known.
Proof.
  split.
  - intros H. unfold known. intros I.
    assert (E : exists a, k = name_of a).
    { destruct I as [<-|[<-|[<-|[<-|[<-|[<-|[]]]]]]];
        [exists A_outcome|exists A_duration|exists A_comments|exists A_return_code|exists A_io_log|exists A_filename]; reflexivity. }
    destruct E as [a ->]. rewrite attr_of_name in H. discriminate.
  - intros N. destruct (attr_of k) as [a|] eqn:E; [|reflexivity]. apply attr_of_some in E as ->. exfalso. apply N.
    destruct a; unfold known; cbn [name_of In]; tauto.
Qed.
Lemma name_inj a a' : name_of a = name_of a' -> a = a'.
Proof. intros H. apply (f_equal attr_of) in H. rewrite !attr_of_name in H. now injection H. Qed.
Lemma holds_field b k v : holds b k v <-> exists a, k = name_of a /\ v = field a b.
Proof.
  split.
  - intros H. destruct H;
      [exists A_outcome|exists A_duration|exists A_comments|exists A_return_code|exists A_io_log|exists A_filename]; split; reflexivity.
  - intros (a & -> & ->). destruct a; constructor.
Qed.
Lemma holds_name b a v : holds b (name_of a) v <-> v = field a b.
Proof.
  rewrite holds_field. split; [|intros ->; eauto]. intros (a' & E & ->). now apply name_inj in E as <-.
Qed.

Definition ok_for (a : attr) : value -> bool :=
  match a with
  | A_outcome | A_comments | A_filename => is_str
  | A_duration => is_float
  | A_return_code => is_int
  | A_io_log => is_tuples
  end.
Lemma ok_allowed a v : ok_for a v = true <-> allowed (name_of a) v.
Proof.
  assert (Tup : forall l, forallb is_tuple l = true <-> forall v, In v l -> exists x, v = VTuple x).
  { intros l. rewrite forallb_forall. split.
    - intros H w I. specialize (H w I). destruct w; try discriminate. eauto.
    - intros H w I. destruct (H w I) as [x ->]. reflexivity. }
  split.
  - intros H. destruct a, v; try discriminate H; try constructor. apply Tup. exact H.
  - intros H. destruct a; inversion H; subst; try reflexivity. cbn. now apply Tup.
Qed.
Lemma set_attr_spec a v b :
  match set_attr a v b with
  | Some b' => check (ok_for a) v = true /\ field a b' = v /\ forall a', a' <> a -> field a' b' = field a' b
  | None => check (ok_for a) v = false
  end.
Proof.
  destruct b as [o d c r l f]. unfold set_attr.
  destruct a; unfold ok_for; match goal with |- context [check ?p v] => destruct (check p v) eqn:E end; auto;
    (split; [reflexivity|]); (split; [reflexivity|]); intros a' N; destruct a'; try congruence; reflexivity.
Qed.

(** ** Setting *)

Lemma last_set_cons k0 v0 kw k v :
  last_set ((k0, v0) :: kw) k v <-> last_set kw k v \/ k = k0 /\ v = v0 /\ ~ In k (map fst kw).
Proof.
  split.
  - intros (l1 & l2 & E & N). destruct l1 as [|x l1].
    + injection E as -> -> ->. right. auto.
    + injection E as _ ->. left. exists l1, l2. auto.
  - intros [(l1 & l2 & -> & N)|(-> & -> & N)].
    + exists ((k0, v0) :: l1), l2. auto.
    + exists [], kw. auto.
Qed.

Lemma setattr_all_spec kw : forall b,
  match setattr_all kw b with
  | Some b' =>
      (forall k v, In (k, Some v) kw -> In k known -> allowed k v) /\
      forall a, (forall v, last_set kw (name_of a) v -> field a b' = v) /\
                (~ In (name_of a) (map fst kw) -> field a b' = field a b)
  | None => exists k v, In (k, Some v) kw /\ In k known /\ ~ allowed k v
  end.
Proof.
  induction kw as [|[k0 v0] kw IH]; intros b; cbn [setattr_all].
  - split; [intros ? ? []|]. intros a. split; [|reflexivity]. intros v (l1 & l2 & E & _). destruct l1; discriminate.
  - unfold setattr_builder. destruct (attr_of k0) as [a0|] eqn:A.
    + pose proof (attr_of_some _ _ A) as K. pose proof (set_attr_spec a0 v0 b) as S. destruct (set_attr a0 v0 b) as [b1|].
      * destruct S as (S1 & S2 & S3). specialize (IH b1). destruct (setattr_all kw b1) as [b'|].
        -- destruct IH as [I1 I2]. split.
           ++ intros k v [E|I] Kn; [|eauto]. injection E as <- ->. subst k0. now apply ok_allowed.
           ++ intros a. destruct (I2 a) as [J1 J2]. split.
              ** intros v L. apply last_set_cons in L. destruct L as [L|(E & -> & N)]; [auto|].
                 rewrite (J2 N). subst k0. apply name_inj in E as ->. assumption.
              ** cbn [map fst In]. intros N. rewrite J2 by tauto. apply S3. intros ->. apply N. left. now symmetry.
        -- destruct IH as (k & v & I & X). exists k, v. split; [now right|assumption].
      * destruct v0 as [v0|]; [|discriminate S]. exists k0, v0. split; [now left|]. subst k0. split.
        -- destruct (in_dec (list_eq_dec ascii_dec) (name_of a0) known) as [I|I]; [assumption|].
           apply attr_of_none in I. congruence.
        -- intros X. apply ok_allowed in X. cbn in S. congruence.
    + specialize (IH b). destruct (setattr_all kw b) as [b'|].
      * destruct IH as [I1 I2]. split.
        -- intros k v [E|I] Kn; [|eauto]. injection E as <- ->. apply attr_of_none in A. contradiction.
        -- intros a. destruct (I2 a) as [J1 J2]. 
           assert (Ne : name_of a <> k0) by (intros E; rewrite <- E, attr_of_name in A; discriminate). split.
           ++ intros v L. apply last_set_cons in L. destruct L as [L|(E & _)]; [auto|contradiction].
           ++ cbn [map fst In]. intros N. apply J2. tauto.
      * destruct IH as (k & v & I & X). exists k, v. split; [now right|assumption].
Qed.

Lemma init_setattr data : forall b, (forall k, In k (map fst data) -> In k known) ->
  init_builder data b = setattr_all (map (fun kv => (fst kv, Some (snd kv))) data) b.
Proof.
  induction data as [|[k v] data IH]; intros b H; [reflexivity|]. cbn [init_builder map setattr_all fst snd]. unfold setattr_builder.
  destruct (attr_of k) as [a|] eqn:A; [|apply attr_of_none in A; exfalso; apply A, H; now left].
  destruct (set_attr a (Some v) b); [|reflexivity]. apply IH. intros k' I. apply H. now right.
Qed.
Lemma allowed_known k v : allowed k v -> In k known.
Proof. intros H. destruct H; unfold known; cbn [In]; tauto. Qed.
Lemma init_unknown data : forall b, ~ (forall k, In k (map fst data) -> In k known) -> init_builder data b = None.
Proof.
  induction data as [|[k v] data IH]; intros b H; [exfalso; apply H; intros k []|]. cbn [init_builder].
  destruct (attr_of k) as [a|] eqn:A; [|reflexivity]. destruct (set_attr a (Some v) b); [|reflexivity]. apply IH.
  intros X. apply H. cbn [map fst]. intros k' [<-|I]; [|auto].
  destruct (in_dec (list_eq_dec ascii_dec) k known) as [I|I]; [assumption|]. apply attr_of_none in I. congruence.
Qed.

Lemma last_set_data data k v : NoDup (map fst data) ->
  last_set (map (fun kv => (fst kv, Some (snd kv))) data) k v <-> exists w, v = Some w /\ tget k data = Some w.
Proof.
  induction data as [|[k0 v0] data IH]; intros N; cbn [map fst snd tget].
  - split; [intros (l1 & l2 & E & _); destruct l1; discriminate|]. intros (w & _ & H). discriminate.
  - inversion N as [|? ? Ni N']; subst. rewrite last_set_cons, IH by assumption.
    assert (M : map fst (map (fun kv : text * value => (fst kv, Some (snd kv))) data) = map fst data)
      by (rewrite map_map; reflexivity). rewrite M.
    destruct (text_eqb k k0) eqn:E.
    + apply text_eqb_eq in E as ->. split.
      * intros [(w & -> & H)|(_ & -> & _)]; [|eauto]. exfalso. apply Ni. apply tget_In in H.
        change k0 with (fst (k0, w)). now apply in_map.
      * intros (w & -> & H). injection H as <-. right. auto.
    + apply text_eqb_neq in E. split.
      * intros [(w & -> & H)|(-> & _)]; [eauto|congruence].
      * intros (w & -> & H). left. eauto.
Qed.

(** Assigning to a builder: it fails exactly if something that cannot be there is
    assigned, and afterwards holds the last assignments and otherwise what it held. *)
Theorem C53_assignments b kw :
  ((exists b', setattr_all kw b = Some b') <-> forall k v, In (k, Some v) kw -> In k known -> allowed k v) /\
  forall b', setattr_all kw b = Some b' -> forall k, In k known ->
    (forall v, last_set kw k v -> holds b' k v) /\
    (~ In k (map fst kw) -> forall v, holds b k v -> holds b' k v).
Proof.
  pose proof (setattr_all_spec kw b) as H. split.
  - destruct (setattr_all kw b) as [b'|].
    + split; [intros _; apply H|eauto].
    + split; [intros [? X]; discriminate|]. intros X. destruct H as (k & v & I & K & N). exfalso. apply N. auto.
  - intros b' E. rewrite E in H. destruct H as [_ H]. intros k K.
    destruct (attr_of k) as [a|] eqn:A; [|apply attr_of_none in A; contradiction]. apply attr_of_some in A as ->.
    destruct (H a) as [H1 H2]. split.
    + intros v L. apply holds_name. symmetry. auto.
    + intros N v L. apply holds_name in L. apply holds_name. rewrite H2 by assumption. assumption.
Qed.
Print Assumptions C53_assignments.

(** ** Results *)

Lemma tget_item k n v rest : tget k (item n v ++ rest) = match v with
  | Some v => if text_eqb k n then Some v else tget k rest | None => tget k rest end.
Proof. destruct v; reflexivity. Qed.

Lemma tget_as_dict b k : tget k (as_dict b) = match attr_of k with Some a => field a b | None => None end.
Proof.
  assert (N : forall n v rest, ~ In n (map fst rest) -> tget k (item n v ++ rest) = if text_eqb k n then v else tget k rest).
  { intros n v rest Ni. rewrite tget_item. destruct v; [reflexivity|]. destruct (text_eqb k n) eqn:E; [|reflexivity].
    apply text_eqb_eq in E as ->. destruct (tget n rest) eqn:G; [|reflexivity]. exfalso. apply Ni. apply tget_In in G.
    change n with (fst (n, v)). now apply in_map. }
  unfold as_dict, attr_of.
  rewrite <- (app_nil_r (item (T "io_log_filename") (b_filename b))).
  rewrite !N; [repeat match goal with |- context [if ?c then _ else _] => destruct c end; reflexivity|..];
    rewrite ?map_app, ?in_app_iff; destruct b as [[?|] [?|] [?|] [?|] [?|] [?|]]; vm_compute; intuition discriminate.
Qed.
Lemma NoDup_as_dict b : NoDup (map fst (as_dict b)).
Proof.
  destruct b as [[?|] [?|] [?|] [?|] [?|] [?|]]; unfold as_dict; cbn [item b_outcome b_duration b_comments b_return_code b_io_log b_filename app map fst];
    repeat constructor; vm_compute; intuition discriminate.
Qed.
Lemma tget_filter {A} (p : A -> bool) (d : tdict A) k : NoDup (map fst d) ->
  tget k (filter (fun kv => p (snd kv)) d) = match tget k d with Some v => if p v then Some v else None | None => None end.
Proof.
  induction d as [|[k0 v0] d IH]; intros N; [reflexivity|]. inversion N as [|? ? Ni N']; subst. cbn [filter snd tget].
  assert (Out : text_eqb k k0 = true -> tget k d = None).
  { intros E. apply text_eqb_eq in E as ->. destruct (tget k0 d) eqn:G; [|reflexivity]. exfalso. apply Ni. apply tget_In in G.
    change k0 with (fst (k0, a)). now apply in_map. }
  destruct (p v0) eqn:P; cbn [tget].
  - destruct (text_eqb k k0); [now rewrite P|auto].
  - destruct (text_eqb k k0); [|auto]. rewrite IH, Out by auto. now rewrite P.
Qed.
Lemma NoDup_filter_keys {A} (p : text * A -> bool) (d : tdict A) : NoDup (map fst d) -> NoDup (map fst (filter p d)).
Proof.
  induction d as [|[k v] d IH]; intros N; [constructor|]. inversion N as [|? ? Ni N']; subst. cbn [filter].
  destruct (p (k, v)); [|auto]. cbn [map fst]. constructor; [|auto]. intros X. apply Ni.
  apply in_map_iff in X as ([k' v'] & E & I). cbn in E. subst. apply filter_In in I as [I _].
  change k with (fst (k, v')). now apply in_map.
Qed.

Lemma get_data_made b c k : get_data (make_result c (as_dict b)) k =
  match attr_of k with Some a => substance (field a b) | None => None end.
Proof.
  unfold get_data, make_result. cbn [r_data].
  rewrite (tget_filter (fun v => negb (boring v))) by apply NoDup_as_dict. rewrite tget_as_dict. destruct (attr_of k) as [a|]; [|reflexivity].
  destruct (field a b) as [[| | | |[|]|]|]; reflexivity.
Qed.

(** A result can be made unless both a log and a log file were set; then it holds what the
    builder holds under every name, and nothing else. *)
Theorem C53_get_result b :
  (get_result b = None <-> b_io_log b <> None /\ b_filename b <> None) /\
  forall r, get_result b = Some r ->
    (r_class r = Disk <-> b_filename b <> None) /\
    (forall k v, holds b k v -> get_data r k = substance v) /\
    (forall k, ~ In k known -> get_data r k = None).
Proof.
  assert (Made : forall c, (forall k v, holds b k v -> get_data (make_result c (as_dict b)) k = substance v) /\
    (forall k, ~ In k known -> get_data (make_result c (as_dict b)) k = None)).
  { intros c. split.
    - intros k v H. apply holds_field in H as (a & -> & ->). now rewrite get_data_made, attr_of_name.
    - intros k N. apply attr_of_none in N. now rewrite get_data_made, N. }
  unfold get_result. destruct (b_filename b) as [f|], (b_io_log b) as [l|].
  - split; [split; [intros _; split; discriminate|reflexivity]|discriminate].
  - split; [split; [discriminate|intros [X _]; congruence]|]. intros r E. injection E as <-.
    split; [split; [intros _; discriminate|reflexivity]|apply Made].
  - split; [split; [discriminate|intros [_ X]; congruence]|]. intros r E. injection E as <-.
    split; [split; [discriminate|congruence]|apply Made].
  - split; [split; [discriminate|intros [_ X]; congruence]|]. intros r E. injection E as <-.
    split; [split; [discriminate|congruence]|apply Made].
Qed.
Print Assumptions C53_get_result.

Lemma holds_some b : forall k, In k known -> exists v, holds b k v.
Proof.
  intros k K. destruct (attr_of k) as [a|] eqn:A; [|apply attr_of_none in A; contradiction]. apply attr_of_some in A as ->.
  exists (field a b). now apply holds_name.
Qed.

(** The properties of the result. *)
Theorem C53_properties b r : get_result b = Some r ->
  r_outcome r = substance (b_outcome b) /\ r_duration r = substance (b_duration b) /\
  r_return_code r = substance (b_return_code b) /\ r_filename r = substance (b_filename b) /\
  r_io_log r = substance (b_io_log b).
Proof.
  intros E. destruct (C53_get_result b) as [_ H]. destruct (H r E) as (_ & A & _).
  repeat split; refine (A _ _ _); constructor.
Qed.
Print Assumptions C53_properties.

(** A result is hollow exactly if nothing was set. *)
Theorem C53_hollow b r : get_result b = Some r ->
  is_hollow r = true <-> forall k v, holds b k v -> substance v = None.
Proof.
  intros E. destruct (C53_get_result b) as [_ H]. destruct (H r E) as (_ & A & B). unfold is_hollow. split.
  - intros X k v Hk. specialize (A k v Hk). unfold get_data in A. destruct (r_data r); [now symmetry|discriminate].
  - intros X. destruct (r_data r) as [|[k v] d] eqn:D; [reflexivity|]. exfalso.
    assert (G : get_data r k = Some v) by (unfold get_data; rewrite D; cbn [tget]; now rewrite text_eqb_refl).
    destruct (in_dec (list_eq_dec ascii_dec) k known) as [K|K].
    + destruct (holds_some b k K) as [w W]. rewrite (A k w W), (X k w W) in G. discriminate.
    + rewrite (B k K) in G. discriminate.
Qed.
Print Assumptions C53_hollow.

(** ** Rebuilding *)

(** A builder can be made from a result exactly if all its data can be in one. *)
Theorem C53_get_builder r : NoDup (map fst (r_data r)) ->
  ((exists b, get_builder r [] = Some b) <-> forall k v, get_data r k = Some v -> allowed k v) /\
  forall b, get_builder r [] = Some b -> forall k, In k known -> holds b k (get_data r k).
Proof.
  intros N. unfold get_builder.
  set (kw := map (fun kv : text * value => (fst kv, Some (snd kv))) (r_data r)).
  assert (In_kw : forall k v, In (k, Some v) kw <-> get_data r k = Some v).
  { intros k v. unfold kw, get_data. rewrite in_map_iff. split.
    - intros ([k' v'] & E & I). injection E as <- <-. now apply In_tget.
    - intros G. exists (k, v). split; [reflexivity|]. now apply tget_In. }
  assert (Kn : (forall k v, get_data r k = Some v -> allowed k v) -> forall k, In k (map fst (r_data r)) -> In k known).
  { intros H k I. apply in_map_iff in I as ([k' v] & <- & I). cbn. apply (allowed_known k' v). apply H. now apply In_tget. }
  split.
  - split.
    + intros [b E]. destruct (init_builder (r_data r) empty_builder) as [b1|] eqn:I; [|discriminate].
      assert (K : forall k, In k (map fst (r_data r)) -> In k known).
      { intros k Ik. destruct (in_dec (list_eq_dec ascii_dec) k known) as [X|X]; [assumption|]. exfalso.
        rewrite (init_unknown (r_data r) empty_builder) in I; [discriminate|]. intros H. apply X. auto. }
      rewrite init_setattr in I by assumption. fold kw in I. destruct (C53_assignments empty_builder kw) as [[A _] _].
      intros k v G. apply A; [eauto|now apply In_kw|]. apply K. unfold get_data in G. apply tget_In in G.
      change k with (fst (k, v)). now apply in_map.
    + intros H. rewrite init_setattr by auto. fold kw. destruct (C53_assignments empty_builder kw) as [[_ A] _].
      destruct A as [b E]; [intros k v I _; apply H; now apply In_kw|]. rewrite E. cbn. eauto.
  - intros b E k K. destruct (init_builder (r_data r) empty_builder) as [b1|] eqn:I; [|discriminate]. cbn in E. injection E as <-.
    assert (Ks : forall k, In k (map fst (r_data r)) -> In k known).
    { intros k' Ik. destruct (in_dec (list_eq_dec ascii_dec) k' known) as [X|X]; [assumption|]. exfalso.
      rewrite (init_unknown (r_data r) empty_builder) in I; [discriminate|]. intros H. apply X. auto. }
    rewrite init_setattr in I by assumption. fold kw in I. destruct (C53_assignments empty_builder kw) as [_ A].
    destruct (A b1 I k K) as [A1 A2]. destruct (get_data r k) as [v|] eqn:G.
    + apply A1. unfold kw. apply last_set_data; [assumption|]. exists v. auto.
    + apply A2.
      * intros X. apply in_map_iff in X as ([k' [v|]] & <- & X); [apply In_kw in X; cbn in G; congruence|].
        unfold kw in X. apply in_map_iff in X as (? & X & _). discriminate.
      * destruct (attr_of k) as [a|] eqn:At; [|apply attr_of_none in At; contradiction]. apply attr_of_some in At as ->.
        apply holds_name. destruct a; reflexivity.
Qed.
Print Assumptions C53_get_builder.

(** With keyword arguments: they replace what the result has, and nothing else changes. *)
Theorem C53_get_builder_with r kw : NoDup (map fst (r_data r)) ->
  ((exists b, get_builder r kw = Some b) <->
     (forall k v, get_data r k = Some v -> allowed k v) /\ forall k v, In (k, Some v) kw -> In k known -> allowed k v) /\
  forall b, get_builder r kw = Some b -> forall k, In k known ->
    (forall v, last_set kw k v -> holds b k v) /\ (~ In k (map fst kw) -> holds b k (get_data r k)).
Proof.
  intros N. destruct (C53_get_builder r N) as [G1 G2].
  assert (E : get_builder r kw = match get_builder r [] with Some b => setattr_all kw b | None => None end).
  { unfold get_builder. destruct (init_builder (r_data r) empty_builder); reflexivity. }
  rewrite E. destruct (get_builder r []) as [b0|].
  - destruct (C53_assignments b0 kw) as [A1 A2]. split.
    + rewrite A1. split; [|tauto]. intros H. split; [|assumption]. apply G1. eauto.
    + intros b Eb k K. destruct (A2 b Eb k K) as [B1 B2]. split; [assumption|]. intros Ni. apply B2; auto.
  - split; [|discriminate]. split; [intros [? X]; discriminate|]. intros [H _]. apply G1 in H as [? X]. discriminate.
Qed.
Print Assumptions C53_get_builder_with.

(** A result that a builder made can be taken apart and made again: the same class, the
    same data. *)
Theorem C53_rebuild b r : well_typed b -> get_result b = Some r ->
  exists b' r', get_builder r [] = Some b' /\ get_result b' = Some r' /\ r_class r' = r_class r /\ same_data (r_data r') (r_data r).
Proof.
  intros W E. destruct (C53_get_result b) as [_ H]. destruct (H r E) as (C & A & B).
  assert (N : NoDup (map fst (r_data r))).
  { unfold get_result in E. destruct (b_filename b), (b_io_log b); try discriminate E; injection E as <-;
      apply NoDup_filter_keys, NoDup_as_dict. }
  destruct (C53_get_builder r N) as [G1 G2].
  assert (Al : forall k v, get_data r k = Some v -> allowed k v).
  { intros k v G. destruct (in_dec (list_eq_dec ascii_dec) k known) as [K|K].
    - destruct (holds_some b k K) as [w Hw]. rewrite (A k w Hw) in G. destruct w as [w|]; [|discriminate].
      apply W. replace v with w; [assumption|]. destruct w as [| | | |[|]|]; cbn in G; congruence.
    - rewrite (B k K) in G. discriminate. }
  destruct (proj2 G1 Al) as [b' Eb]. exists b'. specialize (G2 b' Eb).
  assert (Fn : b_filename b' = substance (b_filename b)).
  { assert (X : holds b' (T "io_log_filename") (get_data r (T "io_log_filename"))) by (apply G2; unfold known; cbn [In]; tauto).
    apply (holds_name b' A_filename) in X. cbn [field] in X. rewrite <- X. apply (A (T "io_log_filename")). constructor. }
  assert (Lg : b_io_log b' = substance (b_io_log b)).
  { assert (X : holds b' (T "io_log") (get_data r (T "io_log"))) by (apply G2; unfold known; cbn [In]; tauto).
    apply (holds_name b' A_io_log) in X. cbn [field] in X. rewrite <- X. apply (A (T "io_log")). constructor. }
  assert (Fs : b_filename b <> None <-> b_filename b' <> None).
  { rewrite Fn. destruct (b_filename b) as [f|] eqn:F; [|cbn; tauto].
    assert (al : allowed (T "io_log_filename") f) by (apply W; rewrite <- F; constructor).
    assert (S : exists t, f = VStr t) by (apply (ok_allowed A_filename) in al; destruct f; try discriminate; eauto).
    destruct S as [t ->]. cbn. split; intros; discriminate. }
  destruct (C53_get_result b') as [R1 R2]. destruct (get_result b') as [r'|] eqn:Er.
  - exists r'. split; [assumption|]. split; [reflexivity|]. destruct (R2 r' eq_refl) as (C' & A' & B'). split.
    + destruct (r_class r) eqn:Rc, (r_class r') eqn:Rc'; try reflexivity; exfalso.
      * assert (X : Memory = Disk) by (apply C; apply Fs; apply C'; reflexivity). discriminate X.
      * assert (X : Memory = Disk) by (apply C'; apply Fs; apply C; reflexivity). discriminate X.
    + intros k. change (get_data r' k = get_data r k). destruct (in_dec (list_eq_dec ascii_dec) k known) as [K|K].
      * specialize (G2 k K). rewrite (A' k _ G2). destruct (holds_some b k K) as [w Hw]. rewrite (A k w Hw).
        destruct w as [[| | | |[|]|]|]; reflexivity.
      * now rewrite (B k K), (B' k K).
  - exfalso. destruct R1 as [R1 _]. destruct (R1 eq_refl) as [X Y]. apply Fs in Y.
    assert (Z : b_io_log b <> None) by (intros Z; rewrite Lg, Z in X; now apply X).
    destruct (C53_get_result b) as [[_ Q] _]. rewrite (Q (conj Z Y)) in E. discriminate.
Qed.
Print Assumptions C53_rebuild.

(** Builders only get what they may hold. *)
Theorem C53_builders_are_well_typed kw b : setattr_all kw empty_builder = Some b -> well_typed b.
Proof.
  intros E k v H. apply holds_field in H as (a & -> & H).
  destruct (C53_assignments empty_builder kw) as [[A _] B]. specialize (B b E (name_of a)).
  assert (K : In (name_of a) known) by (destruct a; unfold known; cbn [name_of In]; tauto). destruct (B K) as [B1 B2].
  destruct (in_dec (list_eq_dec ascii_dec) (name_of a) (map fst kw)) as [I|I].
  - assert (L : exists w, last_set kw (name_of a) w).
    { clear -I. induction kw as [|[k w] kw IH]; [destruct I|].
      destruct (in_dec (list_eq_dec ascii_dec) (name_of a) (map fst kw)) as [J|J].
      - destruct (IH J) as [x X]. exists x. apply last_set_cons. auto.
      - destruct I as [I|I]; [|contradiction]. cbn in I. exists w. apply last_set_cons. right. auto. }
    destruct L as [w L]. specialize (B1 w L). apply holds_name in B1. rewrite <- H in B1. subst w.
    destruct L as (l1 & l2 & -> & _). apply A; [eauto| |assumption]. apply in_app_iff. right. now left.
  - specialize (B2 I None). assert (X : holds empty_builder (name_of a) None) by (apply holds_name; destruct a; reflexivity).
    apply B2, holds_name in X. congruence.
Qed.
Print Assumptions C53_builders_are_well_typed.

(** ** Comments *)

Fixpoint add_comments (l : list ustr) (b : builder) : option builder :=
  match l with [] => Some b | c :: r => match add_comment c b with Some b' => add_comments r b' | None => None end end.

Lemma add_comments_more l : forall b t, b_comments b = Some (VStr t) ->
  exists b', add_comments l b = Some b' /\ b_comments b' = Some (VStr (joined t l)) /\
    forall k v, k <> T "comments" -> holds b k v -> holds b' k v.
Proof.
  induction l as [|c l IH]; intros b t H; cbn [add_comments joined].
  - exists b. auto.
  - unfold add_comment. rewrite H. pose proof (set_attr_spec A_comments (Some (VStr (t ++ NEWLINE :: c))) b) as S.
    destruct (set_attr A_comments (Some (VStr (t ++ NEWLINE :: c))) b) as [b1|]; [|discriminate S].
    destruct S as (_ & S1 & S2). destruct (IH b1 _ S1) as (b' & E & F & G). exists b'. split; [assumption|]. split; [assumption|].
    intros k v N X. apply G; [assumption|]. apply holds_field in X as (a & -> & ->). apply holds_name. symmetry. apply S2.
    intros ->. now apply N.
Qed.

(** Comments are kept in order, each on lines of its own, and nothing else changes. *)
Theorem C53_comments_add_up b c l : b_comments b = None ->
  exists b', add_comments (c :: l) b = Some b' /\ b_comments b' = Some (VStr (joined c l)) /\
    forall k v, k <> T "comments" -> holds b k v -> holds b' k v.
Proof.
  intros H. cbn [add_comments]. unfold add_comment. rewrite H.
  pose proof (set_attr_spec A_comments (Some (VStr c)) b) as S.
  destruct (set_attr A_comments (Some (VStr c)) b) as [b1|]; [|discriminate S]. destruct S as (_ & S1 & S2).
  destruct (add_comments_more l b1 c S1) as (b' & E & F & G). exists b'. split; [assumption|]. split; [assumption|].
  intros k v N X. apply G; [assumption|]. apply holds_field in X as (a & -> & ->). apply holds_name. symmetry. apply S2.
  intros ->. now apply N.
Qed.
Print Assumptions C53_comments_add_up.

(** Escape sequences *)
Lemma param_spec c : param c = true <-> (48 <= c <= 63)%N.
Proof. unfold param. rewrite andb_true_iff, !N.leb_le. tauto. Qed.
Lemma inter_spec c : inter c = true <-> (32 <= c <= 47)%N.
Proof. unfold inter. rewrite andb_true_iff, !N.leb_le. tauto. Qed.
Lemma final_spec c : final c = true <-> (64 <= c <= 126)%N.
Proof. unfold final. rewrite andb_true_iff, !N.leb_le. tauto. Qed.

Definition tail (q : ustr) (f : N) : Prop := Forall (fun c => 32 <= c <= 47)%N q /\ (64 <= f <= 126)%N.
Lemma match_inter_spec t : forall n, match_inter t = Some n <-> exists q f r, t = q ++ f :: r /\ tail q f /\ n = S (length q).
Proof.
  induction t as [|c t IH]; intros n; cbn [match_inter].
  - split; [discriminate|]. intros (q & f & r & E & _). destruct q; discriminate.
  - destruct (inter c) eqn:I.
    + apply inter_spec in I. split.
      * destruct (match_inter t) as [m|]; [|discriminate]. intros E. injection E as <-.
        destruct (proj1 (IH m) eq_refl) as (q & f & r & -> & [Fq Ff] & ->). exists (c :: q), f, r. repeat split; auto; apply Ff.
      * intros (q & f & r & E & [Fq Ff] & ->). destruct q as [|c' q].
        -- injection E as -> ->. lia.
        -- injection E as -> ->. inversion Fq; subst. assert (X : match_inter (q ++ f :: r) = Some (S (length q))).
           { apply IH. exists q, f, r. repeat split; auto; apply Ff. } rewrite X. reflexivity.
    + assert (I' : ~ (32 <= c <= 47)%N) by (intros X; apply inter_spec in X; congruence). destruct (final c) eqn:F.
      * apply final_spec in F. split.
        -- intros E. injection E as <-. exists [], c, t. repeat split; auto; apply F.
        -- intros (q & f & r & E & [Fq Ff] & ->). destruct q as [|c' q]; [reflexivity|]. injection E as -> ->. inversion Fq; subst. lia.
      * split; [discriminate|]. intros (q & f & r & E & [Fq Ff] & ->). destruct q as [|c' q].
        -- injection E as -> ->. apply final_spec in Ff. congruence.
        -- injection E as -> ->. inversion Fq; subst. lia.
Qed.
Lemma match_param_spec t : forall n, match_param t = Some n <->
  exists p q f r, t = p ++ q ++ f :: r /\ Forall (fun c => 48 <= c <= 63)%N p /\ tail q f /\ n = length p + S (length q).
Proof.
  induction t as [|c t IH]; intros n; cbn [match_param].
  - split; [discriminate|]. intros (p & q & f & r & E & _). destruct p; [destruct q|]; discriminate.
  - destruct (param c) eqn:P.
    + apply param_spec in P. split.
      * destruct (match_param t) as [m|]; [|discriminate]. intros E. injection E as <-.
        destruct (proj1 (IH m) eq_refl) as (p & q & f & r & -> & Fp & Fq & ->). exists (c :: p), q, f, r. repeat split; auto; apply Fq.
      * intros (p & q & f & r & E & Fp & Fq & ->). destruct p as [|c' p].
        -- exfalso. destruct Fq as [Fq Ff]. destruct q as [|c' q]; injection E as -> ->; [lia|]. inversion Fq; subst. lia.
        -- injection E as -> ->. inversion Fp; subst. assert (X : match_param (p ++ q ++ f :: r) = Some (length p + S (length q))).
           { apply IH. exists p, q, f, r. repeat split; auto; apply Fq. } rewrite X. reflexivity.
    + assert (P' : ~ (48 <= c <= 63)%N) by (intros X; apply param_spec in X; congruence).
      rewrite match_inter_spec. split.
      * intros (q & f & r & E & Fq & ->). exists [], q, f, r. repeat split; auto; apply Fq.
      * intros (p & q & f & r & E & Fp & Fq & ->). destruct p as [|c' p].
        -- exists q, f, r. auto.
        -- injection E as -> ->. inversion Fp; subst. lia.
Qed.
Lemma match_escape_spec t n : match_escape t = Some n <-> exists x r, t = x ++ r /\ csi x /\ n = length x.
Proof.
  assert (Two : forall r m, match_param r = Some m <-> exists x y, r = x ++ y /\ m = length x /\
     exists p q f, x = p ++ q ++ [f] /\ Forall (fun c => 48 <= c <= 63)%N p /\ Forall (fun c => 32 <= c <= 47)%N q /\ (64 <= f <= 126)%N).
  { intros r m. rewrite match_param_spec. split.
    - intros (p & q & f & y & -> & Fp & [Fq Ff] & ->). exists (p ++ q ++ [f]), y. split; [now rewrite <- !app_assoc|].
      split; [rewrite !app_length; cbn; lia|]. exists p, q, f. auto.
    - intros (x & y & -> & -> & p & q & f & -> & Fp & Fq & Ff). exists p, q, f, y. split; [now rewrite <- !app_assoc|].
      split; [assumption|]. split; [split; assumption|]. rewrite !app_length. cbn. lia. }
  split.
  - destruct t as [|c t]; [discriminate|]. cbn [match_escape]. destruct (N.eqb_spec c 155) as [->|_].
    + destruct (match_param t) as [m|] eqn:M; [|discriminate]. intros E. injection E as <-. apply Two in M as (x & y & -> & -> & p & q & f & -> & Fs).
      exists (155%N :: p ++ q ++ [f]), y. split; [reflexivity|]. split; [|reflexivity]. exists [155%N], p, q, f. split; [reflexivity|]. split; [constructor|assumption].
    + destruct (N.eqb_spec c 27) as [->|_]; [|discriminate]. destruct t as [|d t]; [discriminate|].
      destruct (N.eqb_spec d 91) as [->|_]; [|discriminate].
      destruct (match_param t) as [m|] eqn:M; [|discriminate]. intros E. injection E as <-. apply Two in M as (x & y & -> & -> & p & q & f & -> & Fs).
      exists (27%N :: 91%N :: p ++ q ++ [f]), y. split; [reflexivity|]. split; [|reflexivity]. exists [27%N; 91%N], p, q, f. split; [reflexivity|]. split; [constructor|assumption].
  - intros (x & r & -> & (i & p & q & f & -> & Ci & Fs) & ->).
    assert (M : match_param ((p ++ q ++ [f]) ++ r) = Some (length (p ++ q ++ [f]))).
    { apply Two. exists (p ++ q ++ [f]), r. split; [reflexivity|]. split; [reflexivity|]. exists p, q, f. auto. }
    destruct Ci.
    + cbn [app match_escape]. change (N.eqb 155 155) with true. cbv iota. rewrite M. reflexivity.
    + cbn [app match_escape]. change (N.eqb 27 155) with false. change (N.eqb 27 27) with true. change (N.eqb 91 91) with true. cbv iota.
      rewrite M. reflexivity.
Qed.
Lemma csi_unique x r x' r' : csi x -> csi x' -> x ++ r = x' ++ r' -> x = x' /\ r = r'.
Proof.
  intros A B E. assert (M : match_escape (x ++ r) = Some (length x)) by (apply match_escape_spec; eauto).
  assert (M' : match_escape (x' ++ r') = Some (length x')) by (apply match_escape_spec; eauto).
  rewrite E, M' in M. injection M as L. split.
  - apply (f_equal (firstn (length x))) in E. rewrite !firstn_app, firstn_all, <- L, firstn_all, Nat.sub_diag in E.
    cbn [firstn] in E. now rewrite !app_nil_r in E.
  - apply (f_equal (skipn (length x))) in E. rewrite !skipn_app, skipn_all, <- L, skipn_all, Nat.sub_diag in E. exact E.
Qed.
Lemma csi_not_nil x : csi x -> x <> [].
Proof. intros (i & p & q & f & -> & C & _). destruct C; discriminate. Qed.

Lemma remove_skip t : forall n, remove_escapes n t = remove_escapes 0 (skipn n t).
Proof. induction t as [|c t IH]; intros [|n]; try reflexivity. cbn [remove_escapes skipn]. apply IH. Qed.

Lemma remove_sanitised : forall n t, length t <= n -> sanitised t (remove_escapes 0 t).
Proof.
  induction n as [|n IH]; intros t L.
  - destruct t; [constructor|cbn in L; lia].
  - destruct t as [|c t]; [constructor|]. cbn [remove_escapes]. destruct (match_escape (c :: t)) as [m|] eqn:M.
    + pose proof M as M'. apply match_escape_spec in M' as (x & r & E & C & ->). rewrite remove_skip.
      destruct x as [|c' x]; [now apply csi_not_nil in C|]. injection E as <- ->. cbn [length].
      replace (S (length x) - 1) with (length x) by lia. rewrite skipn_app, skipn_all, Nat.sub_diag. cbn [app skipn].
      change (c :: x ++ r) with ((c :: x) ++ r). apply san_skip; [assumption|]. apply IH. cbn [length] in L. rewrite app_length in L. lia.
    + apply san_keep; [|apply IH; cbn in L; lia]. intros x r E C.
      assert (X : match_escape (c :: t) = Some (length x)) by (apply match_escape_spec; eauto). congruence.
Qed.
Lemma sanitised_fun t u : sanitised t u -> forall u', sanitised t u' -> u = u'.
Proof.
  induction 1 as [|x t u C S IH|c t u N S IH]; intros u' S'.
  - inversion S' as [|x t0 u0 C S0 E|]; subst; [reflexivity|]. apply app_eq_nil in E as [E _]. now apply csi_not_nil in C.
  - inversion S' as [E|x' t' u0 C' S0 E|c' t' u0 N' S0 E]; subst.
    + symmetry in E. apply app_eq_nil in E as [E _]. now apply csi_not_nil in C.
    + destruct (csi_unique _ _ _ _ C' C E) as [-> ->]. auto.
    + exfalso. now apply (N' x t E).
  - inversion S' as [E|x' t' u0 C' S0 E|c' t' u0 N' S0 E]; subst.
    + exfalso. symmetry in E. now apply (N x' t').
    + f_equal. auto.
Qed.

(** The comments of a result are those that were set, without the escape sequences. *)
Theorem C53_comments_are_sanitised b r t : get_result b = Some r -> b_comments b = Some (VStr t) ->
  exists u, r_comments r = Some (VStr u) /\ sanitised t u /\ forall u', sanitised t u' -> u' = u.
Proof.
  intros E H. destruct (C53_get_result b) as [_ G]. destruct (G r E) as (_ & A & _). specialize (A (T "comments") _ (h_comments b)).
  unfold r_comments. rewrite A, H. cbn [substance]. exists (remove_escapes 0 t). split; [reflexivity|].
  pose proof (remove_sanitised _ t (le_n _)) as S. split; [assumption|]. intros u' S'. now apply (sanitised_fun t).
Qed.
Print Assumptions C53_comments_are_sanitised.

(** Text without escape characters is left alone. *)
Theorem C53_plain_comments_stay b r t : get_result b = Some r -> b_comments b = Some (VStr t) ->
  ~ In 27%N t -> ~ In 155%N t -> r_comments r = Some (VStr t).
Proof.
  intros E H N1 N2. destruct (C53_comments_are_sanitised b r t E H) as (u & -> & S & U). f_equal. f_equal. symmetry. apply U.
  clear -N1 N2. induction t as [|c t IH]; [constructor|]. apply san_keep.
  - intros x r' Eq (i & p & q & f & -> & C & _). destruct C; injection Eq as -> _; [apply N2|apply N1]; now left.
  - apply IH; intros X; [apply N1|apply N2]; now right.
Qed.
Print Assumptions C53_plain_comments_stay.

(** ** Findings *)

Definition comment_builder (t : ustr) : builder := mk_builder None None (Some (VStr t)) None None None.

(** Sanitising can make an escape sequence out of what is left. *)
Theorem C53_sanitised_once_is_enough_refuted :
  exists t u, sanitised t u /\ csi u.
Proof.
  exists [27%N; 27%N; 91%N; 65%N; 91%N; 65%N], [27%N; 91%N; 65%N]. split.
  - apply (remove_sanitised 6 [27%N; 27%N; 91%N; 65%N; 91%N; 65%N]). cbn. lia.
  - exists [27%N; 91%N], [], [], 65%N. repeat split; try constructor; lia.
Qed.
Print Assumptions C53_sanitised_once_is_enough_refuted.

(** Control characters stay in comments. *)
Theorem C53_comments_have_no_controls_refuted :
  exists r, get_result (comment_builder [7%N]) = Some r /\ r_comments r = Some (VStr [7%N]).
Proof. eexists. split; reflexivity. Qed.
Print Assumptions C53_comments_have_no_controls_refuted.

(** An argument of get_builder that is misspelt is ignored. *)
Theorem C53_misspelt_argument_refuted :
  exists r b, get_builder r [(T "outcom", Some (VStr [112%N]))] = Some b /\ get_builder r [] = Some b.
Proof. exists (mk_result Memory []), empty_builder. split; reflexivity. Qed.
Print Assumptions C53_misspelt_argument_refuted.

(** A disk result without a log file comes back as a memory result, and a duration that is
    an integer makes get_builder raise. *)
Theorem C53_any_result_rebuilds_refuted :
  (exists r b r', get_builder r [] = Some b /\ get_result b = Some r' /\ r_class r' <> r_class r) /\
  (exists r, r_data r = [(T "execution_duration", VInt 1)] /\ get_builder r [] = None).
Proof.
  split.
  - exists (mk_result Disk []), empty_builder, (mk_result Memory []). repeat split. discriminate.
  - exists (mk_result Memory [(T "execution_duration", VInt 1)]). split; reflexivity.
Qed.
Print Assumptions C53_any_result_rebuilds_refuted.

(** ** Examples *)

Definition some_builder : builder :=
  mk_builder (Some (VStr [112%N])) (Some (VFloat (T "1.5"))) (Some (VStr [72%N; 27%N; 91%N; 49%N; 109%N; 105%N])) (Some (VInt 0)) (Some (VList [])) None.
Example some_builder_typed : well_typed some_builder.
Proof. intros k v H. inversion H; subst; constructor. intros ? []. Qed.
Example some_result : get_result some_builder =
  Some (mk_result Memory [(T "outcome", VStr [112%N]); (T "execution_duration", VFloat (T "1.5"));
     (T "comments", VStr [72%N; 27%N; 91%N; 49%N; 109%N; 105%N]); (T "return_code", VInt 0)]).
Proof. reflexivity. Qed.
Example some_comments : forall r, get_result some_builder = Some r -> r_comments r = Some (VStr [72%N; 105%N]).
Proof. intros r E. injection E as <-. reflexivity. Qed.
