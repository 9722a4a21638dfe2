(** * Installing providers: file system lemmas *)
From Coq Require Import String Ascii List Bool Arith Lia.
From Verif Require Import ScanModel Rfc822Model Rfc822Spec Rfc822Proofs IniModel ConfigModel ConfigSpec PluginModel ProviderModel ProvdefModel ProvdefSpec InstallModel InstallSpec.
Import ListNotations.
Local Open Scope nat_scope.
Local Open Scope list_scope.

(** ** Components *)

Lemma pieces_app cur a b : pieces cur (a ++ SL :: b) = pieces cur a ++ pieces [] b.
Proof.
  revert cur. induction a as [|c a IH]; intros cur; cbn [app pieces].
  - now rewrite Ascii.eqb_refl.
  - destruct (Ascii.eqb c SL); [cbn [app]; now rewrite IH|apply IH].
Qed.
Lemma comps_app a b : comps (a ++ SL :: b) = comps a ++ comps b.
Proof. unfold comps. now rewrite pieces_app, filter_app. Qed.
Lemma pieces_one cur c : ~ In SL c -> pieces cur c = [rev cur ++ c].
Proof.
  revert cur. induction c as [|x c IH]; intros cur N; cbn [pieces]; [now rewrite app_nil_r|].
  destruct (Ascii.eqb_spec x SL) as [->|D]; [exfalso; apply N; now left|]. rewrite IH by (intros I; apply N; now right).
  cbn [rev]. now rewrite <- app_assoc.
Qed.
Lemma comps_one c : c <> [] -> ~ In SL c -> comps c = [c].
Proof. intros NE N. unfold comps. rewrite pieces_one by exact N. cbn. destruct c; [congruence|reflexivity]. Qed.

(** A component of a path *)
Definition component (c : text) : Prop := c <> [] /\ ~ In SL c.
Lemma comps_path prefix cs : Forall component cs -> comps (path prefix cs) = comps prefix ++ cs.
Proof.
  unfold path. revert prefix. induction cs as [|c cs IH]; intros prefix F; cbn [map concat]; [now rewrite !app_nil_r|].
  inversion F as [|? ? [NE N] F']; subst. cbn [app]. rewrite comps_app.
  specialize (IH c F'). rewrite IH. rewrite (comps_one c) by assumption. reflexivity.
Qed.

(** ** Below *)

Lemma below_spec d p r : below d p = Some r <-> p = d ++ r.
Proof.
  revert p. induction d as [|a d IH]; intros p; cbn [below app].
  - split; [intros E; injection E as <-; reflexivity|intros ->; reflexivity].
  - destruct p as [|b p]; [split; [discriminate|intros E; discriminate]|]. destruct (text_eqb a b) eqn:E.
    + apply text_eqb_eq in E as ->. rewrite IH. split; [intros ->; reflexivity|intros H; now injection H].
    + split; [discriminate|]. intros H. injection H as -> _. now rewrite text_eqb_refl in E.
Qed.
Lemma below_app d r : below d (d ++ r) = Some r.
Proof. now apply below_spec. Qed.
Lemma below_common c a b : below (c ++ a) (c ++ b) = below a b.
Proof.
  induction c as [|x c IH]; [reflexivity|]. cbn [app below]. now rewrite text_eqb_refl.
Qed.

Lemma apart_sym a b : apart a b -> apart b a.
Proof. intros [A B]. now split. Qed.
Lemma apart_common c a b : apart (c ++ a) (c ++ b) <-> apart a b.
Proof. unfold apart. now rewrite !below_common. Qed.
Lemma apart_heads a b x y : a <> b -> apart (a :: x) (b :: y).
Proof.
  intros N. split; cbn [below].
  - destruct (text_eqb a b) eqn:E; [apply text_eqb_eq in E; congruence|reflexivity].
  - destruct (text_eqb b a) eqn:E; [apply text_eqb_eq in E; congruence|reflexivity].
Qed.
Lemma apart_next a x y : apart x y -> apart (a :: x) (a :: y).
Proof. intros H. now apply (apart_common [a]). Qed.
Lemma below_none d p : below d p = None <-> forall r, p <> d ++ r.
Proof.
  split.
  - intros H r ->. now rewrite below_app in H.
  - intros H. destruct (below d p) as [r|] eqn:E; [|reflexivity]. apply below_spec in E. now destruct (H r).
Qed.

(** ** Things put on a file system *)

(** What is put, at several places apart from each other *)
Definition things := list (list text * (list text -> option node)).
Fixpoint thing_at (l : things) (p : list text) : option (option node) :=
  match l with
  | [] => None
  | (d, c) :: r => match below d p with Some x => Some (c x) | None => thing_at r p end
  end.
Definition above_thing (l : things) (p : list text) : bool :=
  existsb (fun e => match below p (fst e) with Some _ => true | None => false end) l.
Definition or_dir (n : option node) : option node := match n with Some n => Some n | None => Some Dir end.
Definition overlay (l : things) (f : fs) : fs :=
  fun p => match thing_at l p with
           | Some n => n
           | None => if above_thing l p then or_dir (f p) else f p
           end.

Definition all_apart (l : things) (d : list text) : Prop := forall e, In e l -> apart (fst e) d.
Lemma thing_at_apart l d : all_apart l d -> forall x, thing_at l (d ++ x) = None.
Proof.
  induction l as [|[e c] l IH]; intros A x; [reflexivity|]. cbn [thing_at]. destruct (A (e, c) (or_introl eq_refl)) as [B C]. cbn [fst] in B, C.
  destruct (below e (d ++ x)) as [r|] eqn:E.
  - apply below_spec in E. exfalso. (* d ++ x = e ++ r: one is a prefix of the other *)
    destruct (le_lt_dec (length e) (length d)) as [L|L].
    + assert (H : d = e ++ skipn (length e) d).
      { assert (F : firstn (length e) d = e).
        { transitivity (firstn (length e) (d ++ x)); [|rewrite E; now rewrite firstn_app, firstn_all, Nat.sub_diag, firstn_O, app_nil_r].
          rewrite firstn_app. replace (length e - length d) with 0 by lia. now rewrite firstn_O, app_nil_r. }
        rewrite <- F at 1. now rewrite firstn_skipn. }
      rewrite H in B. now rewrite below_app in B.
    + assert (H : e = d ++ skipn (length d) e).
      { assert (F : firstn (length d) e = d).
        { transitivity (firstn (length d) (e ++ r)).
          - rewrite firstn_app. replace (length d - length e) with 0 by lia. now rewrite firstn_O, app_nil_r.
          - rewrite <- E. now rewrite firstn_app, firstn_all, Nat.sub_diag, firstn_O, app_nil_r. }
        rewrite <- F at 1. now rewrite firstn_skipn. }
      rewrite H in C. now rewrite below_app in C.
  - apply IH. intros y Y. apply A. now right.
Qed.
(** Two paths with a common path below them are one below the other *)
Lemma common_below (a b x y : list text) : a ++ x = b ++ y -> below a b <> None \/ below b a <> None.
Proof.
  intros E. destruct (below a b) as [r|] eqn:A; [left; discriminate|]. destruct (below b a) as [r|] eqn:B; [right; discriminate|].
  assert (H : thing_at [(a, fun _ : list text => @None node)] (b ++ y) = None).
  { apply thing_at_apart. intros e [<-|[]]. now split. }
  cbn [thing_at] in H. rewrite <- E, below_app in H. discriminate.
Qed.
Lemma overlay_at l d c f x : In (d, c) l -> (forall e, In e l -> e = (d, c) \/ apart (fst e) d) -> overlay l f (d ++ x) = c x.
Proof.
  intros I A. unfold overlay. enough (H : thing_at l (d ++ x) = Some (c x)) by now rewrite H.
  induction l as [|[e c'] l IH]; [destruct I|]. cbn [thing_at]. destruct (A (e, c') (or_introl eq_refl)) as [Q|Q].
  - injection Q as -> ->. now rewrite below_app.
  - cbn [fst] in Q. destruct (below e (d ++ x)) as [r|] eqn:E.
    + apply below_spec in E. destruct (common_below d e x r E) as [B|B]; destruct Q; contradiction.
    + destruct I as [I|I]; [injection I as -> ->; destruct Q as [Q _]; rewrite <- (app_nil_r d) in Q at 2; now rewrite below_app in Q|].
      apply IH; [exact I|]. intros y Y. apply A. now right.
Qed.
Lemma above_apart l p : all_apart l p -> above_thing l p = false.
Proof.
  induction l as [|e l IH]; intros A; [reflexivity|]. cbn [above_thing existsb]. destruct (A e (or_introl eq_refl)) as [_ B]. rewrite B.
  apply IH. intros y Y. apply A. now right.
Qed.
Lemma apart_below a d x : apart a d -> apart a (d ++ x).
Proof.
  intros [A B]. split; apply below_none; intros r E.
  - destruct (common_below d a x r E) as [C|C]; contradiction.
  - rewrite E, <- app_assoc in B. now rewrite below_app in B.
Qed.
Lemma overlay_apart l p f : all_apart l p -> overlay l f p = f p.
Proof.
  intros A. unfold overlay. pose proof (thing_at_apart l p A []) as H. rewrite app_nil_r in H. rewrite H. now rewrite above_apart.
Qed.
(** A directory above some thing *)
Lemma overlay_above l p f : (forall e, In e l -> below (fst e) p = None) -> (exists e, In e l /\ below p (fst e) <> None) ->
  overlay l f p = or_dir (f p).
Proof.
  intros N (e & I & B). unfold overlay.
  assert (H : thing_at l p = None).
  { clear - N. induction l as [|[d c] l IH]; [reflexivity|]. cbn [thing_at]. pose proof (N (d, c) (or_introl eq_refl)) as Q. cbn [fst] in Q. rewrite Q. apply IH. intros e E. apply N. now right. }
  rewrite H. assert (K : above_thing l p = true).
  { unfold above_thing. apply existsb_exists. exists e. split; [exact I|]. now destruct (below p (fst e)). }
  now rewrite K.
Qed.

(** ** Free places *)

Lemma below_refl d : below d d = Some [].
Proof. apply below_spec. now rewrite app_nil_r. Qed.
Lemma firstn_above {A} k (d : list A) : exists r, d = firstn k d ++ r.
Proof. exists (skipn k d). now rewrite firstn_skipn. Qed.

Section Stage.
  Variable f : fs.

  (** State of the file system: [f] with things put onto it *)
  Definition staged (l : things) (f' : fs) : Prop := forall p, f' p = overlay l f p.
  Definition on_free (l : things) : Prop := forall e, In e l -> free f (fst e).

  Lemma thing_at_none l p : (forall e, In e l -> below (fst e) p = None) -> thing_at l p = None.
  Proof.
    induction l as [|[e c] l IH]; intros H; [reflexivity|]. cbn [thing_at]. pose proof (H (e, c) (or_introl eq_refl)) as Q. cbn [fst] in Q.
    rewrite Q. apply IH. intros y Y. apply H. now right.
  Qed.
  (** What was there is as it was *)
  Lemma overlay_kept l p n : on_free l -> f p = Some n -> overlay l f p = Some n.
  Proof.
    intros F E. unfold overlay. rewrite thing_at_none.
    - rewrite E. now destruct (above_thing l p).
    - intros e I. apply below_none. intros r ->. rewrite (proj1 (F e I)) in E. discriminate.
  Qed.
  Lemma overlay_free l d x : free f d -> all_apart l d -> overlay l f (d ++ x) = None.
  Proof. intros I A. rewrite overlay_apart; [apply (proj1 I)|]. intros e E. apply apart_below. auto. Qed.
  Lemma all_apart_above l d q : all_apart l (d ++ q) -> forall e, In e l -> below (fst e) d = None.
  Proof.
    intros A e I. apply below_none. intros r ->. destruct (A e I) as [Q _]. rewrite <- app_assoc, below_app in Q. discriminate.
  Qed.

  (** Making the directories up to a place apart from the things that are there *)
  Lemma makedirs_staged l f' d q : staged l f' -> free f (d ++ q) -> all_apart l (d ++ q) -> exists f1, makedirs d f' = Some f1 /\
    forall p, f1 p = match below p d with Some _ => or_dir (overlay l f p) | None => overlay l f p end.
  Proof.
    intros St I A. unfold makedirs.
    assert (E : existsb (fun k => is_file (f' (firstn k d))) (seq 0 (S (length d))) = false).
    { destruct (existsb _ _) eqn:E; [|reflexivity]. apply existsb_exists in E as (k & K & E). apply in_seq in K. rewrite St in E. unfold overlay in E.
      rewrite thing_at_none in E.
      2:{ apply (all_apart_above l (firstn k d) (skipn k d ++ q)). now rewrite app_assoc, firstn_skipn. }
      pose proof (proj2 I k) as F. assert (Q : firstn k (d ++ q) = firstn k d). { rewrite firstn_app. replace (k - length d) with 0 by lia. now rewrite firstn_O, app_nil_r. }
      rewrite Q in F. destruct (above_thing l (firstn k d)); [|congruence].
      destruct (f (firstn k d)) as [[|t]|]; cbn in *; discriminate. }
    rewrite E. eexists. split; [reflexivity|]. intros p. cbv beta. rewrite St. unfold or_dir. destruct (below p d), (overlay l f p); reflexivity.
  Qed.

  (** Making the directories above a place and putting something there *)
  Lemma puts l f1 f2 d a c : free f (d ++ [a]) -> all_apart l (d ++ [a]) ->
    (forall p, f1 p = match below p d with Some _ => or_dir (overlay l f p) | None => overlay l f p end) ->
    (forall p, f2 p = match below (d ++ [a]) p with Some x => c x | None => f1 p end) ->
    staged (l ++ [(d ++ [a], c)]) f2.
  Proof.
    intros F A H1 H2 p. rewrite H2, H1. unfold overlay.
    assert (TA : thing_at (l ++ [(d ++ [a], c)]) p = match thing_at l p with Some n => Some n | None => match below (d ++ [a]) p with Some x => Some (c x) | None => None end end).
    { clear. induction l as [|[e k] l IH]; cbn [app thing_at]; [now destruct (below (d ++ [a]) p)|]. destruct (below e p); [reflexivity|exact IH]. }
    assert (AB : above_thing (l ++ [(d ++ [a], c)]) p = above_thing l p || match below p (d ++ [a]) with Some _ => true | None => false end).
    { unfold above_thing. rewrite existsb_app. cbn [existsb fst]. now rewrite orb_false_r. }
    rewrite TA, AB. destruct (below (d ++ [a]) p) as [x|] eqn:B.
    - apply below_spec in B. subst p. rewrite thing_at_apart by exact A. reflexivity.
    - destruct (thing_at l p) as [n|] eqn:T1.
      + destruct (below p d) as [r|] eqn:B2; [|reflexivity]. exfalso. apply below_spec in B2. subst d.
        rewrite thing_at_none in T1; [discriminate|]. apply (all_apart_above l p (r ++ [a])). now rewrite app_assoc.
      + assert (Q : match below p (d ++ [a]) with Some _ => true | None => false end = match below p d with Some _ => true | None => false end).
        { destruct (below p d) as [r|] eqn:B2.
          - apply below_spec in B2. subst d. rewrite <- app_assoc, below_app. reflexivity.
          - destruct (below p (d ++ [a])) as [r|] eqn:B3; [|reflexivity]. apply below_spec in B3.
            destruct r as [|y r] using rev_ind.
            + rewrite app_nil_r in B3. subst p. rewrite below_refl in B. discriminate.
            + rewrite app_assoc in B3. apply app_inj_tail in B3 as [-> _]. rewrite below_app in B2. discriminate. }
        rewrite Q. destruct (below p d) as [r|]; [|now rewrite orb_false_r]. rewrite orb_true_r. destruct (above_thing l p); [|reflexivity].
        destruct (f p); reflexivity.
  Qed.

  (** Contents: a file, an empty directory *)
  Definition file_content (t : text) (x : list text) : option node := match x with [] => Some (File t) | _ => None end.
  Definition empty_content (x : list text) : option node := match x with [] => Some Dir | _ => None end.

  Lemma try_makedirs_some d f' f1 : makedirs d f' = Some f1 -> try_makedirs d f' = f1.
  Proof. unfold try_makedirs. now intros ->. Qed.
  Lemma f1_place l f1 d a x : free f (d ++ [a]) -> all_apart l (d ++ [a]) ->
    (forall p, f1 p = match below p d with Some _ => or_dir (overlay l f p) | None => overlay l f p end) -> f1 (d ++ a :: x) = None.
  Proof.
    intros F A H1. rewrite H1. replace (d ++ a :: x) with ((d ++ [a]) ++ x) by now rewrite <- app_assoc.
    destruct (below ((d ++ [a]) ++ x) d) as [r|] eqn:B.
    - apply below_spec in B. exfalso. apply (f_equal (@length _)) in B. rewrite !app_length in B. cbn in B. lia.
    - now apply overlay_free.
  Qed.
  Lemma f1_parent l f1 d q : free f (d ++ q) -> all_apart l (d ++ q) ->
    (forall p, f1 p = match below p d with Some _ => or_dir (overlay l f p) | None => overlay l f p end) -> f1 d = Some Dir.
  Proof.
    intros F A H1. rewrite H1, below_refl. unfold overlay. rewrite thing_at_none by exact (all_apart_above l d q A).
    pose proof (proj2 F (length d)) as N. rewrite firstn_app, firstn_all, Nat.sub_diag, firstn_O, app_nil_r in N.
    destruct (above_thing l d), (f d) as [[|t]|]; cbn in *; congruence.
  Qed.

  (** Writing a file at a free place *)
  Lemma writes l f' p t : p <> [] -> staged l f' -> free f p -> all_apart l p ->
    exists f2, write_file p t (try_makedirs (removelast p) f') = Some f2 /\ staged (l ++ [(p, file_content t)]) f2.
  Proof.
    intros NE St F A. destruct (exists_last NE) as (d & a & ->). rewrite removelast_last.
    destruct (makedirs_staged l f' d [a] St F A) as (f1 & E & H1). rewrite (try_makedirs_some _ _ _ E).
    unfold write_file. rewrite removelast_last, (f1_parent l f1 d [a] F A H1), (f1_place l f1 d a [] F A H1).
    replace (match d ++ [a] with [] => true | _ => false end) with false by now destruct d. cbn [is_dir negb andb].
    eexists. split; [reflexivity|]. apply (puts l f1); try assumption. intros p. unfold put.
    destruct (below (d ++ [a]) p) as [[|y x]|] eqn:B; [reflexivity| |reflexivity]. apply below_spec in B. subst p. cbn [file_content].
    rewrite <- app_assoc. cbn [app]. now apply (f1_place l f1).
  Qed.
  Lemma below_longer (d : list text) a x : below (d ++ a :: x) d = None.
  Proof. apply below_none. intros r E. apply (f_equal (@length _)) in E. rewrite !app_length in E. cbn in E. lia. Qed.
  (** Opening it first *)
  Lemma writes_twice l f' p : p <> [] -> staged l f' -> free f p -> all_apart l p ->
    exists f1, write_file p [] (try_makedirs (removelast p) f') = Some f1 /\
      forall t, exists f2, write_file p t f1 = Some f2 /\ staged (l ++ [(p, file_content t)]) f2.
  Proof.
    intros NE St F A. destruct (exists_last NE) as (d & a & ->). rewrite removelast_last.
    destruct (makedirs_staged l f' d [a] St F A) as (f1 & E & H1). rewrite (try_makedirs_some _ _ _ E).
    unfold write_file. rewrite removelast_last, (f1_parent l f1 d [a] F A H1), (f1_place l f1 d a [] F A H1).
    replace (match d ++ [a] with [] => true | _ => false end) with false by now destruct d. cbn [is_dir negb andb].
    eexists. split; [reflexivity|]. intros t. unfold put at 1 2. rewrite below_longer, below_refl, (f1_parent l f1 d [a] F A H1). cbn [is_dir negb andb].
    eexists. split; [reflexivity|]. apply (puts l f1); try assumption. intros p. unfold put.
    destruct (below (d ++ [a]) p) as [[|y x]|] eqn:B; [reflexivity| |reflexivity]. apply below_spec in B. subst p. cbn [file_content].
    rewrite <- app_assoc. cbn [app]. now apply (f1_place l f1).
  Qed.

  (** Making a directory at a free place *)
  Lemma makes l f' d : d <> [] -> staged l f' -> free f d -> all_apart l d ->
    exists f2, makedirs d f' = Some f2 /\ staged (l ++ [(d, empty_content)]) f2.
  Proof.
    intros NE St F A.
    assert (F' : free f (d ++ [])) by now rewrite app_nil_r. assert (A' : all_apart l (d ++ [])) by now rewrite app_nil_r.
    destruct (makedirs_staged l f' d [] St F' A') as (f2 & E & H2). exists f2. split; [exact E|]. destruct (exists_last NE) as (b & a & ->).
    apply (puts l (fun p => match below p b with Some _ => or_dir (overlay l f p) | None => overlay l f p end)); try assumption; [reflexivity|].
    intros p. rewrite H2. destruct (below (b ++ [a]) p) as [x|] eqn:B.
    - apply below_spec in B. subst p. rewrite overlay_free by assumption. destruct x as [|y x].
      + rewrite app_nil_r, below_refl. reflexivity.
      + now rewrite below_longer.
    - destruct (below p b) as [r|] eqn:B2.
      + apply below_spec in B2. subst b. now rewrite <- app_assoc, below_app.
      + destruct (below p (b ++ [a])) as [r|] eqn:B3; [|reflexivity]. exfalso. apply below_spec in B3. destruct r as [|y r] using rev_ind.
        * rewrite app_nil_r in B3. subst p. rewrite below_refl in B. discriminate.
        * rewrite app_assoc in B3. apply app_inj_tail in B3 as [-> _]. rewrite below_app in B2. discriminate.
  Qed.

  (** Copying a directory to a free place *)
  Lemma copies l f' src dst : dst <> [] -> staged l f' -> free f dst -> all_apart l dst -> f src = Some Dir -> apart src dst ->
    (forall e, In e l -> apart (fst e) src) -> on_free l ->
    exists f2, copytree src dst (try_makedirs (removelast dst) f') = Some f2 /\ staged (l ++ [(dst, fun x => f (src ++ x))]) f2.
  Proof.
    intros NE St F A S AP AS OF. destruct (exists_last NE) as (d & a & ->). rewrite removelast_last.
    destruct (makedirs_staged l f' d [a] St F A) as (f1 & E & H1). rewrite (try_makedirs_some _ _ _ E).
    assert (SRC : forall x, f1 (src ++ x) = f (src ++ x)).
    { intros x. rewrite H1. rewrite overlay_apart by (intros e I; apply apart_below; auto).
      destruct (below (src ++ x) d) as [r|] eqn:B; [|reflexivity]. apply below_spec in B. exfalso. destruct AP as [Q _]. rewrite B, <- !app_assoc, below_app in Q. discriminate. }
    unfold copytree. pose proof (SRC []) as S0. rewrite app_nil_r in S0. rewrite S0, S. rewrite (f1_place l f1 d a [] F A H1). destruct AP as [AP1 AP2]. rewrite AP1. cbn [is_dir exists_ negb andb].
    assert (M : exists f2, makedirs (d ++ [a]) f1 = Some f2 /\ forall p, below (d ++ [a]) p = None -> f2 p = f1 p).
    { unfold makedirs. match goal with |- context [existsb ?g ?l] => assert (X : existsb g l = false) end.
      { match goal with |- ?t = false => destruct t eqn:X; [|reflexivity] end. apply existsb_exists in X as (k & K & X). exfalso.
        rewrite firstn_app in X. destruct (k - length d) as [|m] eqn:KD.
        - rewrite firstn_O, app_nil_r, H1 in X. rewrite <- (firstn_skipn k d) in X at 2. rewrite below_app in X. unfold overlay in X. rewrite thing_at_none in X.
          + pose proof (proj2 F k) as N. rewrite firstn_app, KD, firstn_O, app_nil_r in N.
            destruct (above_thing l (firstn k d)), (f (firstn k d)) as [[|]|]; cbn in *; congruence.
          + apply (all_apart_above l (firstn k d) (skipn k d ++ [a])). now rewrite app_assoc, firstn_skipn.
        - rewrite (firstn_all2 d) in X by lia. cbn [firstn] in X. rewrite (f1_place l f1) in X by (rewrite ?firstn_nil; assumption). discriminate. }
      rewrite X. eexists. split; [reflexivity|]. intros p B. cbv beta. destruct (below p (d ++ [a])) as [r|] eqn:B2; [|reflexivity]. apply below_spec in B2.
      destruct r as [|y r] using rev_ind.
      - rewrite app_nil_r in B2. subst p. rewrite below_refl in B. discriminate.
      - rewrite app_assoc in B2. apply app_inj_tail in B2 as [-> _]. rewrite H1, below_app. now destruct (overlay l f p). }
    destruct M as (f2 & M & H2). rewrite M. eexists. split; [reflexivity|]. apply (puts l f1); try assumption. intros p. cbv beta.
    destruct (below (d ++ [a]) p) eqn:B; [apply SRC|now apply H2].
  Qed.

  (** Copying programs into a directory *)
  Definition base (e : text) : text := last (comps e) [].
  Fixpoint programs_content (exes : list text) (x : list text) : option node :=
    match exes with
    | [] => empty_content x
    | e :: r => match x with
                | [n] => if text_eqb (base e) n then f (comps e) else programs_content r x
                | _ => programs_content r x
                end
    end.
  Lemma programs_dir exes : programs_content exes [] = Some Dir.
  Proof. induction exes; [reflexivity|exact IHexes]. Qed.
  Lemma programs_deep exes a b x : programs_content exes (a :: b :: x) = None.
  Proof. induction exes; [reflexivity|exact IHexes]. Qed.
  Lemma programs_other exes n : ~ In n (map base exes) -> programs_content exes [n] = None.
  Proof.
    induction exes as [|e r IH]; intros N; [reflexivity|]. cbn [programs_content]. destruct (text_eqb (base e) n) eqn:E.
    - apply text_eqb_eq in E. exfalso. apply N. now left.
    - apply IH. intros I. apply N. now right.
  Qed.
  Lemma programs_one exes e : NoDup (map base exes) -> In e exes -> programs_content exes [base e] = f (comps e).
  Proof.
    induction exes as [|e' r IH]; intros N I; [destruct I|]. destruct I as [->|I]; cbn [programs_content].
    - now rewrite text_eqb_refl.
    - inversion N as [|? ? X N']; subst. destruct (text_eqb (base e') (base e)) eqn:E; [|now apply IH].
      apply text_eqb_eq in E. rewrite E in X. exfalso. apply X. now apply in_map.
  Qed.
  (** A thing put over another one at the same place *)
  Lemma staged_last l d c f' : staged (l ++ [(d, c)]) f' -> all_apart l d -> forall x, f' (d ++ x) = c x.
  Proof.
    intros St A x. rewrite St. apply overlay_at; [apply in_or_app; right; now left|]. intros e I. apply in_app_or in I as [I|[I|[]]]; [right; auto|now left].
  Qed.
  Lemma staged_change l d c c' f' f2 : staged (l ++ [(d, c)]) f' -> all_apart l d ->
    (forall p, f2 p = match below d p with Some x => c' x | None => f' p end) -> staged (l ++ [(d, c')]) f2.
  Proof.
    intros St A H p. rewrite H. destruct (below d p) as [x|] eqn:B.
    - apply below_spec in B. subst p. symmetry. apply overlay_at; [apply in_or_app; right; now left|]. intros e I. apply in_app_or in I as [I|[I|[]]]; [right; auto|now left].
    - rewrite St. unfold overlay.
      assert (X : forall k, thing_at (l ++ [(d, k)]) p = thing_at l p).
      { intros k. clear - B. induction l as [|[e y] l IH]; cbn [app thing_at]; [now rewrite B|]. destruct (below e p); [reflexivity|exact IH]. }
      rewrite !X. assert (Y : forall k, above_thing (l ++ [(d, k)]) p = above_thing l p || match below p d with Some _ => true | None => false end).
      { intros k. unfold above_thing. rewrite existsb_app. cbn [existsb fst]. now rewrite orb_false_r. }
      now rewrite !Y.
  Qed.
  Lemma copies_programs l d : d <> [] -> free f d -> all_apart l d -> on_free l -> forall exes done f',
    staged (l ++ [(d, programs_content done)]) f' -> (forall e, In e exes -> exists t, f (comps e) = Some (File t)) ->
    NoDup (map base (exes ++ done)) ->
    exists f2, copy_files exes d f' = (f2, true) /\ staged (l ++ [(d, programs_content (rev exes ++ done))]) f2.
  Proof.
    intros NE F A OF. induction exes as [|e r IH]; intros done f' St EX ND; cbn [copy_files rev app]; [now exists f'|].
    destruct (EX e (or_introl eq_refl)) as (t & T). unfold copy_file.
    assert (OF' : on_free (l ++ [(d, programs_content done)])). { intros x I. apply in_app_or in I as [I|[<-|[]]]; [now apply OF|exact F]. }
    rewrite St, (overlay_kept _ _ _ OF' T).
    pose proof (staged_last _ _ _ _ St A []) as D0. rewrite app_nil_r, programs_dir in D0. rewrite D0. cbn [is_dir].
    inversion ND as [|? ? X ND']; subst. rewrite map_app in X.
    pose proof (staged_last _ _ _ _ St A [base e]) as D1. rewrite programs_other in D1 by (intros I; apply X; apply in_or_app; now right).
    unfold write_file. rewrite removelast_last, D0. fold (base e). rewrite D1. cbn [is_dir negb andb].
    replace (match d ++ [base e] with [] => true | _ => false end) with false by now destruct d. cbn [negb].
    destruct (IH (e :: done) (put (d ++ [base e]) (Some (File t)) f')) as (f2 & E2 & S2).
    - apply (staged_change l d (programs_content done) _ f'); [exact St|exact A|]. intros p. unfold put.
      destruct (below d p) as [x|] eqn:B.
      + apply below_spec in B. subst p. rewrite below_common. destruct x as [|n x]; cbn [below].
        * rewrite app_nil_r, D0. symmetry. apply programs_dir.
        * destruct (text_eqb (base e) n) eqn:E.
          -- apply text_eqb_eq in E. subst n. cbn [below]. destruct x as [|m x].
             ++ cbn [programs_content]. now rewrite text_eqb_refl.
             ++ rewrite programs_deep, (staged_last _ _ _ _ St A). apply programs_deep.
          -- rewrite (staged_last _ _ _ _ St A). destruct x as [|m x]; [cbn [programs_content]; now rewrite E|]. now rewrite !programs_deep.
      + destruct (below (d ++ [base e]) p) as [x|] eqn:B2; [|reflexivity]. apply below_spec in B2. exfalso. subst p. rewrite <- app_assoc, below_app in B. discriminate.
    - intros x I. apply EX. now right.
    - rewrite map_app in ND' |- *. cbn [map]. apply (NoDup_Add (Add_app (base e) (map base r) (map base done))). now split.
    - exists f2. split; [exact E2|]. rewrite <- app_assoc. exact S2.
  Qed.
End Stage.

(** ** Installing *)

Lemma item_eq (a b : item) : {a = b} + {a <> b}.
Proof. decide equality. Qed.
Section Install.
  Variable f : fs.
  Variables root prefix name loc : text.
  Variable l : layout.
  Variable exes : list text.
  Variable g : config.
  Variable i : ini.
  Hypothesis NAME : as_text (get_var X_name g) = Some name.
  Hypothesis LOC : as_text (get_var (X_location (isdir f)) g) = Some loc.
  Hypothesis OBJ : config_obj l prefix name (comps loc) exes f g = Some i.
  Notation P := (place root prefix l name).
  Hypothesis PATHS : forall k, comps (root ++ path prefix (dest l name k)) = P k.
  Hypothesis FREE : forall k, goes f loc exes k -> free f (P k).
  Hypothesis APART : forall k k', k <> k' -> apart (P k) (P k').
  Hypothesis AWAY : forall k k', goes f loc exes k -> apart (comps loc ++ source k') (P k).
  Hypothesis TIDY : tidy f loc exes.

  Definition content (k : item) : list text -> option node :=
    match k with
    | Definition_ => file_content (write_ini i)
    | Bin => programs_content f (rev exes)
    | _ => fun x => f ((comps loc ++ source k) ++ x)
    end.
  Lemma place_some k : P k <> [].
  Proof. unfold place. intros E. apply app_eq_nil in E as [_ E]. apply app_eq_nil in E as [_ E]. destruct l, k; discriminate. Qed.

  Definition is_done (done : list item) (t : things) : Prop :=
    (forall e, In e t -> exists k, In k done /\ goes f loc exes k /\ e = (P k, content k)) /\
    (forall k, In k done -> goes f loc exes k -> In (P k, content k) t).
  Lemma done_apart done t k : is_done done t -> ~ In k done -> all_apart t (P k).
  Proof. intros [D _] N e I. destruct (D e I) as (k' & K & _ & ->). apply APART. intros ->. contradiction. Qed.
  Lemma done_free done t : is_done done t -> on_free f t.
  Proof. intros [D _] e I. destruct (D e I) as (k' & _ & G & ->). now apply FREE. Qed.
  Lemma done_more done t k : is_done done t -> goes f loc exes k -> is_done (k :: done) (t ++ [(P k, content k)]).
  Proof.
    intros [D E] G. split.
    - intros e I. apply in_app_or in I as [I|[<-|[]]].
      + destruct (D e I) as (k' & A & B & C). exists k'. split; [now right|now split].
      + exists k. split; [now left|now split].
    - intros k' [<-|K] G'; apply in_or_app; [right; now left|left; now apply E].
  Qed.
  Lemma done_same done t k : is_done done t -> ~ goes f loc exes k -> is_done (k :: done) t.
  Proof.
    intros [D E] G. split.
    - intros e I. destruct (D e I) as (k' & A & B & C). exists k'. split; [now right|now split].
    - intros k' [<-|K] G'; [contradiction|now apply E].
  Qed.

  Lemma copy_data_staged : forall order done t f', staged f t f' -> is_done done t -> NoDup order -> (forall k, In k order -> In k done -> k = Bin \/ k = Definition_) ->
    exists f2 t2, copy_data root prefix l name (comps loc) order f' = (f2, true) /\ staged f t2 f2 /\
      is_done (filter (fun k => negb (is_bin k) && match k with Definition_ => false | _ => true end) (rev order) ++ done) t2.
  Proof.
    induction order as [|k order IH]; intros done t f' St D ND DJ; cbn [copy_data rev].
    - exists f', t. split; [reflexivity|]. now split.
    - inversion ND as [|? ? X ND']; subst.
      assert (SKIP : forall done' t' f'', staged f t' f'' -> is_done done' t' -> (forall k', In k' order -> In k' done' -> k' = Bin \/ k' = Definition_) ->
        (done' = done /\ negb (is_bin k) && match k with Definition_ => false | _ => true end = false \/ done' = k :: done /\ negb (is_bin k) && match k with Definition_ => false | _ => true end = true) ->
        exists f2 t2, copy_data root prefix l name (comps loc) order f'' = (f2, true) /\ staged f t2 f2 /\
          is_done (filter (fun k => negb (is_bin k) && match k with Definition_ => false | _ => true end) (rev order ++ [k]) ++ done) t2).
      { intros done' t' f'' S' D' DJ' H. destruct (IH done' t' f'' S' D' ND' DJ') as (f2 & t2 & E2 & S2 & D2). exists f2, t2. split; [exact E2|]. split; [exact S2|].
        rewrite filter_app. cbn [filter]. destruct H as [[-> ->]|[-> ->]]; [now rewrite app_nil_r|]. now rewrite <- app_assoc. }
      assert (DJ' : forall k', In k' order -> In k' done -> k' = Bin \/ k' = Definition_) by (intros k' A B; apply DJ; [now right|exact B]).
      destruct (is_bin k) eqn:B; [apply (SKIP done t f'); auto|].
      assert (SRC : f' (comps loc ++ source k) = f (comps loc ++ source k)).
      { rewrite St. apply overlay_apart. intros e I. destruct D as [D _]. destruct (D e I) as (k' & _ & G & ->). apply apart_sym. now apply AWAY. }
      rewrite SRC. destruct TIDY as (T1 & T2 & _).
      destruct (item_eq k Definition_) as [->|ND2].
      { rewrite T2. cbn [exists_]. apply (SKIP done t f'); auto. }
      assert (KK : negb false && match k with Definition_ => false | _ => true end = true) by (destruct k; try reflexivity; congruence).
      assert (NB : k <> Bin) by (intros ->; discriminate).
      assert (NI : ~ In k done) by (intros I; destruct (DJ k (or_introl eq_refl) I); congruence).
      assert (DJ2 : forall k', In k' order -> In k' (k :: done) -> k' = Bin \/ k' = Definition_) by (intros k' A [<-|C]; [contradiction|now apply DJ']).
      destruct (T1 k NB ND2) as [N|DD].
      + rewrite N. cbn [exists_]. apply (SKIP (k :: done) t f'); auto. apply done_same; [exact D|]. destruct k; cbn [goes]; congruence.
      + rewrite DD. cbn [exists_].
        assert (G : goes f loc exes k) by (destruct k; cbn [goes]; congruence).
        rewrite PATHS.
        destruct (copies f t f' (comps loc ++ source k) (P k) (place_some k) St (FREE k G) (done_apart done t k D NI) DD (AWAY k k G)) as (f2 & E2 & S2).
        * intros e I. destruct D as [D _]. destruct (D e I) as (k' & _ & G' & ->). apply apart_sym. now apply AWAY.
        * now apply (done_free done).
        * rewrite E2. apply (SKIP (k :: done) (t ++ [(P k, content k)]) f2); auto.
          -- replace (content k) with (fun x => f ((comps loc ++ source k) ++ x)); [exact S2|]. destruct k; try reflexivity; congruence.
          -- now apply done_more.
  Qed.

  Theorem install_staged order : all_items order -> exists f' t, install root prefix l order exes g f = (f', true) /\ staged f t f' /\
    (forall e, In e t -> exists k, goes f loc exes k /\ e = (P k, content k)) /\ (forall k, goes f loc exes k -> In (P k, content k) t).
  Proof.
    intros [ND ALL]. unfold install. rewrite NAME, LOC. unfold write_definition. rewrite PATHS, OBJ.
    assert (S0 : staged f [] f) by (intros p; reflexivity). assert (D0 : is_done [] []) by (split; [intros e []|intros k []]).
    destruct (writes_twice f [] f (P Definition_) (place_some _) S0 (FREE Definition_ I)) as (f1 & E1 & W1); [intros e []|].
    rewrite E1. destruct (W1 (write_ini i)) as (f2 & E2 & S2). rewrite E2. cbn [app] in S2.
    assert (D2 : is_done [Definition_] [(P Definition_, content Definition_)]) by (apply (done_more [] [] Definition_ D0); exact I).
    assert (PROG : exists f3 t3, copy_executables root prefix l name exes f2 = (f3, true) /\ staged f t3 f3 /\ is_done [Bin; Definition_] t3).
    { unfold copy_executables. destruct exes as [|e r] eqn:EX.
      - exists f2, [(P Definition_, content Definition_)]. split; [reflexivity|]. split; [exact S2|]. apply done_same; [exact D2|cbn [goes]; congruence].
      - rewrite PATHS. rewrite <- EX in *.
        assert (G : goes f loc exes Bin) by (cbn [goes]; rewrite EX; discriminate).
        assert (A : all_apart [(P Definition_, content Definition_)] (P Bin)) by (intros x [<-|[]]; apply APART; discriminate).
        destruct (makes f _ f2 (P Bin) (place_some _) S2 (FREE Bin G) A) as (f3 & E3 & S3).
        rewrite (try_makedirs_some _ _ _ E3).
        destruct (copies_programs f [(P Definition_, content Definition_)] (P Bin) (place_some _) (FREE Bin G) A) with (exes := exes) (done := @nil text) (f' := f3) as (f4 & E4 & S4).
        + now apply (done_free [Definition_]).
        + exact S3.
        + apply TIDY.
        + rewrite app_nil_r. apply TIDY.
        + exists f4. eexists. split; [exact E4|]. split; [exact S4|]. rewrite app_nil_r. apply (done_more [Definition_] _ Bin D2 G). }
    destruct PROG as (f3 & t3 & E3 & S3 & D3). rewrite E3.
    destruct (copy_data_staged order [Bin; Definition_] t3 f3 S3 D3 ND) as (f4 & t4 & E4 & S4 & D4 & D5); [intros k _ [<-|[<-|[]]]; auto|].
    exists f4, t4. split; [exact E4|]. split; [exact S4|]. split.
    - intros e I4. destruct (D4 e I4) as (k & _ & G & ->). now exists k.
    - intros k G. apply D5; [|exact G]. apply in_or_app.
      destruct (negb (is_bin k) && match k with Definition_ => false | _ => true end) eqn:Q.
      + left. apply filter_In. split; [now apply -> in_rev|exact Q].
      + right. destruct k; try discriminate; cbn; auto.
  Qed.

  (** What there is afterwards *)
  Theorem installed_fs order : all_items order -> exists f', install root prefix l order exes g f = (f', true) /\
    (forall k x, goes f loc exes k -> f' (P k ++ x) = content k x) /\
    (forall p, (forall k, goes f loc exes k -> apart (P k) p) -> f' p = f p) /\
    (forall p k r, goes f loc exes k -> P k = p ++ r -> r <> [] -> f' p = Some Dir) /\
    (forall p n, f p = Some n -> f' p = Some n).
  Proof.
    intros A. destruct (install_staged order A) as (f' & t & E & S & T1 & T2). exists f'. split; [exact E|]. split; [|split; [|split]].
    - intros k x G. rewrite S. apply overlay_at; [now apply T2|]. intros e I. destruct (T1 e I) as (k' & G' & ->). destruct (item_eq k' k) as [->|N]; [now left|right].
      now apply APART.
    - intros p H. rewrite S. apply overlay_apart. intros e I. destruct (T1 e I) as (k' & G' & ->). now apply H.
    - intros p k r G Q NR. rewrite S. rewrite overlay_above.
      + pose proof (proj2 (FREE k G) (length p)) as N. rewrite Q, firstn_app, firstn_all, Nat.sub_diag, firstn_O, app_nil_r in N. destruct (f p) as [[|]|]; cbn in *; congruence.
      + intros e I. destruct (T1 e I) as (k' & G' & ->). cbn [fst]. destruct (item_eq k' k) as [->|N].
        * rewrite Q. destruct r as [|a r]; [congruence|]. apply below_longer.
        * apply below_none. intros y ->. destruct (APART k' k N) as [B _]. rewrite Q, <- app_assoc, below_app in B. discriminate.
      + exists (P k, content k). split; [now apply T2|]. cbn [fst]. rewrite Q, below_app. discriminate.
    - intros p n Q. rewrite S. apply overlay_kept; [|exact Q]. intros e I. destruct (T1 e I) as (k & G & ->). now apply FREE.
  Qed.
End Install.
