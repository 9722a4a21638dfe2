(** * C97: what translations are found, and what changes of domain and directory do *)
From Coq Require Import String Ascii List Bool Arith Lia.
From Verif Require Import ScanModel Rfc822Model Rfc822Proofs TranslatorModel.
Import ListNotations.
Local Open Scope list_scope.

(** ** What a catalogue says *)

Definition EOT : ascii := "004"%char.
(** The entries of a catalogue, if there is one *)
Definition entry (k : option catalogue) (m : text) : option text := match k with Some c => c_one c m | None => None end.
Definition entries (k : option catalogue) (m1 m2 : text) (n : nat) : option text := match k with Some c => c_many c m1 m2 n | None => None end.
Definition plural (m1 m2 : text) (n : nat) : text := if Nat.eqb n 1 then m1 else m2.
Definition or_else (x : option text) (m : text) : text := match x with Some t => t | None => m end.
(** A translation that is the identifier itself, with the context, is none *)
Definition other_than (t : text) (x : option text) : option text :=
  match x with Some y => if text_eqb y t then None else Some y | None => None end.
(** The message: its translation, or itself without the context *)
Definition says (k : option catalogue) (q : call) : text :=
  match q with
  | Get m | DGet _ m => or_else (entry k m) m
  | NGet m1 m2 n | DNGet _ m1 m2 n => or_else (entries k m1 m2 n) (plural m1 m2 n)
  | PGet c m | PDGet c _ m => or_else (other_than (c ++ EOT :: m) (entry k (c ++ EOT :: m))) m
  | PNGet c m1 m2 n | PDNGet c _ m1 m2 n =>
      match entries k (c ++ EOT :: m1) (c ++ EOT :: m2) n with
      | Some t => if text_eqb t (c ++ EOT :: m1) then m1 else if text_eqb t (c ++ EOT :: m2) then m2 else t
      | None => plural m1 m2 n
      end
  end.
(** The domain that is asked for *)
Definition explicit (q : call) : option text :=
  match q with DGet d _ | DNGet d _ _ _ | PDGet _ d _ | PDNGet _ d _ _ _ => Some d | _ => None end.

Lemma text_eqb_refl t : text_eqb t t = true. Proof. now apply text_eqb_eq. Qed.
Lemma call_eqb_eq a b : call_eqb a b = true <-> a = b.
Proof.
  split; [|intros ->; destruct b; cbn; now rewrite ?text_eqb_refl, ?Nat.eqb_refl].
  destruct a, b; cbn; try discriminate; rewrite ?andb_true_iff, ?text_eqb_eq, ?Nat.eqb_eq; intuition congruence.
Qed.
Lemma strip1_says k c m : strip1 c m (cat_gettext k (contextualize c m)) = or_else (other_than (c ++ EOT :: m) (entry k (c ++ EOT :: m))) m.
Proof.
  unfold strip1, cat_gettext, contextualize, entry, other_than, or_else, EOT. destruct k as [k|]; [|now rewrite text_eqb_refl]. destruct (c_one k _) as [t|]; [|now rewrite text_eqb_refl]. now destruct (text_eqb t _).
Qed.
Lemma strip2_says k c m1 m2 n : strip2 c m1 m2 (cat_ngettext k (contextualize c m1) (contextualize c m2) n) = says k (PNGet c m1 m2 n).
Proof.
  unfold strip2, cat_ngettext, contextualize, says, entries, plural. fold EOT.
  assert (P : (let t := if Nat.eqb n 1 then c ++ EOT :: m1 else c ++ EOT :: m2 in if text_eqb t (c ++ EOT :: m1) then m1 else if text_eqb t (c ++ EOT :: m2) then m2 else t) = if Nat.eqb n 1 then m1 else m2).
  { destruct (Nat.eqb n 1); cbv zeta; [now rewrite text_eqb_refl|]. destruct (text_eqb (c ++ EOT :: m2) (c ++ EOT :: m1)) eqn:E; [|now rewrite text_eqb_refl]. apply text_eqb_eq, app_inv_head in E. congruence. }
  destruct k as [k|]; [|exact P]. destruct (c_many k _ _ _) as [t|]; [reflexivity|exact P].
Qed.

Section Catalogues.
  Variable translation : text -> option text -> option catalogue.
  Notation run := (run translation). Notation ask := (ask translation).

  Section Good.
    (** Domains that may be in use, and directories *)
    Variable Dom : text -> Prop.
    Variable U : text -> option text -> Prop.
    Definition answered (used : list (text * option text)) (q : call) (a : text) : Prop :=
      exists d dir, match explicit q with Some e => d = e | None => Dom d end /\ dict d used = Some dir /\ a = says (translation d dir) q.
    Definition grows (u v : list (text * option text)) : Prop := forall d dir, dict d u = Some dir -> dict d v = Some dir.
    Definition dir_of (st : state) (d : text) : option text := match dict d (s_dirs st) with Some x => x | None => None end.
    Record good (st : state) : Prop := {
      g_domain : Dom (s_domain st);
      g_dirs : forall d, U d (dir_of st d);
      g_used : forall d dir, dict d (s_used st) = Some dir -> U d dir;
      g_answers : forall q a, remembered q (s_answers st) = Some a -> answered (s_used st) q a
    }.
    Lemma answered_grows u v q a : grows u v -> answered u q a -> answered v q a.
    Proof. intros G (d & dir & D & E & A). exists d, dir. auto. Qed.
    (** What a call changes and answers *)
    Definition after (st st' : state) (q : call) (a : text) : Prop :=
      good st' /\ grows (s_used st) (s_used st') /\ (forall q0 a0, remembered q0 (s_answers st) = Some a0 -> remembered q0 (s_answers st') = Some a0) /\
      s_domain st' = s_domain st /\ s_dirs st' = s_dirs st /\ remembered q (s_answers st') = Some a.
    Lemma get_translation_spec st d : good st -> exists dir st', get_translation translation st d = (st', translation d dir) /\ good st' /\ dict d (s_used st') = Some dir /\
      grows (s_used st) (s_used st') /\ s_answers st' = s_answers st /\ s_domain st' = s_domain st /\ s_dirs st' = s_dirs st.
    Proof.
      intros G. unfold get_translation. destruct (dict d (s_used st)) as [dir|] eqn:E; [exists dir, st; unfold grows; auto 10|].
      exists (dir_of st d), (set_used st ((d, dir_of st d) :: s_used st)).
      assert (GR : grows (s_used st) ((d, dir_of st d) :: s_used st)) by (intros x y X; cbn [dict]; destruct (text_eqb d x) eqn:Q; [apply text_eqb_eq in Q; congruence|exact X]).
      split; [reflexivity|]. split; [|cbn [dict s_used set_used]; rewrite text_eqb_refl; auto].
      destruct G as [A B C D]. constructor; cbn [s_domain s_used s_answers set_used]; [exact A|exact B| |].
      - intros x y. cbn [dict]. destruct (text_eqb d x) eqn:Q; [|apply C]. apply text_eqb_eq in Q as <-. intros [= <-]. apply B.
      - intros q a R. eapply answered_grows; [exact GR|]. now apply D.
    Qed.
    Lemma memo_spec q body st : good st ->
      (remembered q (s_answers st) = None -> exists st' a, body st = (st', a) /\ good st' /\ grows (s_used st) (s_used st') /\ answered (s_used st') q a /\ s_domain st' = s_domain st /\ s_dirs st' = s_dirs st /\
        (forall q0 a0, remembered q0 (s_answers st) = Some a0 -> remembered q0 (s_answers st') = Some a0) /\ remembered q (s_answers st') = None) ->
      exists st' a, memo q body st = (st', a) /\ after st st' q a.
    Proof.
      intros G B. unfold memo. destruct (remembered q (s_answers st)) as [a|] eqn:R; [exists st, a; split; [reflexivity|]; unfold after, grows; auto 10|].
      destruct (B eq_refl) as (st' & a & -> & G' & GR & A & D1 & D2 & M & N). eexists _, a. split; [reflexivity|]. unfold after. cbn [s_used s_answers s_domain s_dirs set_answers].
      assert (RR : remembered q ((q, a) :: s_answers st') = Some a) by (cbn [remembered]; now rewrite (proj2 (call_eqb_eq q q) eq_refl)).
      assert (RO : forall q0 a0, remembered q0 (s_answers st') = Some a0 -> remembered q0 ((q, a) :: s_answers st') = Some a0) by (intros q0 a0 R0; cbn [remembered]; destruct (call_eqb q q0) eqn:E; [apply call_eqb_eq in E; congruence|exact R0]).
      split; [|auto 10]. destruct G' as [A1 B1 C1 D1']. constructor; cbn [s_used s_answers s_domain s_dirs set_answers]; auto.
      intros q0 a0. cbn [remembered]. destruct (call_eqb q q0) eqn:E; [apply call_eqb_eq in E as <-; now intros [= <-]|apply D1'].
    Qed.
    Ltac simple_body0 dir st' G' E GR A D1 D2 := let R := fresh in intros R; match goal with G : good ?st |- context [get_translation _ ?st ?d] => destruct (get_translation_spec st d G) as (dir & st' & -> & G' & E & GR & A & D1 & D2) end;
      eexists _, _; split; [reflexivity|]; split; [exact G'|]; split; [exact GR|]; split; [|rewrite A; auto].
    Lemma do_get_spec m st : good st -> exists st' a, do_get translation m st = (st', a) /\ after st st' (Get m) a.
    Proof.
      intros G. apply memo_spec; [exact G|]. simple_body0 dir st' G' E GR A D1 D2. exists (s_domain st), dir. cbn [explicit]. split; [apply (g_domain _ G)|]. split; [exact E|]. unfold cat_gettext. cbn. now destruct (translation _ _).
    Qed.
    Lemma do_nget_spec m1 m2 n st : good st -> exists st' a, do_nget translation m1 m2 n st = (st', a) /\ after st st' (NGet m1 m2 n) a.
    Proof.
      intros G. apply memo_spec; [exact G|]. simple_body0 dir st' G' E GR A D1 D2. exists (s_domain st), dir. cbn [explicit]. split; [apply (g_domain _ G)|]. split; [exact E|]. unfold cat_ngettext. cbn. now destruct (translation _ _).
    Qed.
    (** Calls of other methods are not remembered by a method *)
    Lemma do_get_other m st q : (forall m', q <> Get m') -> remembered q (s_answers (fst (do_get translation m st))) = remembered q (s_answers st).
    Proof.
      intros O. unfold do_get, memo, get_translation. destruct (remembered (Get m) (s_answers st)); [reflexivity|]. destruct (dict _ _); cbn [fst s_answers set_answers set_used remembered]; (destruct (call_eqb (Get m) q) eqn:E; [apply call_eqb_eq in E; destruct (O m); congruence|reflexivity]).
    Qed.
    Lemma do_nget_other m1 m2 n st q : (forall m1' m2' n', q <> NGet m1' m2' n') -> remembered q (s_answers (fst (do_nget translation m1 m2 n st))) = remembered q (s_answers st).
    Proof.
      intros O. unfold do_nget, memo, get_translation. destruct (remembered (NGet m1 m2 n) (s_answers st)); [reflexivity|]. destruct (dict _ _); cbn [fst s_answers set_answers set_used remembered]; (destruct (call_eqb (NGet m1 m2 n) q) eqn:E; [apply call_eqb_eq in E; destruct (O m1 m2 n); congruence|reflexivity]).
    Qed.
    Lemma ask_spec q st : good st -> exists st' a, ask q st = (st', a) /\ after st st' q a.
    Proof.
      intros G. destruct q as [m|m1 m2 n|c m|c m1 m2 n|d m|d m1 m2 n|c d m|c d m1 m2 n]; cbn [TranslatorModel.ask].
      - now apply do_get_spec.
      - now apply do_nget_spec.
      - apply memo_spec; [exact G|]. intros R. destruct (do_get_spec (contextualize c m) st G) as (st' & a & E & G' & GR & M & D1 & D2 & RA). rewrite E. eexists _, _. split; [reflexivity|]. split; [exact G'|]. split; [exact GR|].
        split; [|repeat split; auto; pose proof (do_get_other (contextualize c m) st (PGet c m)) as O; rewrite E in O; cbn in O; rewrite O by discriminate; exact R].
        destruct (g_answers _ G' _ _ RA) as (d & dir & DD & U1 & ->). exists d, dir. split; [exact DD|]. split; [exact U1|]. change (says (translation d dir) (PGet c m)) with (or_else (other_than (c ++ EOT :: m) (entry (translation d dir) (c ++ EOT :: m))) m). rewrite <- strip1_says. unfold says, cat_gettext, or_else, entry. now destruct (translation d dir).
      - apply memo_spec; [exact G|]. intros R. destruct (do_nget_spec (contextualize c m1) (contextualize c m2) n st G) as (st' & a & E & G' & GR & M & D1 & D2 & RA). rewrite E. eexists _, _. split; [reflexivity|]. split; [exact G'|]. split; [exact GR|].
        split; [|repeat split; auto; pose proof (do_nget_other (contextualize c m1) (contextualize c m2) n st (PNGet c m1 m2 n)) as O; rewrite E in O; cbn in O; rewrite O by discriminate; exact R].
        destruct (g_answers _ G' _ _ RA) as (d & dir & DD & U1 & ->). exists d, dir. split; [exact DD|]. split; [exact U1|]. rewrite <- strip2_says. unfold says, cat_ngettext, or_else, entries, plural. now destruct (translation d dir).
      - apply memo_spec; [exact G|]. simple_body0 dir st' G' E GR A D1 D2. exists d, dir. split; [reflexivity|]. split; [exact E|]. unfold cat_gettext. cbn. now destruct (translation _ _).
      - apply memo_spec; [exact G|]. simple_body0 dir st' G' E GR A D1 D2. exists d, dir. split; [reflexivity|]. split; [exact E|]. unfold cat_ngettext. cbn. now destruct (translation _ _).
      - apply memo_spec; [exact G|]. simple_body0 dir st' G' E GR A D1 D2. exists d, dir. split; [reflexivity|]. split; [exact E|]. apply strip1_says.
      - apply memo_spec; [exact G|]. simple_body0 dir st' G' E GR A D1 D2. exists d, dir. split; [reflexivity|]. split; [exact E|]. apply strip2_says.
    Qed.
    (** Histories *)
    Definition allowed (o : op) : Prop := match o with Ask _ => True | Textdomain d => Dom d | Bind d dir => U d dir end.
    Lemma run_spec l : forall st, good st -> (forall o, In o l -> allowed o) ->
      good (fst (run st l)) /\ grows (s_used st) (s_used (fst (run st l))) /\
      (forall q a, remembered q (s_answers st) = Some a -> remembered q (s_answers (fst (run st l))) = Some a) /\
      (forall q a, In (q, a) (snd (run st l)) -> remembered q (s_answers (fst (run st l))) = Some a) /\
      map fst (snd (run st l)) = flat_map (fun o => match o with Ask q => [q] | _ => [] end) l.
    Proof.
      induction l as [|o l IH]; intros st G A.
      - cbn [TranslatorModel.run fst snd]. split; [exact G|]. split; [now intros ? ?|]. split; [auto|]. split; [intros q a []|reflexivity].
      - assert (AO := A o (or_introl eq_refl)). assert (AL : forall x, In x l -> allowed x) by (intros x I; apply A; now right). cbn [TranslatorModel.run].
        destruct o as [q|d|d dir]; cbn [step flat_map app].
        + destruct (ask_spec q st G) as (st' & a & -> & G' & GR & M & D1 & D2 & RA). destruct (IH st' G' AL) as (I1 & I2 & I3 & I4 & I5). destruct (run st' l) as [st2 b]. cbn [fst snd app map] in *.
          split; [exact I1|]. split; [intros x y X; apply I2, GR, X|]. split; [auto|]. split; [intros q0 a0 [[= <- <-]|I]; auto|]. now rewrite I5.
        + assert (G' : good (textdomain d st)) by (unfold textdomain; destruct (existsb _ _); [exact G|]; destruct G; now constructor).
          destruct (IH _ G' AL) as (I1 & I2 & I3 & I4 & I5). replace (s_used (textdomain d st)) with (s_used st) in I2 by (unfold textdomain; now destruct (existsb _ _)). replace (s_answers (textdomain d st)) with (s_answers st) in I3 by (unfold textdomain; now destruct (existsb _ _)).
          destruct (run (textdomain d st) l) as [st2 b]. cbn [fst snd app map] in *. auto.
        + assert (G' : good (bind d dir st)).
          { unfold bind. destruct (existsb _ _); [exact G|]. destruct G as [X Y Z W]. constructor; cbn; auto. intros e. unfold dir_of in *. cbn [dict s_dirs]. destruct (text_eqb d e) eqn:E; [apply text_eqb_eq in E as <-; exact AO|apply Y]. }
          destruct (IH _ G' AL) as (I1 & I2 & I3 & I4 & I5). replace (s_used (bind d dir st)) with (s_used st) in I2 by (unfold bind; now destruct (existsb _ _)). replace (s_answers (bind d dir st)) with (s_answers st) in I3 by (unfold bind; now destruct (existsb _ _)).
          destruct (run (bind d dir st) l) as [st2 b]. cbn [fst snd app map] in *. auto.
    Qed.
  End Good.

  (** ** Every history *)

  (** The domains set, and the directories of a domain, in a history *)
  Definition domain_in (dom : text) (l : list op) (d : text) : Prop := d = dom \/ In (Textdomain d) l.
  Definition directory_in (dom : text) (dir : option text) (l : list op) (d : text) (x : option text) : Prop :=
    (d = dom /\ x = dir) \/ In (Bind d x) l \/ (x = None /\ d <> dom).
  Lemma init_good dom dir (Dom : text -> Prop) (U : text -> option text -> Prop) : Dom dom -> U dom dir -> (forall d, d <> dom -> U d None) -> good Dom U (init dom dir).
  Proof.
    intros D1 D2 D3. constructor; cbn [init s_domain s_used s_answers dict remembered]; [exact D1| |discriminate|discriminate].
    intros d. unfold dir_of. cbn [init s_dirs dict]. destruct (text_eqb dom d) eqn:E; [apply text_eqb_eq in E as <-; exact D2|]. apply D3. intros ->. rewrite text_eqb_refl in E. discriminate.
  Qed.
  (** Whatever is done in which order: each call is answered; for each domain there is one directory, given to
      it at some time, from which all its answers come, always; a call without a domain is answered from a domain that
      was set at some time *)
  Theorem C97_every_history dom dir l :
    map fst (snd (run (init dom dir) l)) = flat_map (fun o => match o with Ask q => [q] | _ => [] end) l /\
    exists dir_of : text -> option text, (forall d, directory_in dom dir l d (dir_of d)) /\
      forall q a, In (q, a) (snd (run (init dom dir) l)) ->
        match explicit q with
        | Some d => a = says (translation d (dir_of d)) q
        | None => exists d, domain_in dom l d /\ a = says (translation d (dir_of d)) q
        end.
  Proof.
    destruct (run_spec (domain_in dom l) (directory_in dom dir l) l (init dom dir)) as (G & _ & _ & R & M).
    { apply init_good; [now left|now left|intros d N; right; now right]. }
    { intros [q|d|d x] I; cbn; [exact Logic.I|now right|right; now left]. }
    split; [exact M|]. set (st := fst (run (init dom dir) l)) in *.
    exists (fun d => match dict d (s_used st) with Some x => x | None => if text_eqb d dom then dir else None end). split.
    - intros d. destruct (dict d (s_used st)) as [x|] eqn:E; [now apply (g_used _ _ _ G)|]. destruct (text_eqb d dom) eqn:Q; [apply text_eqb_eq in Q; now left|]. right; right. split; [reflexivity|]. intros ->. rewrite text_eqb_refl in Q. discriminate.
    - intros q a I. apply R in I. destruct (g_answers _ _ _ G _ _ I) as (d & x & D & E & A). destruct (explicit q); [subst d; now rewrite E|]. exists d. now rewrite E.
  Qed.
  (** The same call is always answered alike *)
  Theorem C97_same_answer dom dir l q a b : In (q, a) (snd (run (init dom dir) l)) -> In (q, b) (snd (run (init dom dir) l)) -> a = b.
  Proof.
    destruct (run_spec (fun _ => True) (fun _ _ => True) l (init dom dir)) as (_ & _ & _ & R & _); [now apply init_good|intros [] _; exact Logic.I|]. intros A B. apply R in A, B. congruence.
  Qed.

  (** ** Directories first, then messages *)

  (** The last directory that was given *)
  Definition last_dir (l : list (text * option text)) (d : text) : option text :=
    match find (fun p => text_eqb (fst p) d) (rev l) with Some p => snd p | None => None end.
  Lemma opt_eqb_eq a b : opt_eqb a b = true -> a = b.
  Proof. destruct a, b; cbn; try discriminate; [rewrite text_eqb_eq; congruence|reflexivity]. Qed.
  Lemma binds l : forall st, NoDup (l ++ s_bound st) ->
    let st' := fst (run st (map (fun p => Bind (fst p) (snd p)) l)) in
    s_dirs st' = rev l ++ s_dirs st /\ s_domain st' = s_domain st /\ s_used st' = s_used st /\ s_answers st' = s_answers st /\ snd (run st (map (fun p => Bind (fst p) (snd p)) l)) = [].
  Proof.
    induction l as [|[d x] l IH]; intros st N; cbn [map app] in N; [cbn; auto|]. inversion N as [|? ? NI ND]. subst. cbn [map fst snd TranslatorModel.run step].
    assert (B : s_bound (bind d x st) = (d, x) :: s_bound st /\ s_dirs (bind d x st) = (d, x) :: s_dirs st /\ s_domain (bind d x st) = s_domain st /\ s_used (bind d x st) = s_used st /\ s_answers (bind d x st) = s_answers st).
    { unfold bind. destruct (existsb _ (s_bound st)) eqn:E; [|auto]. apply existsb_exists in E as ([d' x'] & I & E). apply andb_true_iff in E as [E1 E2]. apply text_eqb_eq in E1. apply opt_eqb_eq in E2. cbn in E1, E2. subst. destruct NI. apply in_app_iff. now right. }
    destruct B as (B1 & B2 & B3 & B4 & B5). specialize (IH (bind d x st)). rewrite B1, B2, B3, B4, B5 in IH.
    assert (ND' : NoDup (l ++ (d, x) :: s_bound st)) by (apply NoDup_Add with (a := (d, x)) (l := l ++ s_bound st); [apply Add_app|now split]).
    specialize (IH ND'). cbv zeta in IH. destruct (run (bind d x st) _) as [st2 o]. cbn [fst snd app] in *. cbn [rev]. rewrite <- app_assoc. exact IH.
  Qed.
  Lemma dict_find d l : dict d l = match find (fun p => text_eqb (fst p) d) l with Some p => Some (snd p) | None => None end.
  Proof. induction l as [|[k v] l IH]; cbn; [reflexivity|]. now destruct (text_eqb k d). Qed.
  (** If directories are given first, none to a domain a second time, then every message is that of the
      catalogue of its domain in the last directory that was given for it *)
  Theorem C97_directories_first dom dir bs qs : NoDup bs ->
    snd (run (init dom dir) (map (fun p => Bind (fst p) (snd p)) bs ++ map Ask qs)) =
    map (fun q => let d := match explicit q with Some d => d | None => dom end in (q, says (translation d (last_dir ((dom, dir) :: bs) d)) q)) qs.
  Proof.
    intros N. pose proof (binds bs (init dom dir)) as B. cbn [s_bound init] in B. rewrite app_nil_r in B. specialize (B N). cbv zeta in B. destruct B as (B1 & B2 & B3 & B4 & B5).
    assert (RA : forall l1 st l2, snd (run st (l1 ++ l2)) = snd (run st l1) ++ snd (run (fst (run st l1)) l2)).
    { induction l1 as [|o l1 IH]; intros st l2; [reflexivity|]. cbn [app TranslatorModel.run]. destruct (step translation st o) as [st1 a]. specialize (IH st1 l2). destruct (run st1 l1) as [st2 b]. cbn [fst snd] in *. destruct (run st1 (l1 ++ l2)) as [st3 c]. cbn [snd] in *. now rewrite IH, app_assoc. }
    rewrite RA, B5. cbn [app]. set (st := fst (run (init dom dir) _)) in *. set (D := last_dir ((dom, dir) :: bs)).
    assert (G : good (fun d => d = dom) (fun d x => x = D d) st).
    { constructor.
      - exact B2.
      - intros d. unfold dir_of, D, last_dir. rewrite B1, dict_find. cbn [init s_dirs rev]. now destruct (find _ _).
      - rewrite B3. cbn. discriminate.
      - rewrite B4. cbn. discriminate. }
    destruct (run_spec _ _ (map Ask qs) st G) as (G' & _ & _ & R & M); [intros o I; apply in_map_iff in I as (q & <- & _); exact Logic.I|].
    assert (M' : map fst (snd (run st (map Ask qs))) = qs) by (rewrite M; clear; induction qs as [|q qs IH]; cbn; congruence). clear M.
    assert (P : forall q a, In (q, a) (snd (run st (map Ask qs))) -> a = says (translation (match explicit q with Some d => d | None => dom end) (D (match explicit q with Some d => d | None => dom end))) q).
    { intros q a I. apply R in I. destruct (g_answers _ _ _ G' _ _ I) as (d & x & DD & E & ->). apply (g_used _ _ _ G') in E as ->. destruct (explicit q); now rewrite DD. }
    set (out := snd (run st (map Ask qs))) in *. clearbody out. clear - P M'. subst qs. induction out as [|[q a] out IH]; [reflexivity|]. cbn [map fst]. rewrite <- IH by (intros; apply P; now right). f_equal. f_equal. apply P. now left.
  Qed.

  (** ** Later changes *)

  (** A message that was asked for before the domain changed keeps its old translation *)
  Theorem C97_change_of_domain_refuted dom dir d m :
    exists a, snd (run (init dom dir) [Ask (Get m); Textdomain d; Ask (Get m)]) = [(Get m, a); (Get m, a)] /\ a = says (translation dom dir) (Get m).
  Proof.
    exists (says (translation dom dir) (Get m)). cbn. unfold do_get at 1, memo at 1, get_translation at 1. cbn. rewrite text_eqb_refl. cbn. unfold do_get, memo. cbn. rewrite text_eqb_refl. cbn. unfold cat_gettext, or_else, entry. destruct (translation dom dir); auto.
  Qed.
  (** Going back to a domain does nothing *)
  Theorem C97_back_to_domain_refuted dom dir a b : a <> b -> s_domain (fst (run (init dom dir) [Textdomain a; Textdomain b; Textdomain a])) = b.
  Proof.
    intros N. assert (E : text_eqb b a = false) by (destruct (text_eqb b a) eqn:E; [apply text_eqb_eq in E; congruence|reflexivity]).
    cbn. unfold textdomain at 2. cbn. rewrite E. cbn. unfold textdomain. cbn. now rewrite text_eqb_refl, orb_true_r.
  Qed.
  (** A directory given after the first message of the domain is not used *)
  Theorem C97_late_directory_refuted dom dir new m m' : 
    snd (run (init dom dir) [Ask (DGet dom m'); Bind dom new; Ask (DGet dom m)]) = [(DGet dom m', says (translation dom dir) (DGet dom m')); (DGet dom m, says (translation dom dir) (DGet dom m))].
  Proof.
    cbn. unfold memo, get_translation, bind. cbn. rewrite !text_eqb_refl. cbn. rewrite ?text_eqb_refl. cbn.
    destruct (text_eqb m' m) eqn:E; cbn; rewrite ?text_eqb_refl; cbn; [apply text_eqb_eq in E as <-|]; unfold cat_gettext, or_else, entry; destruct (translation dom dir); reflexivity.
  Qed.
End Catalogues.
Print Assumptions C97_every_history.
Print Assumptions C97_same_answer.
Print Assumptions C97_directories_first.
Print Assumptions C97_change_of_domain_refuted.
Print Assumptions C97_back_to_domain_refuted.
Print Assumptions C97_late_directory_refuted.

(** Contexts without the separator are told apart, and from messages without a context *)
Theorem C97_contexts c1 m1 c2 m2 : ~ In EOT c1 -> ~ In EOT c2 -> contextualize c1 m1 = contextualize c2 m2 -> c1 = c2 /\ m1 = m2.
Proof.
  unfold contextualize. revert c2. induction c1 as [|x c1 IH]; intros [|y c2] A B E; cbn in E.
  - injection E as ->. auto.
  - injection E as <- _. destruct B. now left.
  - injection E as -> _. destruct A. now left.
  - injection E as -> E. destruct (IH c2) as [-> ->]; auto; intros I; [apply A|apply B]; now right.
Qed.
Print Assumptions C97_contexts.

(** ** Cases *)

Definition L (s : string) : text := list_ascii_of_string s.
Definition polish (d : text) (dir : option text) : option catalogue :=
  match dir with
  | Some x => if text_eqb x (L "/pl") then Some {| c_one := fun m => if text_eqb m (L "Hello") then Some (L "Czesc") else if text_eqb m (contextualize (L "menu") (L "Hello")) then Some (L "Witaj") else None;
                                                   c_many := fun _ _ _ => None |} else None
  | None => None
  end.
Example C97_case : snd (run polish (init (L "plainbox") None)
    (map (fun p => Bind (fst p) (snd p)) [(L "plainbox", Some (L "/pl")); (L "other", Some (L "/de"))] ++
     map Ask [Get (L "Hello"); PGet (L "menu") (L "Hello"); PGet (L "menu") (L "Bye"); DGet (L "other") (L "Hello"); PNGet (L "menu") (L "job") (L "jobs") 2])) =
  [(Get (L "Hello"), L "Czesc"); (PGet (L "menu") (L "Hello"), L "Witaj"); (PGet (L "menu") (L "Bye"), L "Bye"); (DGet (L "other") (L "Hello"), L "Hello"); (PNGet (L "menu") (L "job") (L "jobs") 2, L "jobs")] /\
  NoDup [(L "plainbox", Some (L "/pl")); (L "other", Some (L "/de"))].
Proof. split; [vm_compute; reflexivity|]. constructor; [intros [E|[]]; discriminate|]. constructor; [intros []|constructor]. Qed.
Example C97_case_late : snd (run polish (init (L "plainbox") None) [Ask (Get (L "Hello")); Bind (L "plainbox") (Some (L "/pl")); Ask (DGet (L "plainbox") (L "Hello"))]) =
  [(Get (L "Hello"), L "Hello"); (DGet (L "plainbox") (L "Hello"), L "Hello")].
Proof. vm_compute. reflexivity. Qed.
