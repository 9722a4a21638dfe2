(** * C54: plug-in collections hold exactly what can be loaded *)
From Coq Require Import String Ascii List Bool Arith Lia Permutation.
From Verif Require Import ScanModel Rfc822Model Rfc822Proofs JsonModel IniModel IniProofs ChecksumModel PluginModel PluginSpec.
Import ListNotations.
Local Open Scope nat_scope.
Local Open Scope list_scope.

(** ** Order *)

Lemma before_leb a : forall b, text_leb a b = true <-> a = b \/ before a b.
Proof.
  induction a as [|x a IH]; intros [|y b]; cbn [text_leb].
  - tauto.
  - split; [right; constructor|reflexivity].
  - split; [discriminate|]. intros [H|H]; [discriminate|inversion H].
  - destruct (Nat.ltb_spec (nat_of_ascii x) (nat_of_ascii y)) as [L|L].
    + split; [right; now constructor|reflexivity].
    + destruct (Nat.eqb_spec (nat_of_ascii x) (nat_of_ascii y)) as [E|E].
      * assert (x = y) as -> by (rewrite <- (ascii_nat_embedding x), <- (ascii_nat_embedding y); now f_equal).
        rewrite IH. split.
        -- intros [->|H]; [now left|right; now constructor].
        -- intros [H|H]; [injection H as ->; now left|]. inversion H; subst; [lia|now right].
      * split; [discriminate|]. intros [H|H]; [injection H as -> ->; lia|]. inversion H; subst; lia.
Qed.
Lemma before_irrefl a : ~ before a a.
Proof. induction a; intros H; inversion H; subst; [lia|auto]. Qed.
Lemma before_trans a : forall b c, before a b -> before b c -> before a c.
Proof.
  induction a as [|x a IH]; intros b c H K; inversion H; subst; inversion K; subst;
    try (apply b_end); try (apply b_less; lia); apply b_same; eauto.
Qed.
Lemma before_total a b : a = b \/ before a b \/ before b a.
Proof.
  revert b. induction a as [|x a IH]; intros [|y b]; [tauto|right; left; constructor|right; right; constructor|].
  destruct (lt_eq_lt_dec (nat_of_ascii x) (nat_of_ascii y)) as [[L|E]|G].
  - right. left. now constructor.
  - assert (x = y) as -> by (rewrite <- (ascii_nat_embedding x), <- (ascii_nat_embedding y); now f_equal).
    destruct (IH b) as [->|[H|H]]; [now left|right; left; now constructor|right; right; now constructor].
  - right. right. now constructor.
Qed.
Definition upto (a b : text) : Prop := a = b \/ before a b.
Lemma upto_trans a b c : upto a b -> upto b c -> upto a c.
Proof. intros [->|H] [->|K]; unfold upto; eauto using before_trans. Qed.

Section Sort.
  Context {A : Type} (key : A -> text).
  Fixpoint weakly (l : list A) : Prop :=
    match l with [] => True | x :: r => (forall y, In y r -> upto (key x) (key y)) /\ weakly r end.
  Lemma insert_In x l y : In y (insert_by key x l) <-> y = x \/ In y l.
  Proof.
    induction l as [|z l IH]; cbn [insert_by In]; [intuition congruence|].
    destruct (text_leb (key x) (key z)); cbn [In]; [intuition congruence|]. rewrite IH. tauto.
  Qed.
  Lemma sort_In l y : In y (sort_by key l) <-> In y l.
  Proof. induction l as [|x l IH]; [tauto|]. cbn [sort_by In]. rewrite insert_In, IH. intuition congruence. Qed.
  Lemma insert_weakly x l : weakly l -> weakly (insert_by key x l).
  Proof.
    induction l as [|z l IH]; intros H; cbn [insert_by weakly]; [split; [intros y []|trivial]|]. destruct H as [H1 H2].
    destruct (text_leb (key x) (key z)) eqn:E; cbn [weakly].
    - apply before_leb in E. split; [|split; assumption]. intros y [<-|I]; [assumption|]. eapply upto_trans; [exact E|auto].
    - split; [|auto]. intros y I. apply insert_In in I as [->|I]; [|auto].
      destruct (before_total (key z) (key x)) as [F|[F|F]]; [now left|now right|].
      exfalso. assert (text_leb (key x) (key z) = true) by (apply before_leb; now right). congruence.
  Qed.
  Lemma sort_weakly l : weakly (sort_by key l).
  Proof. induction l; [exact I|]. now apply insert_weakly. Qed.
  (** stable *)
  Lemma insert_filter x l k : filter (fun y => text_eqb (key y) k) (insert_by key x l) = filter (fun y => text_eqb (key y) k) (x :: l).
  Proof.
    induction l as [|z l IH]; [reflexivity|]. cbn [insert_by]. destruct (text_leb (key x) (key z)) eqn:E; [reflexivity|].
    cbn [filter] in *. rewrite IH. destruct (text_eqb (key x) k) eqn:Ex, (text_eqb (key z) k) eqn:Ez; try reflexivity.
    exfalso. apply text_eqb_eq in Ex, Ez. assert (text_leb (key x) (key z) = true) by (apply before_leb; left; congruence). congruence.
  Qed.
  Lemma sort_filter l k : filter (fun y => text_eqb (key y) k) (sort_by key l) = filter (fun y => text_eqb (key y) k) l.
  Proof. induction l as [|x l IH]; [reflexivity|]. cbn [sort_by]. rewrite insert_filter. cbn [filter]. now rewrite IH. Qed.
End Sort.

(** ** Adding *)

Section Add.
  Context {W P X : Type}.
  Implicit Types (c : coll W P) (l : list (text * loading W P X)).

  Lemma last_with_cons {A B} (good : A -> option B) n0 a0 (l : list (text * A)) n b :
    last_with ((n0, a0) :: l) n good b <-> last_with l n good b \/ n = n0 /\ good a0 = Some b /\ forall a', In (n, a') l -> good a' = None.
  Proof.
    split.
    - intros (l1 & a & l2 & E & G & N). destruct l1 as [|y l1].
      + injection E as -> -> ->. right. auto.
      + injection E as _ ->. left. exists l1, a, l2. auto.
    - intros [(l1 & a & l2 & -> & G & N)|(-> & G & N)].
      + exists ((n0, a0) :: l1), a, l2. auto.
      + exists [], a0, l. auto.
  Qed.
  Lemma no_last {A B} (good : A -> option B) (l : list (text * A)) n :
    (forall b, ~ last_with l n good b) <-> forall a, In (n, a) l -> good a = None.
  Proof.
    induction l as [|[n0 a0] l IH].
    - split; [intros _ a []|]. intros _ b (l1 & a & l2 & E & _). destruct l1; discriminate.
    - split.
      + intros H. assert (K : forall a, In (n, a) l -> good a = None) by (apply IH; intros b L; apply (H b), last_with_cons; now left).
        intros a [E|I]; [|auto]. injection E as -> ->. destruct (good a) as [b|] eqn:G; [|reflexivity].
        exfalso. apply (H b), last_with_cons. right. auto.
      + intros H b L. apply last_with_cons in L as [L|(-> & G & _)].
        * revert b L. apply IH. intros a I. apply H. now right.
        * rewrite (H a0) in G; [discriminate|now left].
  Qed.

  (** A run without exception. *)
  Lemma add_all_none l : forall c c', add_all l c = (c', None) ->
    (forall n x, ~ In (n, Raise x) l) /\ c_loaded c' = c_loaded c /\
    (forall n w, last_with l n done w -> get_by_name c' n = Some w) /\
    (forall n, (forall w, ~ last_with l n done w) -> get_by_name c' n = get_by_name c n) /\
    (forall p, In p (c_problems c') <-> In p (c_problems c) \/ exists n, In (n, Problem p) l).
  Proof.
    induction l as [|[n r] l IH]; intros c c' E; cbn [add_all] in E.
    - injection E as <-. repeat split; auto; try (intros ? ? []; fail).
      + intros n w (l1 & a & l2 & D & _). destruct l1; discriminate.
      + intros [H|[n []]]. assumption.
    - destruct r as [w|p|x]; cbn [add_one] in E; [| |discriminate E]; apply IH in E as (E1 & E2 & E3 & E4 & E5); cbn in *.
      + split; [intros m x [I|I]; [discriminate|eapply E1; eauto]|]. split; [assumption|]. split; [|split].
        * intros m v L. apply last_with_cons in L as [L|(-> & G & N)]; [auto|]. injection G as <-.
          rewrite E4; [|apply no_last; exact N]. unfold get_by_name. cbn. rewrite tget_tset, text_eqb_refl. reflexivity.
        * intros m H. rewrite E4; [|intros v L; apply (H v), last_with_cons; now left].
          unfold get_by_name. cbn. rewrite tget_tset. destruct (text_eqb m n) eqn:T; [|reflexivity]. apply text_eqb_eq in T as ->.
          exfalso. pose proof (proj1 (no_last done ((n, Done w) :: l) n) H (Done w) (or_introl eq_refl)) as D. discriminate D.
        * intros p. rewrite E5. split; [intros [H|[m H]]; [now left|right; eauto]|].
          intros [H|[m [H|H]]]; [now left|discriminate|right; eauto].
      + split; [intros m x [I|I]; [discriminate|eapply E1; eauto]|]. split; [assumption|]. split; [|split].
        * intros m v L. apply last_with_cons in L as [L|(-> & G & N)]; [auto|discriminate].
        * intros m H. rewrite E4; [reflexivity|intros v L; apply (H v), last_with_cons; now left].
        * intros q. rewrite E5, in_app_iff. cbn [In]. split.
          -- intros [[H|[<-|[]]]|[m H]]; [now left|right; exists n; now left|right; eauto].
          -- intros [H|[m [H|H]]]; [now left; left|injection H as _ <-; left; right; now left|right; eauto].
  Qed.
  (** A run with one stops there. *)
  Lemma add_all_some l : forall c c' x, add_all l c = (c', Some x) ->
    exists l1 n l2, l = l1 ++ (n, Raise x) :: l2 /\ add_all l1 c = (c', None).
  Proof.
    induction l as [|[n r] l IH]; intros c c' x E; cbn [add_all] in E; [discriminate|].
    destruct r as [w|p|y]; cbn [add_one] in E.
    - apply IH in E as (l1 & m & l2 & -> & E). exists ((n, Done w) :: l1), m, l2. split; [reflexivity|]. exact E.
    - apply IH in E as (l1 & m & l2 & -> & E). exists ((n, Problem p) :: l1), m, l2. split; [reflexivity|]. exact E.
    - injection E as <- <-. exists [], n, l. split; reflexivity.
  Qed.

  Lemma keys_tset n w c : map fst (tset n w (c_plugins c)) = if tmem n (get_all_names c) then get_all_names c else get_all_names c ++ [n].
  Proof.
    unfold get_all_names. generalize (c_plugins c). induction t as [|[m v] d IH]; [reflexivity|].
    cbn [tset map fst]. unfold tmem. cbn [existsb]. destruct (text_eqb n m) eqn:E; cbn [map fst orb]; [apply text_eqb_eq in E as ->; reflexivity|].
    rewrite IH. unfold tmem. destruct (existsb (text_eqb n) (map fst d)); reflexivity.
  Qed.
  Lemma increasing_snoc (l : list text) n : increasing l -> (forall m, In m l -> before m n) -> increasing (l ++ [n]).
  Proof.
    induction l as [|a l IH]; intros H K; cbn [app increasing]; [split; [intros ? []|exact I]|]. destruct H as [H1 H2]. split.
    - intros y I. apply in_app_iff in I as [I|[<-|[]]]; [auto|]. apply K. now left.
    - apply IH; [assumption|]. intros m I. apply K. now right.
  Qed.
  Lemma add_all_names l : forall c c' o, add_all l c = (c', o) -> weakly fst l -> increasing (get_all_names c) ->
    (forall m n r, In m (get_all_names c) -> In (n, r) l -> upto m n) ->
    increasing (get_all_names c').
  Proof.
    induction l as [|[n r] l IH]; intros c c' o E S I B; cbn [add_all] in E; [injection E as <- <-; assumption|].
    destruct S as [S1 S2]. destruct r as [w|p|y]; cbn [add_one] in E.
    - eapply IH; [exact E|assumption|..]; unfold get_all_names at 1; cbn [c_plugins]; rewrite keys_tset.
      + destruct (tmem n (get_all_names c)) eqn:M; [assumption|]. apply increasing_snoc; [assumption|]. intros m Im.
        destruct (B m n (Done w) Im (or_introl eq_refl)) as [->|H]; [|assumption].
        apply tmem_In in Im. congruence.
      + intros m k r Im Ik. destruct (tmem n (get_all_names c)).
        * eapply B; [exact Im|right; exact Ik].
        * apply in_app_iff in Im as [Im|[<-|[]]]; [eapply B; [exact Im|right; exact Ik]|]. apply (S1 (k, r) Ik).
    - eapply IH; [exact E|assumption|assumption|]. intros m k r Im Ik. eapply B; [exact Im|right; exact Ik].
    - injection E as <- <-. assumption.
  Qed.
End Add.

(** ** Files *)

Lemma tprefix_spec p : forall t, tprefix p t = true <-> exists r, t = p ++ r.
Proof.
  induction p as [|a p IH]; intros t; cbn [tprefix app]; [split; eauto|]. destruct t as [|b t].
  - split; [discriminate|]. intros [r H]. discriminate.
  - rewrite andb_true_iff, IH, Ascii.eqb_eq. split.
    + intros [-> [r ->]]. eauto.
    + intros [r H]. injection H as -> ->. eauto.
Qed.
Lemma ends_with_spec e t : ends_with e t = true <-> exists s, t = s ++ e.
Proof.
  unfold ends_with. rewrite tprefix_spec. split.
  - intros [r H]. exists (rev r). apply (f_equal (@rev _)) in H. rewrite rev_involutive, rev_app_distr, rev_involutive in H. exact H.
  - intros [s ->]. exists (rev s). now rewrite rev_app_distr.
Qed.
Lemma ext_ok_spec x t : ext_ok x t = true <-> wanted x t.
Proof.
  destruct x as [|e|l]; cbn [ext_ok wanted]; [tauto|apply ends_with_spec|]. rewrite existsb_exists. split.
  - intros (e & I & H). apply ends_with_spec in H as [s H]. eauto.
  - intros (e & s & I & H). exists e. split; [assumption|]. apply ends_with_spec. eauto.
Qed.

Definition walk_list := fix go (prefix : text) (l : list (text * node)) : list (text * node) :=
  match l with [] => [] | (name, n') :: r => walk_node (prefix ++ name ++ [SLASH]) n' ++ go prefix r end.
Lemma walk_node_dir prefix d : walk_node prefix (NDir d) =
  map (fun e => (prefix ++ fst e, snd e)) (filter (fun e => negb (is_dir (snd e))) d) ++ walk_list prefix d.
Proof.
  cbn [walk_node]. f_equal. induction d as [|[n x] d IH]; [reflexivity|].
  cbn [walk_list]. rewrite <- IH. reflexivity.
Qed.
Lemma node_size_ind (Q : node -> Prop) :
  Q NFile -> Q NOther -> Q NLink -> (forall d, (forall n x, In (n, x) d -> Q x) -> Q (NDir d)) -> forall n, Q n.
Proof.
  intros H1 H2 H3 H4. fix rec 1. intros [| | |d]; [assumption..|]. apply H4. revert d. fix recl 1. intros [|[n x] d].
  - intros ? ? [].
  - intros n' x' [E|I]; [injection E as <- <-; apply rec|]. exact (recl d n' x' I).
Qed.
Lemma walk_node_In n : forall prefix p x, In (p, x) (walk_node prefix n) <->
  exists d e, n = NDir d /\ is_dir x = false /\ at_path d e x /\ p = prefix ++ e.
Proof.
  induction n as [| | |d IH] using node_size_ind; intros prefix p x;
    try (split; [intros []|intros (d & e & H & _); discriminate]).
  rewrite walk_node_dir, in_app_iff.
  assert (L : forall l, (forall n y, In (n, y) l -> In (n, y) d) -> In (p, x) (walk_list prefix l) <->
    exists n d' e, In (n, NDir d') l /\ is_dir x = false /\ at_path d' e x /\ p = prefix ++ n ++ SLASH :: e).
  { induction l as [|[n y] l IHl]; intros Sub; cbn [walk_list].
    - split; [intros []|intros (? & ? & ? & [] & _)].
    - rewrite in_app_iff, IHl by (intros; apply Sub; now right).
      rewrite (IH n y) by (apply Sub; now left). split.
      + intros [(d' & e & -> & A & B & ->)|(m & d' & e & I & R)].
        * exists n, d', e. split; [now left|]. split; [assumption|]. split; [assumption|]. rewrite <- !app_assoc. reflexivity.
        * exists m, d', e. split; [now right|assumption].
      + intros (m & d' & e & [E|I] & A & B & ->).
        * injection E as -> ->. left. exists d', e. split; [reflexivity|]. split; [assumption|]. split; [assumption|].
          rewrite <- !app_assoc. reflexivity.
        * right. exists m, d', e. auto. }
  rewrite (L d) by auto. rewrite in_map_iff. split.
  - intros [([n y] & E & I)|(n & d' & e & I & A & B & ->)].
    + cbn in E. injection E as <- <-. apply filter_In in I as [I N]. cbn in N. exists d, n. split; [reflexivity|].
      split; [now destruct (is_dir y)|]. split; [now constructor|reflexivity].
    + exists d, (n ++ SLASH :: e). split; [reflexivity|]. split; [assumption|]. split; [eapply at_below; eauto|reflexivity].
  - intros (d0 & e & E & A & B & ->). injection E as <-. inversion B as [d1 n y I|d1 n d' q y I B']; subst.
    + left. exists (e, x). split; [reflexivity|]. apply filter_In. split; [assumption|]. cbn. now rewrite A.
    + right. exists n, d', q. auto.
Qed.

Lemma plugin_files_spec fs recursive x dirs f :
  In f (plugin_files fs recursive x dirs) <-> plugin_file fs recursive x dirs f.
Proof.
  assert (One : forall d, In f (files_in recursive x d (fs d)) <->
    exists tree entry, fs d = Some tree /\ wanted x entry /\ f = pjoin d entry /\
      if recursive then at_path tree entry NFile else In (entry, NFile) tree).
  { intros d. destruct (fs d) as [tree|]; cbn [files_in].
    - rewrite in_map_iff. split.
      + intros ([e n] & <- & I). apply filter_In in I as [I H]. cbn [fst snd] in H. apply andb_true_iff in H as [H1 H2].
        exists tree, e. split; [reflexivity|]. split; [now apply ext_ok_spec|]. split; [reflexivity|].
        destruct n; try discriminate. destruct recursive; [|assumption].
        apply walk_node_In in I as (d' & e' & E & _ & A & Ee). injection E as <-. cbn in Ee. now subst.
      + intros (t & e & E & A & -> & B). injection E as <-. exists (e, NFile). split; [reflexivity|]. apply filter_In.
        split; [|cbn; rewrite (proj2 (ext_ok_spec _ _) A); reflexivity].
        destruct recursive; [|assumption]. apply walk_node_In. exists tree, e. repeat split. assumption.
    - split; [intros []|intros (t & e & E & _); discriminate]. }
  unfold plugin_file. induction dirs as [|d dirs IH]; cbn [plugin_files].
  - split; [intros []|intros (? & ? & ? & [] & _)].
  - rewrite in_app_iff, IH, One. split.
    + intros [(t & e & H)|(d' & t & e & I & H)]; [exists d, t, e; split; [now left|assumption]|exists d', t, e; split; [now right|assumption]].
    + intros (d' & t & e & [->|I] & H); [left; eauto|right; exists d', t, e; auto].
Qed.

(** ** Collections of files *)

Section Fs.
  Context {O W P X : Type}.
  Variables (fs : text -> option dir) (recursive : bool) (x : ext) (dirs : list text).
  Variables (read : text -> loading O P X) (wrap : text -> O -> loading W P X).
  Notation file := (plugin_file fs recursive x dirs).
  Notation load := (fs_load fs recursive x dirs read wrap).

  Definition entry_of (f : text) : text * loading W P X := (f, and_then (read f) (wrap f)).
  Lemma weakly_entries l : weakly (fun f => f) l -> weakly fst (map entry_of l).
  Proof.
    induction l as [|f l IH]; intros H; [exact I|]. destruct H as [H1 H2]. cbn [map weakly]. split; [|auto].
    intros y Iy. apply in_map_iff in Iy as (g & <- & Ig). cbn. auto.
  Qed.
  Lemma load_Done f w : and_then (read f) (wrap f) = Done w <-> loads read wrap f w.
  Proof.
    unfold loads, and_then. split; [destruct (read f); try discriminate; eauto|]. intros (o & -> & H). exact H.
  Qed.
  Lemma load_Problem f p : and_then (read f) (wrap f) = Problem p <-> has_problem read wrap f p.
  Proof.
    unfold has_problem, and_then. split.
    - destruct (read f); try discriminate; intros H; [right; eauto|]. injection H as ->. now left.
    - intros [->|(o & -> & H)]; auto.
  Qed.
  Lemma load_Raise f y : and_then (read f) (wrap f) = Raise y <-> raises read wrap f y.
  Proof.
    unfold raises, and_then. split.
    - destruct (read f); try discriminate; intros H; [right; eauto|]. injection H as ->. now left.
    - intros [->|(o & -> & H)]; auto.
  Qed.
  Lemma last_entries l f w : last_with (map entry_of l) f done w <-> In f l /\ loads read wrap f w.
  Proof.
    assert (D : forall r : loading W P X, done r = Some w <-> r = Done w) by (intros [?|?|?]; cbn; split; congruence).
    rewrite <- load_Done. induction l as [|g l IH]; cbn [map].
    - split; [intros (l1 & a & l2 & E & _); destruct l1; discriminate|intros [[] _]].
    - unfold entry_of at 1. rewrite last_with_cons, IH. rewrite D. split.
      + intros [[I H]|(-> & H & _)]; [split; [now right|assumption]|split; [now left|assumption]].
      + intros [I H]. destruct (in_dec (list_eq_dec ascii_dec) f l) as [J|J]; [left; auto|].
        destruct I as [->|I]; [|contradiction]. right. split; [reflexivity|]. split; [assumption|].
        intros a Ia. apply in_map_iff in Ia as (h & E & Ih). injection E as -> <-. contradiction.
  Qed.

  (** Loading that returns: the plug-ins are the files that can be read and wrapped, in
      order, and the others are problems. *)
  Theorem C54_files_are_loaded c : load new_coll = (c, None) ->
    increasing (get_all_names c) /\
    (forall f w, get_by_name c f = Some w <-> file f /\ loads read wrap f w) /\
    (forall p, In p (c_problems c) <-> exists f, file f /\ has_problem read wrap f p) /\
    (forall f y, file f -> ~ raises read wrap f y) /\
    load c = (c, None).
  Proof.
    unfold fs_load at 1. cbn [c_loaded new_coll]. intros E.
    set (l := sort_by (fun f => f) (plugin_files fs recursive x dirs)) in *.
    assert (Il : forall f, In f l <-> file f) by (intros f; unfold l; rewrite sort_In; apply plugin_files_spec).
    assert (Wl : weakly fst (map entry_of l)) by (apply weakly_entries, sort_weakly).
    split; [|split; [|split; [|split]]].
    - eapply add_all_names; [exact E|exact Wl|exact I|]. intros m n r [].
    - apply add_all_none in E as (_ & _ & E3 & E4 & _). intros f w. rewrite <- Il. rewrite <- (last_entries l f w). split; [|apply E3].
      intros G. destruct (and_then (read f) (wrap f)) as [v|p|y] eqn:A.
      + destruct (in_dec (list_eq_dec ascii_dec) f l) as [J|J].
        * assert (L : last_with (map entry_of l) f done v) by (apply last_entries; split; [assumption|now apply load_Done]).
          rewrite (E3 _ _ L) in G. injection G as ->. exact L.
        * rewrite E4 in G; [discriminate|]. intros u L. apply last_entries in L as [L _]. contradiction.
      + rewrite E4 in G; [discriminate|]. intros u L. apply last_entries in L as [_ L]. apply load_Done in L. congruence.
      + rewrite E4 in G; [discriminate|]. intros u L. apply last_entries in L as [_ L]. apply load_Done in L. congruence.
    - apply add_all_none in E as (_ & _ & _ & _ & E5). intros p. rewrite E5. cbn [c_problems set_loaded new_coll]. split.
      + intros [[]|[f I]]. apply in_map_iff in I as (g & Eg & Ig). injection Eg as -> H. exists f. split; [now apply Il|now apply load_Problem].
      + intros (f & F & H). right. exists f. apply in_map_iff. exists f. split; [|now apply Il]. unfold entry_of. f_equal. now apply load_Problem.
    - apply add_all_none in E as (E1 & _). intros f y F H. apply (E1 f y). apply in_map_iff. exists f. split; [|now apply Il].
      unfold entry_of. f_equal. now apply load_Raise.
    - apply add_all_none in E as (_ & E2 & _). unfold fs_load. rewrite E2. reflexivity.
  Qed.

  (** Loading raises exactly if one of the files raises something that is not a problem:
      the first such file counts, what is before it is there, and nothing else will
      ever be. *)
  Theorem C54_loading_raises :
    ((exists c y, load new_coll = (c, Some y)) <-> exists f y, file f /\ raises read wrap f y) /\
    forall c y, load new_coll = (c, Some y) ->
      exists f, file f /\ raises read wrap f y /\ (forall g z, file g -> before g f -> ~ raises read wrap g z) /\
        (forall g w, get_by_name c g = Some w <-> file g /\ before g f /\ loads read wrap g w) /\
        load c = (c, None).
  Proof.
    set (l := sort_by (fun f => f) (plugin_files fs recursive x dirs)).
    assert (Il : forall f, In f l <-> file f) by (intros f; unfold l; rewrite sort_In; apply plugin_files_spec).
    assert (Wl : weakly (fun f => f) l) by apply sort_weakly.
    assert (E0 : load new_coll = add_all (map entry_of l) (set_loaded new_coll)) by reflexivity.
    split.
    - rewrite E0. split.
      + intros (c & y & E). apply add_all_some in E as (l1 & f & l2 & E & _).
        assert (I : In (f, Raise y) (map entry_of l)) by (rewrite E; apply in_app_iff; right; now left).
        apply in_map_iff in I as (g & Eg & Ig). injection Eg as -> H. exists f, y. split; [now apply Il|now apply load_Raise].
      + intros (f & y & F & H). destruct (add_all (map entry_of l) (set_loaded new_coll)) as [c [z|]] eqn:E; [eauto|].
        exfalso. apply add_all_none in E as (E1 & _). apply (E1 f y). apply in_map_iff. exists f. split; [|now apply Il].
        unfold entry_of. f_equal. now apply load_Raise.
    - intros c y E. rewrite E0 in E. apply add_all_some in E as (l1 & f & l2 & E & E').
      assert (S : exists k1 k2, l = k1 ++ f :: k2 /\ l1 = map entry_of k1 /\ and_then (read f) (wrap f) = Raise y).
      { clear -E. revert l1 E. induction l as [|g l IH]; intros l1 E; cbn [map] in E.
        - destruct l1; discriminate.
        - destruct l1 as [|e l1].
          + injection E as <- H _. exists [], l. rewrite H. auto.
          + injection E as <- E. destruct (IH l1 E) as (k1 & k2 & -> & -> & H). exists (g :: k1), k2. auto. }
      destruct S as (k1 & k2 & El & -> & H).
      pose proof (add_all_none _ _ _ E') as (A1 & A2 & A3 & A4 & _).
      assert (K1 : forall g, In g k1 -> file g) by (intros g I; apply Il; rewrite El; apply in_app_iff; now left).
      assert (R1 : forall g z, In g k1 -> ~ raises read wrap g z).
      { intros g z I R. apply (A1 g z). apply in_map_iff. exists g. split; [|assumption]. unfold entry_of. f_equal. now apply load_Raise. }
      assert (Split : forall g, file g -> before g f -> In g k1).
      { intros g Fg B. apply Il in Fg. rewrite El in Fg, Wl. apply in_app_iff in Fg as [I|I]; [assumption|]. exfalso.
        assert (U : upto f g).
        { destruct I as [->|I]; [now left|]. clear -Wl I. induction k1 as [|h k1 IH]; cbn [app weakly] in Wl; [apply Wl, I|]. apply IH, Wl. }
        destruct U as [->|U]; [now apply before_irrefl in B|]. apply (before_irrefl f). eauto using before_trans. }
      assert (Before : forall g, In g k1 -> upto g f).
      { intros g I. rewrite El in Wl. clear -Wl I. induction k1 as [|h k1 IH]; [destruct I|]. cbn [app weakly] in Wl. destruct Wl as [V1 V2].
        destruct I as [->|I]; [|auto]. apply V1. apply in_app_iff. right. now left. }
      assert (Ff : file f) by (apply Il; rewrite El; apply in_app_iff; right; now left).
      exists f. split; [assumption|]. split; [now apply load_Raise|]. split; [|split].
      + intros g z Fg B. apply R1. auto.
      + intros g w. split.
        * intros G. destruct (in_dec (list_eq_dec ascii_dec) g k1) as [I|I].
          -- destruct (and_then (read g) (wrap g)) as [v|p|z] eqn:A.
             ++ assert (L : last_with (map entry_of k1) g done v) by (apply last_entries; split; [assumption|now apply load_Done]).
                rewrite (A3 _ _ L) in G. injection G as ->. split; [auto|]. split; [|now apply load_Done].
                destruct (Before g I) as [->|B]; [|assumption]. congruence.
             ++ rewrite A4 in G; [discriminate|]. intros u L. apply last_entries in L as [_ L]. apply load_Done in L. congruence.
             ++ exfalso. apply (R1 g z I). now apply load_Raise.
          -- rewrite A4 in G; [discriminate|]. intros u L. apply last_entries in L as [L _]. contradiction.
        * intros (Fg & B & L). apply A3. apply last_entries. split; [auto|assumption].
      + unfold fs_load. rewrite A2. reflexivity.
  Qed.
End Fs.
Print Assumptions C54_files_are_loaded.
Print Assumptions C54_loading_raises.

(** A file that raises something unexpected (one that is not valid UTF-8) hides those
    after it: load() raises once, then the collection passes for loaded. *)
Theorem C54_failed_load_is_retried_refuted :
  exists (fs : text -> option dir) (read : text -> loading text unit unit) c,
    fs_load fs false ExtAny [T "d"] read (fun _ t => Done t) new_coll = (c, Some tt) /\
    read (T "d/b") = Done (T "good") /\ plugin_file fs false ExtAny [T "d"] (T "d/b") /\
    fs_load fs false ExtAny [T "d"] read (fun _ t => Done t) c = (c, None) /\ get_by_name c (T "d/b") = None.
Proof.
  exists (fun _ => Some [(T "b", NFile); (T "a", NFile)]), (fun f => if text_eqb f (T "d/a") then Raise tt else Done (T "good")), (mk_coll true [] []).
  split; [reflexivity|]. split; [reflexivity|]. split; [|split; reflexivity].
  exists (T "d"), [(T "b", NFile); (T "a", NFile)], (T "b"). repeat split; now left.
Qed.
Print Assumptions C54_failed_load_is_retried_refuted.

(** ** Entry points *)

Section Pkg.
  Context {W P X : Type}.
  Lemma last_with_filter {A B} (good : A -> option B) (l : list (text * A)) n b :
    last_with l n good b <-> last_with (filter (fun y => text_eqb (fst y) n) l) n good b.
  Proof.
    induction l as [|[m a] l IH]; [tauto|]. cbn [filter fst].
    assert (F : forall a', In (n, a') (filter (fun y => text_eqb (fst y) n) l) <-> In (n, a') l).
    { intros a'. rewrite filter_In. cbn. rewrite text_eqb_refl. tauto. }
    destruct (text_eqb m n) eqn:E.
    - rewrite !last_with_cons, IH. setoid_rewrite F. tauto.
    - rewrite last_with_cons, IH. apply text_eqb_neq in E. split; [|tauto]. intros [H|(-> & _)]; [assumption|congruence].
  Qed.
  (** Of entry points of one name the last that can be loaded counts. *)
  Theorem C54_entry_points_are_loaded (l : list (text * loading W P X)) c : pkg_load l new_coll = (c, None) ->
    increasing (get_all_names c) /\
    (forall n w, get_by_name c n = Some w <-> last_with l n done w) /\
    (forall p, In p (c_problems c) <-> exists n, In (n, Problem p) l) /\
    (forall n y, ~ In (n, Raise y) l) /\
    pkg_load l c = (c, None).
  Proof.
    unfold pkg_load at 1. cbn [c_loaded new_coll]. destruct (add_all (sort_by fst l) new_coll) as [c' [y|]] eqn:E; [discriminate|].
    intros H. injection H as <-. pose proof (add_all_none _ _ _ E) as (E1 & E2 & E3 & E4 & E5).
    assert (L : forall n w, last_with (sort_by fst l) n done w <-> last_with l n done w).
    { intros n w. rewrite last_with_filter, sort_filter, <- last_with_filter. tauto. }
    split; [|split; [|split; [|split]]].
    - change (increasing (get_all_names c')). eapply add_all_names; [exact E|apply sort_weakly|exact I|]. intros m n r [].
    - intros n w. change (get_by_name c' n = Some w <-> last_with l n done w). rewrite <- L. split; [|apply E3]. intros G.
      assert (D : forall a, last_with (sort_by fst l) n done a -> a = w) by (intros a La; rewrite (E3 _ _ La) in G; now injection G).
      assert (X' : (forall a, ~ last_with (sort_by fst l) n done a) \/ exists a, last_with (sort_by fst l) n done a).
      { clear. induction (sort_by fst l) as [|[m a] k IH].
        - left. intros a (l1 & b & l2 & E & _). destruct l1; discriminate.
        - destruct IH as [N|[b B]].
          + destruct (text_eqb m n) eqn:E.
            * apply text_eqb_eq in E as ->. destruct (done a) as [b|] eqn:D.
              -- right. exists b. apply last_with_cons. right. split; [reflexivity|]. split; [assumption|]. now apply no_last.
              -- left. intros b H. apply last_with_cons in H as [H|(_ & H & _)]; [now apply (N b)|congruence].
            * left. intros b H. apply last_with_cons in H as [H|(-> & _)]; [now apply (N b)|]. now rewrite text_eqb_refl in E.
          + right. exists b. apply last_with_cons. now left. }
      destruct X' as [N|[a La]]; [rewrite (E4 n N) in G; discriminate|]. now rewrite <- (D a La).
    - intros p. change (In p (c_problems c') <-> exists n, In (n, Problem p) l). rewrite E5. cbn [c_problems new_coll]. split.
      + intros [[]|[n I]]. exists n. now apply sort_In in I.
      + intros [n I]. right. exists n. now apply sort_In.
    - intros n y I. apply (E1 n y). now apply sort_In.
    - reflexivity.
  Qed.
End Pkg.
Print Assumptions C54_entry_points_are_loaded.

(** Here a load that raised is tried again, and records its problems again. *)
Theorem C54_problems_are_recorded_once_refuted :
  exists (l l' : list (text * loading unit nat unit)) c c', pkg_load l new_coll = (c, Some tt) /\
    pkg_load l' c = (c', None) /\ c_problems c' = [1; 1].
Proof.
  exists [(T "a", Problem 1); (T "b", Raise tt)], [(T "a", Problem 1); (T "b", Done tt)], (mk_coll false [] [1]), (mk_coll true [(T "b", tt)] [1; 1]).
  repeat split.
Qed.
Print Assumptions C54_problems_are_recorded_once_refuted.

(** ** Lazy collections *)

Section LazyProps.
  Context {W P X : Type}.
  Variable imp : nat -> text -> loading W P X.
  Notation call := (call W P X imp).
  Notation calls := (calls W P X imp).
  Notation lazy_load := (lazy_load W P X imp).
  Notation lazy_get := (lazy_get W P X imp).
  Notation load_one := (load_one W P X imp).
  Notation load_rest := (load_rest W P X imp).

  Lemma calls_app a b s : calls (a ++ b) s = match calls a s with (s', x) => match calls b s' with (s'', y) => (s'', x ++ y) end end.
  Proof.
    revert s. induction a as [|c a IH]; intros s; cbn [app PluginModel.calls].
    - destruct (calls b s). reflexivity.
    - destruct (call c s) as [s1 x]. rewrite IH. destruct (calls a s1) as [s2 y]. destruct (calls b s2) as [s3 z]. now rewrite app_assoc.
  Qed.
  Lemma call_fake ps probs body s : call (CFake ps probs body) s =
    match calls body (mk_lazy (mk_coll true (dict_of W ps []) probs) [] (l_imports s)) with
    (s', a) => (mk_lazy (l_coll s) (l_mapping s) (l_imports s'), a) end.
  Proof.
    cbn [PluginModel.call].
    match goal with |- match ?f body ?s0 with _ => _ end = _ => assert (E : forall l s1, f l s1 = calls l s1) end.
    { induction l as [|c l IH]; intros s1; [reflexivity|]. cbn [PluginModel.calls]. destruct (call c s1) as [s2 a]. rewrite IH. reflexivity. }
    now rewrite E.
  Qed.
  Section CallInd.
    Variable Q : lcall W P -> Prop.
    Hypothesis H1 : Q CLoad. Hypothesis H2 : forall n, Q (CGet n). Hypothesis H3 : Q CNames.
    Hypothesis H4 : forall ps pr body, (forall c, In c body -> Q c) -> Q (CFake ps pr body).
    Fixpoint lcall_rec' (c : lcall W P) : Q c :=
      match c with
      | CLoad => H1 | CGet n => H2 n | CNames => H3
      | CFake ps pr body => H4 ps pr body
          ((fix go (l : list (lcall W P)) : forall c, In c l -> Q c :=
              match l with
              | [] => fun c f => match f with end
              | a :: r => fun c i => match i with or_introl e => eq_ind a Q (lcall_rec' a) c e | or_intror i' => go r c i' end
              end) body)
      end.
  End CallInd.

  (** When everything is loaded nothing changes any more. *)
  Lemma loaded_stable c : forall s, c_loaded (l_coll s) = true -> fst (call c s) = s.
  Proof.
    induction c as [| | |ps pr body IH] using lcall_rec'; intros s L.
    - cbn. unfold PluginModel.lazy_load. now rewrite L.
    - cbn. unfold PluginModel.lazy_get. now rewrite L.
    - reflexivity.
    - rewrite call_fake.
      set (s0 := mk_lazy (mk_coll true (dict_of W ps []) pr) [] (l_imports s)).
      assert (B : forall l, (forall c, In c l -> In c body) -> fst (calls l s0) = s0).
      { induction l as [|c l IHl]; intros Sub; [reflexivity|]. cbn [PluginModel.calls].
        pose proof (IH c (Sub c (or_introl eq_refl)) s0 eq_refl) as Hc. destruct (call c s0) as [s1 a]. cbn in Hc. subst s1.
        pose proof (IHl (fun c i => Sub c (or_intror i))) as Hl. destruct (calls l s0) as [s2 b]. exact Hl. }
      specialize (B body (fun c i => i)). destruct (calls body s0) as [s1 a]. cbn in B. subst s1. cbn. destruct s. reflexivity.
  Qed.
  Lemma loaded_stable_all l s : c_loaded (l_coll s) = true -> fst (calls l s) = s.
  Proof.
    intros L. induction l as [|c l IH]; [reflexivity|]. cbn [PluginModel.calls]. pose proof (loaded_stable c s L) as Hc.
    destruct (call c s) as [s1 a]. cbn in Hc. subst s1. destruct (calls l s) as [s2 b]. exact IH.
  Qed.

  (** Faking: nothing is imported, and afterwards everything is as before. *)
  Theorem C54_faking_leaves_no_trace ps pr body s : fst (call (CFake ps pr body) s) = s.
  Proof.
    rewrite call_fake. pose proof (loaded_stable_all body (mk_lazy (mk_coll true (dict_of W ps []) pr) [] (l_imports s)) eq_refl) as H.
    destruct (calls body _) as [s1 a]. cbn in *. subst s1. destruct s. reflexivity.
  Qed.

  Lemma dict_of_get ps : forall d n, (forall w, last_with ps n Some w -> tget n (dict_of W ps d) = Some w) /\
    ((forall w, ~ In (n, w) ps) -> tget n (dict_of W ps d) = tget n d).
  Proof.
    induction ps as [|[m v] ps IH]; intros d n; cbn [dict_of].
    - split; [|reflexivity]. intros w (l1 & a & l2 & E & _). destruct l1; discriminate.
    - destruct (IH (tset m v d) n) as [A B]. split.
      + intros w L. apply last_with_cons in L as [L|(-> & G & N)]; [auto|]. injection G as ->.
        rewrite B; [now rewrite tget_tset, text_eqb_refl|]. intros u I. specialize (N u I). discriminate N.
      + intros N. rewrite B by (intros w I; apply (N w); now right). rewrite tget_tset. destruct (text_eqb n m) eqn:E; [|reflexivity].
        apply text_eqb_eq in E as ->. exfalso. apply (N v). now left.
  Qed.
  (** The fake plug-ins, and no others, are seen. *)
  Theorem C54_fakes_are_seen ps pr body n s :
    exists a, snd (call (CFake ps pr (body ++ [CGet n])) s) = snd (call (CFake ps pr body) s) ++ [a] /\
      (forall w, last_with ps n Some w -> a = APlugin w) /\ ((forall w, ~ In (n, w) ps) -> a = AKeyError).
  Proof.
    rewrite !call_fake. set (s0 := mk_lazy (mk_coll true (dict_of W ps []) pr) [] (l_imports s)). rewrite calls_app.
    pose proof (loaded_stable_all body s0 eq_refl) as H. destruct (calls body s0) as [s1 b]. cbn in H. subst s1.
    cbn [PluginModel.calls PluginModel.call PluginModel.lazy_get l_coll s0 c_loaded snd]. eexists. split; [reflexivity|].
    destruct (dict_of_get ps [] n) as [A B]. unfold get_by_name. cbn [c_plugins l_coll]. split.
    - intros w L. now rewrite (A w L).
    - intros N. now rewrite (B N).
  Qed.

  (** What has been found stays, and is not imported again. *)
  Definition count (n : text) (l : list text) : nat := length (filter (text_eqb n) l).
  Lemma load_one_keeps n w m s s' o : get_by_name (l_coll s) n = Some w -> get_by_name (l_coll s) m = None -> load_one m s = (s', o) ->
    get_by_name (l_coll s') n = Some w /\ count n (l_imports s') = count n (l_imports s).
  Proof.
    intros G N E. unfold PluginModel.load_one in E.
    assert (D : text_eqb n m = false) by (apply text_eqb_neq; intros ->; congruence).
    assert (C : count n (m :: l_imports s) = count n (l_imports s)) by (unfold count; cbn [filter]; now rewrite D).
    destruct (imp (length (l_imports s)) m) as [v|p|y]; cbn [add_one] in E; injection E as <- <-; cbn [l_coll l_imports]; (split; [|assumption]).
    - unfold get_by_name. cbn. rewrite tget_tset, D. exact G.
    - exact G.
    - exact G.
  Qed.
  Lemma load_rest_keeps n w ms : forall s s' o, get_by_name (l_coll s) n = Some w -> load_rest ms s = (s', o) ->
    get_by_name (l_coll s') n = Some w /\ count n (l_imports s') = count n (l_imports s).
  Proof.
    induction ms as [|m ms IH]; intros s s' o G E; cbn [PluginModel.load_rest] in E; [injection E as <- <-; auto|].
    destruct (get_by_name (l_coll s) m) eqn:M; [eauto|]. destruct (load_one m s) as [s1 [y|]] eqn:L.
    - injection E as <- <-. eapply load_one_keeps; eauto.
    - destruct (load_one_keeps _ _ _ _ _ _ G M L) as [G1 C1]. destruct (IH _ _ _ G1 E) as [G2 C2]. split; [assumption|congruence].
  Qed.
  Lemma call_keeps n w c s : get_by_name (l_coll s) n = Some w ->
    get_by_name (l_coll (fst (call c s))) n = Some w /\ count n (l_imports (fst (call c s))) = count n (l_imports s).
  Proof.
    intros G. destruct c as [|m| |ps pr body].
    - cbn. destruct (lazy_load s) as [s1 o] eqn:E.
      assert (K : get_by_name (l_coll s1) n = Some w /\ count n (l_imports s1) = count n (l_imports s)).
      { unfold PluginModel.lazy_load in E. destruct (c_loaded (l_coll s)); [injection E as <- <-; auto|]. refine (load_rest_keeps n w _ _ _ _ _ E). exact G. }
      destruct o; exact K.
    - cbn. destruct (lazy_get m s) as [s1 a] eqn:E. cbn. unfold PluginModel.lazy_get in E. destruct (c_loaded (l_coll s)); [injection E as <- <-; auto|].
      destruct (get_by_name (l_coll s) m) eqn:M; [injection E as <- <-; auto|]. destruct (tmem m (l_mapping s)); [|injection E as <- <-; auto].
      destruct (load_one m s) as [s2 [y|]] eqn:L; injection E as <- <-; eapply load_one_keeps; eauto.
    - auto.
    - rewrite C54_faking_leaves_no_trace. auto.
  Qed.
  Lemma calls_keep n w l : forall s, get_by_name (l_coll s) n = Some w ->
    get_by_name (l_coll (fst (calls l s))) n = Some w /\ count n (l_imports (fst (calls l s))) = count n (l_imports s).
  Proof.
    induction l as [|c l IH]; intros s G; [auto|]. cbn [PluginModel.calls]. destruct (call_keeps n w c s G) as [G1 C1].
    destruct (call c s) as [s1 a]. cbn in G1, C1. destruct (IH s1 G1) as [G2 C2]. destruct (calls l s1) as [s2 b]. cbn in *. split; [assumption|congruence].
  Qed.
  Lemma get_answer n w s : snd (lazy_get n s) = APlugin w <-> get_by_name (l_coll (fst (lazy_get n s))) n = Some w.
  Proof.
    unfold PluginModel.lazy_get. destruct (c_loaded (l_coll s)) eqn:L.
    - cbn [fst snd]. destruct (get_by_name (l_coll s) n); split; congruence.
    - destruct (get_by_name (l_coll s) n) as [v|] eqn:G; [cbn [fst snd]; rewrite G; split; congruence|].
      destruct (tmem n (l_mapping s)); [|cbn; rewrite G; split; congruence].
      unfold PluginModel.load_one. destruct (imp (length (l_imports s)) n) as [v|p|y]; cbn [add_one].
      + cbn [fst snd l_coll]. match goal with |- context [get_by_name ?c n] => destruct (get_by_name c n) end; split; intros H; try discriminate H; injection H as ->; reflexivity.
      + cbn [fst snd l_coll]. match goal with |- context [get_by_name ?c n] => destruct (get_by_name c n) end; split; intros H; try discriminate H; injection H as ->; reflexivity.
      + cbn [fst snd l_coll]. rewrite G. split; congruence.
  Qed.

  (** Once a plug-in has been returned it is returned by every later call, and its name is
      never imported again, whatever is called in between. *)
  Theorem C54_same_plugin_forever mapping h1 n w h2 :
    let s1 := fst (calls h1 (new_lazy mapping)) in
    let s2 := fst (calls (CGet n :: h2) s1) in
    snd (lazy_get n s1) = APlugin w ->
    snd (lazy_get n s2) = APlugin w /\ count n (l_imports (fst (lazy_get n s2))) = count n (l_imports (fst (lazy_get n s1))).
  Proof.
    cbv zeta. set (s1 := fst (calls h1 (new_lazy mapping))). intros H. apply get_answer in H. cbn [PluginModel.calls PluginModel.call].
    destruct (lazy_get n s1) as [s a]. cbn in H. destruct (calls_keep n w h2 s H) as [G C]. destruct (calls h2 s) as [s2 b]. cbn in *.
    unfold PluginModel.lazy_get. destruct (c_loaded (l_coll s2)); rewrite G; split; auto.
  Qed.

  (** If importing is a matter of the name only: after load() the collection has exactly
      the plug-ins of the mapping that can be imported, if nothing raised. *)
  Definition raised (a : answer W X) : Prop := exists y, a = ARaise y.
  Variable r : text -> loading W P X.
  Hypothesis same : forall k n, imp k n = r n.
  Definition sound (s : lazy W P) : Prop :=
    forall n w, get_by_name (l_coll s) n = Some w -> In n (l_mapping s) /\ r n = Done w.
  Definition complete (names : list text) (s : lazy W P) : Prop :=
    forall n w, In n names -> r n = Done w -> get_by_name (l_coll s) n = Some w.
  Lemma load_one_det n s s' o : In n (l_mapping s) -> sound s -> load_one n s = (s', o) ->
    sound s' /\ l_mapping s' = l_mapping s /\ c_loaded (l_coll s') = c_loaded (l_coll s) /\
    (forall m w, get_by_name (l_coll s) m = Some w -> get_by_name (l_coll s') m = Some w) /\
    (forall w, r n = Done w -> get_by_name (l_coll s') n = Some w).
  Proof.
    intros I S E. unfold PluginModel.load_one in E. rewrite same in E.
    destruct (r n) as [v|p|y] eqn:R; cbn [add_one] in E; injection E as <- <-; unfold sound; cbn [l_mapping l_coll c_loaded];
      (split; [|split; [reflexivity|split; [reflexivity|]]]).
    - intros m w. unfold get_by_name. cbn [c_plugins]. rewrite tget_tset. destruct (text_eqb m n) eqn:T; [|apply S].
      apply text_eqb_eq in T as ->. intros G. injection G as <-. auto.
    - split.
      + intros m w G. unfold get_by_name in *. cbn [c_plugins]. rewrite tget_tset. destruct (text_eqb m n) eqn:T; [|assumption].
        apply text_eqb_eq in T as ->. apply S in G as [_ G]. congruence.
      + intros w D. injection D as ->. unfold get_by_name. cbn [c_plugins]. now rewrite tget_tset, text_eqb_refl.
    - exact S.
    - split; [auto|discriminate].
    - exact S.
    - split; [auto|discriminate].
  Qed.
  Lemma load_rest_det names : forall s s', (forall n, In n names -> In n (l_mapping s)) -> sound s -> load_rest names s = (s', None) ->
    sound s' /\ l_mapping s' = l_mapping s /\ c_loaded (l_coll s') = c_loaded (l_coll s) /\
    (forall m w, get_by_name (l_coll s) m = Some w -> get_by_name (l_coll s') m = Some w) /\ complete names s'.
  Proof.
    induction names as [|n names IH]; intros s s' Sub S E; cbn [PluginModel.load_rest] in E.
    - injection E as <-. split; [assumption|]. split; [reflexivity|]. split; [reflexivity|]. split; [auto|]. intros n w [].
    - destruct (get_by_name (l_coll s) n) as [v|] eqn:G.
      + destruct (IH s s' (fun n i => Sub n (or_intror i)) S E) as (A & B & C & D & F).
        split; [assumption|]. split; [assumption|]. split; [assumption|]. split; [assumption|].
        intros m w [<-|I] R; [|now apply F]. apply S in G as G'. destruct G' as [_ G']. rewrite R in G'. injection G' as <-. auto.
      + destruct (load_one n s) as [s1 [y|]] eqn:L; [discriminate|].
        destruct (load_one_det n s s1 None (Sub n (or_introl eq_refl)) S L) as (A & B & C & D & F).
        destruct (IH s1 s') as (A' & B' & C' & D' & F'); auto; [intros m I; rewrite B; apply Sub; now right|].
        split; [assumption|]. split; [congruence|]. split; [congruence|]. split; [auto|].
        intros m w [<-|I] R; [auto|now apply F'].
  Qed.
  Definition good (mapping : list text) (s : lazy W P) : Prop :=
    l_mapping s = mapping /\ sound s /\ (c_loaded (l_coll s) = true -> complete mapping s).
  Lemma call_good mapping c s : good mapping s -> (forall a, In a (snd (call c s)) -> ~ raised a) -> good mapping (fst (call c s)).
  Proof.
    intros (M & S & C) N. destruct c as [|n| |ps pr body].
    - cbn in *. destruct (lazy_load s) as [s1 [y|]] eqn:E.
      + exfalso. apply (N (ARaise y)); [now left|now exists y].
      + cbn. unfold PluginModel.lazy_load in E. destruct (c_loaded (l_coll s)) eqn:L; [injection E as <-; (split; [exact M|split; [exact S|intros ?; first [now apply C|apply C; congruence|congruence]]])|].
        apply load_rest_det in E as (A & B & D & _ & F); [|cbn; auto|exact S]. cbn [l_mapping] in B. split; [congruence|]. split; [assumption|].
        intros _. rewrite <- M. exact F.
    - cbn in *. destruct (lazy_get n s) as [s1 a] eqn:E. cbn in *. unfold PluginModel.lazy_get in E.
      destruct (c_loaded (l_coll s)) eqn:L; [injection E as <- <-; (split; [exact M|split; [exact S|intros ?; first [now apply C|apply C; congruence|congruence]]])|].
      destruct (get_by_name (l_coll s) n) eqn:G; [injection E as <- <-; (split; [exact M|split; [exact S|intros ?; first [now apply C|apply C; congruence|congruence]]])|].
      destruct (tmem n (l_mapping s)) eqn:I; [|injection E as <- <-; (split; [exact M|split; [exact S|intros ?; first [now apply C|apply C; congruence|congruence]]])].
      apply tmem_In in I. destruct (load_one n s) as [s2 o] eqn:O. destruct (load_one_det n s s2 o I S O) as (A & B & D & _).
      assert (s2 = s1) as -> by (destruct o; now injection E as <- _). split; [congruence|]. split; [assumption|]. congruence.
    - (split; [exact M|split; [exact S|intros ?; first [now apply C|apply C; congruence|congruence]]]).
    - rewrite C54_faking_leaves_no_trace. (split; [exact M|split; [exact S|intros ?; first [now apply C|apply C; congruence|congruence]]]).
  Qed.
  Lemma calls_good mapping l : forall s, good mapping s -> (forall a, In a (snd (calls l s)) -> ~ raised a) -> good mapping (fst (calls l s)).
  Proof.
    induction l as [|c l IH]; intros s G N; [assumption|]. cbn [PluginModel.calls] in *. pose proof (call_good mapping c s G) as H.
    destruct (call c s) as [s1 a]. cbn [fst snd] in H. specialize (IH s1). destruct (calls l s1) as [s2 b]. cbn [fst snd] in *.
    apply IH; [apply H; intros x I; apply N, in_app_iff; now left|]. intros x I. apply N, in_app_iff. now right.
  Qed.
  Lemma load_loaded s : c_loaded (l_coll (fst (lazy_load s))) = true.
  Proof.
    unfold PluginModel.lazy_load. destruct (c_loaded (l_coll s)) eqn:L; [assumption|].
    assert (K : forall names s0, c_loaded (l_coll s0) = true -> c_loaded (l_coll (fst (load_rest names s0))) = true).
    { induction names as [|n names IH]; intros s0 H; [assumption|]. cbn [PluginModel.load_rest]. destruct (get_by_name (l_coll s0) n); [auto|].
      assert (O : c_loaded (l_coll (fst (load_one n s0))) = true)
        by (unfold PluginModel.load_one; destruct (imp _ n); exact H).
      destruct (load_one n s0) as [s1 [y|]]; cbn in O; auto. }
    apply K. reflexivity.
  Qed.
  Theorem C54_lazy_load mapping h : 
    let (s, answers) := calls (h ++ [CLoad]) (new_lazy mapping) in
    (forall a, In a answers -> ~ raised a) ->
    (forall n w, get_by_name (l_coll s) n = Some w <-> In n mapping /\ r n = Done w) /\
    (forall n, In n (lazy_names W P s) <-> In n mapping /\ exists w, r n = Done w).
  Proof.
    pose proof (calls_good mapping (h ++ [CLoad]) (new_lazy mapping)) as G.
    assert (L : c_loaded (l_coll (fst (calls (h ++ [CLoad]) (new_lazy mapping)))) = true).
    { rewrite calls_app. destruct (calls h (new_lazy mapping)) as [s1 b]. cbn. pose proof (load_loaded s1) as K.
      destruct (lazy_load s1) as [s2 [y|]]; exact K. }
    destruct (calls (h ++ [CLoad]) (new_lazy mapping)) as [s answers]. cbn [fst snd] in *. intros N.
    destruct G as (M & S & C); auto; [split; [reflexivity|]; split; [intros ? ? X'; discriminate X'|discriminate]|]. specialize (C L).
    assert (A : forall n w, get_by_name (l_coll s) n = Some w <-> In n mapping /\ r n = Done w).
    { intros n w. split; [intros H; apply S in H; now rewrite M in H|]. intros [I R]. now apply C. }
    split; [exact A|]. intros n. unfold lazy_names. rewrite L. unfold get_all_names.
    assert (K : In n (map fst (c_plugins (l_coll s))) <-> exists w, get_by_name (l_coll s) n = Some w).
    { unfold get_by_name. destruct (tget n (c_plugins (l_coll s))) as [w|] eqn:E.
      - split; [eauto|]. intros _. apply tget_In in E. change n with (fst (n, w)). now apply in_map.
      - apply tget_none in E. split; [contradiction|intros [w X']; discriminate]. }
    rewrite K. split; [intros [w H]; apply A in H as [I R]; eauto|]. intros [I [w R]]. exists w. now apply A.
  Qed.
End LazyProps.
Print Assumptions C54_faking_leaves_no_trace.
Print Assumptions C54_fakes_are_seen.
Print Assumptions C54_same_plugin_forever.
Print Assumptions C54_lazy_load.

(** Names listed before loading may be of plug-ins that cannot be loaded, and each try
    records the problem again. *)
Theorem C54_listed_names_can_be_got_refuted :
  let s := fst (calls unit nat unit (fun _ _ => Problem 1) [CGet (T "a"); CGet (T "a")] (new_lazy [T "a"])) in
  lazy_names unit nat s = [T "a"] /\ snd (lazy_get unit nat unit (fun _ _ => Problem 1) (T "a") s) = AKeyError /\ c_problems (l_coll s) = [1; 1].
Proof. repeat split. Qed.
Print Assumptions C54_listed_names_can_be_got_refuted.

(** ** Examples *)

Definition example_tree : dir := [(T "b.provider", NFile); (T "sub", NDir [(T "a.provider", NFile); (T "x.txt", NFile)]); (T "z", NOther)].
Example example_walk : plugin_files (fun _ => Some example_tree) true (ExtOne (T ".provider")) [T "/d"] = [T "/d/b.provider"; T "/d/sub/a.provider"].
Proof. reflexivity. Qed.
Example example_load : fs_load (fun _ => Some example_tree) true ExtAny [T "/d"; T "/d"]
    (fun f => if text_eqb f (T "/d/sub/x.txt") then Problem 7 else Done f) (fun f t => Done (f, t) : loading (text * text) nat unit) new_coll
  = (mk_coll true [(T "/d/b.provider", (T "/d/b.provider", T "/d/b.provider")); (T "/d/sub/a.provider", (T "/d/sub/a.provider", T "/d/sub/a.provider"))] [7; 7], None).
Proof. reflexivity. Qed.
Example example_pkg : pkg_load [(T "b", Done 1); (T "a", Done 2); (T "b", Done 3)] (new_coll (W:=nat) (P:=nat)) = (mk_coll true [(T "a", 2); (T "b", 3)] [], None : option unit).
Proof. reflexivity. Qed.
Example example_lazy : snd (calls nat nat unit (fun k n => if text_eqb n (T "bad") then Problem k else Done k)
    [CNames; CGet (T "b"); CFake [(T "a", 100)] [] [CGet (T "b"); CGet (T "a"); CLoad]; CGet (T "b"); CLoad; CNames; CGet (T "a")] (new_lazy [T "a"; T "b"; T "bad"]))
  = [ANames [T "a"; T "b"; T "bad"]; APlugin 0; AKeyError; APlugin 100; ANone; APlugin 0; ANone; ANames [T "b"; T "a"]; APlugin 1].
Proof. reflexivity. Qed.
