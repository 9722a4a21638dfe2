(** * C89: a list of everything shows what there is *)
From Coq Require Import String Ascii List Bool Arith Lia.
From Verif Require Import ScanModel Rfc822Model Rfc822Proofs ListingModel ListingSpec.
Import ListNotations.
Local Open Scope list_scope.

Lemma unit_spec u : match unit_to_obj u with
  | Some o => In (u_kind u) known_kinds /\ exists n, called u n /\ o = Obj (u_kind u) n (u_attrs u) []
  | None => ~ In (u_kind u) known_kinds end.
Proof.
  unfold unit_to_obj. cbv zeta.
  repeat match goal with |- context [text_eqb (u_kind u) ?k] => let E := fresh "E" in destruct (text_eqb (u_kind u) k) eqn:E;
    [apply text_eqb_eq in E; split; [rewrite E; cbn; tauto|]; eexists; split; [|reflexivity];
     solve [now constructor | apply called_id; rewrite E; cbn; tauto]|] end.
  intros H. cbn [known_kinds map In] in H.
  repeat match goal with H : _ \/ _ |- _ => destruct H as [H|H] end; try contradiction; symmetry in H; apply text_eqb_eq in H; congruence.
Qed.
Lemma called_once u n m : called u n -> called u m -> n = m.
Proof.
  intros [A|A|A] [B|B|B]; try reflexivity; exfalso; try (rewrite A in B); try (rewrite B in A);
    try discriminate; cbn in A, B; repeat match goal with H : _ \/ _ |- _ => destruct H as [H|H] end; try contradiction; discriminate.
Qed.
Lemma all_some_spec {A B} (f : A -> option B) l : match all_some f l with
  | Some r => Forall2 (fun x y => f x = Some y) l r | None => exists x, In x l /\ f x = None end.
Proof.
  induction l as [|x l IH]; cbn [all_some]; [constructor|]. destruct (f x) as [y|] eqn:E; [|exists x; split; [now left|exact E]].
  destruct (all_some f l); [now constructor|]. destruct IH as (z & I & H). exists z. split; [now right|exact H].
Qed.

Lemma some_inj {A} (x y : A) : Some x = Some y -> x = y.
Proof. congruence. Qed.

Section Show.
  Variable word : text.

  (** One unit of a kind that cannot be shown, and nothing is *)
  Theorem C89_fails_refuted group attrs ps rs :
    run_list word group attrs ps rs = None <-> exists p u, In p ps /\ In u (p_units p) /\ ~ In (u_kind u) known_kinds.
  Proof.
    unfold run_list, get_object_tree. pose proof (all_some_spec provider_obj ps) as S. destruct (all_some provider_obj ps) as [c|].
    - split; [discriminate|]. intros (p & u & I & U & N). exfalso.
      induction S as [|p' o ps' c' E S IH]; [destruct I|]. destruct I as [->|I]; [|exact (IH I)]. unfold provider_obj in E.
      pose proof (all_some_spec unit_to_obj (p_units p)) as S'. destruct (all_some unit_to_obj (p_units p)) as [c2|]; [|discriminate]. clear - S' U N.
      induction S' as [|u' o l r E S IH]; [destruct U|]. destruct U as [->|U]; [|exact (IH U)].
      pose proof (unit_spec u) as K. rewrite E in K. now apply N.
    - split; [intros _|reflexivity]. destruct S as (p & I & E). unfold provider_obj in E.
      pose proof (all_some_spec unit_to_obj (p_units p)) as S'. destruct (all_some unit_to_obj (p_units p)) as [c2|]; [discriminate|].
      destruct S' as (u & U & F). exists p, u. split; [exact I|]. split; [exact U|]. pose proof (unit_spec u) as K. now rewrite F in K.
  Qed.

  (** ** One group *)

  Lemma field_spec k : padded k = field k.
  Proof.
    unfold padded, field. destruct (Nat.ltb_spec (length k) 15) as [H|H]; [reflexivity|]. replace (15 - length k) with 0 by lia. apply app_nil_r.
  Qed.
  Lemma show_leaf g attrs o : o_children o = [] ->
    show word (Some g) attrs [] o = if text_eqb (o_group o) g then thing_lines attrs (o_group o, o_name o, o_attrs o) else [].
  Proof.
    destruct o as [g' n a c]. cbn [o_children o_group o_name o_attrs]. intros ->. cbn [show asked_for]. destruct (text_eqb g' g); [|reflexivity].
    rewrite app_nil_r. cbn [thing_lines app]. f_equal. destruct attrs; [|reflexivity]. apply map_ext. intros kv. rewrite field_spec. reflexivity.
  Qed.
  Lemma show_units g attrs l c : Forall2 (fun u o => unit_to_obj u = Some o) l c ->
    exists r, units_of g l r /\ flat_map (show word (Some g) attrs []) c = flat_map (thing_lines attrs) r.
  Proof.
    induction 1 as [|u o l c E F IH]; [exists []; split; [constructor|reflexivity]|]. destruct IH as (r & U & S). pose proof (unit_spec u) as K. rewrite E in K.
    destruct K as (_ & n & C & ->). cbn [flat_map]. rewrite show_leaf by reflexivity. cbn [o_group o_name o_attrs]. destruct (text_eqb (u_kind u) g) eqn:G.
    - apply text_eqb_eq in G. subst g. exists ((u_kind u, n, u_attrs u) :: r). split; [now constructor|]. cbn [flat_map]. now rewrite S.
    - exists r. split; [|now rewrite S]. apply units_other; [|exact U]. intros H. apply text_eqb_eq in H. congruence.
  Qed.
  Lemma no_units g l : (forall u, In u l -> u_kind u <> g) -> units_of g l [].
  Proof. induction l as [|u l IH]; intros H; [constructor|]. apply units_other; [apply H; now left|]. apply IH. intros v V. apply H. now right. Qed.
  Lemma units_nothing g l c attrs : ~ In g known_kinds -> Forall2 (fun u o => unit_to_obj u = Some o) l c ->
    flat_map (show word (Some g) attrs []) c = [].
  Proof.
    intros N. induction 1 as [|u o l c E F IH]; [reflexivity|]. cbn [flat_map]. rewrite IH, app_nil_r. pose proof (unit_spec u) as K. rewrite E in K.
    destruct K as (I & n & _ & ->). rewrite show_leaf by reflexivity. cbn [o_group]. destruct (text_eqb (u_kind u) g) eqn:G; [|reflexivity].
    apply text_eqb_eq in G. congruence.
  Qed.
  Lemma show_node g attrs g' n a c : text_eqb g' g = false ->
    show word (Some g) attrs [] (Obj g' n a c) = flat_map (show word (Some g) attrs []) c.
  Proof. intros E. cbn [show asked_for]. rewrite E. cbn [app]. now destruct c. Qed.
  Lemma show_inner g attrs indent n a c : (forall o, In o c -> o_children o = [] /\ o_group o <> g) ->
    show word (Some g) attrs indent (Obj g n a c) = show word (Some g) attrs indent (Obj g n a []).
  Proof.
    intros H. cbn [show asked_for]. rewrite (proj2 (text_eqb_eq g g) eq_refl). f_equal. destruct c as [|o c]; [reflexivity|]. cbn [app].
    generalize (indent ++ two). intros i. revert H. generalize (o :: c). clear. intros l H. induction l as [|o l IH]; [reflexivity|]. cbn [flat_map].
    rewrite IH by (intros x X; apply H; now right). destruct (H o (or_introl eq_refl)) as [C G]. destruct o as [g' n a c]. cbn in C, G. subst c.
    cbn [show asked_for]. destruct (text_eqb g' g) eqn:E; [|reflexivity]. apply text_eqb_eq in E. congruence.
  Qed.

  (** A list of a kind of units has all of that kind, of all providers, in order *)
  Theorem C89_units g attrs ps rs lines : In g known_kinds -> run_list word (Some g) attrs ps rs = Some lines ->
    exists things, units_of g (flat_map p_units ps) things /\ lines = flat_map (thing_lines attrs) things.
  Proof.
    intros K. unfold run_list, get_object_tree. pose proof (all_some_spec provider_obj ps) as S. destruct (all_some provider_obj ps) as [c|]; [|discriminate].
    intros H. apply some_inj in H. subst lines.
    assert (NS : forall s, In s (map L ["service"; "provider"; "repository"; "storage"]%string) -> text_eqb s g = false).
    { intros s I. destruct (text_eqb s g) eqn:E; [|reflexivity]. apply text_eqb_eq in E. subst s. exfalso. clear - I K. cbn in I, K.
      repeat match goal with H : _ \/ _ |- _ => destruct H as [H|H] end; try contradiction; rewrite <- I in K; discriminate. }
    rewrite show_node by (apply NS; cbn; tauto). rewrite flat_map_app.
    assert (R : flat_map (show word (Some g) attrs []) (map repository_obj rs) = []).
    { clear - NS. induction rs as [|r rs IH]; [reflexivity|]. cbn [map flat_map]. rewrite IH, app_nil_r. unfold repository_obj.
      rewrite show_node by (apply NS; cbn; tauto). induction (r_storages r) as [|s l IHl]; [reflexivity|]. cbn [map flat_map]. rewrite IHl, app_nil_r.
      rewrite show_leaf by reflexivity. cbn [o_group]. rewrite NS; [reflexivity|cbn; tauto]. }
    rewrite R, app_nil_r. clear R. induction S as [|p o ps c E S IH]; [exists []; split; [constructor|reflexivity]|].
    destruct IH as (r & U & IH). unfold provider_obj in E. pose proof (all_some_spec unit_to_obj (p_units p)) as SU.
    destruct (all_some unit_to_obj (p_units p)) as [c2|]; [|discriminate]. injection E as <-. destruct (show_units g attrs _ _ SU) as (r1 & U1 & E1).
    exists (r1 ++ r). cbn [flat_map]. rewrite show_node by (apply NS; cbn; tauto). rewrite E1, IH, flat_map_app. split; [|reflexivity].
    clear - U U1. induction U1; cbn [app]; [exact U|now constructor|now constructor].
  Qed.
  (** A list of providers, repositories or storages has all of these *)
  Theorem C89_others attrs ps rs :
    (forall lines, run_list word (Some (L "provider")) attrs ps rs = Some lines ->
       lines = flat_map (fun p => thing_lines attrs (L "provider", p_name p, p_attrs p)) ps) /\
    (forall lines, run_list word (Some (L "repository")) attrs ps rs = Some lines ->
       lines = flat_map (fun r => thing_lines attrs (L "repository", r_location r, [])) rs) /\
    (forall lines, run_list word (Some (L "storage")) attrs ps rs = Some lines ->
       lines = flat_map (fun r => flat_map (fun s => thing_lines attrs (L "storage", fst s, snd s)) (r_storages r)) rs).
  Proof.
    unfold run_list, get_object_tree. pose proof (all_some_spec provider_obj ps) as S. destruct (all_some provider_obj ps) as [c|]; [|split; [|split]; discriminate].
    split; [|split]; intros lines H; apply some_inj in H; subst lines; rewrite show_node by reflexivity; rewrite flat_map_app.
    - assert (R : flat_map (show word (Some (L "provider")) attrs []) (map repository_obj rs) = []).
      { clear. induction rs as [|r rs IH]; [reflexivity|]. cbn [map flat_map]. rewrite IH, app_nil_r. unfold repository_obj.
        rewrite show_node by reflexivity. induction (r_storages r) as [|s l IHl]; [reflexivity|]. cbn [map flat_map]. rewrite IHl, app_nil_r. now rewrite show_leaf. }
      rewrite R, app_nil_r. clear R. induction S as [|p o ps c E S IH]; [reflexivity|]. cbn [flat_map]. rewrite IH. f_equal.
      unfold provider_obj in E. pose proof (all_some_spec unit_to_obj (p_units p)) as SU. destruct (all_some unit_to_obj (p_units p)) as [c2|]; [|discriminate]. injection E as <-.
      rewrite show_inner; [rewrite show_leaf by reflexivity|].
      + reflexivity.
      + clear - SU. intros o I. induction SU as [|u o' l c E F IH]; [destruct I|]. destruct I as [->|I]; [|auto]. pose proof (unit_spec u) as K. rewrite E in K.
        destruct K as (K & n & _ & ->). split; [reflexivity|]. cbn [o_group]. intros H. rewrite H in K. cbn in K.
        repeat match goal with H : _ \/ _ |- _ => destruct H as [H|H] end; try contradiction; discriminate.
    - assert (P : flat_map (show word (Some (L "repository")) attrs []) c = []).
      { induction S as [|p o ps c E S IH]; [reflexivity|]. cbn [flat_map]. rewrite IH, app_nil_r. unfold provider_obj in E.
        pose proof (all_some_spec unit_to_obj (p_units p)) as SU. destruct (all_some unit_to_obj (p_units p)) as [c2|]; [|discriminate]. injection E as <-.
        rewrite show_node by reflexivity. eapply units_nothing; [|exact SU]. cbn. intuition discriminate. }
      rewrite P. cbn [app]. clear. induction rs as [|r rs IH]; [reflexivity|]. cbn [map flat_map]. rewrite IH. f_equal. unfold repository_obj.
      rewrite show_inner; [now rewrite show_leaf|]. intros o I. apply in_map_iff in I as (s & <- & _). split; [reflexivity|discriminate].
    - assert (P : flat_map (show word (Some (L "storage")) attrs []) c = []).
      { induction S as [|p o ps c E S IH]; [reflexivity|]. cbn [flat_map]. rewrite IH, app_nil_r. unfold provider_obj in E.
        pose proof (all_some_spec unit_to_obj (p_units p)) as SU. destruct (all_some unit_to_obj (p_units p)) as [c2|]; [|discriminate]. injection E as <-.
        rewrite show_node by reflexivity. eapply units_nothing; [|exact SU]. cbn. intuition discriminate. }
      rewrite P. cbn [app]. clear. induction rs as [|r rs IH]; [reflexivity|]. cbn [map flat_map]. rewrite IH. f_equal. unfold repository_obj.
      rewrite show_node by reflexivity. induction (r_storages r) as [|s l IHl]; [reflexivity|]. cbn [map flat_map]. rewrite IHl. f_equal. now rewrite show_leaf.
  Qed.
End Show.
Print Assumptions C89_fails_refuted.
Print Assumptions C89_units.
Print Assumptions C89_others.

(** ** Everything *)

Definition spaces (n : nat) : text := repeat " "%char n.
Lemma spaces_two n : spaces n ++ two = spaces (2 + n).
Proof. unfold spaces, two. cbn [L list_ascii_of_string]. rewrite (Nat.add_comm 2 n), repeat_app. reflexivity. Qed.
Definition starts_dark (t : text) : Prop := exists c r, t = c :: r /\ c <> " "%char.
Lemma spaces_inj n : forall m a b, starts_dark a -> starts_dark b -> spaces n ++ a = spaces m ++ b -> n = m /\ a = b.
Proof.
  induction n as [|n IH]; intros [|m] a b (c & r & -> & N) (c' & r' & -> & N') E; cbn in E.
  - auto.
  - injection E as -> _. congruence.
  - injection E as <- _. congruence.
  - injection E as E. destruct (IH m (c :: r) (c' :: r')) as [-> H]; [now exists c, r|now exists c', r'|exact E|auto].
Qed.
Section Everything.
  Variable word : text.
  Hypothesis word_dark : starts_dark word.
  Definition all_named (l : list obj) : Prop := forall o, In o (flat_map everything l) -> well_named o.
  Definition shows (d : nat) (l : list obj) : list text := flat_map (show word None false (spaces d)) l.
  Definition below (d : nat) (c : list obj) : list text :=
    match c with [] => [] | _ => (spaces (2 + d) ++ word) :: shows (4 + d) c end.
  Lemma shows_cons d g n a c l : shows d (Obj g n a c :: l) = (spaces d ++ g ++ " "%char :: n) :: below d c ++ shows d l.
  Proof.
    unfold shows at 1. cbn [flat_map show asked_for app]. f_equal. f_equal. destruct c as [|o c]; [reflexivity|].
    unfold below, shows. rewrite !spaces_two. reflexivity.
  Qed.
  Fixpoint size (o : obj) : nat := match o with Obj _ _ _ c => S (list_sum (map size c)) end.
  (** Nothing follows, or a line that is less indented *)
  Definition ends (d : nat) (r : list text) : Prop := r = [] \/ exists k t r', r = (spaces k ++ t) :: r' /\ k < d /\ starts_dark t.
  Lemma ends_weaken d d' r : d <= d' -> ends d r -> ends d' r.
  Proof. intros H [->|(k & t & r' & -> & A & B)]; [now left|right; exists k, t, r'; split; [reflexivity|split; [lia|exact B]]]. Qed.
  Lemma line_dark o : well_named o -> starts_dark (o_group o ++ " "%char :: o_name o).
  Proof. intros (_ & (c & r & E & N) & _). rewrite E. now exists c, (r ++ " "%char :: o_name o). Qed.
  Lemma ends_shows d l r : all_named l -> ends (S d) r -> ends (S d) (shows d l ++ r).
  Proof.
    intros N E. destruct l as [|[g n a c] l]; [exact E|]. right. exists d, (g ++ " "%char :: n), ((below d c ++ shows d l) ++ r).
    rewrite shows_cons. split; [reflexivity|]. split; [lia|]. apply (line_dark (Obj g n a c)). apply N. now left.
  Qed.
  Lemma split_quote g g' n n' : forallb (fun c => negb (quote c)) g = true -> forallb (fun c => negb (quote c)) g' = true ->
    (exists c r, n = c :: r /\ quote c = true) -> (exists c r, n' = c :: r /\ quote c = true) ->
    g ++ " "%char :: n = g' ++ " "%char :: n' -> g = g' /\ n = n'.
  Proof.
    intros G G' (c & r & -> & C) (c' & r' & -> & C').
    assert (X : forall x y, forallb (fun c => negb (quote c)) x = true -> forallb (fun c => negb (quote c)) y = true -> x ++ c :: r = y ++ c' :: r' -> x = y /\ c :: r = c' :: r').
    { clear - C C'. induction x as [|a x IH]; intros [|b y] X Y E; cbn [app forallb] in *.
      - auto.
      - injection E as -> _. rewrite C in Y. discriminate.
      - injection E as <- _. rewrite C' in X. discriminate.
      - injection E as <- E. apply andb_true_iff in X as [_ X]. apply andb_true_iff in Y as [_ Y]. destruct (IH y X Y E) as [-> H]. auto. }
    intros E. destruct (X (g ++ [" "%char]) (g' ++ [" "%char])) as [A B].
    - rewrite forallb_app, G. reflexivity.
    - rewrite forallb_app, G'. reflexivity.
    - rewrite <- !app_assoc. exact E.
    - apply app_inj_tail in A as [-> _]. auto.
  Qed.
  Lemma shows_inj k : forall d l l' r r', list_sum (map size l) <= k -> all_named l -> all_named l' -> ends d r -> ends d r' ->
    shows d l ++ r = shows d l' ++ r' -> map bare l = map bare l' /\ r = r'.
  Proof.
    assert (HD : forall d o l r r', well_named o -> ends d r -> r = shows d (o :: l) ++ r' -> False).
    { intros d [g n a c] l r r' W E H. rewrite shows_cons in H. destruct E as [->|(k0 & t & r2 & -> & A & B)]; [discriminate|]. injection H as H _.
      apply spaces_inj in H as [-> _]; [lia|exact B|now apply (line_dark (Obj g n a c))]. }
    induction k as [|k IH]; intros d l l' r r' Z N N' E E' H.
    - destruct l as [|[g n a c] l]; [|cbn in Z; lia]. destruct l' as [|o l']; [auto|]. exfalso. eapply (HD d o l' r r'); eauto. apply N'. destruct o; now left.
    - destruct l as [|[g n a c] l].
      { destruct l' as [|o l']; [auto|]. exfalso. eapply (HD d o l' r r'); eauto. apply N'. destruct o; now left. }
      destruct l' as [|[g' n' a' c'] l'].
      { exfalso. symmetry in H. eapply (HD d (Obj g n a c) l r' r); eauto. apply N. now left. }
      assert (W : well_named (Obj g n a c)) by (apply N; now left). assert (W' : well_named (Obj g' n' a' c')) by (apply N'; now left).
      assert (NC : all_named c) by (intros o I; apply N; cbn [flat_map everything]; right; apply in_app_iff; now left).
      assert (NC' : all_named c') by (intros o I; apply N'; cbn [flat_map everything]; right; apply in_app_iff; now left).
      assert (NL : all_named l) by (intros o I; apply N; cbn [flat_map]; apply in_app_iff; now right).
      assert (NL' : all_named l') by (intros o I; apply N'; cbn [flat_map]; apply in_app_iff; now right).
      rewrite !shows_cons in H. cbn [app] in H. injection H as H0 H. rewrite <- !app_assoc in H.
      apply spaces_inj in H0 as [_ H0]; [|now apply (line_dark (Obj g n a c))|now apply (line_dark (Obj g' n' a' c'))].
      apply split_quote in H0 as [-> ->]; [|apply W|apply W'|apply W|apply W'].
      assert (EL : ends (S d) (shows d l ++ r)) by (apply ends_shows; [exact NL|eapply ends_weaken; [|exact E]; lia]).
      assert (EL' : ends (S d) (shows d l' ++ r')) by (apply ends_shows; [exact NL'|eapply ends_weaken; [|exact E']; lia]).
      cbn [map size list_sum fold_right] in Z. change (fold_right Nat.add 0) with list_sum in Z. fold (map size l) in Z.
      assert (CUT : map bare c = map bare c' /\ shows d l ++ r = shows d l' ++ r').
      { assert (NO : forall x rest, ends (S d) x -> x = (spaces (2 + d) ++ word) :: rest -> False).
        { clear - word_dark. intros x rest [->|(k & t & r2 & -> & A & B)] F; [discriminate|]. injection F as F _. apply (spaces_inj k (2 + d) t word) in F as [-> _]; [lia|exact B|exact word_dark]. }
        destruct c as [|o c], c' as [|o' c']; cbn [below] in H.
        - auto.
        - exfalso. eapply NO; [exact EL|exact H].
        - exfalso. symmetry in H. eapply NO; [exact EL'|exact H].
        - cbn [app] in H. injection H as H. apply (IH (4 + d) (o :: c) (o' :: c')) in H; auto; [lia| |]; (eapply ends_weaken; [|eassumption]); lia. }
      destruct CUT as [C R]. apply IH in R; auto; [|lia]. destruct R as [R ->]. cbn [map bare]. rewrite C, R. auto.
  Qed.
  (** A list of everything can be read: what there is, is told by it *)
  Theorem C89_can_be_read ps rs ps' rs' o o' lines :
    get_object_tree ps rs = Some o -> get_object_tree ps' rs' = Some o' -> all_named [o] -> all_named [o'] ->
    run_list word None false ps rs = Some lines -> run_list word None false ps' rs' = Some lines -> bare o = bare o'.
  Proof.
    unfold run_list. intros -> -> N N' H H'. apply some_inj in H, H'. rewrite <- H' in H.
    destruct (shows_inj (list_sum (map size [o])) 0 [o] [o'] [] []) as [B _]; auto; try (now left).
    - unfold shows. cbn [flat_map]. rewrite !app_nil_r. exact H.
    - cbn [map] in B. congruence.
  Qed.
End Everything.
Print Assumptions C89_can_be_read.
(** Nothing is shown of a group that does not exist; that is no error *)
Theorem C89_no_such_group word g attrs ps rs lines : ~ In g known_kinds -> ~ In g (map L ["service"; "provider"; "repository"; "storage"]%string) ->
  run_list word (Some g) attrs ps rs = Some lines -> lines = [].
Proof.
  intros K K2. unfold run_list, get_object_tree. pose proof (all_some_spec provider_obj ps) as S. destruct (all_some provider_obj ps) as [c|]; [|discriminate].
  intros H. apply some_inj in H. subst lines.
  assert (NS : forall s, In s (map L ["service"; "provider"; "repository"; "storage"]%string) -> text_eqb s g = false).
  { intros s I. destruct (text_eqb s g) eqn:E; [|reflexivity]. apply text_eqb_eq in E. now subst s. }
  rewrite show_node by (apply NS; cbn; tauto). rewrite flat_map_app.
  assert (R : flat_map (show word (Some g) attrs []) (map repository_obj rs) = []).
  { clear - NS. induction rs as [|r rs IH]; [reflexivity|]. cbn [map flat_map]. rewrite IH, app_nil_r. unfold repository_obj.
    rewrite show_node by (apply NS; cbn; tauto). induction (r_storages r) as [|s l IHl]; [reflexivity|]. cbn [map flat_map]. rewrite IHl, app_nil_r.
    rewrite show_leaf by reflexivity. cbn [o_group]. rewrite NS; [reflexivity|cbn; tauto]. }
  rewrite R, app_nil_r. clear R. induction S as [|p o ps c E S IH]; [reflexivity|]. cbn [flat_map]. rewrite IH, app_nil_r. unfold provider_obj in E.
  pose proof (all_some_spec unit_to_obj (p_units p)) as SU. destruct (all_some unit_to_obj (p_units p)) as [c2|]; [|discriminate]. injection E as <-.
  rewrite show_node by (apply NS; cbn; tauto). now apply (units_nothing word g _ c2 attrs) in SU.
Qed.
Print Assumptions C89_no_such_group.

(** ** Cases *)

Definition case_provider : provider := mk_provider (L "'p'") [(L "name", L "'p'")]
  [mk_unit (L "job") (L "'p::a'") [] [] [(L "id", L "'p::a'")]; mk_unit (L "file") [] (L "'x.py'") [] []; mk_unit (L "job") (L "'p::b'") [] [] []].
Example C89_case_jobs : run_list (L "children") (Some (L "job")) true [case_provider] [mk_repository (L "'/r'") [(L "'/r/s'", [])]] =
  Some [L "job 'p::a'"; L "  id             : 'p::a'"; L "job 'p::b'"].
Proof. reflexivity. Qed.
Example C89_case_everything : run_list (L "children") None false [case_provider] [mk_repository (L "'/r'") [(L "'/r/s'", [])]] =
  Some [L "service 'service object'"; L "  children"; L "    provider 'p'"; L "      children"; L "        job 'p::a'"; L "        file 'x.py'";
        L "        job 'p::b'"; L "    repository '/r'"; L "      children"; L "        storage '/r/s'"].
Proof. reflexivity. Qed.
Example C89_case_named : exists o, get_object_tree [case_provider] [mk_repository (L "'/r'") [(L "'/r/s'", [])]] = Some o /\ all_named [o] /\ starts_dark (L "children").
Proof.
  eexists. split; [reflexivity|]. split.
  - intros o I. cbn in I. repeat match goal with H : _ \/ _ |- _ => destruct H as [H|H] end; try contradiction; subst o;
      (split; [do 2 eexists; split; reflexivity|]; split; [do 2 eexists; split; [reflexivity|discriminate]|reflexivity]).
  - do 2 eexists. split; [reflexivity|discriminate].
Qed.
Example C89_case_fails : run_list (L "children") (Some (L "job")) false [case_provider; mk_provider (L "'q'") [] [mk_unit (L "unit") [] [] [] []]] [] = None.
Proof. reflexivity. Qed.
