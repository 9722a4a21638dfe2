(** * The matcher finds what the expressions describe *)
From Coq Require Import String Ascii List Bool Arith Lia.
From Verif Require Import ScanModel Rfc822Model RegexModel.
Import ListNotations.
Local Open Scope nat_scope.
Local Open Scope list_scope.

(** The texts that an expression describes. *)
Inductive lang : re -> text -> Prop :=
| l_eps : lang REps []
| l_chr p c : p c = true -> lang (RChr p) [c]
| l_cat a b s t : lang a s -> lang b t -> lang (RCat a b) (s ++ t)
| l_left a b t : lang a t -> lang (RAlt a b) t
| l_right a b t : lang b t -> lang (RAlt a b) t
| l_nil a : lang (RStar a) []
| l_more a s t : lang a s -> lang (RStar a) t -> lang (RStar a) (s ++ t).

Lemma lang_empty t : ~ lang REmpty t.
Proof. intros H. inversion H. Qed.
Lemma lang_eps t : lang REps t <-> t = [].
Proof. split; [intros H; inversion H; reflexivity|intros ->; constructor]. Qed.
Lemma lang_chr p t : lang (RChr p) t <-> exists c, t = [c] /\ p c = true.
Proof. split; [intros H; inversion H; eauto|intros (c & -> & H); now constructor]. Qed.
Lemma lang_cat a b t : lang (RCat a b) t <-> exists x y, t = x ++ y /\ lang a x /\ lang b y.
Proof. split; [intros H; inversion H; subst; eauto|intros (x & y & -> & A & B); now constructor]. Qed.
Lemma lang_alt a b t : lang (RAlt a b) t <-> lang a t \/ lang b t.
Proof. split; [intros H; inversion H; subst; auto|]. intros [H|H]; [now apply l_left|now apply l_right]. Qed.
Lemma lang_star a t : lang (RStar a) t <-> exists l, t = concat l /\ Forall (lang a) l.
Proof.
  split.
  - intros H. remember (RStar a) as r eqn:E. induction H; try discriminate.
    + exists []. auto.
    + injection E as ->. destruct IHlang2 as (l & -> & F); [reflexivity|]. exists (s :: l). auto.
  - intros (l & -> & F). induction F as [|s l Hs F IH]; cbn [concat]; [apply l_nil|now apply l_more].
Qed.
Lemma lang_nullable r : nullable r = true <-> lang r [].
Proof.
  induction r as [| |p|a IHa b IHb|a IHa b IHb|a IHa]; cbn [nullable].
  - split; [discriminate|intros H; inversion H].
  - split; [intros; constructor|reflexivity].
  - split; [discriminate|intros H; inversion H].
  - rewrite andb_true_iff, IHa, IHb, lang_cat. split.
    + intros [A B]. exists [], []. auto.
    + intros (x & y & E & A & B). symmetry in E. apply app_eq_nil in E as [-> ->]. auto.
  - rewrite orb_true_iff, IHa, IHb, lang_alt. reflexivity.
  - split; [intros; apply l_nil|reflexivity].
Qed.
Lemma lang_cat' a b t : lang (cat a b) t <-> lang (RCat a b) t.
Proof.
  assert (E1 : forall b, lang (RCat REmpty b) t <-> lang REmpty t).
  { intros b0. rewrite lang_cat. split; [intros (x & y & _ & H & _); destruct (lang_empty _ H)|intros H; destruct (lang_empty _ H)]. }
  assert (E2 : forall a, lang (RCat a REmpty) t <-> lang REmpty t).
  { intros b0. rewrite lang_cat. split; [intros (x & y & _ & _ & H); destruct (lang_empty _ H)|intros H; destruct (lang_empty _ H)]. }
  assert (E3 : forall b, lang (RCat REps b) t <-> lang b t).
  { intros b0. rewrite lang_cat. split; [intros (x & y & -> & H & H'); apply lang_eps in H; now subst|intros H; exists [], t; split; [reflexivity|]; split; [constructor|assumption]]. }
  destruct a, b; cbn [cat]; rewrite ?E1, ?E2, ?E3; reflexivity.
Qed.
Lemma lang_alt' a b t : lang (alt a b) t <-> lang (RAlt a b) t.
Proof.
  destruct a, b; cbn [alt]; rewrite ?lang_alt; try reflexivity; split; auto; intros [H|H]; auto; destruct (lang_empty _ H).
Qed.
Lemma lang_der c r : forall t, lang (der c r) t <-> lang r (c :: t).
Proof.
  induction r as [| |p|a IHa b IHb|a IHa b IHb|a IHa]; intros t; cbn [der].
  - split; intros H; destruct (lang_empty _ H).
  - rewrite lang_eps. split; [intros H; destruct (lang_empty _ H)|discriminate].
  - rewrite lang_chr. destruct (p c) eqn:P.
    + rewrite lang_eps. split; [intros ->; eauto|]. intros (d & E & _). now injection E.
    + split; [intros H; destruct (lang_empty _ H)|]. intros (d & E & Q). injection E as <- _. congruence.
  - assert (C : lang (cat (der c a) b) t <-> exists x y, t = x ++ y /\ lang a (c :: x) /\ lang b y).
    { rewrite lang_cat', lang_cat. split; intros (x & y & E & A & B); exists x, y; (split; [assumption|split; [now apply IHa|assumption]]). }
    assert (D : lang (RCat a b) (c :: t) <-> (exists x y, t = x ++ y /\ lang a (c :: x) /\ lang b y) \/ nullable a = true /\ lang b (c :: t)).
    { rewrite lang_cat, lang_nullable. split.
      - intros (x & y & E & A & B). destruct x as [|d x]; cbn [app] in E; [subst; auto|]. injection E as -> ->. left. eauto.
      - intros [(x & y & -> & A & B)|[A B]]; [exists (c :: x), y; auto|exists [], (c :: t); auto]. }
    destruct (nullable a).
    + rewrite lang_alt', lang_alt, C, D, IHb. intuition.
    + rewrite C, D. intuition discriminate.
  - rewrite lang_alt', !lang_alt, IHa, IHb. reflexivity.
  - rewrite lang_cat', lang_cat. split.
    + intros (x & y & -> & A & B). apply IHa in A. change (c :: x ++ y) with ((c :: x) ++ y). now apply l_more.
    + intros H. apply lang_star in H as (l & E & F). induction F as [|s l Hs F IH]; [discriminate|].
      destruct s as [|d s]; cbn [concat app] in E; [auto|]. injection E as -> ->. exists s, (concat l).
      split; [reflexivity|]. split; [now apply IHa|]. apply lang_star. eauto.
Qed.

Lemma match_start_spec t : forall r, match_start r t = true <-> exists a b, t = a ++ b /\ lang r a.
Proof.
  induction t as [|c t IH]; intros r; cbn [match_start]; rewrite orb_true_iff, lang_nullable.
  - split; [intros [H|H]; [exists [], []; auto|discriminate]|]. intros (a & b & E & H). symmetry in E. apply app_eq_nil in E as [-> _]. auto.
  - rewrite IH. split.
    + intros [H|(a & b & -> & H)]; [exists [], (c :: t); auto|]. apply lang_der in H. exists (c :: a), b. auto.
    + intros ([|d a] & b & E & H); [auto|]. injection E as -> ->. right. exists a, b. split; [reflexivity|]. now apply lang_der.
Qed.
Lemma match_end_spec t : forall r, match_end r t = true <-> lang r t \/ exists a, t = a ++ [NL] /\ lang r a.
Proof.
  induction t as [|c t IH]; intros r; cbn [match_end].
  - rewrite lang_nullable. split; [auto|]. intros [H|(a & E & _)]; [assumption|]. destruct a; discriminate.
  - rewrite orb_true_iff, !andb_true_iff, IH, lang_der, lang_nullable, Ascii.eqb_eq. split.
    + intros [[[H ->] Q]|[H|(a & -> & H)]]; [|auto|].
      * destruct t; [|discriminate]. right. exists []. auto.
      * right. exists (c :: a). split; [reflexivity|]. now apply lang_der.
    + intros [H|(a & E & H)]; [auto|]. destruct a as [|d a]; cbn [app] in E; injection E as -> ->; [left; auto|]. right. right. exists a. split; [reflexivity|]. now apply lang_der.
Qed.
Lemma lang_opt a t : lang (ROpt a) t <-> t = [] \/ lang a t.
Proof. unfold ROpt. rewrite lang_alt, lang_eps. reflexivity. Qed.
Lemma lang_one c t : lang (chr c) t <-> t = [c].
Proof. unfold chr. rewrite lang_chr. split; [intros (d & -> & E); apply Ascii.eqb_eq in E; now subst|intros ->; exists c; split; [reflexivity|apply Ascii.eqb_refl]]. Qed.
(** Repetition of characters of a class *)
Lemma lang_chars p t : lang (RStar (RChr p)) t <-> forall c, In c t -> p c = true.
Proof.
  rewrite lang_star. split.
  - intros (l & -> & F). induction F as [|s l Hs F IH]; cbn [concat]; [intros c []|]. apply lang_chr in Hs as (d & -> & P).
    intros c [<-|I]; auto.
  - intros H. exists (map (fun c => [c]) t). split; [induction t as [|c t IH]; cbn; [reflexivity|f_equal; apply IH; intros; apply H; now right]|].
    apply Forall_forall. intros s I. apply in_map_iff in I as (c & <- & I). constructor. auto.
Qed.
Lemma lang_chars1 p t : lang (RPlus (RChr p)) t <-> t <> [] /\ forall c, In c t -> p c = true.
Proof.
  unfold RPlus. rewrite lang_cat. split.
  - intros (x & y & -> & A & B). apply lang_chr in A as (c & -> & P). rewrite lang_chars in B. split; [discriminate|]. intros d [<-|I]; auto.
  - intros [N H]. destruct t as [|c t]; [congruence|]. exists [c], t. split; [reflexivity|]. split; [constructor; apply H; now left|].
    apply lang_chars. intros; apply H; now right.
Qed.
