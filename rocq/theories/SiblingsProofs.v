(** Lemmas about jobs made from a job *)
From Coq Require Import String Ascii List Bool Arith Lia.
From Verif Require Import ScanModel ScanSpec ScanProofs ScanProps JsonModel Rfc822Model Rfc822Spec Rfc822Proofs IniProofs XparseModel FieldsModel FieldsSpec FieldsProps SiblingsModel SiblingsSpec.
Import ListNotations.
Open Scope char_scope.
Local Open Scope nat_scope.
Open Scope list_scope.

(** ** Texts *)

Lemma drop_prefix_spec p : forall t r, drop_prefix p t = Some r <-> t = p ++ r.
Proof.
  induction p as [|x p IH]; intros t r; cbn [drop_prefix].
  - split; [intros [= ->]; reflexivity|intros ->; reflexivity].
  - destruct t as [|y t]; [split; discriminate|]. destruct (Ascii.eqb x y) eqn:E.
    + apply Ascii.eqb_eq in E. subst y. rewrite IH. split; [intros ->; reflexivity|intros [= ->]; reflexivity].
    + split; [discriminate|]. intros [= -> ->]. now rewrite Ascii.eqb_refl in E.
Qed.
Lemma ends_with_spec p t : ends_with p t = true <-> ends_in p t.
Proof.
  unfold ends_with, ends_in. destruct (drop_prefix (rev p) (rev t)) as [r|] eqn:E.
  - split; [|reflexivity]. intros _. apply drop_prefix_spec in E. exists (rev r). rewrite <- (rev_involutive t), E, rev_app_distr, rev_involutive. reflexivity.
  - split; [discriminate|]. intros [a ->]. exfalso. rewrite rev_app_distr in E.
    assert (H : drop_prefix (rev p) (rev p ++ rev a) = Some (rev a)) by now apply drop_prefix_spec. congruence.
Qed.

Section Leave_out.
  Variable pat : text.
  Hypothesis pat_ne : pat <> [].

  Lemma lo_nil k : leave_out pat k [] = [].
  Proof. destruct k; reflexivity. Qed.
  Lemma lo_length t : forall k, length (leave_out pat k t) <= length t.
  Proof.
    induction t as [|c t IH]; intros k; [now rewrite lo_nil|]. cbn [leave_out]. destruct k as [|k].
    - destruct (drop_prefix pat (c :: t)).
      + specialize (IH (length pat - 1)). cbn. lia.
      + specialize (IH 0). cbn. lia.
    - specialize (IH k). cbn. lia.
  Qed.
  Lemma lo_shrinks t : contains pat t -> length (leave_out pat 0 t) < length t.
  Proof.
    intros (a & b & ->). induction a as [|c a IH]; cbn [app].
    - destruct pat as [|x p] eqn:Ep; [easy|]. cbn [app leave_out]. rewrite <- Ep.
      assert (H : drop_prefix pat (x :: p ++ b) = Some b) by (apply drop_prefix_spec; now rewrite Ep). rewrite H.
      pose proof (lo_length (p ++ b) (length pat - 1)). cbn. lia.
    - cbn [leave_out]. destruct (drop_prefix pat (c :: a ++ pat ++ b)).
      + pose proof (lo_length (a ++ pat ++ b) (length pat - 1)). cbn. lia.
      + cbn. lia.
  Qed.
  Lemma lo_id t : ~ contains pat t -> leave_out pat 0 t = t.
  Proof.
    induction t as [|c t IH]; intros H; [reflexivity|]. cbn [leave_out]. destruct (drop_prefix pat (c :: t)) as [r|] eqn:E.
    - apply drop_prefix_spec in E. destruct H. exists [], r. exact E.
    - f_equal. apply IH. intros (a & b & ->). apply H. now exists (c :: a), b.
  Qed.
  Lemma lo_skip w : forall rest, leave_out pat (length w) (w ++ rest) = leave_out pat 0 rest.
  Proof. induction w as [|c w IH]; intros rest; [reflexivity|]. cbn [length app leave_out]. apply IH. Qed.
  Lemma lo_prefix rest : leave_out pat 0 (pat ++ rest) = leave_out pat 0 rest.
  Proof.
    assert (H : drop_prefix pat (pat ++ rest) = Some rest) by now apply drop_prefix_spec.
    destruct pat as [|x p] eqn:Ep; [easy|]. cbn [app leave_out]. cbn [app] in H. rewrite H. cbn [length].
    replace (S (length p) - 1) with (length p) by lia. rewrite <- Ep. apply lo_skip.
  Qed.

  Hypothesis pat_word : Forall (fun c => is_sep c = false) pat.
  Definition stop (rest : text) : Prop := rest = [] \/ exists c r, rest = c :: r /\ is_sep c = true.

  Lemma prefix_word w rest : stop rest ->
    (exists r, drop_prefix pat (w ++ rest) = Some r) -> exists r, drop_prefix pat w = Some r.
  Proof.
    intros Hs [r H]. apply drop_prefix_spec in H.
    assert (G : forall w p r, Forall (fun c => is_sep c = false) p -> w ++ rest = p ++ r -> exists q, w = p ++ q).
    { clear - Hs. induction w as [|c w IH]; intros p r F E; cbn in E.
      - destruct p as [|x p]; [now exists []|]. destruct Hs as [->|(d & q & -> & Hd)]; [discriminate|]. injection E as -> _. inversion F. congruence.
      - destruct p as [|x p]; [now exists (c :: w)|]. injection E as -> E. inversion F; subst. destruct (IH _ _ H2 E) as [q ->]. now exists q. }
    destruct (G _ _ _ pat_word H) as [q ->]. exists q. now apply drop_prefix_spec.
  Qed.
  Lemma lo_word w : forall k rest, stop rest -> k <= length w ->
    leave_out pat k (w ++ rest) = leave_out pat k w ++ leave_out pat 0 rest.
  Proof.
    induction w as [|c w IH]; intros k rest Hs Hk.
    - cbn in Hk. replace k with 0 by lia. reflexivity.
    - cbn [app leave_out]. destruct k as [|k]; [|apply IH; [assumption|cbn in Hk; lia]].
      destruct (drop_prefix pat (c :: w ++ rest)) as [r|] eqn:E.
      + destruct (prefix_word (c :: w) rest Hs) as [r' E']; [now exists r|]. rewrite E'. apply IH; [assumption|].
        apply drop_prefix_spec in E'. apply (f_equal (@length ascii)) in E'. rewrite app_length in E'. cbn in E'. lia.
      + destruct (drop_prefix pat (c :: w)) as [r|] eqn:E'.
        * exfalso. apply drop_prefix_spec in E'. change (c :: w ++ rest) with ((c :: w) ++ rest) in E. rewrite E' in E.
          rewrite <- app_assoc in E. assert (X : drop_prefix pat (pat ++ r ++ rest) = Some (r ++ rest)) by now apply drop_prefix_spec. congruence.
        * cbn [app]. f_equal. apply IH; [assumption|lia].
  Qed.
  Lemma lo_sep c r : is_sep c = true -> leave_out pat 0 (c :: r) = c :: leave_out pat 0 r.
  Proof.
    intros H. cbn [leave_out]. destruct (drop_prefix pat (c :: r)) as [q|] eqn:E; [|reflexivity].
    apply drop_prefix_spec in E. destruct pat as [|x p]; [easy|]. injection E as -> _. inversion pat_word. congruence.
  Qed.
  Lemma lo_forall (Q : ascii -> Prop) t : forall k, Forall Q t -> Forall Q (leave_out pat k t).
  Proof.
    induction t as [|c t IH]; intros k F; [rewrite lo_nil; constructor|]. inversion F; subst. cbn [leave_out]. destruct k; [|auto].
    destruct (drop_prefix pat (c :: t)); auto.
  Qed.
End Leave_out.

(** ** Words *)

Definition ne (w : text) : bool := match w with [] => false | _ => true end.
Definition words (t : text) : list text := filter ne (resplit t).
Lemma split_seps_word w : forall sk acc rest, Forall (fun c => is_sep c = false) w -> w <> [] ->
  split_seps sk acc (w ++ rest) = split_seps false (rev w ++ acc) rest.
Proof.
  induction w as [|c w IH]; intros sk acc rest F Hw; [easy|]. inversion F; subst. cbn [app split_seps]. rewrite H1.
  destruct w as [|d w]; [reflexivity|]. rewrite IH by (auto; discriminate). cbn [rev]. rewrite <- !app_assoc. reflexivity.
Qed.
Lemma split_seps_skip r : filter ne (split_seps true [] r) = filter ne (split_seps false [] r).
Proof. destruct r as [|c r]; [reflexivity|]. cbn [split_seps]. destruct (is_sep c); reflexivity. Qed.
Lemma words_cons w c r : Forall (fun c => is_sep c = false) w -> is_sep c = true ->
  words (w ++ c :: r) = filter ne [w] ++ words r.
Proof.
  intros F Hc. unfold words, resplit. destruct w as [|x w].
  - cbn [app split_seps]. rewrite Hc. cbn [filter rev ne app]. apply split_seps_skip.
  - rewrite split_seps_word by (auto; discriminate). cbn [split_seps]. rewrite Hc, app_nil_r, rev_involutive. cbn [filter ne app]. f_equal. apply split_seps_skip.
Qed.
Lemma words_one w : Forall (fun c => is_sep c = false) w -> words w = filter ne [w].
Proof.
  intros F. unfold words, resplit. destruct w as [|x w]; [reflexivity|].
  rewrite <- (app_nil_r (x :: w)) at 1. rewrite split_seps_word by (auto; discriminate). cbn [split_seps]. now rewrite app_nil_r, rev_involutive.
Qed.
Lemma words_in t w : In w (words t) <-> w <> [] /\ In w (resplit t).
Proof. unfold words. rewrite filter_In. destruct w; cbn; intuition (congruence || discriminate). Qed.
Lemma next_word t : exists w rest, t = w ++ rest /\ Forall (fun c => is_sep c = false) w /\ stop rest.
Proof.
  induction t as [|c t (w & rest & -> & F & S)].
  - exists [], []. split; [reflexivity|]. split; [constructor|now left].
  - destruct (is_sep c) eqn:E.
    + exists [], (c :: w ++ rest). split; [reflexivity|]. split; [constructor|]. right. eauto.
    + exists (c :: w), rest. split; [reflexivity|]. split; [now constructor|assumption].
Qed.
Lemma words_leave_out pat : pat <> [] -> Forall (fun c => is_sep c = false) pat ->
  forall t, words (leave_out pat 0 t) = filter ne (map (leave_out pat 0) (words t)).
Proof.
  intros Hne Hw t. remember (length t) as n eqn:En. revert t En.
  induction n as [n IH] using lt_wf_ind. intros t En.
  destruct (next_word t) as (w & rest & -> & F & S).
  assert (Hself : filter ne [leave_out pat 0 w] = filter ne (map (leave_out pat 0) (filter ne [w]))).
  { destruct w; reflexivity. }
  rewrite lo_word by (auto; lia). pose proof (lo_forall pat _ w 0 F) as F'. destruct S as [->|(c & r & -> & Hc)].
  - rewrite lo_nil, !app_nil_r. rewrite (words_one _ F'), (words_one _ F). exact Hself.
  - rewrite lo_sep by assumption. rewrite (words_cons _ _ _ F' Hc), (words_cons _ _ _ F Hc), map_app, filter_app, <- Hself. f_equal.
    eapply IH; [|reflexivity]. rewrite En, app_length. cbn. lia.
Qed.

(** ** Lists of words with comments *)

Lemma pieces_nil l r : pieces [] l r -> l = [].
Proof.
  intros H. remember [] as e eqn:Ee. destruct H as [|r0 Hq|s t l r0 Hs Fs Ns H|w t l r0 Hw Fw Nw Et H|w t l r0 Nw H|c t l r0 Nc H|c Nc|t l r0 H|t l r0 H]; try discriminate; auto.
  - now apply app_eq_nil in Ee as [Ee _].
  - now apply app_eq_nil in Ee as [Ee _].
Qed.
Lemma starts_app Q (t u : text) : t <> [] -> starts Q (t ++ u) <-> starts Q t.
Proof. destruct t; [easy|reflexivity]. Qed.
Lemma one_space r l2 : ~ starts (fun c => isspace c = true) r -> pieces r l2 [] -> pieces (" " :: r) (ISpace [" "] :: l2) [].
Proof. intros. apply (p_space [" "]); [discriminate|repeat constructor|assumption|assumption]. Qed.
Lemma pieces_more r l2 : ~ starts (fun c => isspace c = true) r -> pieces r l2 [] ->
  forall t l rest, pieces t l rest -> rest = [] -> (forall l' c, l <> l' ++ [ILastComment c]) ->
  exists l', pieces (t ++ " " :: r) l' [] /\ flat_map word_in l' = flat_map word_in l ++ flat_map word_in l2.
Proof.
  intros Hr Hp t l rest H. induction H as [|r0 Hq|s t l r0 Hs Fs Ns H IH|w t l r0 Hw Fw Nw Et H IH|w t l r0 Nw H IH|c t l r0 Nc H IH|c Nc|t l r0 H IH|t l r0 H IH]; intros Er Hl; try subst r0.
  - exists (ISpace [" "] :: l2). split; [|reflexivity]. now apply one_space.
  - discriminate.
  - destruct t as [|x t].
    + apply pieces_nil in H. subst l. exists (ISpace (s ++ [" "]) :: l2). split; [|reflexivity]. rewrite app_nil_r.
      replace (s ++ " " :: r) with ((s ++ [" "]) ++ r) by (rewrite <- app_assoc; reflexivity). apply p_space; auto.
      * destruct s; discriminate.
      * apply Forall_app. split; [assumption|]. repeat constructor.
    + destruct IH as (l' & H1 & H2); [reflexivity|intros a b Eab; apply (Hl (ISpace s :: a) b); now rewrite Eab|].
      exists (ISpace s :: l'). split; [|exact H2]. rewrite <- app_assoc. apply p_space; auto.
  - destruct t as [|x t].
    + apply pieces_nil in H. subst l. exists (IWord w :: ISpace [" "] :: l2). split; [|reflexivity]. rewrite app_nil_r.
      apply p_word; auto; [right; now left|]. now apply one_space.
    + destruct IH as (l' & H1 & H2); [reflexivity|intros a b Eab; apply (Hl (IWord w :: a) b); now rewrite Eab|].
      exists (IWord w :: l'). split; [|cbn [flat_map word_in app]; now rewrite H2]. rewrite <- app_assoc. apply p_word; auto.
      right. destruct Et as [Et|Et]; [discriminate|exact Et].
  - destruct IH as (l' & H1 & H2); [reflexivity|intros a b Eab; apply (Hl (IQuoted w :: a) b); now rewrite Eab|].
    exists (IQuoted w :: l'). split; [|cbn [flat_map word_in app]; now rewrite H2]. rewrite <- app_assoc. now apply p_quoted.
  - destruct IH as (l' & H1 & H2); [reflexivity|intros a b Eab; apply (Hl (IComment c :: a) b); now rewrite Eab|].
    exists (IComment c :: l'). split; [|exact H2]. rewrite <- app_assoc. now apply p_comment.
  - destruct (Hl [] c). reflexivity.
  - destruct IH as (l' & H1 & H2); [reflexivity|intros a b Eab; apply (Hl (IComma :: a) b); now rewrite Eab|].
    exists (IComma :: l'). split; [|exact H2]. now apply (p_comma (t ++ " " :: r)).
  - destruct IH as (l' & H1 & H2); [reflexivity|intros a b Eab; apply (Hl (IEquals :: a) b); now rewrite Eab|].
    exists (IEquals :: l'). split; [|exact H2]. now apply (p_equals (t ++ " " :: r)).
Qed.

(** ** Texts in JSON are shorter than it *)

Lemma skip_length t : length (JsonModel.skip t) <= length t.
Proof. induction t as [|c t IH]; cbn; [lia|]. destruct (jblank c); cbn; lia. Qed.
Lemma parse_chars_length n : forall t s r, length t <= n -> parse_chars t = Some (s, r) -> length s + length r < length t.
Proof.
  induction n as [|n IH]; intros t s r L H; destruct t as [|c t1]; try discriminate; cbn [length] in L; try lia.
  cbn [parse_chars] in H. cbv zeta in H. destruct (nat_of_ascii c =? 34); [injection H as <- <-; cbn; lia|].
  destruct (nat_of_ascii c =? 92).
  - destruct t1 as [|e t2]; [discriminate|]. cbn [length] in L |- *.
    assert (One : forall x, match parse_chars t2 with Some (s0, r0) => Some (ch x :: s0, r0) | None => None end = Some (s, r) -> length s + length r < S (S (length t2))).
    { intros x. destruct (parse_chars t2) as [[s0 r0]|] eqn:E; [|discriminate]. intros [= <- <-]. apply IH in E; [|lia]. cbn. lia. }
    repeat match type of H with
    | (if ?b then match parse_chars t2 with _ => _ end else _) = _ => destruct b; [now apply One in H|]
    end.
    destruct (nat_of_ascii e =? 117); [|discriminate].
    destruct t2 as [|h1 [|h2 [|h3 [|h4 t3]]]]; try discriminate. destruct (unhex4 h1 h2 h3 h4) as [x|]; [|discriminate]. destruct (x <? 256); [|discriminate].
    destruct (parse_chars t3) as [[s0 r0]|] eqn:E; [|discriminate]. injection H as <- <-. cbn [length] in L. apply IH in E; [|lia]. cbn. lia.
  - destruct (nat_of_ascii c <? 32); [discriminate|]. destruct (parse_chars t1) as [[s0 r0]|] eqn:E; [|discriminate]. injection H as <- <-. apply IH in E; [|lia]. cbn. lia.
Qed.
Lemma literal_length w v : forall t v' r, literal w v t = Some (v', r) -> length r <= length t /\ v' = v.
Proof.
  induction w as [|c w IH]; intros t v' r H; cbn in H; [injection H as <- <-; auto|].
  destruct t as [|d t]; [discriminate|]. destruct (Ascii.eqb c d); [|discriminate]. apply IH in H as [H ->]. cbn. split; [lia|reflexivity].
Qed.
Lemma number_length t : forall a b, number t = (a, b) -> length b <= length t.
Proof.
  induction t as [|c t IH]; intros a b H; cbn in H; [injection H as <- <-; auto|].
  destruct (numchar c); [|injection H as <- <-; auto]. destruct (number t) as [a' b'] eqn:E. injection H as <- <-. specialize (IH _ _ eq_refl). cbn. lia.
Qed.
(** Each text directly in a value, in an object, and in the objects of a list *)
Definition short_obj (n : nat) (kvs : list (text * json)) : Prop := forall k s, In (k, JStr s) kvs -> length s < n.
Definition short_list (n : nat) (l : list json) : Prop := forall kvs, In (JObj kvs) l -> short_obj n kvs.
Definition short (n : nat) (v : json) : Prop :=
  match v with JStr s => length s < n | JObj kvs => short_obj n kvs | JList l => short_list n l | _ => True end.
Lemma parse_short f :
  (forall t v r, parse_value f t = Some (v, r) -> length r <= length t /\ short (length t) v) /\
  (forall t l r, parse_items f t = Some (l, r) -> length r <= length t /\ short_list (length t) l) /\
  (forall t l r, parse_fields f t = Some (l, r) -> length r <= length t /\ short_obj (length t) l).
Proof.
  assert (mono_o : forall n m l, n <= m -> short_obj n l -> short_obj m l) by (intros n m l L H k s Hin; specialize (H k s Hin); lia).
  assert (mono_l : forall n m l, n <= m -> short_list n l -> short_list m l) by (intros n m l L H kvs Hin; eapply mono_o; [exact L|now apply H]).
  induction f as [|f (IHv & IHi & IHf)]; [split; [|split]; discriminate|]. split; [|split].
  - intros t v r H. cbn [parse_value] in H. pose proof (skip_length t) as Ls. destruct (JsonModel.skip t) as [|c t1]; [discriminate|]. cbn [length] in Ls. cbv zeta in H.
    destruct (nat_of_ascii c =? 34).
    { destruct (parse_chars t1) as [[s r']|] eqn:E; [|discriminate]. injection H as <- <-. apply (parse_chars_length (length t1)) in E; [|lia]. cbn. lia. }
    destruct (nat_of_ascii c =? 91).
    { pose proof (skip_length t1) as L1. destruct (JsonModel.skip t1) as [|d t2]; [discriminate|]. cbn [length] in L1. destruct (nat_of_ascii d =? 93).
      - injection H as <- <-. split; [lia|]. intros kvs [].
      - destruct (parse_items f t1) as [[l r']|] eqn:E; [|discriminate]. injection H as <- <-. apply IHi in E as [E1 E2]. split; [lia|]. eapply mono_l; [|exact E2]. lia. }
    destruct (nat_of_ascii c =? 123).
    { pose proof (skip_length t1) as L1. destruct (JsonModel.skip t1) as [|d t2]; [discriminate|]. cbn [length] in L1. destruct (nat_of_ascii d =? 125).
      - injection H as <- <-. split; [lia|]. intros k s [].
      - destruct (parse_fields f t1) as [[l r']|] eqn:E; [|discriminate]. injection H as <- <-. apply IHf in E as [E1 E2]. split; [lia|]. eapply mono_o; [|exact E2]. lia. }
    destruct (nat_of_ascii c =? 110); [apply literal_length in H as [H ->]; cbn [length] in H; split; [lia|exact I]|].
    destruct (nat_of_ascii c =? 116); [apply literal_length in H as [H ->]; cbn [length] in H; split; [lia|exact I]|].
    destruct (nat_of_ascii c =? 102); [apply literal_length in H as [H ->]; cbn [length] in H; split; [lia|exact I]|].
    destruct (numchar c); [|discriminate]. destruct (number (c :: t1)) as [tok r'] eqn:E. injection H as <- <-. apply number_length in E. cbn [length] in E. split; [lia|exact I].
  - intros t l r H. cbn [parse_items] in H. destruct (parse_value f t) as [[v r0]|] eqn:E; [|discriminate]. apply IHv in E as [E1 E2].
    pose proof (skip_length r0) as L1. destruct (JsonModel.skip r0) as [|d r1]; [discriminate|]. cbn [length] in L1.
    assert (Hv : forall kvs, JObj kvs = v -> short_obj (length t) kvs) by (intros kvs <-; exact E2).
    destruct (nat_of_ascii d =? 93).
    + injection H as <- <-. split; [lia|]. intros kvs [Hk|[]]. now apply Hv.
    + destruct (nat_of_ascii d =? 44); [|discriminate]. destruct (parse_items f r1) as [[l' r2]|] eqn:Ei; [|discriminate]. injection H as <- <-.
      apply IHi in Ei as [Ei1 Ei2]. split; [lia|]. intros kvs [Hk|Hk]; [now apply Hv|]. eapply mono_o; [|apply Ei2, Hk]. lia.
  - intros t l r H. cbn [parse_fields] in H. destruct (parse_string t) as [[k r0]|] eqn:Es; [|discriminate].
    assert (L0 : length r0 < length t).
    { unfold parse_string in Es. pose proof (skip_length t) as Ls. destruct (JsonModel.skip t) as [|c t']; [discriminate|]. cbn [length] in Ls. destruct (nat_of_ascii c =? 34); [|discriminate].
      apply (parse_chars_length (length t')) in Es; lia. }
    pose proof (skip_length r0) as L1. destruct (JsonModel.skip r0) as [|e r1]; [discriminate|]. cbn [length] in L1. destruct (nat_of_ascii e =? 58); [|discriminate].
    destruct (parse_value f r1) as [[v r2]|] eqn:E; [|discriminate]. apply IHv in E as [E1 E2].
    pose proof (skip_length r2) as L2. destruct (JsonModel.skip r2) as [|d r3]; [discriminate|]. cbn [length] in L2.
    assert (Hv : forall s, JStr s = v -> length s < length t) by (intros s <-; cbn in E2; lia).
    destruct (nat_of_ascii d =? 125).
    + injection H as <- <-. split; [lia|]. intros k' s [Hk|[]]. injection Hk as _ Hk. now apply Hv.
    + destruct (nat_of_ascii d =? 44); [|discriminate]. destruct (parse_fields f r3) as [[l' r4]|] eqn:Ei; [|discriminate]. injection H as <- <-.
      apply IHf in Ei as [Ei1 Ei2]. split; [lia|]. intros k' s [Hk|Hk]; [injection Hk as _ Hk; now apply Hv|]. specialize (Ei2 _ _ Hk). lia.
Qed.
Lemma strings_in kvs : forall o k v, strings kvs = Some o -> In (k, v) o -> In (k, JStr v) kvs.
Proof.
  induction kvs as [|[k' j] kvs IH]; intros o k v H Hin; cbn in H.
  - injection H as <-. destruct Hin.
  - destruct j; try discriminate. destruct (strings kvs) as [l|]; [|discriminate]. injection H as <-. destruct Hin as [[= -> ->]|Hin]; [now left|]. right. eapply IH; eauto.
Qed.
Lemma objects_in l : forall os ok o, objects l = (os, ok) -> In o os -> exists kvs, In (JObj kvs) l /\ strings kvs = Some o.
Proof.
  induction l as [|j l IH]; intros os ok o H Hin; cbn in H.
  - injection H as <- _. destruct Hin.
  - destruct j as [| | | | |kvs]; try (injection H as <- _; destruct Hin). destruct (strings kvs) as [o'|] eqn:E.
    + destruct (objects l) as [os' ok']. injection H as <- <-. destruct Hin as [<-|Hin].
      * exists kvs. split; [now left|assumption].
      * destruct (IH _ _ _ eq_refl Hin) as (kvs' & H1 & H2). exists kvs'. split; [now right|assumption].
    + injection H as <- _. destruct Hin.
Qed.
Lemma overrides_short t os ok o k v : overrides t = (os, ok) -> In o os -> In (k, v) o -> length v < length t.
Proof.
  unfold overrides, loads. intros H Ho Hv. destruct (parse_value (S (length t)) t) as [[j r]|] eqn:E; [|injection H as <- _; destruct Ho].
  destruct (JsonModel.skip r); [|injection H as <- _; destruct Ho]. destruct j as [| | | |l|]; try (injection H as <- _; destruct Ho).
  destruct (objects_in _ _ _ _ H Ho) as (kvs & H1 & H2). destruct (parse_short (S (length t))) as [Hp _]. apply Hp in E as [_ E]. cbn in E.
  eapply E; [exact H1|]. eapply strings_in; eauto.
Qed.

(** ** Dictionaries *)

Lemma tget_filter (f : text -> bool) k (d : list (text * text)) : tget k (filter (fun kv => f (fst kv)) d) = if f k then tget k d else None.
Proof.
  induction d as [|[k' v] d IH]; cbn [filter tget fst]; [now destruct (f k)|]. destruct (f k') eqn:E; cbn [tget].
  - destruct (text_eqb k k') eqn:Ek; [|exact IH]. apply text_eqb_eq in Ek. subst k'. now rewrite E.
  - rewrite IH. destruct (text_eqb k k') eqn:Ek; [|reflexivity]. apply text_eqb_eq in Ek. subst k'. now rewrite E.
Qed.
Lemma tget_tset_ne k k' (v : text) d : k <> k' -> tget k (tset k' v d) = tget k d.
Proof. intros H. rewrite tget_tset. destruct (text_eqb k k') eqn:E; [|reflexivity]. apply text_eqb_eq in E. contradiction. Qed.
Lemma tget_tset_eq k (v : text) d : tget k (tset k v d) = Some v.
Proof. now rewrite tget_tset, text_eqb_refl. Qed.
Lemma NoDup_tset k (v : text) d : NoDup (map fst d) -> NoDup (map fst (tset k v d)).
Proof.
  induction d as [|[k' w] d IH]; cbn [tset map fst]; intros N; [repeat constructor; intros []|]. inversion N; subst.
  destruct (text_eqb k k') eqn:E; cbn [map fst].
  - apply text_eqb_eq in E. subst k'. now constructor.
  - constructor; [|auto]. intros Hin. apply H1. clear - Hin E. induction d as [|[a b] d IH]; cbn [tset map fst] in Hin.
    + destruct Hin as [->|[]]. now rewrite text_eqb_refl in E.
    + destruct (text_eqb k a); cbn [map fst] in Hin.
      * destruct Hin as [->|Hin]; [now left|now right].
      * destruct Hin as [->|Hin]; [now left|]. right. auto.
Qed.
Lemma NoDup_filter_keys (f : text * text -> bool) d : NoDup (map fst d) -> NoDup (map fst (filter f d)).
Proof.
  induction d as [|x d IH]; cbn; [auto|]. intros N. inversion N; subst. destruct (f x); cbn; [|auto]. constructor; [|auto].
  intros Hin. apply H1. apply in_map_iff in Hin as (y & Ey & Hy). apply filter_In in Hy as [Hy _]. rewrite <- Ey. now apply in_map.
Qed.
Lemma tget_updates (o : list (text * text)) : forall (d : list (text * text)) k, tget k (fold_left (fun d kv => tset (fst kv) (snd kv) d) o d) = match tget k (rev o) with Some v => Some v | None => tget k d end.
Proof.
  induction o as [|[a b] o IH]; intros d k; [reflexivity|]. cbn [fold_left fst snd rev]. rewrite IH, tget_tset.
  assert (H : forall (x : list (text * text)) y, tget k (x ++ y) = match tget k x with Some v => Some v | None => tget k y end).
  { induction x as [|[p q] x IHx]; intros y; [reflexivity|]. cbn [app tget]. destruct (text_eqb k p); [reflexivity|apply IHx]. }
  rewrite H. destruct (tget k (rev o)); [reflexivity|]. cbn [tget]. now destruct (text_eqb k a).
Qed.
Lemma tget_last o k v : tget k (rev o) = Some v <-> last_value o k v.
Proof.
  unfold last_value. split.
  - induction o as [|[a b] o IH] using rev_ind; [discriminate|]. rewrite rev_app_distr. cbn [rev app tget]. destruct (text_eqb k a) eqn:E.
    + intros [= ->]. apply text_eqb_eq in E. subst a. exists o, []. split; [reflexivity|intros []].
    + intros H. destruct (IH H) as (x & y & -> & N). exists x, (y ++ [(a, b)]). split; [now rewrite <- app_assoc|]. rewrite map_app, in_app_iff. cbn.
      intros [Hy|[Ha|[]]]; [contradiction|]. subst a. now rewrite text_eqb_refl in E.
  - intros (x & y & -> & N). rewrite rev_app_distr. cbn [rev]. rewrite <- app_assoc.
    assert (G : forall (z : list (text * text)) w, ~ In k (map fst z) -> tget k (z ++ w) = tget k w).
    { induction z as [|[p q] z IHz]; intros w Hz; [reflexivity|]. cbn [app tget]. destruct (text_eqb k p) eqn:E; [apply text_eqb_eq in E; subst p; destruct Hz; now left|]. apply IHz. intros H. apply Hz. now right. }
    rewrite G. { cbn. now rewrite text_eqb_refl. }
    rewrite map_rev. now rewrite <- in_rev.
Qed.

(** ** Normal forms are no longer *)

Lemma strip_length t : length (strip t) <= length t.
Proof. destruct (strip_split t) as (a & b & _ & _ & E). rewrite E at 2. rewrite !app_length. lia. Qed.
Definition total (ls : list text) : nat := fold_right (fun l n => length l + n) 0 ls.
Lemma join_total ls : length (join_nl ls) = total ls + (length ls - 1).
Proof.
  induction ls as [|l ls IH]; [reflexivity|]. destruct ls as [|l' ls]; [cbn; lia|].
  change (join_nl (l :: l' :: ls)) with (l ++ NL :: join_nl (l' :: ls)). rewrite app_length. cbn [length] in *. rewrite IH. cbn [total fold_right length]. lia.
Qed.
Lemma total_map (f : text -> text) ls : (forall l, length (f l) <= length l) -> total (map f ls) <= total ls.
Proof. intros H. induction ls as [|l ls IH]; [apply le_n|]. cbn [map total fold_right]. specialize (H l). fold (total (map f ls)). fold (total ls). lia. Qed.
Lemma undot_length l : length (undot l) <= length l.
Proof.
  unfold undot. destruct (rev l) as [|c r] eqn:E; [lia|]. destruct (Ascii.eqb c DOT && forallb isspace r); [|lia].
  rewrite rev_length. rewrite <- (rev_length l), E. cbn. lia.
Qed.
Lemma dedent_length ls : length (dedent_lines ls) = length ls /\ total (dedent_lines ls) <= total ls.
Proof.
  unfold dedent_lines. cbv zeta.
  assert (H1 : total (map (fun l => if forallb isblank l then [] else l) ls) <= total ls) by (apply total_map; intros l; destruct (forallb isblank l); cbn; lia).
  destruct (margin _) as [[|c m]|]; rewrite ?map_length; try (split; [reflexivity|assumption]). split; [reflexivity|].
  etransitivity; [apply total_map|exact H1]. intros l. destruct (drop_prefix (c :: m) l) as [r|] eqn:E; [|lia]. apply drop_prefix_spec in E. subst l. rewrite app_length. lia.
Qed.
Lemma split_total t : total (split_nl t) + (length (split_nl t) - 1) = length t.
Proof.
  induction t as [|c t IH]; [reflexivity|]. cbn [split_nl]. destruct (Ascii.eqb c NL).
  - destruct (split_nl t) as [|l ls] eqn:E; [now destruct (split_nl_ne t)|]. cbn [total fold_right length] in *. lia.
  - destruct (split_nl t) as [|l ls] eqn:E; [now destruct (split_nl_ne t)|]. cbn [total fold_right length] in *. lia.
Qed.
Lemma normalize_length t : length (normalize t) <= length t.
Proof.
  unfold normalize. destruct (Nat.ltb 1 (count_nl t)); [|apply strip_length]. etransitivity; [apply strip_length|]. rewrite join_total.
  destruct (dedent_length (map undot (split_nl t))) as [-> H]. rewrite map_length. pose proof (total_map undot (split_nl t) undot_length). pose proof (split_total t). lia.
Qed.
