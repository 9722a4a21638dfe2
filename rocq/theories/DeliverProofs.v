From Coq Require Import String Ascii List Bool Arith NArith Lia.
From Verif Require Import ScanModel Rfc822Model JsonModel IologModel IniModel ExportModel Rfc822Proofs IniProofs
  Utf8Model Utf8Spec Utf8Proofs Utf8Props DeliverModel DeliverSpec.
Import ListNotations.
Local Open Scope nat_scope.
Local Open Scope list_scope.

(** ** Sequencing *)
Lemma before_done a b : snd (before a b) = Done <-> snd a = Done /\ snd b = Done.
Proof. unfold before. destruct (snd a) eqn:E; cbn; rewrite ?E; split; [intros H; now split|now intros []|discriminate|now intros []]. Qed.
Lemma shown_app a b : shown (a ++ b) = shown a ++ shown b.
Proof. unfold shown. now rewrite map_app, concat_app. Qed.

(** ** UTF-8 *)
Lemma utf8_text_app a b : utf8_text (a ++ b) = utf8_text a ++ utf8_text b.
Proof. unfold utf8_text. now rewrite map_app, concat_app. Qed.
Lemma utf8_text_length t : length t <= length (utf8_text t).
Proof.
  induction t as [|c t IH]; [cbn; lia|]. unfold utf8_text in *. cbn [map concat length]. rewrite app_length.
  pose proof (utf8_not_nil c). destruct (utf8 c); [congruence|]. cbn [length]. lia.
Qed.
Lemma translated_full s : translated true s = full true s.
Proof.
  unfold translated, decode, full, dec, dech. cbn [negb andb].
  destruct (decode_loop true false (length s) s) as [[t|] [|x l]]; reflexivity.
Qed.
Lemma translated_some s t : translated true s = Some t <-> Forall scalar t /\ utf8_text t = s.
Proof.
  rewrite translated_full. destruct (full_strict (length s) s (le_n _)) as [A B]. split; [apply A|].
  intros [F E]. destruct (full true s) as [u|] eqn:U.
  - destruct (A u eq_refl) as [F' E']. f_equal. apply C52_utf8_is_injective; congruence.
  - exfalso. now apply (B eq_refl t F).
Qed.
Lemma translated_none s : translated true s = None <-> forall t, Forall scalar t -> utf8_text t <> s.
Proof.
  split.
  - intros N t F E. assert (translated true s = Some t) by now apply translated_some. congruence.
  - intros H. destruct (translated true s) as [t|] eqn:E; [|reflexivity]. apply translated_some in E as [F E]. now destruct (H t F).
Qed.
Lemma utf8_text_prefix t' : forall t r, Forall scalar t -> Forall scalar t' -> utf8_text t' ++ r = utf8_text t ->
  exists t2, t = t' ++ t2 /\ r = utf8_text t2.
Proof.
  induction t' as [|c t' IH]; intros t r F F' E; [now exists t|]. inversion F'; subst.
  destruct t as [|d t].
  - unfold utf8_text in E. cbn [map concat] in E. exfalso. pose proof (utf8_not_nil c). destruct (utf8 c); [congruence|discriminate E].
  - inversion F; subst. unfold utf8_text in E. cbn [map concat] in E. rewrite <- app_assoc in E.
    apply utf8_prefix in E as [-> E]; auto. destruct (IH t r) as (t2 & -> & ->); auto. now exists t2.
Qed.

(** ** Reading in pieces *)
Lemma pieces_concat n : 0 < n -> forall f s, length s <= f -> concat (pieces f n s) = s.
Proof.
  intros N. induction f as [|f IH]; intros s L; [destruct s; [reflexivity|cbn in L; lia]|].
  destruct s as [|x s]; [reflexivity|]. cbn [pieces concat]. rewrite IH; [apply firstn_skipn|].
  rewrite skipn_length. cbn [length] in *. lia.
Qed.
Lemma reads_of_concat size s : size <> Some 0 -> concat (reads_of size s) = s.
Proof.
  intros N. destruct size as [n|]; [apply pieces_concat; [destruct n; [congruence|lia]|lia]|].
  destruct s; [reflexivity|]. cbn. now rewrite app_nil_r.
Qed.

Lemma copy_text_done l : snd (copy_text true l) = Done <-> forall s, In s l -> exists t, Forall scalar t /\ utf8_text t = s.
Proof.
  induction l as [|s l IH]; [split; [intros _ s []|reflexivity]|]. cbn [copy_text].
  destruct (translated true s) as [t|] eqn:E.
  - rewrite before_done, IH. apply translated_some in E. split.
    + intros [_ H] s' [<-|I]; [eauto|auto].
    + intros H. split; [reflexivity|]. intros s' I. apply H. now right.
  - split; [discriminate|]. intros H. destruct (H s (or_introl eq_refl)) as (t & F & U).
    exfalso. now apply (proj1 (translated_none s) E t F).
Qed.
Lemma copy_text_outcome same l : snd (copy_text same l) = Done \/ snd (copy_text same l) = Raised UnicodeDecodeErr.
Proof.
  induction l as [|s l IH]; [now left|]. cbn [copy_text]. destruct (translated same s); [|now right].
  cbn. exact IH.
Qed.
(** what has been printed is the beginning of what there is *)
Lemma copy_text_shown l : exists r, Forall scalar (shown (fst (copy_text true l))) /\
  concat l = utf8_text (shown (fst (copy_text true l))) ++ r /\ (snd (copy_text true l) = Done -> r = []).
Proof.
  induction l as [|s l IH]; [exists []; repeat split; constructor|]. cbn [copy_text].
  destruct (translated true s) as [t|] eqn:E.
  - destruct IH as (r & F & C & D). apply translated_some in E as [Ft Et]. exists r.
    change (shown (fst (before (just (Printed t)) (copy_text true l)))) with (t ++ shown (fst (copy_text true l))).
    split; [now apply Forall_app|].
    rewrite utf8_text_app, Et, <- app_assoc. cbn [concat]. rewrite <- C. split; [reflexivity|]. intros X. now apply D.
  - exists (concat (s :: l)). repeat split; [constructor|]. discriminate.
Qed.

Lemma pieces_cut n : 0 < n -> forall f t, Forall scalar t -> length (utf8_text t) <= f ->
  ((forall s, In s (pieces f n (utf8_text t)) -> exists u, Forall scalar u /\ utf8_text u = s) <-> cut_between_characters n t).
Proof.
  intros N. induction f as [|f IH]; intros t F L.
  - pose proof (utf8_text_length t). destruct t as [|c t]; [|cbn [length] in *; lia]. split; [|intros _ s []].
    intros _ k K. exists [], []. split; [reflexivity|]. cbn [utf8_text map concat length] in *. cbn in *. lia.
  - destruct (utf8_text t) as [|x s] eqn:E.
    { pose proof (utf8_text_length t) as H. rewrite E in H. destruct t as [|c t]; [|cbn [length] in *; lia]. split; [|intros _ s []].
      intros _ k K. exists [], []. split; [reflexivity|]. cbn in *. lia. }
    cbn [pieces]. rewrite <- E in *. clear x s E. destruct (le_lt_dec (length (utf8_text t)) n) as [Le|Lt].
    + rewrite firstn_all2, skipn_all2 by assumption. assert (P : pieces f n [] = []) by (destruct f; reflexivity). rewrite P.
      split.
      * intros _ k K. destruct k as [|k]; [exists [], t; now split|]. exists t, []. rewrite app_nil_r. split; [reflexivity|]. nia.
      * intros _ s [<-|[]]. now exists t.
    + split.
      * intros H. destruct (H _ (or_introl eq_refl)) as (t1 & F1 & E1).
        destruct (utf8_text_prefix t1 t (skipn n (utf8_text t)) F F1) as (t2 & -> & E2); [rewrite E1; apply firstn_skipn|].
        assert (L1 : length (utf8_text t1) = n) by (rewrite E1; apply firstn_length_le; lia).
        apply Forall_app in F as [_ F2]. rewrite utf8_text_app, app_length in L, Lt.
        assert (C : cut_between_characters n t2).
        { apply (IH t2 F2); [lia|]. rewrite <- E2. intros s I. apply H. now right. }
        intros k K. destruct k as [|k]; [exists [], (t1 ++ t2); now split|].
        destruct (C k) as (a & b & -> & La); [rewrite utf8_text_app, app_length in K; lia|].
        exists (t1 ++ a), b. rewrite app_assoc. split; [reflexivity|]. rewrite utf8_text_app, app_length. lia.
      * intros C. destruct (C 1) as (t1 & t2 & -> & L1); [lia|]. rewrite Nat.mul_1_l in L1.
        rewrite utf8_text_app, app_length in *. apply Forall_app in F as [F1 F2].
        rewrite firstn_app, skipn_app, <- L1, firstn_all, skipn_all, Nat.sub_diag. cbn [firstn skipn app]. rewrite app_nil_r.
        intros s [<-|I]; [now exists t1|]. rewrite L1 in I. revert s I. apply (IH t2 F2); [lia|]. intros k K.
        destruct (C (S k)) as (a & b & Eab & La); [rewrite utf8_text_app, app_length; lia|].
        assert (A : exists w, a = t1 ++ w /\ t2 = w ++ b).
        { revert a b Eab La. clear -L1. revert n L1. induction t1 as [|c t1 IH]; intros n L1 a b Eab La; [now exists a|].
          destruct a as [|d a].
          - exfalso. cbn in La. unfold utf8_text in L1. cbn [map concat] in L1. rewrite app_length in L1.
            pose proof (utf8_not_nil c). destruct (utf8 c); [congruence|]. cbn [length] in L1. lia.
          - cbn [app] in Eab. injection Eab as <- Eab. unfold utf8_text in L1, La. cbn [map concat] in L1, La. rewrite app_length in L1, La.
            fold (utf8_text t1) in L1. fold (utf8_text a) in La. clear IH.
            assert (Q : length (utf8_text t1) <= length (utf8_text a)) by lia. clear -Eab Q.
            revert a Eab Q. induction t1 as [|e t1 IH]; intros a Eab Q; [now exists a|]. destruct a as [|g a].
            + exfalso. cbn in Q. unfold utf8_text in Q. cbn [map concat] in Q. rewrite app_length in Q.
              pose proof (utf8_not_nil e). destruct (utf8 e); [congruence|]. cbn [length] in Q. lia.
            + cbn [app] in Eab. injection Eab as <- Eab. unfold utf8_text in Q. cbn [map concat] in Q. rewrite !app_length in Q.
              destruct (IH a Eab) as (w & W & ->); [unfold utf8_text; lia|]. injection W as ->. exists w. now split. }
        destruct A as (w & -> & ->). exists w, b. split; [reflexivity|]. rewrite utf8_text_app, app_length in La. cbn in La. lia.
Qed.

(** ** Another encoding *)
Lemma copy_other l : copy_text false l =
  (map (fun s => Printed (filter (fun c => N.ltb c 128) (map N_of_ascii s))) l, Done).
Proof. induction l as [|s l IH]; [reflexivity|]. cbn [copy_text translated]. rewrite IH. reflexivity. Qed.
Lemma filter_concat (f : N -> bool) l : filter f (concat l) = concat (map (filter f) l).
Proof. induction l as [|s l IH]; [reflexivity|]. cbn [concat map]. now rewrite filter_app, IH. Qed.
Lemma shown_other l : shown (fst (copy_text false l)) = filter (fun c => N.ltb c 128) (map N_of_ascii (concat l)).
Proof.
  rewrite copy_other. cbn [fst]. unfold shown. rewrite map_map, concat_map, filter_concat, map_map. reflexivity.
Qed.
Lemma high c : (128 <= c -> c < 256 -> N.ltb (N_of_ascii (b c)) 128 = false)%N.
Proof. intros L H. rewrite byte_b by assumption. apply N.ltb_ge. assumption. Qed.
Lemma ascii_part t : Forall scalar t ->
  filter (fun c => N.ltb c 128) (map N_of_ascii (utf8_text t)) = filter (fun c => N.ltb c 128) t.
Proof.
  induction 1 as [|c t S F IH]; [reflexivity|]. unfold utf8_text in *. cbn [map concat filter].
  rewrite map_app, filter_app, IH.
  destruct (N.ltb_spec c 128) as [L|L].
  - unfold utf8. rewrite (proj2 (N.ltb_lt c 128) L). cbn [map filter]. rewrite byte_b by lia.
    rewrite (proj2 (N.ltb_lt c 128) L). reflexivity.
  - assert (M : forall x, (x mod 64 < 64)%N) by (intros x; apply N.mod_lt; discriminate).
    assert (U : filter (fun c0 => N.ltb c0 128) (map N_of_ascii (utf8 c)) = []).
    { unfold utf8. rewrite (proj2 (N.ltb_ge c 128) L).
      destruct (N.ltb_spec c 2048) as [L2|L2]; [|destruct (N.ltb_spec c 65536) as [L3|L3]]; cbn [map filter].
      - assert (c / 64 < 32)%N by (apply N.div_lt_upper_bound; lia). pose proof (M c) as M0.
        generalize dependent (c / 64)%N. generalize dependent (c mod 64)%N. intros.
        rewrite !high by lia. reflexivity.
      - assert (c / 4096 < 16)%N by (apply N.div_lt_upper_bound; lia). pose proof (M c) as M0. pose proof (M (c / 64)%N) as M1.
        generalize dependent (c / 4096)%N. generalize dependent ((c / 64) mod 64)%N. generalize dependent (c mod 64)%N. intros.
        rewrite !high by lia. reflexivity.
      - assert (c / 262144 < 5)%N by (apply N.div_lt_upper_bound; [lia|]; destruct S; lia).
        pose proof (M c) as M0. pose proof (M (c / 64)%N) as M1. pose proof (M (c / 4096)%N) as M2.
        generalize dependent ((c / 4096) mod 64)%N. generalize dependent (c / 262144)%N.
        generalize dependent ((c / 64) mod 64)%N. generalize dependent (c mod 64)%N. intros.
        rewrite !high by lia. reflexivity. }
    rewrite U. reflexivity.
Qed.

(** ** Files *)
Lemma holds_fun p l : forall c c1 c2, holds p l c c1 -> holds p l c c2 -> c1 = c2.
Proof.
  induction l as [|e l IH]; intros c c1 c2 A B; inversion A; subst; inversion B; subst; try congruence;
    try (eapply IH; eassumption); exfalso; try (now eauto);
    match goal with H : forall s, _ <> Appended _ s |- _ => eapply H; reflexivity end.
Qed.
Lemma holds_app p a : forall b c d e, holds p a c d -> holds p b d e -> holds p (a ++ b) c e.
Proof.
  induction a as [|x a IH]; intros b c d e A B; inversion A; subst; [assumption|..]; cbn [app].
  - apply holds_emptied. eapply IH; eassumption.
  - apply holds_appended. eapply IH; eassumption.
  - apply holds_other; auto. eapply IH; eassumption.
Qed.
Lemma copy_file_holds p room l : forall c,
  holds p (fst (copy_file p room l)) c (c ++ match room with None => concat l | Some k => firstn k (concat l) end).
Proof.
  revert room. induction l as [|s l IH]; intros room c; cbn [copy_file concat].
  - destruct room as [k|]; rewrite ?firstn_nil, app_nil_r; constructor.
  - destruct room as [k|].
    + destruct (Nat.leb_spec (length s) k) as [L|L].
      * cbn. apply holds_appended. rewrite firstn_app, (firstn_all2 s), app_assoc by assumption. apply IH.
      * cbn [fst]. apply holds_appended. rewrite firstn_app. replace (k - length s) with 0 by lia. cbn [firstn]. rewrite app_nil_r. constructor.
    + cbn. apply holds_appended. rewrite app_assoc. apply (IH None).
Qed.
Lemma copy_file_outcome p room l :
  snd (copy_file p room l) =
  match room with None => Done | Some k => if length (concat l) <=? k then Done else Raised OSErr end.
Proof.
  revert room. induction l as [|s l IH]; intros room; cbn [copy_file concat]; [now destruct room|].
  destruct room as [k|].
  - rewrite app_length. destruct (Nat.leb_spec (length s) k) as [L|L].
    + cbn. rewrite IH. destruct (Nat.leb_spec (length (concat l)) (k - length s)), (Nat.leb_spec (length s + length (concat l)) k); auto; lia.
    + cbn. destruct (Nat.leb_spec (length s + length (concat l)) k); [lia|reflexivity].
  - cbn. apply (IH None).
Qed.
Lemma copy_file_events p room l : forall e, In e (fst (copy_file p room l)) -> exists s, e = Appended p s.
Proof.
  revert room. induction l as [|s l IH]; intros room e; cbn [copy_file]; [intros []|].
  destruct room as [k|].
  - destruct (length s <=? k); cbn; intros [<-|I]; eauto. destruct I.
  - cbn; intros [<-|I]; eauto.
Qed.
Lemma holds_appended_inv p s l c c' : holds p (Appended p s :: l) c c' -> holds p l (c ++ s) c'.
Proof. intros H. inversion H; subst; [assumption|]. exfalso. match goal with X : forall s, _ <> Appended _ s |- _ => eapply X; reflexivity end. Qed.
Lemma holds_nil_inv p c c' : holds p [] c c' -> c' = c.
Proof. intros H. now inversion H. Qed.
Definition appends (p : text) (l : list event) : Prop := forall e, In e l -> exists s, e = Appended p s.
Lemma appends_grow p l : appends p l -> forall c c', holds p l c c' -> exists v, c' = c ++ v.
Proof.
  induction l as [|e l IH]; intros A c c' H.
  - apply holds_nil_inv in H as ->. exists []. now rewrite app_nil_r.
  - destruct (A e (or_introl eq_refl)) as [s ->]. apply holds_appended_inv in H.
    destruct (IH (fun e I => A e (or_intror I)) _ _ H) as [v ->]. exists (s ++ v). now rewrite app_assoc.
Qed.
(** a stop within writes to one file leaves a beginning *)
Lemma holds_appends p l : appends p l -> forall c c', holds p l c c' ->
  forall l', stopped l l' -> forall d, holds p l' c d -> exists u v, d = c ++ u /\ c' = d ++ v.
Proof.
  intros A c c' Hc l' S. destruct S as [l l'|l q s s' l'].
  - intros d Hd. revert c c' Hc Hd. induction l as [|e l IH]; intros c c' Hc Hd.
    + apply holds_nil_inv in Hd as ->. cbn [app] in *. destruct (appends_grow _ _ A _ _ Hc) as [v ->].
      exists [], v. now rewrite app_nil_r.
    + destruct (A e (or_introl eq_refl)) as [s ->]. cbn [app] in Hc. apply holds_appended_inv in Hc, Hd.
      destruct (IH (fun e I => A e (or_intror I)) (c ++ s) c') as (u & v & -> & ->); auto.
      exists (s ++ u), v. rewrite !app_assoc. now split.
  - intros d Hd. revert c c' Hc Hd. induction l as [|e l IH]; intros c c' Hc Hd.
    + cbn [app] in *. destruct (A _ (or_introl eq_refl)) as [s0 E]. injection E as -> _.
      apply holds_appended_inv, holds_nil_inv in Hd as ->. apply holds_appended_inv in Hc.
      destruct (appends_grow p l' (fun e I => A e (or_intror I)) _ _ Hc) as [v ->].
      exists s, (s' ++ v). rewrite !app_assoc. now split.
    + destruct (A e (or_introl eq_refl)) as [s1 ->]. cbn [app] in Hc, Hd. apply holds_appended_inv in Hc, Hd.
      destruct (IH (fun e I => A e (or_intror I)) (c ++ s1) c') as (u & v & -> & ->); auto.
      exists (s1 ++ u), v. rewrite !app_assoc. now split.
Qed.

(** ** Options *)
Lemma split_comma_not_nil t : split_comma t <> [].
Proof. destruct t as [|c t]; cbn; [discriminate|]. destruct (Ascii.eqb c ","); [discriminate|]. now destruct (split_comma t). Qed.
Lemma split_comma_joined l : l <> [] -> Forall (fun p => ~ In ","%char p) l -> split_comma (joined l) = l.
Proof.
  induction l as [|p l IH]; [congruence|]. intros _ F. inversion F as [|? ? Fp Fl]; subst.
  assert (A : forall r, split_comma (p ++ ","%char :: r) = p :: split_comma r).
  { clear -Fp. induction p as [|c p IHp]; intros r; [reflexivity|]. cbn [app split_comma].
    destruct (Ascii.eqb_spec c ","%char) as [->|Nc]; [exfalso; apply Fp; now left|].
    rewrite IHp; [reflexivity|]. intros I. apply Fp. now right. }
  destruct l as [|q l].
  - cbn [joined]. clear -Fp. induction p as [|c p IHp]; [reflexivity|]. cbn [split_comma].
    destruct (Ascii.eqb_spec c ","%char) as [->|Nc]; [exfalso; apply Fp; now left|].
    rewrite IHp; [reflexivity|]. intros I. apply Fp. now right.
  - cbn [joined]. rewrite A. f_equal. apply IH; [discriminate|assumption].
Qed.
Lemma split_comma_spec t : joined (split_comma t) = t /\ Forall (fun p => ~ In ","%char p) (split_comma t).
Proof.
  induction t as [|c t [IH F]]; [split; [reflexivity|constructor; [intros []|constructor]]|]. cbn [split_comma].
  pose proof (split_comma_not_nil t) as N.
  destruct (Ascii.eqb_spec c ","%char) as [->|Nc].
  - split; [|constructor; [intros []|assumption]]. destruct (split_comma t) as [|p ps]; [congruence|].
    cbn [joined app] in *. now rewrite IH.
  - destruct (split_comma t) as [|p ps]; [congruence|]. split.
    + destruct ps; cbn [joined app] in *; now rewrite IH.
    + inversion F; subst. constructor; [|assumption]. intros [E|I]; [congruence|contradiction].
Qed.
Lemma split_once_some p k v : split_once p = Some (k, v) <-> p = k ++ "="%char :: v /\ ~ In "="%char k.
Proof.
  revert k v. induction p as [|c p IH]; intros k v; cbn [split_once].
  - split; [discriminate|]. intros [E _]. now destruct k.
  - destruct (Ascii.eqb_spec c "="%char) as [->|N].
    + split.
      * intros E. injection E as <- <-. split; [reflexivity|intros []].
      * intros [E I]. destruct k as [|d k]; [injection E as ->; reflexivity|]. injection E as <- _. exfalso. apply I. now left.
    + split.
      * destruct (split_once p) as [[k' v']|] eqn:E; [|discriminate]. intros H. injection H as <- <-.
        destruct (proj1 (IH k' v') eq_refl) as [-> I]. split; [reflexivity|]. intros [X|X]; [congruence|contradiction].
      * intros [E I]. destruct k as [|d k]; [inversion E; now subst|]. cbn [app] in E. injection E as <- E.
        assert (X : split_once p = Some (k, v)). { apply IH. split; [assumption|]. intros J. apply I. now right. }
        now rewrite X.
Qed.
Lemma put_keys d k v : forall x, In x (map fst (put d k v)) <-> x = k \/ In x (map fst d).
Proof.
  induction d as [|[k' v'] d IH]; intros x; cbn [put]; [cbn; intuition|].
  destruct (text_eqb k' k) eqn:E.
  - apply text_eqb_eq in E as ->. cbn. intuition.
  - cbn. rewrite IH. cbn. intuition.
Qed.
Lemma put_nodup d k v : NoDup (map fst d) -> NoDup (map fst (put d k v)).
Proof.
  induction d as [|[k' v'] d IH]; intros N; cbn [put]; [constructor; [intros []|constructor]|].
  inversion N as [|? ? N1 N2]; subst. destruct (text_eqb k' k) eqn:E; [now constructor|].
  cbn [map fst]. constructor; [|auto]. intros I. apply put_keys in I as [->|I]; [|contradiction].
  apply text_eqb_neq in E. congruence.
Qed.
Lemma put_in d k v : NoDup (map fst d) -> forall x y, In (x, y) (put d k v) <-> (x = k /\ y = v) \/ (x <> k /\ In (x, y) d).
Proof.
  induction d as [|[k' v'] d IH]; intros N x y; cbn [put].
  - cbn. split; [intros [E|[]]; injection E as -> ->; now left|intros [[-> ->]|[_ []]]; now left].
  - inversion N as [|? ? N1 N2]; subst. destruct (text_eqb k' k) eqn:E.
    + apply text_eqb_eq in E as ->. cbn. split.
      * intros [E|I]; [injection E as -> ->; now left|]. right. split; [|now right].
        intros ->. apply N1. apply in_map_iff. now exists (k, y).
      * intros [[-> ->]|[D [E|I]]]; [now left|congruence|now right].
    + apply text_eqb_neq in E. cbn. rewrite IH by assumption. split.
      * intros [H|[H|[D I]]]; [injection H as -> ->; right; split; [congruence|now left]|now left|right; split; [assumption|now right]].
      * intros [H|[D [H|I]]]; [right; now left|now left|right; now right].
Qed.
Lemma put_all_pairs l : Forall clean_pair l -> forall d, NoDup (map fst d) ->
  exists d', put_all d (map pair_text l) = Some d' /\ NoDup (map fst d') /\
    forall k v, In (k, v) d' <-> last_value l k v \/ (~ In k (map fst l) /\ In (k, v) d).
Proof.
  induction 1 as [|[k0 v0] l (C1 & C2 & C3) F IH]; intros d N.
  - exists d. split; [reflexivity|]. split; [assumption|]. intros k v. split; [right; split; [intros []|assumption]|].
    intros [(a & b & E & _)|[_ I]]; [now destruct a|assumption].
  - cbn [map put_all]. assert (E : split_once (pair_text (k0, v0)) = Some (k0, v0)) by (apply split_once_some; now split).
    rewrite E. destruct (IH (put d k0 v0) (put_nodup _ _ _ N)) as (d' & E' & N' & I').
    exists d'. split; [assumption|]. split; [assumption|]. intros k v. rewrite I', put_in by assumption. split.
    + intros [(a & b & -> & B)|(B & [[-> ->]|[D I]])].
      * left. exists ((k0, v0) :: a), b. now split.
      * left. exists [], l. now split.
      * right. split; [|assumption]. intros [X|X]; [cbn in X; congruence|contradiction].
    + intros [(a & b & E0 & B)|(B & I)].
      * destruct a as [|q a].
        -- injection E0 as -> -> ->. right. split; [assumption|]. now left.
        -- injection E0 as <- ->. left. exists a, b. now split.
      * right. split; [intros X; apply B; now right|]. right. split; [intros ->; apply B; now left|assumption].
Qed.
Lemma put_all_accepts l : Forall (fun p => ~ In ","%char p) l -> forall d d', put_all d l = Some d' ->
  exists kvs, Forall clean_pair kvs /\ l = map pair_text kvs.
Proof.
  induction 1 as [|p l Fp F IH]; intros d d' E; [exists []; now split|]. cbn [put_all] in E.
  destruct (split_once p) as [[k v]|] eqn:P; [|discriminate]. apply split_once_some in P as [-> NI].
  destruct (IH _ _ E) as (kvs & Fk & ->). exists ((k, v) :: kvs). split; [|reflexivity]. constructor; [|assumption].
  repeat split; cbn; auto; intros I; apply Fp; apply in_or_app; [now left|right; now right].
Qed.
Lemma put_all_not_nil l : forall d, d <> [] -> put_all d l <> Some [].
Proof.
  induction l as [|p l IH]; intros d D; cbn [put_all]; [congruence|].
  destruct (split_once p) as [[k v]|]; [|discriminate]. apply IH. destruct d as [|[k' v'] d]; [congruence|]. cbn.
  now destruct (text_eqb k' k).
Qed.
