(** Proofs about the cache of resource job results. *)
From Coq Require Import String Ascii List Bool Arith Lia Permutation.
From Verif Require Import ScanModel Rfc822Model Rfc822Spec Rfc822Proofs JsonModel JsonProofs IniModel ConfigModel ConfigSpec IniProofs ConfigProofs CacheModel CacheSpec.
Import ListNotations.
Local Open Scope nat_scope.
Local Open Scope list_scope.

(** ** JSON *)

(** An object that was cut short is never read as anything. *)
Theorem loads_cut_obj l p q : good (JObj l) -> dumps (JObj l) = p ++ q -> q <> [] -> loads p = None.
Proof.
  intros G E Q. unfold loads.
  destruct (parse_value (S (length p)) p) as [[v r]|] eqn:P; [|reflexivity].
  destruct (skip r) as [|c r'] eqn:K; [|reflexivity]. exfalso.
  assert (A := dumps_reads _ G (length (dumps (JObj l))) [] (le_n _) I).
  rewrite app_nil_r in A.
  assert (En : ended v r \/ exists tok, v = JNum tok).
  { destruct v; simpl; eauto. }
  destruct En as [En|[tok ->]].
  - apply (proj1 (parse_more _) _ q) in P; auto.
    apply (parse_value_fuel _ (S (length p) + length (dumps (JObj l)))) in P; [|lia].
    apply (parse_value_fuel _ (S (length p) + length (dumps (JObj l)))) in A; [|lia].
    rewrite E in *. rewrite P in A. injection A as _ A. apply app_eq_nil in A as [_ ->]. auto.
  - assert (H : exists t, p = ch 123 :: t \/ p = []).
    { destruct p as [|c p]; [exists []; auto|]. exists p. left.
      destruct l as [|[k v] l]; [|rewrite dumps_obj in E]; cbn [dumps app] in E; injection E as <- _; reflexivity. }
    destruct H as [t [-> | ->]]; [|discriminate].
    cbn [parse_value] in P. change (skip (ch 123 :: t)) with (ch 123 :: t) in P.
    change (nat_of_ascii (ch 123) =? 34) with false in P.
    change (nat_of_ascii (ch 123) =? 91) with false in P.
    change (nat_of_ascii (ch 123) =? 123) with true in P. cbv iota beta zeta in P.
    destruct (skip t) as [|d t2]; [discriminate|].
    destruct (nat_of_ascii d =? 125); [discriminate|].
    destruct (parse_fields (length (ch 123 :: t)) t) as [[l' r0]|]; discriminate.
Qed.

Lemma insert_field_perm x l : Permutation (insert_field x l) (x :: l).
Proof.
  induction l as [|y l IH]; cbn; [reflexivity|]. destruct (text_leb (fst x) (fst y)); [reflexivity|].
  rewrite IH. apply perm_swap.
Qed.
Lemma sort_fields_perm r : Permutation (sort_fields r) r.
Proof. induction r as [|x r IH]; cbn; [reflexivity|]. rewrite insert_field_perm. now constructor. Qed.
Lemma sort_fields_tget r k : NoDup (map fst r) -> tget k (sort_fields r) = tget k r.
Proof. intros N. symmetry. apply tget_perm; auto. apply Permutation_sym, sort_fields_perm. Qed.

Definition tidy (r : result) : Prop := NoDup (map fst r) /\ forall k v, In (k, v) r -> good v.
Lemma tidy_tset r p : tidy r -> tidy (tset LOG (JStr p) r).
Proof.
  intros [A B]. assert (N : NoDup (map fst (tset LOG (JStr p) r))) by (now apply NoDup_tset). split; [exact N|].
  intros k v H. apply (In_tget _ _ _ N) in H. rewrite tget_tset in H. destruct (text_eqb k LOG).
  - injection H as <-. constructor.
  - apply (B k). now apply tget_In.
Qed.
Lemma tidy_good r : tidy r -> good (JObj (sort_fields r)).
Proof.
  intros [_ B]. constructor. intros k v H. apply (B k). eapply Permutation_in; [apply sort_fields_perm|exact H].
Qed.
Lemma decode_encode r : tidy r -> loads (encode r) = Some (JObj (sort_fields r)).
Proof. intros H. apply loads_dumps. now apply tidy_good. Qed.
Lemma decode_cut r a b : tidy r -> encode r = a ++ b -> b <> [] -> loads a = None.
Proof. intros H E N. eapply loads_cut_obj; eauto. now apply tidy_good. Qed.

(** ** Paths *)

Lemma within_refl d : within d d = true.
Proof. unfold within. now rewrite text_eqb_refl. Qed.
Lemma below_join d n : below d (join d n) = true.
Proof. unfold below, join. change (d ++ SLASH :: n) with (d ++ [SLASH] ++ n). rewrite app_assoc. apply tprefix_app. Qed.
Lemma below_split d p : below d p = true -> exists n, p = join d n.
Proof.
  unfold below, join. intros H. apply tprefix_split in H. rewrite <- app_assoc in H. eauto.
Qed.
Lemma join_inj d n n' : join d n = join d n' -> n = n'.
Proof. unfold join. intros H. apply app_inv_head in H. congruence. Qed.
Lemma join_neq d n : join d n <> d.
Proof. unfold join. intros H. apply (f_equal (@length ascii)) in H. rewrite app_length in H. cbn in H. lia. Qed.

Lemma within_split d p : within d p = true <-> p = d \/ exists n, p = join d n.
Proof.
  unfold within. rewrite orb_true_iff, text_eqb_eq. split; intros [H|H]; auto.
  - right. now apply below_split.
  - right. destruct H as [n ->]. apply below_join.
Qed.

Lemma slash_split (k k' n n' : text) : ~ In SLASH k -> ~ In SLASH k' ->
  k ++ SLASH :: n = k' ++ SLASH :: n' -> k = k' /\ n = n'.
Proof.
  revert k'. induction k as [|a k IH]; intros [|b k'] A B E; cbn in E.
  - now injection E as ->.
  - injection E as <- _. exfalso. apply B. now left.
  - injection E as -> _. exfalso. apply A. now left.
  - injection E as -> E. destruct (IH k') as [-> ->]; auto.
    + intros H. apply A. now right.
    + intros H. apply B. now right.
Qed.

(** Entries of different jobs do not share paths. *)
Lemma entries_apart root k k' p : no_slash k -> no_slash k' ->
  within (join root k) p = true -> within (join root k') p = true -> k = k'.
Proof.
  intros [_ N] [_ N'] H H'. apply within_split in H. apply within_split in H'. unfold join in *.
  destruct H as [-> |[n ->]], H' as [E|[n' E]].
  - apply app_inv_head in E. congruence.
  - exfalso. rewrite <- app_assoc in E. apply app_inv_head in E. injection E as E. apply N. rewrite E. apply in_or_app. right. now left.
  - exfalso. rewrite <- app_assoc in E. apply app_inv_head in E. injection E as E. apply N'. rewrite <- E. apply in_or_app. right. now left.
  - rewrite <- !app_assoc in E. apply app_inv_head in E. cbn in E. injection E as E. now apply slash_split in E.
Qed.

Lemma root_not_within root k : within (join root k) root = false.
Proof.
  destruct (within (join root k) root) eqn:E; [|reflexivity]. apply within_split in E. unfold join in E.
  destruct E as [E|[n E]]; apply (f_equal (@length ascii)) in E; rewrite ?app_length in E; cbn in E; rewrite ?app_length in E; cbn in E; lia.
Qed.

Lemma below_root root k n : below root (join (join root k) n) = true.
Proof.
  unfold join. rewrite <- app_assoc. cbn. change (root ++ SLASH :: k ++ SLASH :: n) with (join root (k ++ SLASH :: n)). apply below_join.
Qed.

Lemma basename_from_plain t : forall acc, ~ In SLASH t -> basename_from acc t = rev acc ++ t.
Proof.
  induction t as [|c t IH]; intros acc H; cbn [basename_from]; [now rewrite app_nil_r|].
  destruct (Ascii.eqb c SLASH) eqn:E; [apply Ascii.eqb_eq in E; subst; exfalso; apply H; now left|].
  rewrite IH by (intros X; apply H; now right). cbn. now rewrite <- app_assoc.
Qed.
Lemma basename_from_app a t : forall acc, basename_from acc (a ++ SLASH :: t) = basename_from [] t.
Proof.
  induction a as [|c a IH]; intros acc; cbn [app basename_from].
  - reflexivity.
  - destruct (Ascii.eqb c SLASH); apply IH.
Qed.
Lemma basename_join root k : no_slash k -> basename (join root k) = k.
Proof. intros [_ N]. unfold basename, join. rewrite basename_from_app, basename_from_plain by exact N. reflexivity. Qed.
Lemma basename_from_no_slash t : forall acc, ~ In SLASH acc -> ~ In SLASH (basename_from acc t).
Proof.
  induction t as [|c t IH]; intros acc H; cbn [basename_from].
  - intros X. apply in_rev in X. contradiction.
  - destruct (Ascii.eqb c SLASH) eqn:E; apply IH; [intros []|].
    intros [->|X]; [now rewrite Ascii.eqb_refl in E|contradiction].
Qed.
Lemma basename_no_slash p : ~ In SLASH (basename p).
Proof. apply basename_from_no_slash. intros []. Qed.

(** ** Invariant *)

(** What was computed for a job whose entry says [v]. *)
Definition matches (root : path) (f : fs) (l : list (text * result * text)) (k : text) (v : result) : Prop :=
  exists r content src, In (k, r, content) l /\ log_of r = Some src /\ basename src <> RESULT /\
    (forall key, tget key v = tget key (tset LOG (JStr (join (join root k) (basename src))) r)) /\
    let copy := join (join root k) (basename src) in
    f copy = None \/ f copy = Some (NFile content).

Record inv (root : path) (f : fs) (l : list (text * result * text)) : Prop := mk_inv {
  iv_entry : forall k data v, no_slash k -> f (join (join root k) RESULT) = Some (NFile data) ->
    loads data = Some (JObj v) -> matches root f l k v;
  iv_dirs : forall d, f d = Some NDir -> below root d = true -> exists k, no_slash k /\ d = join root k;
  iv_tree : forall k, no_slash k -> f (join root k) = None -> forall p, within (join root k) p = true -> f p = None
}.

Lemma matches_more root f l l' k v : incl l l' -> matches root f l k v -> matches root f l' k v.
Proof. intros I (r & c & src & A & B & C & D & E). exists r, c, src. auto 10. Qed.

Lemma matches_change root f f' l k v : (forall p, within (join root k) p = true -> f' p = f p \/ f' p = None) ->
  matches root f l k v -> matches root f' l k v.
Proof.
  intros H (r & c & src & A & B & C & D & E). exists r, c, src. repeat (split; [assumption|]). cbn zeta in *.
  destruct (H (join (join root k) (basename src))) as [X|X].
  - apply within_split. right. eauto.
  - rewrite X. exact E.
  - now left.
Qed.

(** Removing things. *)
Lemma inv_removed root f f' l d k0 : no_slash k0 -> d = join root k0 -> inv root f l -> removed_some d f f' -> inv root f' l.
Proof.
  intros N0 -> [A B C] [R1 R2]. constructor.
  - intros k data v Nk H L. destruct (R1 (join (join root k) RESULT)) as [E|[_ E]]; [|congruence]. rewrite E in H.
    eapply matches_change; [|eapply A; eauto]. intros p Hp. destruct (R1 p) as [X|[_ X]]; auto.
  - intros p H Hb. destruct (R1 p) as [E|[_ E]]; [|congruence]. rewrite E in H. now apply B.
  - intros k Nk H p Hp. destruct (list_eq_dec ascii_dec k k0) as [->|Nq].
    + destruct R2 as [R2|R2]; [|now apply R2]. rewrite R2 in H.
      destruct (R1 p) as [E|[_ E]]; auto. rewrite E. now apply (C k0).
    + destruct (R1 (join root k)) as [E|[W E]].
      * rewrite E in H. destruct (R1 p) as [X|[_ X]]; auto. rewrite X. now apply (C k).
      * exfalso. apply Nq. eapply entries_apart; [exact Nk|exact N0|apply within_refl|exact W].
Qed.

(** The program of _store, one call at a time: in every state in which it can
    stop the invariant holds. *)
Section Store.
  Variable root : path.
  Variable k : text.
  Variable r : result.
  Hypothesis Nk : no_slash k.
  Hypothesis Sr : sane r.
  Let dir := join root k.

  Lemma sane_tidy : tidy r.
  Proof. destruct Sr as (A & B & _). split; auto. Qed.

  (** The part from makedirs on. *)
  Definition store_rest : prog stored :=
    Call (CMakedirs root dir) (fun m =>
      match m with
      | RFail => Ret Raised
      | _ =>
          match log_of r with
          | None => Ret Raised
          | Some src =>
              match basename src with
              | [] => Ret Raised
              | b =>
                  let dst := join dir b in
                  Call (CCopy src dst) (fun m =>
                    match m with
                    | RFail => Ret Raised
                    | _ =>
                        let r' := tset LOG (JStr dst) r in
                        Call (CWrite (join dir RESULT) (encode r')) (fun m =>
                          match m with
                          | RFail => Ret Raised
                          | _ => Ret (Kept r')
                          end)
                    end)
              end
          end
      end).

  (** Between makedirs and the end: the directory is there, nothing else changed,
      and inside is only the copy of the log. *)
  Lemma inv_made f f' l : inv root f l -> f dir = None ->
    (forall q, within dir q = false -> q <> root -> f' q = f q) ->
    (forall q, within dir q = true -> q <> dir -> f' q <> None -> exists c b, f' q = Some (NFile c) /\ q = join dir b /\ b <> RESULT) ->
    (f' dir = None -> forall q, within dir q = true -> f' q = None) ->
    (f' root = f root \/ f' root = Some NDir) ->
    inv root f' l.
  Proof.
    intros [A B C] Hd Ho Hi Ht Hr. constructor.
    - intros k' data v Nk' H L. destruct (list_eq_dec ascii_dec k' k) as [->|Nq].
      + exfalso. destruct (Hi (join (join root k) RESULT)) as (c & b & _ & E & Nb).
        * apply within_split. right. eauto.
        * apply join_neq.
        * unfold dir in *. congruence.
        * apply join_inj in E. congruence.
      + assert (Ap : forall p, within (join root k') p = true -> f' p = f p).
        { intros p Hp. apply Ho.
          - destruct (within dir p) eqn:W; [|reflexivity]. exfalso. apply Nq. eapply entries_apart; eauto.
          - intros ->. now rewrite root_not_within in Hp. }
        eapply matches_change; [intros p Hp; left; now apply Ap|].
        eapply A; eauto. rewrite <- Ap; [exact H|]. apply within_split. right. eauto.
    - intros d H Hb. destruct (within dir d) eqn:W.
      + destruct (list_eq_dec ascii_dec d dir) as [->|Nd]; [exists k; auto|].
        exfalso. destruct (Hi d W Nd) as (c & b & E & _); congruence.
      + assert (d <> root) by (intros ->; apply below_split in Hb; destruct Hb as [n Hn]; symmetry in Hn; now apply join_neq in Hn).
        rewrite Ho in H by auto. now apply B.
    - intros k' Nk' H p Hp. destruct (list_eq_dec ascii_dec k' k) as [->|Nq]; [now apply Ht|].
      assert (Ap : forall p, within (join root k') p = true -> f' p = f p).
      { intros q Hq. apply Ho.
        - destruct (within dir q) eqn:W; [|reflexivity]. exfalso. apply Nq. eapply entries_apart; eauto.
        - intros ->. now rewrite root_not_within in Hq. }
      rewrite Ap by exact Hp. apply (C k'); auto. rewrite <- Ap; [exact H|apply within_refl].
  Qed.

  (** [f1] is after makedirs. *)
  Record made (f f1 : fs) : Prop := mk_made {
    md_out : forall q, within dir q = false -> q <> root -> f1 q = f q;
    md_in : forall q, within dir q = true -> q <> dir -> f1 q = None;
    md_dir : f1 dir = Some NDir;
    md_root : f1 root = f root \/ f1 root = Some NDir
  }.

  Lemma store_inv f l f2 e : inv root f l -> (forall c, log_content f r = Some c -> In (k, r, c) l) ->
    exec store_rest f f2 e -> inv root f2 l /\
    forall r', e = Returned (Kept r') ->
      exists src content, log_of r = Some src /\ r' = tset LOG (JStr (join dir (basename src))) r /\
        f2 dir = Some NDir /\ f2 (join dir RESULT) = Some (NFile (encode r')) /\
        f2 (join dir (basename src)) = Some (NFile content) /\ In (k, r, content) l /\
        (forall q, within dir q = false -> q <> root -> f2 q = f q).
  Proof.
    intros IV Hl X. unfold store_rest in X.
    assert (Nothing : forall f', f dir = None -> (forall q, f' q = f q \/ (q = root \/ q = dir) /\ f q = None /\ f' q = Some NDir) -> inv root f' l).
    { intros f' Hd H. eapply inv_made; eauto.
      - intros q W Nq. destruct (H q) as [E|([-> | ->] & _)]; auto; [congruence|]. now rewrite within_refl in W.
      - intros q W Nq Hn. exfalso. destruct (H q) as [E|([-> | ->] & _)]; [|unfold dir in W; now rewrite root_not_within in W|congruence].
        rewrite E in Hn. apply Hn. now apply (iv_tree _ _ _ IV k).
      - intros Hf q W. destruct (H q) as [E|([-> | ->] & _)]; [|unfold dir in W; now rewrite root_not_within in W|exact Hf].
        rewrite E. now apply (iv_tree _ _ _ IV k).
      - destruct (H root) as [E|(_ & _ & E)]; auto. }
    assert (Same : forall f', (forall q, f' q = f q \/ (q = root \/ q = dir) /\ f q = None /\ f' q = Some NDir) -> f dir <> None -> inv root f' l).
    { intros f' H Hd. destruct IV as [A B C].
      assert (Q : forall q, q <> root -> f' q = f q).
      { intros q Nq. destruct (H q) as [E|([-> | ->] & E & _)]; congruence. }
      assert (W : forall k' p, within (join root k') p = true -> p <> root) by (intros k' p Hp ->; now rewrite root_not_within in Hp).
      constructor.
      - intros k' data v Nk' H1 L. rewrite Q in H1 by (eapply (W k'); apply within_split; right; eauto).
        eapply matches_change; [intros p Hp; left; apply Q; eapply W; eauto|]. eauto.
      - intros d H1 Hb. apply B; auto. rewrite <- Q; auto. intros ->. apply below_split in Hb. destruct Hb as [n Hn]. symmetry in Hn. now apply join_neq in Hn.
      - intros k' Nk' H1 p Hp. rewrite Q in * by (eauto using within_refl). eapply C; eauto. }
    assert (Any : forall f', (forall q, f' q = f q \/ (q = root \/ q = dir) /\ f q = None /\ f' q = Some NDir) -> inv root f' l).
    { intros f' H. destruct (f dir) eqn:E; [apply Same; auto; congruence|now apply Nothing]. }
    inversion X as [|c0 k0 f0 f0' D|c0 k0 f0 f1 r0 f0' e0 S1 X1|c0 k0 f0 f1 f0' e0 D X1]; subst; clear X.
    { split; [now apply Any|discriminate]. }
    2:{ inversion X1; subst. split; [now apply Any|discriminate]. }
    destruct S1 as (Hd & -> & S1).
    assert (M : made f f1).
    { constructor.
      - intros q W Nq. rewrite S1. assert (text_eqb q dir = false) as ->.
        { apply text_eqb_neq. intros ->. now rewrite within_refl in W. }
        apply text_eqb_neq in Nq. now rewrite Nq.
      - intros q W Nq. rewrite S1. apply text_eqb_neq in Nq as Nq'. rewrite Nq'.
        assert (text_eqb q root = false) as ->.
        { apply text_eqb_neq. intros ->. unfold dir in W. now rewrite root_not_within in W. }
        now apply (iv_tree _ _ _ IV k).
      - rewrite S1. now rewrite text_eqb_refl.
      - rewrite S1. destruct (text_eqb root dir); [now right|]. rewrite text_eqb_refl. destruct (f root); auto. }
    assert (I1 : forall f', (forall q, within dir q = false -> f' q = f1 q) -> f' dir = Some NDir ->
       (forall q, within dir q = true -> q <> dir -> f' q <> None -> exists c b, f' q = Some (NFile c) /\ q = join dir b /\ b <> RESULT) -> inv root f' l).
    { intros f' Ho Hdir Hi. eapply (inv_made f); eauto.
      - intros q W Nq. rewrite Ho by exact W. now apply (md_out _ _ M).
      - congruence.
      - rewrite Ho; [apply (md_root _ _ M)|]. apply root_not_within. }
    assert (I0 : inv root f1 l).
    { apply I1; auto.
      - apply (md_dir _ _ M).
      - intros q W Nq Hn. exfalso. apply Hn. now apply (md_in _ _ M). }
    destruct (log_of r) as [src|] eqn:EL; [|inversion X1; subst; split; [exact I0|discriminate]].
    destruct (basename src) as [|b0 b1] eqn:EB; [inversion X1; subst; split; [exact I0|discriminate]|].
    set (b := b0 :: b1) in *. cbn zeta in X1.
    assert (NR : b <> RESULT).
    { destruct Sr as (_ & _ & Q). intros E. apply (Q src EL). congruence. }
    assert (Wc : within dir (join dir b) = true) by (apply within_split; right; eauto).
    assert (Wr : within dir (join dir RESULT) = true) by (apply within_split; right; eauto).
    assert (CopyInv : forall data f', (forall q, f' q = set_node (join dir b) (Some (NFile data)) f1 q) -> inv root f' l).
    { intros data f' H. apply I1.
      - intros q W. rewrite H. unfold set_node. assert (text_eqb q (join dir b) = false) as ->; [|reflexivity].
        apply text_eqb_neq. intros ->. congruence.
      - rewrite H. unfold set_node. assert (text_eqb dir (join dir b) = false) as ->; [|apply (md_dir _ _ M)].
        apply text_eqb_neq. intros E. symmetry in E. now apply join_neq in E.
      - intros q W Nq. rewrite H. unfold set_node. destruct (text_eqb q (join dir b)) eqn:E.
        + apply text_eqb_eq in E. subst. intros _. eauto.
        + intros Hn. exfalso. apply Hn. now apply (md_in _ _ M). }
    assert (During : forall f', during (CCopy src (join dir b)) f1 f' -> inv root f' l).
    { intros f' [H|(data & _ & [H|(a & a' & _ & H)])].
      - apply I1.
        + intros; apply H.
        + rewrite H. apply (md_dir _ _ M).
        + intros q W Nq Hn. exfalso. apply Hn. rewrite H. now apply (md_in _ _ M).
      - apply I1.
        + intros; apply H.
        + rewrite H. apply (md_dir _ _ M).
        + intros q W Nq Hn. exfalso. apply Hn. rewrite H. now apply (md_in _ _ M).
      - eapply CopyInv; eauto. }
    inversion X1 as [|c0 k0 f0 f0' D|c0 k0 f0 f3 r0 f0' e0 S2 X2|c0 k0 f0 f3 f0' e0 D X2]; subst; clear X1.
    { split; [now apply During|discriminate]. }
    2:{ inversion X2; subst. split; [now apply During|discriminate]. }
    destruct S2 as (-> & content & Hsrc & S2). cbn iota in X2. cbn zeta in X2.
    set (r' := tset LOG (JStr (join dir b)) r) in *.
    assert (I3 : inv root f3 l) by (eapply CopyInv; eauto).
    assert (Hin : In (k, r, content) l).
    { apply Hl. unfold log_content. rewrite EL.
      assert (W : within dir src = false).
      { destruct (within dir src) eqn:W; [|reflexivity]. exfalso.
        destruct (list_eq_dec ascii_dec src dir) as [->|Ns].
        - rewrite (md_dir _ _ M) in Hsrc. discriminate.
        - rewrite (md_in _ _ M src W Ns) in Hsrc. discriminate. }
      destruct (list_eq_dec ascii_dec src root) as [->|Ns].
      - destruct (md_root _ _ M) as [E|E]; rewrite E in Hsrc; [now rewrite Hsrc|discriminate].
      - rewrite (md_out _ _ M src W Ns) in Hsrc. now rewrite Hsrc. }
    assert (Tr : tidy r') by (apply tidy_tset, sane_tidy).
    assert (Full : forall f', (forall q, f' q = set_node (join dir RESULT) (Some (NFile (encode r'))) f3 q) -> inv root f' l).
    { intros f' H.
      assert (Hq : forall q, q <> join dir RESULT -> f' q = f3 q).
      { intros q Nq. rewrite H. unfold set_node. apply text_eqb_neq in Nq. now rewrite Nq. }
      destruct I3 as [A B C]. constructor.
      - intros k' data v Nk' H1 L. destruct (list_eq_dec ascii_dec k' k) as [->|Nq].
        + change (join (join root k) RESULT) with (join dir RESULT) in H1. rewrite H in H1. unfold set_node in H1.
          rewrite text_eqb_refl in H1. injection H1 as <-. rewrite decode_encode in L by exact Tr. injection L as <-.
          exists r, content, src. split; [exact Hin|]. split; [exact EL|]. rewrite EB. split; [exact NR|]. split.
          * intros key. rewrite sort_fields_tget by (apply Tr). reflexivity.
          * cbn zeta. right. change (join (join root k) b) with (join dir b). rewrite Hq.
            -- rewrite S2. unfold set_node. now rewrite text_eqb_refl.
            -- intros E. apply join_inj in E. congruence.
        + assert (Ap : forall p, within (join root k') p = true -> f' p = f3 p).
          { intros p Hp. apply Hq. intros ->. apply Nq. eapply entries_apart; eauto. }
          eapply matches_change; [intros p Hp; left; now apply Ap|].
          eapply A; eauto. rewrite <- Ap; [exact H1|]. apply within_split. right. eauto.
      - intros d H1 Hb. apply B; auto. rewrite <- Hq; auto. intros ->. rewrite H in H1. unfold set_node in H1. rewrite text_eqb_refl in H1. discriminate.
      - intros k' Nk' H1 p Hp. destruct (list_eq_dec ascii_dec k' k) as [->|Nq].
        + exfalso. rewrite Hq in H1 by (intros E; symmetry in E; now apply join_neq in E).
          rewrite S2 in H1. unfold set_node in H1.
          assert (text_eqb (join root k) (join dir b) = false) as E by (apply text_eqb_neq; intros E; symmetry in E; now apply join_neq in E).
          rewrite E in H1. change (join root k) with dir in H1. rewrite (md_dir _ _ M) in H1. discriminate.
        + assert (Ap : forall p, within (join root k') p = true -> f' p = f3 p).
          { intros q Hq'. apply Hq. intros ->. apply Nq. eapply entries_apart; eauto. }
          rewrite Ap in * by (auto using within_refl). eapply C; eauto. }
    assert (Part : forall f', written_some (join dir RESULT) (encode r') f3 f' -> inv root f' l).
    { intros f' [H|(a & a' & E & H)].
      - destruct I3 as [A B C]. constructor.
        + intros k' data v Nk' H1 L. rewrite H in H1. eapply matches_change; [intros p Hp; left; apply H|]. eauto.
        + intros d H1. rewrite H in H1. auto.
        + intros k' Nk' H1 p Hp. rewrite H in *. eauto.
      - destruct a' as [|x a'].
        { rewrite app_nil_r in E. subst a. now apply Full. }
        assert (Bad : loads a = None) by (eapply decode_cut; eauto; discriminate).
        assert (Hq : forall q, q <> join dir RESULT -> f' q = f3 q).
        { intros q Nq. rewrite H. unfold set_node. apply text_eqb_neq in Nq. now rewrite Nq. }
        assert (Hr : f' (join dir RESULT) = Some (NFile a)) by (rewrite H; unfold set_node; now rewrite text_eqb_refl).
        pose proof (Full (set_node (join dir RESULT) (Some (NFile (encode r'))) f3) (fun q => eq_refl)) as IF.
        assert (Hq2 : forall q, q <> join dir RESULT -> set_node (join dir RESULT) (Some (NFile (encode r'))) f3 q = f3 q).
        { intros q Nq. unfold set_node. apply text_eqb_neq in Nq. now rewrite Nq. }
        destruct IF as [A B C]. constructor.
        + intros k' data v Nk' H1 L. destruct (list_eq_dec ascii_dec k' k) as [->|Nq].
          * change (join (join root k) RESULT) with (join dir RESULT) in H1. rewrite Hr in H1. injection H1 as <-. congruence.
          * assert (Ap : forall p, within (join root k') p = true -> f' p = set_node (join dir RESULT) (Some (NFile (encode r'))) f3 p).
            { intros p Hp. assert (p <> join dir RESULT) by (intros ->; apply Nq; eapply entries_apart; eauto). rewrite Hq, Hq2; auto. }
            eapply matches_change; [intros p Hp; left; now apply Ap|].
            eapply A; eauto. rewrite <- Ap; [exact H1|]. apply within_split. right. eauto.
        + intros d H1 Hb. assert (d <> join dir RESULT) by congruence. apply B; auto. rewrite Hq2, <- Hq; auto.
        + intros k' Nk' H1 p Hp. assert (E1 : join root k' <> join dir RESULT) by congruence.
          assert (Z : set_node (join dir RESULT) (Some (NFile (encode r'))) f3 p = None).
          { apply (C k'); auto. rewrite Hq2, <- Hq; auto. }
          destruct (list_eq_dec ascii_dec p (join dir RESULT)) as [->|Np].
          * unfold set_node in Z. rewrite text_eqb_refl in Z. discriminate.
          * rewrite Hq by auto. rewrite <- Hq2; auto. }
    inversion X2 as [|c0 k0 f0 f0' D|c0 k0 f0 f4 r0 f0' e0 S3 X3|c0 k0 f0 f4 f0' e0 D X3]; subst; clear X2.
    { split; [now apply Part|discriminate]. }
    2:{ inversion X3; subst. split; [now apply Part|discriminate]. }
    destruct S3 as [-> S3]. cbn iota in X3. inversion X3; subst. split; [now apply Full|].
    intros r0 [= <-]. exists src, content. rewrite EB. fold b. split; [reflexivity|]. split; [reflexivity|].
    assert (Hq : forall q, q <> join dir RESULT -> f2 q = f3 q).
    { intros q Nq. rewrite S3. unfold set_node. apply text_eqb_neq in Nq. now rewrite Nq. }
    assert (Hq3 : forall q, q <> join dir b -> f3 q = f1 q).
    { intros q Nq. rewrite S2. unfold set_node. apply text_eqb_neq in Nq. now rewrite Nq. }
    assert (NB : join dir b <> join dir RESULT) by (intros E; apply join_inj in E; congruence).
    split.
    { rewrite Hq, Hq3 by (intros E; symmetry in E; now apply join_neq in E). apply (md_dir _ _ M). }
    split.
    { rewrite S3. unfold set_node. now rewrite text_eqb_refl. }
    split.
    { rewrite Hq by exact NB. rewrite S2. unfold set_node. now rewrite text_eqb_refl. }
    split; [exact Hin|].
    intros q W Nq. rewrite Hq, Hq3 by (intros ->; congruence). now apply (md_out _ _ M).
  Qed.
End Store.

Lemma inv_same root f f' l : (forall p, p = root \/ below root p = true -> f' p = f p) -> inv root f l -> inv root f' l.
Proof.
  intros H [A B C].
  assert (Q : forall k p, within (join root k) p = true -> f' p = f p).
  { intros k p Hp. apply H. right. apply within_split in Hp. destruct Hp as [-> |[n ->]]; [apply below_join|apply below_root]. }
  constructor.
  - intros k data v Nk H1 L. rewrite (Q k) in H1 by (apply within_split; right; eauto).
    eapply matches_change; [intros p Hp; left; eapply Q; eauto|]. eauto.
  - intros d H1 Hb. rewrite H in H1 by auto. auto.
  - intros k Nk H1 p Hp. rewrite (Q k) in * by (auto using within_refl). eauto.
Qed.
Lemma inv_more root f l l' : incl l l' -> inv root f l -> inv root f l'.
Proof.
  intros I [A B C]. constructor; auto. intros. eapply matches_more; eauto.
Qed.

Lemma removed_all d f f' : (forall q, f' q = if within d q then None else f q) -> removed_some d f f'.
Proof.
  intros H. split.
  - intros p. rewrite H. destruct (within d p) eqn:E; auto.
  - right. intros p W. now rewrite H, W.
Qed.

Lemma exec_store root k r f f' e : exec (store root k r) f f' e ->
  (forall q, f' q = f q) /\ e = Killed \/
  removed_some (join root k) f f' /\ (e = Killed \/ e = Returned NotKept) \/
  exists f1, ((forall q, f1 q = f q) \/ removed_some (join root k) f f1) /\ exec (store_rest root k r) f1 f' e.
Proof.
  intros X. unfold store in X. cbn zeta in X.
  inversion X as [|c0 k0 f0 f0' D|c0 k0 f0 f1 r0 f0' e0 S1 X1|c0 k0 f0 f1 f0' e0 D X1]; subst; clear X.
  - left. split; auto.
  - destruct S1 as [E ->]. destruct (f (join root k)); [|right; right; exists f1; split; [left; exact E|exact X1]].
    inversion X1 as [|c0 k0 f0 f0' D|c0 k0 f0 f2 r0 f0' e0 S2 X2|c0 k0 f0 f2 f0' e0 D X2]; subst; clear X1.
    + right; left. split; [|auto]. destruct D as [D1 D2]. split.
      * intros p. destruct (D1 p) as [H|H]; [left; now rewrite H|now right].
      * destruct D2 as [H|H]; [left; now rewrite H|now right].
    + destruct S2 as [S2 ->]. right; right. exists f2. split; [|exact X2]. right. apply removed_all. intros q. rewrite S2, E. reflexivity.
    + inversion X2; subst. right; left. split; [|auto]. destruct D as [D1 D2]. split.
      * intros p. destruct (D1 p) as [H|H]; [left; now rewrite H|now right].
      * destruct D2 as [H|H]; [left; now rewrite H|now right].
  - right; right. exists f1. split; [left; exact D|exact X1].
Qed.

Lemma removed_content root k r f f1 c : removed_some (join root k) f f1 ->
  log_content f1 r = Some c -> log_content f r = Some c.
Proof.
  intros [R _]. unfold log_content. destruct (log_of r) as [p|]; [|auto].
  destruct (R p) as [-> | [_ ->]]; [auto|discriminate].
Qed.

(** Everything a store can leave behind. *)
Lemma store_all root k r f f' e l : no_slash k -> sane r -> inv root f l ->
  (forall c, log_content f r = Some c -> In (k, r, c) l) -> exec (store root k r) f f' e ->
  inv root f' l /\
  (forall q, within (join root k) q = false -> q <> root -> f' q = f q) /\
  forall r', e = Returned (Kept r') ->
      exists src content, log_of r = Some src /\ r' = tset LOG (JStr (join (join root k) (basename src))) r /\
        f' (join root k) = Some NDir /\ f' (join (join root k) RESULT) = Some (NFile (encode r')) /\
        f' (join (join root k) (basename src)) = Some (NFile content) /\ In (k, r, content) l.
Proof.
  intros Nk Sr IV Hl X. apply exec_store in X.
  destruct X as [[E ->]|[[R He]|(f1 & Hf & X)]].
  - split; [eapply inv_same; eauto|]. split; [auto|discriminate].
  - split; [eapply inv_removed; eauto|]. split.
    + intros q W _. destruct R as [R _]. destruct (R q) as [H|[H _]]; [exact H|congruence].
    + intros r' ->. destruct He; discriminate.
  - assert (I1 : inv root f1 l /\ (forall c, log_content f1 r = Some c -> In (k, r, c) l) /\
      (forall q, within (join root k) q = false -> f1 q = f q)).
    { destruct Hf as [E|R].
      - split; [eapply inv_same; eauto|]. split; [|auto]. intros c H. apply Hl. unfold log_content in *. destruct (log_of r); [|exact H]. now rewrite <- E.
      - split; [eapply inv_removed; eauto|]. split.
        + intros c H. apply Hl. eapply removed_content; eauto.
        + intros q W. destruct R as [R _]. destruct (R q) as [H|[H _]]; [exact H|congruence]. }
    destruct I1 as (I1 & Hl1 & Ho).
    pose proof (store_inv root k r Nk Sr f1 l f' e I1 Hl1 X) as [I2 K]. split; [exact I2|]. split.
    + (* nothing else is touched *)
      assert (Out : forall q, within (join root k) q = false -> q <> root -> f' q = f1 q); [|intros q W Nq; rewrite Out, Ho; auto].
      clear - X. intros q W Nq. unfold store_rest in X. cbn zeta in X.
      assert (Nd : q <> join root k) by (intros ->; now rewrite within_refl in W).
      assert (Nj : forall n, q <> join (join root k) n).
      { intros n ->. assert (within (join root k) (join (join root k) n) = true) by (apply within_split; right; eauto). congruence. }
      assert (D1 : forall f f', during (CMakedirs root (join root k)) f f' -> f' q = f q).
      { intros f f2 D. destruct (D q) as [H|([-> | ->] & _)]; auto; congruence. }
      assert (DW : forall n data f f', written_some (join (join root k) n) data f f' -> f' q = f q).
      { intros n data f f2 [H|(a & b & _ & H)]; rewrite H; [reflexivity|]. unfold set_node. specialize (Nj n). apply text_eqb_neq in Nj. now rewrite Nj. }
      assert (D2 : forall src n f f', during (CCopy src (join (join root k) n)) f f' -> f' q = f q).
      { intros src n f f2 [H|(data & _ & H)]; [apply H|eapply DW; eauto]. }
      inversion X as [|c0 k0 f0 f0' D|c0 k0 f0 f3 r0 f0' e0 S1 X1|c0 k0 f0 f3 f0' e0 D X1]; subst; clear X.
      { eauto. }
      2:{ inversion X1; subst. eauto. }
      destruct S1 as (_ & -> & S1).
      assert (E3 : f3 q = f1 q).
      { rewrite S1. apply text_eqb_neq in Nd. apply text_eqb_neq in Nq. now rewrite Nd, Nq. }
      rewrite <- E3. clear S1 E3.
      destruct (log_of r) as [src|]; [|inversion X1; subst; auto].
      destruct (basename src) as [|b0 b1]; [inversion X1; subst; auto|].
      inversion X1 as [|c0 k0 f0 f0' D|c0 k0 f0 f4 r0 f0' e0 S1 X2|c0 k0 f0 f4 f0' e0 D X2]; subst; clear X1.
      { eauto. }
      2:{ inversion X2; subst. eauto. }
      destruct S1 as (-> & data & _ & S1).
      assert (E4 : f4 q = f3 q).
      { rewrite S1. unfold set_node. specialize (Nj (b0 :: b1)). apply text_eqb_neq in Nj. now rewrite Nj. }
      rewrite <- E4. clear S1 E4.
      inversion X2 as [|c0 k0 f0 f0' D|c0 k0 f0 f5 r0 f0' e0 S1 X3|c0 k0 f0 f5 f0' e0 D X3]; subst; clear X2.
      { eapply DW; eauto. }
      2:{ inversion X3; subst. eapply DW; eauto. }
      destruct S1 as (-> & S1). inversion X3; subst. rewrite S1. unfold set_node. specialize (Nj RESULT). apply text_eqb_neq in Nj. now rewrite Nj.
    + intros r' Hr. destruct (K r' Hr) as (src & content & A & B & C & D & E & F & _). exists src, content. auto 10.
Qed.

(** Clearing. *)
Lemma clear_all root dirs : forall f f' e l, (forall d, In d dirs -> exists k, no_slash k /\ d = join root k) ->
  inv root f l -> exec (clear dirs) f f' e -> inv root f' l /\ forall p, f' p = f p \/ f' p = None.
Proof.
  induction dirs as [|d dirs IH]; intros f f' e l Hd IV X; cbn [clear] in X.
  - inversion X; subst. auto.
  - destruct (Hd d (or_introl eq_refl)) as (k & Nk & ->).
    assert (Hd' : forall d, In d dirs -> exists k, no_slash k /\ d = join root k) by (intros d H; apply Hd; now right).
    assert (One : forall f1, removed_some (join root k) f f1 -> exec (clear dirs) f1 f' e -> inv root f' l /\ forall p, f' p = f p \/ f' p = None).
    { intros f1 R X1. destruct (IH f1 f' e l Hd') as [I1 P1]; auto; [eapply inv_removed; eauto|]. split; [exact I1|].
      intros p. destruct (P1 p) as [H|H]; [|auto]. destruct R as [R _]. destruct (R p) as [H1|[_ H1]]; rewrite H, H1; auto. }
    inversion X as [|c0 k0 f0 f0' D|c0 k0 f0 f3 r0 f0' e0 S1 X1|c0 k0 f0 f3 f0' e0 D X1]; subst; clear X.
    + split; [eapply inv_removed; eauto|]. intros p. destruct D as [D _]. destruct (D p) as [H|[_ H]]; auto.
    + destruct S1 as [S1 ->]. eapply One; eauto. now apply removed_all.
    + eapply One; eauto.
Qed.

(** Loading. *)
Lemma try_load_some f d c c' : try_load f d c = Some c' ->
  exists data entry p, f (join d RESULT) = Some (NFile data) /\ loads data = Some (JObj entry) /\ log_of entry = Some p /\
    (f p = None /\ c' = c \/ f p <> None /\ c' = tset (basename d) entry c).
Proof.
  unfold try_load. destruct (f (join d RESULT)) as [[data|]|] eqn:E1; try discriminate.
  destruct (loads data) as [[ | | | | |fields]|] eqn:E2; try discriminate.
  destruct (log_of fields) as [p|] eqn:E3; [|discriminate].
  intros H. exists data, fields, p. repeat (split; [assumption||reflexivity|]).
  destruct (f p); injection H as <-; [right|left]; split; congruence.
Qed.

Lemma load_mem f dirs : forall c c' ok k v, load f dirs c = (c', ok) -> tget k c' = Some v ->
  tget k c = Some v \/ exists d data p, In d dirs /\ basename d = k /\ f (join d RESULT) = Some (NFile data) /\
    loads data = Some (JObj v) /\ log_of v = Some p /\ f p <> None.
Proof.
  induction dirs as [|d dirs IH]; intros c c' ok k v H G; cbn [load] in H.
  - injection H as <- _. auto.
  - destruct (try_load f d c) as [c1|] eqn:E; [|injection H as <- _; auto].
    destruct (IH _ _ _ _ _ H G) as [G1|(d' & data & p & I & Rest)].
    + apply try_load_some in E. destruct E as (data & entry & p & E1 & E2 & E3 & [[E4 ->]|[E4 ->]]); [auto|].
      rewrite tget_tset in G1. destruct (text_eqb k (basename d)) eqn:Q; [|auto].
      apply text_eqb_eq in Q. injection G1 as ->. right. exists d, data, p. split; [now left|]. auto 10.
    + right. exists d', data, p. split; [now right|exact Rest].
Qed.

Lemma load_returns f dirs : forall c, snd (load f dirs c) = true <-> forall d, In d dirs -> understood f d.
Proof.
  induction dirs as [|d dirs IH]; intros c; cbn [load].
  - split; [intros _ d []|reflexivity].
  - destruct (try_load f d c) as [c1|] eqn:E.
    + rewrite IH. apply try_load_some in E. destruct E as (data & entry & p & E1 & E2 & E3 & _). split.
      * intros H d' [<-|I]; [exists data, entry, p; auto|auto].
      * intros H d' I. apply H. now right.
    + cbn [snd]. split; [discriminate|]. intros H. exfalso. destruct (H d (or_introl eq_refl)) as (data & entry & p & E1 & E2 & E3).
      unfold try_load in E. rewrite E1, E2, E3 in E. destruct (f p); discriminate.
Qed.

(** Nothing else has this name. *)
Lemma load_keeps f dirs : forall c k v, tget k c = Some v ->
  (forall d data v', In d dirs -> basename d = k -> f (join d RESULT) = Some (NFile data) -> loads data = Some (JObj v') -> v' = v) ->
  tget k (fst (load f dirs c)) = Some v.
Proof.
  induction dirs as [|d dirs IH]; intros c k v G H; cbn [load]; [exact G|].
  destruct (try_load f d c) as [c1|] eqn:E; [|exact G].
  apply IH; [|intros; eapply H; eauto; now right].
  apply try_load_some in E. destruct E as (data & entry & p & E1 & E2 & E3 & [[E4 ->]|[E4 ->]]); [exact G|].
  rewrite tget_tset. destruct (text_eqb k (basename d)) eqn:Q; [|exact G].
  apply text_eqb_eq in Q. rewrite (H d data entry); auto. now left.
Qed.
Lemma load_finds f dirs : forall c c' d data v p, load f dirs c = (c', true) -> In d dirs ->
  f (join d RESULT) = Some (NFile data) -> loads data = Some (JObj v) -> log_of v = Some p -> f p <> None ->
  (forall d', In d' dirs -> basename d' = basename d -> d' = d) ->
  tget (basename d) c' = Some v.
Proof.
  induction dirs as [|d0 dirs IH]; intros c c' d data v p L I E1 E2 E3 E4 U; [destruct I|].
  cbn [load] in L. destruct (try_load f d0 c) as [c1|] eqn:E; [|discriminate].
  destruct (list_eq_dec ascii_dec d0 d) as [->|Nd].
  - assert (G : tget (basename d) c1 = Some v).
    { unfold try_load in E. rewrite E1, E2, E3 in E. destruct (f p); [|congruence]. injection E as <-. now rewrite tget_tset, text_eqb_refl. }
    assert (Z : tget (basename d) (fst (load f dirs c1)) = Some v).
    { apply load_keeps; auto. intros d' data' v' I' B' F' L'.
      rewrite (U d' (or_intror I') B') in F'. rewrite E1 in F'. injection F' as <-. congruence. }
    now rewrite L in Z.
  - destruct I as [->|I]; [congruence|]. eapply IH; eauto. intros d' I' B'. apply U; auto. now right.
Qed.

(** ** Histories *)

Definition inv_world (root : path) (w : world) : Prop :=
  inv root (w_fs w) (w_done w) /\
  forall c k v, w_mem w = Some c -> cached k c = Some v -> no_slash k /\ matches root (w_fs w) (w_done w) k v.

Lemma note_incl k r f l : incl l (note k r f l).
Proof. unfold note. intros x H. destruct (log_content f r); [now right|exact H]. Qed.
Lemma note_in k r f l c : log_content f r = Some c -> In (k, r, c) (note k r f l).
Proof. intros H. unfold note. rewrite H. now left. Qed.

Lemma walk_dir root f l dirs d : inv root f l -> walks f root dirs -> In d dirs -> exists k, no_slash k /\ d = join root k.
Proof. intros IV W I. apply W in I. destruct I. eapply iv_dirs; eauto. Qed.

Lemma step_inv root w w' : inv_world root w -> step root w w' -> inv_world root w'.
Proof.
  intros [IV IM] X. destruct X as [f f' m l O|f m l|f l dirs c ok W L|f c l k r f1 f2 e Nk Cn Sr O X|f m l dirs f' e Hd X]; cbn [w_fs w_mem w_done] in *.
  - split; [eapply inv_same; eauto|]. cbn [w_fs w_mem w_done]. intros c k v Hm Hc. destruct (IM c k v Hm Hc) as [Nk M]. split; [exact Nk|].
    eapply matches_change; [|exact M]. intros p Hp. left. apply O. right. apply within_split in Hp. destruct Hp as [-> |[n ->]]; [apply below_join|apply below_root].
  - split; [exact IV|]. cbn. discriminate.
  - split; [exact IV|]. cbn [w_fs w_mem w_done]. intros c' k v Hm Hc.
    destruct ok; [injection Hm as <-|discriminate].
    destruct (load_mem _ _ _ _ _ _ _ L Hc) as [H|(d & data & p & I & B & E1 & E2 & E3 & E4)]; [discriminate|].
    destruct (walk_dir _ _ _ _ _ IV W I) as (k' & Nk' & ->). rewrite basename_join in B by exact Nk'. subst k'.
    split; [exact Nk'|]. eapply iv_entry; eauto.
  - assert (I1 : inv root f1 (note k r f1 l)) by (eapply inv_more; [apply note_incl|]; eapply inv_same; eauto).
    destruct (store_all root k r f1 f2 e (note k r f1 l) Nk Sr I1 (note_in k r f1 l) X) as (I2 & Out & K).
    split; [exact I2|]. cbn [w_fs w_mem w_done]. intros c' k' v Hm Hc. destruct e as [s|]; [|discriminate]. injection Hm as <-.
    assert (Old : k' <> k -> cached k' c = Some v -> no_slash k' /\ matches root f2 (note k r f1 l) k' v).
    { intros Nq Hc'. destruct (IM c k' v eq_refl Hc') as [Nk' M]. split; [exact Nk'|].
      eapply matches_more; [apply note_incl|]. eapply matches_change; [|exact M].
      intros p Hp. left. rewrite Out.
      - apply O. right. apply within_split in Hp. destruct Hp as [-> |[n ->]]; [apply below_join|apply below_root].
      - destruct (within (join root k) p) eqn:E; [|reflexivity]. exfalso. apply Nq. eapply entries_apart; eauto.
      - intros ->. now rewrite root_not_within in Hp. }
    assert (Old' : cached k' c = Some v -> no_slash k' /\ matches root f2 (note k r f1 l) k' v).
    { intros Hc'. apply Old; auto. intros ->. congruence. }
    destruct s as [r'| |]; cbn [remember] in Hc; auto.
    unfold cached in Hc. rewrite tget_tset in Hc. destruct (text_eqb k' k) eqn:Q; [|auto].
    apply text_eqb_eq in Q. subst k'. injection Hc as <-. split; [exact Nk|].
    destruct (K r' eq_refl) as (src & content & A & B & C & D & E & F). exists r, content, src.
    split; [exact F|]. split; [exact A|]. split; [now apply Sr|]. split; [now rewrite B|]. now right.
  - destruct (clear_all root dirs f f' e l Hd IV X) as [I1 P]. split; [exact I1|]. cbn [w_fs w_mem w_done].
    intros c k v Hm Hc. destruct (IM c k v Hm Hc) as [Nk M]. split; [exact Nk|]. eapply matches_change; eauto.
Qed.

Lemma reachable_inv root w : reachable root w -> inv_world root w.
Proof.
  induction 1 as [f H|w w' _ IH X].
  - split; [|discriminate]. cbn. constructor.
    + intros k data v Nk E. rewrite H in E by apply below_root. discriminate.
    + intros d E Hb. rewrite H in E by exact Hb. discriminate.
    + intros k Nk E p Hp. apply H. apply within_split in Hp. destruct Hp as [-> |[n ->]]; [apply below_join|apply below_root].
  - eapply step_inv; eauto.
Qed.

Lemma matches_genuine root w k v : matches root (w_fs w) (w_done w) k v -> genuine root w k v.
Proof.
  intros (r & content & src & A & B & C & D & E). exists r, content, (join (join root k) (basename src)).
  split; [exact A|]. split.
  - intros key Nk. rewrite D, tget_tset. apply text_eqb_neq in Nk. now rewrite Nk.
  - split; [unfold log_of; now rewrite D, tget_tset, text_eqb_refl|]. split; [apply below_root|exact E].
Qed.

(** ** Histories without errors *)

Lemma smooth_reachable root w : smooth root w -> reachable root w.
Proof.
  induction 1 as [f H|f f' m l _ IH O|f m l _ IH|f l dirs c ok _ IH W L|f c l k r f1 f2 r' _ IH Nk Cn Sr O X|f m l dirs f' _ IH Hd X G].
  - now constructor.
  - eapply r_step; [exact IH|]. now constructor.
  - eapply r_step; [exact IH|]. constructor.
  - eapply r_step; [exact IH|]. now apply (s_load root f l dirs).
  - eapply r_step; [exact IH|]. apply (s_get root f c l k r f1 f2 (Returned (Kept r'))); auto.
  - eapply r_step; [exact IH|]. now apply (s_clear root f m l dirs f' (Returned tt)).
Qed.

Lemma clear_out dirs p : forall f f' e, (forall d, In d dirs -> within d p = false) -> exec (clear dirs) f f' e -> f' p = f p.
Proof.
  induction dirs as [|d dirs IH]; intros f f' e H X; cbn [clear] in X.
  - now inversion X; subst.
  - assert (R : forall f1, removed_some d f f1 -> f1 p = f p).
    { intros f1 [R _]. destruct (R p) as [E|[E _]]; [exact E|]. rewrite H in E by now left. discriminate. }
    assert (H' : forall d, In d dirs -> within d p = false) by (intros d' I; apply H; now right).
    inversion X as [|c0 k0 f0 f0' D|c0 k0 f0 f3 r0 f0' e0 S1 X1|c0 k0 f0 f3 f0' e0 D X1]; subst; clear X.
    + now apply R.
    + rewrite (IH _ _ _ H' X1). apply R. destruct S1 as [S1 _]. now apply removed_all.
    + rewrite (IH _ _ _ H' X1). now apply R.
Qed.

Lemma understood_same f f' d : f' (join d RESULT) = f (join d RESULT) -> understood f d -> understood f' d.
Proof. intros E (data & entry & p & A & B). exists data, entry, p. now rewrite E. Qed.

Lemma understood_kept root k r f f' l r' : no_slash k -> sane r -> inv root f l ->
  (forall c, log_content f r = Some c -> In (k, r, c) l) -> exec (store root k r) f f' (Returned (Kept r')) ->
  exists src, log_of r = Some src /\ r' = tset LOG (JStr (join (join root k) (basename src))) r /\
    f' (join root k) = Some NDir /\ f' (join (join root k) RESULT) = Some (NFile (encode r')) /\
    loads (encode r') = Some (JObj (sort_fields r')) /\
    (forall key, tget key (sort_fields r') = tget key r') /\
    log_of (sort_fields r') = Some (join (join root k) (basename src)) /\
    f' (join (join root k) (basename src)) <> None.
Proof.
  intros Nk Sr IV Hl X. destruct (store_all root k r f f' _ l Nk Sr IV Hl X) as (_ & _ & K).
  destruct (K r' eq_refl) as (src & content & A & B & C & D & E & F). exists src.
  assert (T : tidy r') by (subst r'; apply tidy_tset; destruct Sr as (? & ? & _); split; auto).
  assert (G : forall key, tget key (sort_fields r') = tget key r') by (intros; apply sort_fields_tget, T).
  repeat (split; [assumption|]). split; [now apply decode_encode|]. split; [exact G|]. split.
  - unfold log_of. rewrite G. subst r'. now rewrite tget_tset, text_eqb_refl.
  - congruence.
Qed.

Lemma smooth_understood root w : smooth root w -> forall d, w_fs w d = Some NDir -> below root d = true -> understood (w_fs w) d.
Proof.
  induction 1 as [f H|f f' m l S IH O|f m l _ IH|f l dirs c ok _ IH W L|f c l k r f1 f2 r' S IH Nk Cn Sr O X|f m l dirs f' S IH Hd X G];
    cbn [w_fs] in *; intros d E B; auto.
  - rewrite H in E by exact B. discriminate.
  - rewrite O in E by auto. eapply understood_same; [|now apply IH]. apply O. right.
    apply below_split in B. destruct B as [n ->]. apply below_root.
  - apply smooth_reachable, reachable_inv in S. destruct S as [IV _]. cbn [w_fs w_done] in IV.
    assert (I1 : inv root f1 (note k r f1 l)) by (eapply inv_more; [apply note_incl|]; eapply inv_same; eauto).
    pose proof (store_all root k r f1 f2 _ (note k r f1 l) Nk Sr I1 (note_in k r f1 l) X) as (I2 & Out & _).
    destruct (iv_dirs _ _ _ I2 d E B) as (k' & Nk' & ->).
    destruct (list_eq_dec ascii_dec k' k) as [->|Nq].
    + destruct (understood_kept root k r f1 f2 _ r' Nk Sr I1 (note_in k r f1 l) X) as (src & _ & _ & _ & K1 & K2 & _ & K3 & _).
      exists (encode r'), (sort_fields r'), (join (join root k) (basename src)). auto.
    + assert (Q : forall p, within (join root k') p = true -> f2 p = f p).
      { intros p Hp. rewrite Out.
        - apply O. right. apply within_split in Hp. destruct Hp as [-> |[n ->]]; [apply below_join|apply below_root].
        - destruct (within (join root k) p) eqn:Z; [|reflexivity]. exfalso. apply Nq. eapply entries_apart; eauto.
        - intros ->. now rewrite root_not_within in Hp. }
      eapply understood_same; [apply Q; apply within_split; right; eauto|]. apply IH; auto. rewrite <- Q; [exact E|apply within_refl].
  - apply smooth_reachable, reachable_inv in S. destruct S as [IV _]. cbn [w_fs w_done] in IV.
    destruct (clear_all root dirs f f' _ l Hd IV X) as [I2 _].
    destruct (iv_dirs _ _ _ I2 d E B) as (k' & Nk' & ->).
    assert (Q : forall p, within (join root k') p = true -> f' p = f p).
    { intros p Hp. eapply clear_out; [|exact X]. intros d Id. destruct (Hd d Id) as (k & Nk & ->).
      destruct (within (join root k) p) eqn:Z; [|reflexivity]. exfalso.
      assert (k' = k) by (eapply entries_apart; eauto). subst k. rewrite (G _ (join root k') Id) in E by apply within_refl. discriminate. }
    eapply understood_same; [apply Q; apply within_split; right; eauto|]. apply IH; auto. rewrite <- Q; [exact E|apply within_refl].
Qed.
