(** Facts about the loader of RFC822-like records. *)
From Coq Require Import Ascii List Bool Arith Lia.
From Verif Require Import ScanModel Rfc822Model Rfc822Spec.
Import ListNotations.
Open Scope list_scope.

(** ** Stripping *)

Lemma lstrip_blank t : blank t = true -> lstrip t = [].
Proof. induction t as [|c t IH]; simpl; auto. intros H. apply andb_true_iff in H as [-> H]. auto. Qed.
Lemma lstrip_split t : exists w, blank w = true /\ t = w ++ lstrip t.
Proof.
  induction t as [|c t [w [Hw E]]]; [exists []; auto|]. simpl.
  destruct (isspace c) eqn:Ec; [|exists []; auto].
  exists (c :: w). split; [simpl; rewrite Ec; auto|]. simpl. f_equal. exact E.
Qed.
Lemma lstrip_head t : match lstrip t with [] => True | c :: _ => isspace c = false end.
Proof. induction t as [|c t IH]; simpl; auto. destruct (isspace c) eqn:Ec; auto. Qed.
Lemma lstrip_id t : match t with [] => True | c :: _ => isspace c = false end -> lstrip t = t.
Proof. destruct t as [|c t]; simpl; auto. intros ->. reflexivity. Qed.
Lemma blank_app a b : blank (a ++ b) = (blank a && blank b)%bool.
Proof. apply forallb_app. Qed.
Lemma blank_rev a : blank (rev a) = blank a.
Proof.
  induction a as [|c a IH]; auto. simpl. unfold blank in *. rewrite forallb_app, IH. simpl.
  rewrite andb_true_r. apply andb_comm.
Qed.
Lemma lstrip_app_blank w t : blank w = true -> lstrip (w ++ t) = lstrip t.
Proof. induction w as [|c w IH]; simpl; auto. intros H. apply andb_true_iff in H as [-> H]. auto. Qed.
Lemma lstrip_app a b : blank a = false -> lstrip (a ++ b) = lstrip a ++ b.
Proof.
  induction a as [|c a IH]; simpl; [discriminate|]. intros H. destruct (isspace c); simpl in *; auto.
Qed.
Lemma lstrip_nil t : lstrip t = [] <-> blank t = true.
Proof.
  split; [|apply lstrip_blank]. intros H. destruct (lstrip_split t) as [w [Hw E]].
  rewrite H, app_nil_r in E. subst. exact Hw.
Qed.
Lemma blank_lstrip t : blank (lstrip t) = blank t.
Proof.
  induction t as [|c t IH]; auto. simpl. destruct (isspace c) eqn:Ec; simpl; rewrite ?Ec; auto.
Qed.
Lemma rstrip_split t : exists w, blank w = true /\ t = rstrip t ++ w.
Proof.
  destruct (lstrip_split (rev t)) as [w [Hw E]]. exists (rev w). rewrite blank_rev. split; auto.
  unfold rstrip. rewrite <- rev_app_distr, <- E, rev_involutive. reflexivity.
Qed.
Lemma rstrip_app_blank t w : blank w = true -> rstrip (t ++ w) = rstrip t.
Proof. intros H. unfold rstrip. rewrite rev_app_distr, lstrip_app_blank; auto. rewrite blank_rev. exact H. Qed.
Lemma rstrip_app a b : blank b = false -> rstrip (a ++ b) = a ++ rstrip b.
Proof.
  intros H. unfold rstrip. rewrite rev_app_distr, lstrip_app, rev_app_distr, rev_involutive; auto.
  rewrite blank_rev. exact H.
Qed.
Lemma blank_rstrip t : blank (rstrip t) = blank t.
Proof. unfold rstrip. rewrite blank_rev, blank_lstrip. apply blank_rev. Qed.
Lemma strip_nil t : strip t = [] <-> blank t = true.
Proof.
  split.
  - intros H. assert (E : blank (strip t) = blank t).
    { unfold strip. rewrite blank_rstrip. apply blank_lstrip. }
    rewrite <- E, H. reflexivity.
  - intros H. unfold strip. rewrite lstrip_blank; auto.
Qed.
Lemma strip_split t : exists a b, blank a = true /\ blank b = true /\ t = a ++ strip t ++ b.
Proof.
  destruct (lstrip_split t) as [a [Ha Ea]]. destruct (rstrip_split (lstrip t)) as [b [Hb Eb]].
  exists a, b. split; [exact Ha|]. split; [exact Hb|]. unfold strip. rewrite <- Eb. exact Ea.
Qed.
Lemma rstrip_head c t : isspace c = false -> exists r, rstrip (c :: t) = c :: r.
Proof.
  intros H. destruct (blank t) eqn:E.
  - exists []. change (c :: t) with ([c] ++ t). rewrite rstrip_app_blank; auto.
    unfold rstrip. simpl. rewrite H. reflexivity.
  - exists (rstrip t). change (c :: t) with ([c] ++ t). rewrite rstrip_app; auto.
Qed.
Lemma rstrip_idem t : rstrip (rstrip t) = rstrip t.
Proof.
  unfold rstrip. rewrite rev_involutive. f_equal. apply lstrip_id. apply lstrip_head.
Qed.
Lemma strip_idem t : strip (strip t) = strip t.
Proof.
  unfold strip. pose proof (lstrip_head t) as H. destruct (lstrip t) as [|c r] eqn:E.
  - reflexivity.
  - destruct (rstrip_head c r H) as [r' Er]. rewrite Er.
    rewrite (lstrip_id (c :: r')); auto. rewrite <- Er. apply rstrip_idem.
Qed.
Lemma strip_app_r t w : blank w = true -> strip (t ++ w) = strip t.
Proof.
  intros H. unfold strip. destruct (blank t) eqn:E.
  - rewrite (lstrip_blank (t ++ w)), (lstrip_blank t); auto. rewrite blank_app, E, H. reflexivity.
  - rewrite lstrip_app; auto. apply rstrip_app_blank, H.
Qed.
Lemma strip_app_l w t : blank w = true -> strip (w ++ t) = strip t.
Proof. intros H. unfold strip. rewrite lstrip_app_blank; auto. Qed.
Lemma strip_lstrip t : strip (lstrip t) = strip t.
Proof. unfold strip. f_equal. apply lstrip_id, lstrip_head. Qed.
(** A stripped text starts and ends with something else than white space. *)
Lemma stripped_head t : strip t = t -> match t with [] => True | c :: _ => isspace c = false end.
Proof.
  intros H. destruct t as [|c t]; auto. destruct (isspace c) eqn:E; auto. exfalso.
  assert (L : length (strip (c :: t)) <= length t).
  { unfold strip. simpl. rewrite E. destruct (rstrip_split (lstrip t)) as [w [_ Ew]].
    destruct (lstrip_split t) as [w' [_ Ew']].
    assert (length (lstrip t) = length (rstrip (lstrip t)) + length w)
      by (rewrite Ew at 1; apply app_length).
    assert (length t = length w' + length (lstrip t)) by (rewrite Ew' at 1; apply app_length). lia. }
  rewrite H in L. simpl in L. lia.
Qed.
Lemma stripped_rstrip t : strip t = t -> rstrip t = t.
Proof.
  intros H. unfold strip in H. rewrite (lstrip_id t) in H; auto. apply stripped_head, H.
Qed.
Lemma stripped_last t c : strip (t ++ [c]) = t ++ [c] -> isspace c = false.
Proof.
  intros H. apply stripped_rstrip in H. destruct (isspace c) eqn:E; auto. exfalso.
  rewrite rstrip_app_blank in H by (simpl; rewrite E; reflexivity).
  destruct (rstrip_split t) as [w [_ Ew]].
  assert (length t = length (rstrip t) + length w) by (rewrite Ew at 1; apply app_length).
  rewrite H, app_length in H0. simpl in H0. lia.
Qed.
Lemma stripped_intro t :
  match t with [] => True | c :: _ => isspace c = false end ->
  match rev t with [] => True | c :: _ => isspace c = false end -> strip t = t.
Proof.
  intros H1 H2. unfold strip. rewrite lstrip_id; auto. unfold rstrip. rewrite lstrip_id; auto.
  apply rev_involutive.
Qed.

(** ** Lines *)

Lemma split_nl_ne t : split_nl t <> [].
Proof.
  induction t as [|c t IH]; simpl; [discriminate|]. destruct (Ascii.eqb c NL); [discriminate|].
  destruct (split_nl t); discriminate.
Qed.
Lemma join_split t : join_nl (split_nl t) = t.
Proof.
  induction t as [|c t IH]; auto. simpl. destruct (Ascii.eqb c NL) eqn:E.
  - apply Ascii.eqb_eq in E. subst. simpl. destruct (split_nl t) eqn:Es; [destruct (split_nl_ne _ Es)|].
    rewrite <- Es in *. rewrite IH. reflexivity.
  - destruct (split_nl t) as [|l ls] eqn:Es; [destruct (split_nl_ne _ Es)|].
    rewrite <- IH. simpl. destruct ls; reflexivity.
Qed.
Lemma split_nl_no_nl t l : In l (split_nl t) -> ~ In NL l.
Proof.
  revert l. induction t as [|c t IH]; simpl; intros l H.
  - destruct H as [<-|[]]. auto.
  - destruct (Ascii.eqb c NL) eqn:E.
    + destruct H as [<-|H]; auto.
    + destruct (split_nl t) as [|l' ls] eqn:Es; [destruct (split_nl_ne _ Es)|].
      destruct H as [<-|H].
      * intros [->|H]; [rewrite Ascii.eqb_refl in E; discriminate|]. apply (IH l'); simpl; auto.
      * apply IH; simpl; auto.
Qed.
Lemma split_nl_line l : ~ In NL l -> split_nl l = [l].
Proof.
  induction l as [|c l IH]; auto. intros H. simpl. destruct (Ascii.eqb c NL) eqn:E.
  - apply Ascii.eqb_eq in E. subst. destruct H. left; auto.
  - rewrite IH; auto. intros K. apply H. right; auto.
Qed.
Lemma split_nl_cons l t : ~ In NL l -> split_nl (l ++ NL :: t) = l :: split_nl t.
Proof.
  induction l as [|c l IH]; intros H; simpl.
  - reflexivity.
  - destruct (Ascii.eqb c NL) eqn:E.
    + apply Ascii.eqb_eq in E. subst. destruct H. left; auto.
    + rewrite IH; auto. intros K. apply H. right; auto.
Qed.
Lemma split_join ls : ls <> [] -> (forall l, In l ls -> ~ In NL l) -> split_nl (join_nl ls) = ls.
Proof.
  induction ls as [|l ls IH]; [contradiction|]. intros _ H. simpl. destruct ls as [|l' ls].
  - apply split_nl_line, H. left; auto.
  - rewrite split_nl_cons by (apply H; left; auto). f_equal. apply IH; [discriminate|].
    intros x Hx. apply H. right; auto.
Qed.
Lemma split_nl_length t : length (split_nl t) = S (count_nl t).
Proof.
  unfold count_nl. induction t as [|c t IH]; auto. simpl. destruct (Ascii.eqb_spec c NL) as [E|E].
  - destruct (ascii_dec c NL); [|contradiction]. simpl. rewrite IH. reflexivity.
  - destruct (ascii_dec c NL); [contradiction|].
    destruct (split_nl t) as [|l ls] eqn:Es; [destruct (split_nl_ne _ Es)|]. simpl in *. exact IH.
Qed.
Lemma stream_lines_aux_acc t acc :
  ~ In NL acc ->
  forall l r, ~ In NL l -> t = l ++ NL :: r ->
  stream_lines_aux acc t = (rev acc ++ l ++ [NL]) :: stream_lines r.
Proof.
  revert acc. induction t as [|c t IH]; intros acc Ha l r Hl E.
  - destruct l; discriminate E.
  - destruct l as [|d l].
    + simpl in E. injection E as -> ->. simpl. reflexivity.
    + simpl in E. injection E as -> ->. simpl.
      destruct (Ascii.eqb d NL) eqn:Ed.
      * apply Ascii.eqb_eq in Ed. subst. destruct Hl. left; auto.
      * rewrite (IH (d :: acc)) with (l := l) (r := r); auto.
        -- simpl. rewrite <- app_assoc. reflexivity.
        -- intros [->|K]; [rewrite Ascii.eqb_refl in Ed; discriminate|auto].
        -- intros K. apply Hl. right; auto.
Qed.
Lemma stream_lines_cons l t : ~ In NL l -> stream_lines (l ++ NL :: t) = (l ++ [NL]) :: stream_lines t.
Proof. intros H. unfold stream_lines at 1. rewrite stream_lines_aux_acc with (l := l) (r := t); auto. Qed.
(** Text made of whole lines. *)
Lemma stream_lines_concat ls t :
  (forall l, In l ls -> exists l0, l = l0 ++ [NL] /\ ~ In NL l0) ->
  stream_lines (concat ls ++ t) = ls ++ stream_lines t.
Proof.
  induction ls as [|l ls IH]; auto. intros H. simpl. destruct (H l) as [l0 [-> H0]]; [left; auto|].
  rewrite <- app_assoc. rewrite <- app_assoc. simpl. rewrite stream_lines_cons; auto. f_equal.
  apply IH. intros x Hx. apply H. right; auto.
Qed.
Lemma splitlines_plain_aux t acc :
  plain_breaks t -> splitlines_aux acc t = stream_lines_aux acc t.
Proof.
  revert acc. induction t as [|c t IH]; intros acc H; auto. simpl.
  destruct (is_break c) eqn:E.
  - assert (c = NL) by (apply H; simpl; auto). subst c. rewrite Ascii.eqb_refl.
    destruct t as [|d t]; [reflexivity|]. simpl andb. rewrite IH; auto.
    intros x Hx. apply H. right; auto.
  - destruct (Ascii.eqb c NL) eqn:E'.
    + apply Ascii.eqb_eq in E'. subst. discriminate E.
    + apply IH. intros x Hx. apply H. right; auto.
Qed.
Lemma splitlines_plain t : plain_breaks t -> splitlines t = stream_lines t.
Proof. apply splitlines_plain_aux. Qed.

(** ** Dictionaries *)

Lemma text_eqb_eq a b : text_eqb a b = true <-> a = b.
Proof. unfold text_eqb. destruct (list_eq_dec ascii_dec a b); split; auto; discriminate. Qed.
Lemma text_eqb_refl a : text_eqb a a = true.
Proof. apply text_eqb_eq. reflexivity. Qed.
Lemma tget_none {A} k (d : list (text * A)) : tget k d = None <-> ~ In k (map fst d).
Proof.
  induction d as [|[k' v] d IH]; simpl; [split; auto|]. destruct (text_eqb k k') eqn:E.
  - apply text_eqb_eq in E. subst. split; [discriminate|]. intros H. destruct H. auto.
  - rewrite IH. split; [|tauto]. intros H [K|K]; auto. subst. rewrite text_eqb_refl in E. discriminate.
Qed.
Lemma tset_fresh {A} k (v : A) d : ~ In k (map fst d) -> tset k v d = d ++ [(k, v)].
Proof.
  induction d as [|[k' v'] d IH]; auto. simpl. intros H. destruct (text_eqb k k') eqn:E.
  - apply text_eqb_eq in E. subst. destruct H. auto.
  - rewrite IH; auto.
Qed.
Lemma tset_keys {A B} k (v : A) (w : B) d e :
  map fst d = map fst e -> map fst (tset k v d) = map fst (tset k w e).
Proof.
  revert e. induction d as [|[k' v'] d IH]; intros [|[k2 w2] e] H; try discriminate H; auto.
  simpl in *. injection H as -> H. destruct (text_eqb k k2); simpl; f_equal; auto.
Qed.

(** ** The loader against its meaning *)

(** The invariant of the loader. *)
Record inv (n : nat) (s : state) : Prop := mk_inv {
  inv_raw : map fst (r_raw (s_rec s)) = map fst (r_data (s_rec s));
  inv_nodup : NoDup (map fst (r_data (s_rec s)));
  inv_key : forall k, s_key s = Some k -> ~ In k (map fst (r_data (s_rec s)));
  inv_start : s_key s <> None \/ r_data (s_rec s) <> [] -> r_start (s_rec s) <> None }.

(** The fields that are complete when the record ends now. *)
Definition pend (s : state) : list (text * text) := r_data (s_rec (commit s)).

Lemma inv_new n : inv n new_state.
Proof. constructor; simpl; auto; try constructor; try discriminate. intros [H|H]; contradiction. Qed.

Lemma pend_none s : s_key s = None -> pend s = r_data (s_rec s).
Proof. unfold pend, commit. intros ->. reflexivity. Qed.
Lemma pend_some n s k : inv n s -> s_key s = Some k ->
  pend s = r_data (s_rec s) ++ [(k, normalize (concat (s_values s)))].
Proof.
  intros I H. unfold pend, commit. rewrite H. simpl. apply tset_fresh. eapply inv_key; eauto.
Qed.
Lemma pend_nodup n s : inv n s -> NoDup (map fst (pend s)).
Proof.
  intros I. destruct (s_key s) as [k|] eqn:E.
  - rewrite (pend_some n s k I E), map_app. simpl.
    apply NoDup_Add with (a := k) (l := map fst (r_data (s_rec s))).
    { rewrite <- (app_nil_r (map fst (r_data (s_rec s)))) at 1. apply Add_app. }
    split; [apply (inv_nodup n), I|]. eapply inv_key; eauto.
  - rewrite pend_none; auto. apply (inv_nodup n), I.
Qed.
Lemma inv_commit n s : inv n s -> inv n (commit s) /\ s_key (commit s) = None.
Proof.
  intros I. pose proof (pend_nodup n s I) as ND. unfold pend in ND. unfold commit in *.
  destruct (s_key s) as [k|] eqn:E; [|auto]. split; [|reflexivity].
  destruct I as [I1 I2 I3 I4]. constructor; simpl in *.
  - apply tset_keys. exact I1.
  - exact ND.
  - discriminate.
  - intros _. apply I4. left. rewrite E. discriminate.
Qed.
Lemma inv_set_start n m s : inv n s -> inv n (set_start m s).
Proof.
  intros [I1 I2 I3 I4]. constructor; simpl; auto. intros H. specialize (I4 H).
  destruct (r_start (s_rec s)); auto.
Qed.
Lemma pend_set_start m s : pend (set_start m s) = pend s.
Proof. unfold pend, commit, set_start. simpl. destruct (s_key s); reflexivity. Qed.

(** The state after a [key: value] line. *)
Definition after_key (n : nat) (k v : text) (s : state) : state :=
  let s1 := commit (set_start n s) in
  let start := match r_start (s_rec s1) with Some x => x | None => 0 end in
  set_end n (match strip (lstrip v) with
             | [] => set_offset (strip k) (n - start + 1) (mk_state (s_rec s1) (Some (strip k)) [])
             | _ => set_offset (strip k) (n - start) (mk_state (s_rec s1) (Some (strip k)) [lstrip v])
             end).
Definition after_cont (n : nat) (line : text) (s : state) : state :=
  set_end n (mk_state (s_rec s) (s_key s) (s_values s ++ [tl line])).

Lemma start_after n s : r_start (s_rec (commit (set_start n s))) <> None.
Proof.
  unfold commit, set_start. simpl. destruct (s_key s); simpl; destruct (r_start (s_rec s)); discriminate.
Qed.
Lemma strip_nil_case {A} t (a b : A) :
  match strip t with [] => a | _ => b end = if blank t then a else b.
Proof.
  destruct (blank t) eqn:E.
  - apply strip_nil in E. rewrite E. reflexivity.
  - destruct (strip t) eqn:E'; auto. apply strip_nil in E'. congruence.
Qed.

(** What a line does. *)
Lemma step_cases n line s : inv n s ->
  step n line s =
  if comment line then inl (s, None)
  else if blank line then
    inl (new_state, if nonempty (pend s) then Some (s_rec (commit s)) else None)
  else if continues line then
    match s_key s with
    | None => inr (SyntaxErr n UnexpectedMultiLine)
    | Some _ => inl (after_cont n line s, None)
    end
  else match split_colon line with
    | None => inr (SyntaxErr n UnexpectedLine)
    | Some (k, v) =>
        if in_dec (list_eq_dec ascii_dec) (strip k) (map fst (pend s))
        then inr (SyntaxErr n (DuplicateKey (strip k)
               (match tget (strip k) (r_raw (s_rec (commit (set_start n s)))) with Some o => o | None => [] end) (lstrip v)))
        else inl (after_key n k v s, None)
    end.
Proof.
  intros I. unfold step, comment. destruct (starts_with HASH line); auto.
  rewrite strip_nil_case. destruct (blank line).
  { f_equal. f_equal. unfold pend, nonempty. destruct (r_data (s_rec (commit s))); reflexivity. }
  unfold continues. destruct (starts_with SP line); [reflexivity|].
  destruct (split_colon line) as [[k v]|]; [|reflexivity].
  pose proof (inv_commit n _ (inv_set_start n n s I)) as [I' _].
  pose proof (pend_set_start n s) as P. unfold pend at 1 in P.
  destruct (in_dec (list_eq_dec ascii_dec) (strip k) (map fst (pend s))) as [H|H].
  - rewrite <- P in H.
    destruct (tget (strip k) (r_data (s_rec (commit (set_start n s))))) eqn:E1;
      [|apply tget_none in E1; contradiction].
    destruct (tget (strip k) (r_raw (s_rec (commit (set_start n s))))) eqn:E2; [reflexivity|].
    apply tget_none in E2. rewrite (inv_raw n _ I') in E2. contradiction.
  - rewrite <- P in H. apply tget_none in H. rewrite H.
    pose proof (start_after n s) as St.
    unfold after_key. destruct (r_start (s_rec (commit (set_start n s)))) as [st|] eqn:E1; [|contradiction].
    destruct (strip (lstrip v)); reflexivity.
Qed.

Lemma inv_after_key n k v s : inv n s -> ~ In (strip k) (map fst (pend s)) ->
  inv (S n) (after_key n k v s) /\ s_key (after_key n k v s) = Some (strip k) /\
  s_values (after_key n k v s) = (if blank v then [] else [lstrip v]) /\
  r_data (s_rec (after_key n k v s)) = pend s.
Proof.
  intros I H. pose proof (inv_commit n _ (inv_set_start n n s I)) as [[I1 I2 I3 I4] _].
  pose proof (pend_set_start n s) as P. unfold pend at 1 in P.
  pose proof (start_after n s) as St.
  unfold after_key. rewrite strip_nil_case, blank_lstrip.
  destruct (blank v); simpl; rewrite P in *; (split; [constructor; simpl|auto]); auto;
    rewrite ?P; auto; intros k' Hk; injection Hk as <-; exact H.
Qed.
Lemma inv_after_cont n line s : inv n s -> inv (S n) (after_cont n line s).
Proof. intros [I1 I2 I3 I4]. constructor; simpl; auto. Qed.

Lemma inv_S n s : inv n s -> inv (S n) s.
Proof. intros [I1 I2 I3 I4]. constructor; auto. Qed.
Lemma step_inv n line s s' y : inv n s -> step n line s = inl (s', y) -> inv (S n) s'.
Proof.
  intros I. rewrite step_cases; auto.
  destruct (comment line); [intros [= <- <-]; apply inv_S, I|].
  destruct (blank line); [intros [= <- <-]; apply inv_new|].
  destruct (continues line).
  { destruct (s_key s); [|discriminate]. intros [= <- <-]. apply inv_after_cont, I. }
  destruct (split_colon line) as [[k v]|]; [|discriminate].
  destruct in_dec; [discriminate|]. intros [= <- <-]. apply inv_after_key; auto.
Qed.

(** What a run of non-blank lines that are not comments does to the fields. *)
Definition add_conts (s : state) (conts : list text) : list (text * text) :=
  match s_key s with
  | None => r_data (s_rec s)
  | Some k => r_data (s_rec s) ++ [(k, normalize (concat (s_values s) ++ concat conts))]
  end.
Lemma add_conts_nil n s : inv n s -> add_conts s [] = pend s.
Proof.
  intros I. unfold add_conts. destruct (s_key s) eqn:E.
  - rewrite (pend_some n s t I E). simpl. rewrite app_nil_r. reflexivity.
  - rewrite pend_none; auto.
Qed.
Lemma add_conts_keys n s conts : inv n s -> map fst (add_conts s conts) = map fst (pend s).
Proof.
  intros I. unfold add_conts. destruct (s_key s) eqn:E.
  - rewrite (pend_some n s t I E), !map_app. reflexivity.
  - rewrite pend_none; auto.
Qed.

Definition accepts (s : state) (ls : list text) : option (list (text * text)) :=
  match group ls with
  | None => None
  | Some (conts, fields) =>
      if (match s_key s, conts with None, _ :: _ => false | _, _ => true end
          && nodupb (map fst (add_conts s conts ++ fields)))%bool
      then Some (add_conts s conts ++ fields)
      else None
  end.

Lemma nodupb_true ks : nodupb ks = true <-> NoDup ks.
Proof.
  induction ks as [|k ks IH]; simpl; [split; auto; constructor|]. rewrite andb_true_iff, negb_true_iff, IH.
  assert (E : existsb (text_eqb k) ks = true <-> In k ks).
  { rewrite existsb_exists. split.
    - intros [x [H1 H2]]. apply text_eqb_eq in H2. subst. exact H1.
    - intros H. exists k. split; auto. apply text_eqb_refl. }
  split.
  - intros [H1 H2]. constructor; auto. rewrite <- E. rewrite H1. discriminate.
  - intros H. inversion_clear H as [|? ? H1 H2]. split; auto. apply not_true_iff_false. rewrite E. exact H1.
Qed.

Lemma accepts_nil n s : inv n s -> accepts s [] = Some (pend s).
Proof.
  intros I. unfold accepts. simpl. rewrite app_nil_r, (add_conts_nil n); auto.
  destruct (s_key s); simpl; rewrite (proj2 (nodupb_true _)); auto; eapply pend_nodup; eauto.
Qed.

Lemma accepts_cons n l ls s : inv n s -> comment l = false -> blank l = false ->
  accepts s (l :: ls) =
  match step n l s with
  | inr _ => None
  | inl (s', _) => accepts s' ls
  end.
Proof.
  intros I Hc Hb. rewrite step_cases, Hc, Hb; auto. unfold accepts. cbn [group].
  destruct (continues l) eqn:Ec.
  - destruct (s_key s) as [k|] eqn:Ek.
    + destruct (group ls) as [[conts fields]|]; [|reflexivity].
      change (s_key (after_cont n l s)) with (s_key s). rewrite Ek. cbn [andb].
      assert (E : add_conts (after_cont n l s) conts = add_conts s (tl l :: conts)).
      { unfold add_conts. simpl. rewrite Ek. rewrite concat_app. simpl. rewrite app_nil_r, app_assoc.
        reflexivity. }
      rewrite E. reflexivity.
    + destruct (group ls) as [[conts fields]|]; reflexivity.
  - destruct (split_colon l) as [[k v]|]; [|destruct (group ls) as [[? ?]|]; reflexivity].
    destruct (in_dec (list_eq_dec ascii_dec) (strip k) (map fst (pend s))) as [H|H].
    + destruct (group ls) as [[conts fields]|]; [|reflexivity].
      replace (nodupb _) with false; [rewrite andb_false_r; reflexivity|].
      symmetry. apply not_true_iff_false. intros K. apply nodupb_true in K.
      rewrite map_app, (add_conts_keys n) in K by exact I. simpl in K.
      apply NoDup_remove_2 in K. apply K. apply in_or_app. left. exact H.
    + destruct (inv_after_key n k v s I H) as [I' [E1 [E2 E3]]].
      destruct (group ls) as [[conts fields]|]; [|reflexivity].
      rewrite E1. cbn [andb]. rewrite (add_conts_nil n) by exact I.
      assert (E : add_conts (after_key n k v s) conts ++ fields =
                  pend s ++ (strip k, normalize (raw_value v conts)) :: fields).
      { unfold add_conts. rewrite E1, E2, E3. rewrite <- app_assoc. simpl. unfold raw_value.
        destruct (blank v); simpl; rewrite ?app_nil_r; reflexivity. }
      rewrite E. destruct (s_key s); reflexivity.
Qed.

(** The loader, from any state, on comment-free lines. *)
Definition no_comments (ls : list text) : Prop := forall l, In l ls -> comment l = false.

Definition out (d : list (text * text)) : list (list (text * text)) := if nonempty d then [d] else [].

Lemma group_nonempty l ls c f : group (l :: ls) = Some (c, f) -> nonempty (c) || nonempty f = true.
Proof.
  simpl. destruct (group ls) as [[? ?]|]; [|discriminate]. destruct (continues l).
  { intros [= <- <-]. reflexivity. }
  destruct (split_colon l) as [[? ?]|]; [|discriminate]. intros [= <- <-]. reflexivity.
Qed.
Lemma accepts_new ls : accepts new_state ls = parse_block ls.
Proof.
  unfold accepts, parse_block, add_conts. cbn [s_key new_state s_rec r_data new_record].
  destruct (group ls) as [[[|c conts] fields]|]; reflexivity.
Qed.
Lemma parse_block_out ls : ls <> [] ->
  match parse_block ls with Some d => nonempty d = true | None => True end.
Proof.
  destruct ls as [|l ls]; [contradiction|]. intros _. unfold parse_block.
  destruct (group (l :: ls)) as [[[|c conts] fields]|] eqn:E; auto.
  destruct (nodupb (map fst fields)); auto.
  apply group_nonempty in E. exact E.
Qed.

Lemma split_blank_ne ls : split_blank ls <> [].
Proof.
  destruct ls as [|l ls]; simpl; [discriminate|]. destruct (blank l); [discriminate|].
  destruct (split_blank ls); discriminate.
Qed.

Lemma gen_meaning lines : forall n s, inv n s -> no_comments lines ->
  fields_of (gen n lines s) =
  match split_blank lines with
  | [] => None
  | b :: bs =>
      match accepts s b, sequence (map parse_block (filter nonempty bs)) with
      | Some d, Some ds => Some (out d ++ ds)
      | _, _ => None
      end
  end.
Proof.
  induction lines as [|l ls IH]; intros n s I NC.
  - cbn [gen split_blank]. rewrite (accepts_nil n); auto. unfold out, pend, fields_of. simpl.
    destruct (r_data (s_rec (commit s))) eqn:E; simpl; rewrite ?E; reflexivity.
  - assert (Hc : comment l = false) by (apply NC; left; auto).
    assert (NC' : no_comments ls) by (intros x Hx; apply NC; right; auto).
    cbn [gen split_blank]. destruct (blank l) eqn:Hb.
    + rewrite step_cases, Hc, Hb by exact I.
      specialize (IH (S n) new_state (inv_new _) NC').
      assert (E : fields_of (gen (S n) ls new_state) =
                  sequence (map parse_block (filter nonempty (split_blank ls)))).
      { rewrite IH. destruct (split_blank ls) as [|b bs] eqn:Es.
        { destruct (split_blank_ne ls). exact Es. }
        rewrite accepts_new. cbn [filter]. destruct b as [|x b].
        - simpl. destruct (sequence (map parse_block (filter nonempty bs))); reflexivity.
        - cbn [nonempty map sequence]. pose proof (parse_block_out (x :: b)) as P.
          destruct (parse_block (x :: b)) as [d|]; [|reflexivity].
          unfold out. rewrite P by discriminate.
          destruct (sequence (map parse_block (filter nonempty bs))); reflexivity. }
      rewrite (accepts_nil n); auto.
      destruct (gen (S n) ls new_state) as [rs|e]; cbn [fields_of] in *.
      * rewrite <- E. unfold out. destruct (nonempty (pend s)); reflexivity.
      * rewrite <- E. reflexivity.
    + destruct (split_blank ls) as [|b bs] eqn:Es.
      { destruct (split_blank_ne ls). exact Es. }
      rewrite (accepts_cons n l b s I Hc Hb).
      destruct (step n l s) as [[s' y]|e] eqn:St; [|reflexivity].
      rewrite <- (IH (S n) s'); auto; [|eapply step_inv; eauto].
      assert (y = None).
      { rewrite step_cases, Hc, Hb in St by exact I. destruct (continues l).
        - destruct (s_key s); congruence.
        - destruct (split_colon l) as [[? ?]|]; [|discriminate]. destruct in_dec; congruence. }
      subst y. destruct (gen (S n) ls s'); reflexivity.
Qed.

(** ** Comments *)

(** States that differ only in line numbers. *)
Record sim (s t : state) : Prop := mk_sim {
  sim_data : r_data (s_rec s) = r_data (s_rec t);
  sim_raw : r_raw (s_rec s) = r_raw (s_rec t);
  sim_key : s_key s = s_key t;
  sim_values : s_values s = s_values t }.

Lemma sim_commit s t : sim s t -> sim (commit s) (commit t).
Proof.
  intros [S1 S2 S3 S4]. unfold commit. rewrite S3. destruct (s_key t) eqn:E; constructor; simpl; congruence.
Qed.
Lemma sim_pend s t : sim s t -> pend s = pend t.
Proof. intros S. unfold pend. apply sim_data, sim_commit, S. Qed.
Lemma sim_set_start n m s t : sim s t -> sim (set_start n s) (set_start m t).
Proof. intros [S1 S2 S3 S4]. constructor; simpl; auto. Qed.

Definition same_out (a b : state * option record + error) : Prop :=
  match a, b with
  | inl (s, y), inl (t, z) => sim s t /\ option_map r_data y = option_map r_data z
  | inr _, inr _ => True
  | _, _ => False
  end.
Lemma step_sim n m l s t : inv n s -> inv m t -> sim s t -> same_out (step n l s) (step m l t).
Proof.
  intros I J S. rewrite (step_cases n), (step_cases m); auto.
  rewrite (sim_pend s t S). destruct (comment l); [simpl; auto|]. destruct (blank l).
  { simpl. split; [constructor; auto|]. destruct (nonempty (pend t)); auto. simpl. f_equal.
    apply sim_data, sim_commit, S. }
  destruct (continues l).
  { rewrite (sim_key s t S). destruct (s_key t) eqn:E; simpl; auto. split; auto.
    destruct S as [S1 S2 S3 S4]. constructor; simpl; congruence. }
  destruct (split_colon l) as [[k v]|]; [|simpl; auto].
  destruct (in_dec (list_eq_dec ascii_dec) (strip k) (map fst (pend t))) as [H|H]; [simpl; auto|].
  cbn [same_out]. split; auto. generalize (sim_commit _ _ (sim_set_start n m s t S)).
  unfold after_key. generalize (commit (set_start n s)) (commit (set_start m t)).
  intros a b [S1 S2 S3 S4]. rewrite !strip_nil_case.
  destruct (blank (lstrip v)); constructor; simpl; congruence.
Qed.

Lemma gen_comments lines : forall n m s t, inv n s -> inv m t -> sim s t ->
  fields_of (gen n lines s) = fields_of (gen m (filter (fun l => negb (comment l)) lines) t).
Proof.
  induction lines as [|l ls IH]; intros n m s t I J SM.
  - simpl. pose proof (sim_data _ _ (sim_commit _ _ SM)) as E. rewrite E.
    destruct (r_data (s_rec (commit t))) eqn:E'; simpl; congruence.
  - cbn [filter]. destruct (comment l) eqn:Hc; cbn [negb].
    + cbn [gen]. rewrite step_cases, Hc by exact I.
      rewrite <- (IH (S n) m s t); auto; [|apply inv_S, I].
      destruct (gen (S n) ls s); reflexivity.
    + cbn [gen]. pose proof (step_sim n m l s t I J SM) as SO.
      destruct (step n l s) as [[s' y]|e] eqn:E1, (step m l t) as [[t' z]|e'] eqn:E2; simpl in SO; try contradiction; auto.
      destruct SO as [S' Ey].
      pose proof (IH (S n) (S m) s' t' (step_inv _ _ _ _ _ I E1) (step_inv _ _ _ _ _ J E2) S') as IHs.
      destruct (gen (S n) ls s'), (gen (S m) (filter (fun l => negb (comment l)) ls) t'); simpl in *;
        try discriminate IHs; auto.
      injection IHs as IHs. destruct y, z; simpl in *; try discriminate Ey; congruence.
Qed.

Lemma load_meaning lines : fields_of (load lines) = meaning lines.
Proof.
  unfold load. rewrite (gen_comments lines 1 1 new_state new_state); try apply inv_new; [|constructor; auto].
  rewrite gen_meaning; [|apply inv_new|].
  2:{ intros l H. apply filter_In in H as [_ H]. apply negb_true_iff in H. exact H. }
  unfold meaning, blocks.
  destruct (split_blank _) as [|b bs] eqn:Es; [destruct (split_blank_ne _ Es)|].
  rewrite accepts_new. destruct b as [|x b].
  - cbn [filter nonempty]. change (parse_block []) with (Some (@nil (text * text))). simpl.
    destruct (sequence (map parse_block (filter nonempty bs))); reflexivity.
  - cbn [filter nonempty map sequence]. pose proof (parse_block_out (x :: b)) as P.
    destruct (parse_block (x :: b)); [|reflexivity]. unfold out. rewrite P by discriminate.
    destruct (sequence (map parse_block (filter nonempty bs))); reflexivity.
Qed.

(** ** Errors *)
Lemma gen_error lines : forall n s e, inv n s -> gen n lines s = inr e ->
  exists i p, e = SyntaxErr (n + i) p /\ i < length lines /\
    (exists rs, gen n (firstn i lines) s = inl rs) /\
    comment (nth i lines []) = false /\ blank (nth i lines []) = false.
Proof.
  induction lines as [|l ls IH]; intros n s e I H; [discriminate H|].
  cbn [gen] in H. destruct (step n l s) as [[s' y]|e'] eqn:E.
  - destruct (gen (S n) ls s') as [rs|e'] eqn:E2; [discriminate H|]. injection H as ->.
    destruct (IH (S n) s' e) as [i [p [-> [Hi [[rs Hrs] HH]]]]]; auto; [eapply step_inv; eauto|].
    exists (S i), p. split; [f_equal; lia|]. split; [simpl; lia|]. split; auto.
    cbn [firstn gen]. rewrite E, Hrs. eauto.
  - injection H as ->. rewrite step_cases in E by exact I.
    assert (K : exists p, e = SyntaxErr n p /\ comment l = false /\ blank l = false).
    { destruct (comment l); [discriminate|]. destruct (blank l); [discriminate|].
      destruct (continues l).
      - destruct (s_key s); [discriminate|]. injection E as <-. eauto.
      - destruct (split_colon l) as [[k v]|]; [|injection E as <-; eauto].
        destruct in_dec; [injection E as <-; eauto|discriminate]. }
    destruct K as [p [-> [K1 K2]]]. exists 0, p. split; [f_equal; lia|]. split; [simpl; lia|].
    split; [|auto]. simpl. eauto.
Qed.

(** ** Shifting line numbers *)
Definition shift_state (k : nat) (s : state) : state := mk_state (shift k (s_rec s)) (s_key s) (s_values s).

Lemma shift_commit k s : commit (shift_state k s) = shift_state k (commit s).
Proof. unfold commit. simpl. destruct (s_key s); reflexivity. Qed.
Lemma shift_set_start k n s : set_start (k + n) (shift_state k s) = shift_state k (set_start n s).
Proof. unfold set_start, shift_state, shift. simpl. destruct (r_start (s_rec s)); reflexivity. Qed.
Definition shift_out (k : nat) (r : state * option record + error) : state * option record + error :=
  match r with
  | inl (s, y) => inl (shift_state k s, option_map (shift k) y)
  | inr e => inr (shift_error k e)
  end.
Lemma shift_step k n l s : step (k + n) l (shift_state k s) = shift_out k (step n l s).
Proof.
  unfold step. destruct (starts_with HASH l); [reflexivity|].
  destruct (strip l).
  { rewrite shift_commit. simpl. destruct (r_data (s_rec (commit s))); reflexivity. }
  destruct (starts_with SP l).
  { simpl. destruct (s_key s); reflexivity. }
  destruct (split_colon l) as [[key v]|]; [|reflexivity].
  rewrite shift_set_start, shift_commit. set (s1 := commit (set_start n s)).
  change (r_data (s_rec (shift_state k s1))) with (r_data (s_rec s1)).
  change (r_raw (s_rec (shift_state k s1))) with (r_raw (s_rec s1)).
  destruct (tget (strip key) (r_data (s_rec s1))).
  { destruct (tget (strip key) (r_raw (s_rec s1))); reflexivity. }
  change (r_start (s_rec (shift_state k s1))) with (option_map (Nat.add k) (r_start (s_rec s1))).
  destruct (r_start (s_rec s1)) as [st|]; [|reflexivity]. cbn [option_map].
  replace (k + n - (k + st)) with (n - st) by lia.
  destruct (strip (lstrip v)); reflexivity.
Qed.
Definition shift_load (k : nat) (r : list record + error) : list record + error :=
  match r with inl rs => inl (map (shift k) rs) | inr e => inr (shift_error k e) end.
Lemma shift_gen k lines : forall n s, gen (k + n) lines (shift_state k s) = shift_load k (gen n lines s).
Proof.
  induction lines as [|l ls IH]; intros n s.
  - cbn [gen]. rewrite shift_commit. simpl. destruct (r_data (s_rec (commit s))); reflexivity.
  - cbn [gen]. rewrite shift_step. destruct (step n l s) as [[s' y]|e]; [|reflexivity].
    cbn [shift_out]. replace (S (k + n)) with (k + S n) by lia. rewrite IH.
    destruct (gen (S n) ls s') as [rs|e]; [|reflexivity]. simpl. destruct y; reflexivity.
Qed.

Lemma gen_concat b l2 : blank b = true -> comment b = false ->
  forall l1 n s, inv n s ->
  gen n (l1 ++ b :: l2) s =
  match gen n l1 s with
  | inr e => inr e
  | inl r1 =>
      match gen (n + length l1 + 1) l2 new_state with
      | inr e => inr e
      | inl r2 => inl (r1 ++ r2)
      end
  end.
Proof.
  intros Hb Hc. induction l1 as [|l ls IH]; intros n s I.
  - cbn [app gen]. rewrite step_cases, Hb, Hc by exact I. simpl length.
    replace (n + 0 + 1) with (S n) by lia. destruct (gen (S n) l2 new_state) as [rs|]; [|reflexivity].
    unfold pend. destruct (r_data (s_rec (commit s))) eqn:E; reflexivity.
  - cbn [app gen]. destruct (step n l s) as [[s' y]|e] eqn:E; [|reflexivity].
    rewrite IH by (eapply step_inv; eauto). simpl length.
    replace (n + S (length ls) + 1) with (S n + length ls + 1) by lia.
    destruct (gen (S n) ls s'); [|reflexivity].
    destruct (gen (S n + length ls + 1) l2 new_state); [|reflexivity].
    destruct y; reflexivity.
Qed.
Lemma blank_not_comment b : blank b = true -> comment b = false.
Proof.
  destruct b as [|c b]; auto. simpl. intros H. apply andb_true_iff in H as [H _].
  unfold comment. simpl. destruct (Ascii.eqb HASH c) eqn:E; auto.
  apply Ascii.eqb_eq in E. subst. discriminate H.
Qed.
Lemma load_concat l1 b l2 : blank b = true ->
  load (l1 ++ b :: l2) =
  match load l1 with
  | inr e => inr e
  | inl r1 =>
      match load l2 with
      | inr e => inr (shift_error (length l1 + 1) e)
      | inl r2 => inl (r1 ++ map (shift (length l1 + 1)) r2)
      end
  end.
Proof.
  intros H. unfold load. rewrite gen_concat; auto using blank_not_comment, inv_new.
  replace (1 + length l1 + 1) with ((length l1 + 1) + 1) by lia.
  change new_state with (shift_state (length l1 + 1) new_state) at 2.
  rewrite shift_gen. destruct (gen 1 l1 new_state); auto.
  destruct (gen 1 l2 new_state); reflexivity.
Qed.

(** ** Loaded values are normalised *)
Lemma normalize_stripped v : strip (normalize v) = normalize v.
Proof. unfold normalize. destruct (Nat.ltb 1 (count_nl v)); apply strip_idem. Qed.

Lemma group_stripped ls c f : group ls = Some (c, f) ->
  forall k v, In (k, v) f -> strip k = k /\ strip v = v.
Proof.
  revert c f. induction ls as [|l ls IH]; simpl; intros c f H k v Hin.
  - injection H as <- <-. destruct Hin.
  - destruct (group ls) as [[c' f']|] eqn:E; [|discriminate]. destruct (continues l).
    + injection H as <- <-. eapply IH; eauto.
    + destruct (split_colon l) as [[k0 v0]|]; [|discriminate]. injection H as <- <-.
      destruct Hin as [Hin|Hin]; [|eapply IH; eauto].
      injection Hin as <- <-. split; [apply strip_idem|apply normalize_stripped].
Qed.
Lemma sequence_in {A} (l : list (option A)) xs : sequence l = Some xs -> forall x, In x xs -> In (Some x) l.
Proof.
  revert xs. induction l as [|[a|] l IH]; simpl; intros xs H x Hx; try discriminate.
  - injection H as <-. destruct Hx.
  - destruct (sequence l) as [ys|]; [|discriminate]. injection H as <-.
    destruct Hx as [->|Hx]; auto. right. eapply IH; eauto.
Qed.
Lemma load_stripped lines rs r k v : load lines = inl rs -> In r rs -> In (k, v) (r_data r) ->
  strip k = k /\ strip v = v.
Proof.
  intros H Hr Hv. pose proof (load_meaning lines) as M. rewrite H in M. simpl in M. symmetry in M.
  unfold meaning in M. pose proof (sequence_in _ _ M (r_data r) (in_map _ _ _ Hr)) as K.
  apply in_map_iff in K as [b [K _]]. unfold parse_block in K.
  destruct (group b) as [[[|? ?] f]|] eqn:E; try discriminate.
  destruct (nodupb (map fst f)); [|discriminate]. injection K as ->. eapply group_stripped; eauto.
Qed.
