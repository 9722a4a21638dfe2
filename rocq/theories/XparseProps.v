(** C46: override and include statements of test plans. *)
From Coq Require Import Ascii List Bool Arith Lia.
From Verif Require Import ScanModel ScanSpec ScanProofs Rfc822Model XparseModel XparseSpec XparseProofs.
Import ListNotations.
Local Open Scope nat_scope.
Open Scope list_scope.

Lemma bad_start_symbols t l : bad_start t -> ~ reads t l.
Proof.
  intros (r & E & Q) (items & P & _). remember (@nil ascii) as rest eqn:R. destruct P; try discriminate.
  - destruct s as [|c s]; [congruence|]. injection E as -> E.
    match goal with H : Forall _ (DQ :: _) |- _ => inversion H; subst end. discriminate.
  - destruct w as [|c w]; [congruence|]. injection E as -> E.
    match goal with H : ~ starts _ _ |- _ => apply H end. reflexivity.
  - injection E as <-. apply Q. rewrite <- app_assoc. apply in_or_app. right. now left.
Qed.

(** A line is an override statement exactly if it reads: apply VALUE to PATTERN. *)
Theorem C46_override : forall (t value pattern : text), ~ In NUL t ->
  (parse_override t = Done (inl (value, pattern)) <-> override_line t value pattern).
Proof.
  intros t value pattern N. split.
  - intros H. assert (B : ~ bad_start t).
    { intros B. unfold parse_override in H. rewrite next_bad_start in H by auto. discriminate. }
    destruct (reads_or_broken t) as [(l & R)|(l & R)];
      [rewrite (parse_override_ahead t l true (reads_ahead _ _ R N) B) in H
      |rewrite (parse_override_ahead t l false (broken_ahead _ _ R N) B) in H];
      unfold override_of in H; injection H as H;
      destruct l as [|[a| |] l]; try discriminate; destruct (text_eqb a kw_apply) eqn:Ea; try discriminate;
      destruct l as [|[v| |] l]; try discriminate; destruct l as [|[b| |] l]; try discriminate;
      destruct (text_eqb b kw_to) eqn:Eb; try discriminate;
      destruct l as [|[p| |] [|]]; try discriminate.
    injection H as -> ->. apply text_eqb_iff in Ea as ->. apply text_eqb_iff in Eb as ->. exact R.
  - intros R. unfold override_line in R.
    assert (B : ~ bad_start t) by (intros B; eapply bad_start_symbols; eauto).
    rewrite (parse_override_ahead t _ true (reads_ahead _ _ R N) B). reflexivity.
Qed.
Print Assumptions C46_override.

(** A line is an include statement exactly if it reads: PATTERN, and after it
    any number of FIELD=VALUE separated by commas. *)
Theorem C46_include : forall (t pattern : text) (overrides : list (text * text)), ~ In NUL t ->
  (parse_include t = Done (inl (pattern, overrides)) <-> include_line t pattern overrides).
Proof.
  intros t pattern ov N. split.
  - intros H. assert (B : ~ bad_start t).
    { intros B. unfold parse_include in H. rewrite next_bad_start in H by auto. discriminate. }
    destruct (reads_or_broken t) as [(l & R)|(l & R)];
      [rewrite (parse_include_ahead t l true (reads_ahead _ _ R N) B) in H
      |rewrite (parse_include_ahead t l false (broken_ahead _ _ R N) B) in H];
      destruct l as [|[p| |] l]; try discriminate;
      destruct (pairs_from _ _ _ _) as [[ov'|]|] eqn:E; try discriminate;
      injection H as -> ->; apply pairs_from_inv in E as (C & -> & _); [exact R|discriminate].
  - intros R. unfold include_line in R.
    assert (B : ~ bad_start t) by (intros B; eapply bad_start_symbols; eauto).
    rewrite (parse_include_ahead t _ true (reads_ahead _ _ R N) B).
    pose proof (ahead_short _ _ _ _ (reads_ahead _ _ R N)) as L. cbn in L.
    now rewrite pairs_from_of by (auto; lia).
Qed.
Print Assumptions C46_include.

(** On every line both parsers return, with a statement or a message, unless the
    line opens with a quote that is never closed; then the scanner fails. *)
Theorem C46_decided : forall (t : text), ~ In NUL t -> ~ bad_start t ->
  (exists r, parse_override t = Done r) /\ (exists r, parse_include t = Done r).
Proof.
  intros t N B. split.
  - destruct (reads_or_broken t) as [(l & R)|(l & R)].
    + rewrite (parse_override_ahead t l true (reads_ahead _ _ R N) B). eauto.
    + rewrite (parse_override_ahead t l false (broken_ahead _ _ R N) B). eauto.
  - assert (X : exists l c, ahead t 0 l c).
    { destruct (reads_or_broken t) as [(l & R)|(l & R)];
        [exists l, true; now apply reads_ahead|exists l, false; now apply broken_ahead]. }
    destruct X as (l & c & A). rewrite (parse_include_ahead t l c A B).
    pose proof (ahead_short _ _ _ _ A) as L.
    destruct l as [|[p| |] l]; eauto.
    pose proof (pairs_total (S (length t)) true l c) as T. cbn in L.
    destruct (pairs_from _ _ _ _) as [[]|]; eauto. exfalso. apply T; [lia|reflexivity].
Qed.
Print Assumptions C46_decided.

Theorem C46_bad_start : forall (t : text), ~ In NUL t -> bad_start t ->
  parse_override t = AssertionFailed /\ parse_include t = AssertionFailed.
Proof.
  intros t N B. unfold parse_override, parse_include. rewrite next_bad_start by auto. auto.
Qed.
Print Assumptions C46_bad_start.

(** The message about a line names the first part of the statement that is not
    there. *)
Theorem C46_override_message : forall (t : text) (l : list symbol), ~ In NUL t -> reads t l ->
  let apply := W ["a"; "p"; "p"; "l"; "y"]%char in
  let to := W ["t"; "o"]%char in
  let near := fun l => match l with
                       | [] => Some []
                       | W w :: _ => Some w
                       | Comma :: _ => Some [","%char]
                       | Equals :: _ => Some ["="%char]
                       end in
  (hd_error l <> Some apply -> parse_override t = Done (inr (ExpectedApply (near l)))) /\
  (forall r, l = apply :: r -> (forall v, hd_error r <> Some (W v)) ->
     parse_override t = Done (inr ExpectedOverrideValue)) /\
  (forall v r, l = apply :: W v :: r -> hd_error r <> Some to ->
     parse_override t = Done (inr (ExpectedTo (near r)))) /\
  (forall v r, l = apply :: W v :: to :: r -> (forall p, hd_error r <> Some (W p)) ->
     parse_override t = Done (inr ExpectedOverridePattern)) /\
  (forall v p r, l = apply :: W v :: to :: W p :: r -> r <> [] ->
     parse_override t = Done (inr (Garbage (near r)))).
Proof.
  intros t l N R apply to near.
  assert (B : ~ bad_start t) by (intros B; eapply bad_start_symbols; eauto).
  rewrite (parse_override_ahead t l true (reads_ahead _ _ R N) B). clear R B N.
  assert (K : text_eqb kw_apply kw_apply = true) by (now apply text_eqb_iff).
  assert (K' : text_eqb kw_to kw_to = true) by (now apply text_eqb_iff).
  repeat split.
  - intros H. destruct l as [|[a| |] l]; try reflexivity. cbn [override_of].
    destruct (text_eqb a kw_apply) eqn:E; [|reflexivity]. apply text_eqb_iff in E. subst. now exfalso.
  - intros r -> H. destruct r as [|[a| |] r]; try reflexivity. exfalso. eapply H. reflexivity.
  - intros v r -> H. destruct r as [|[a| |] r]; try reflexivity.
    change (override_of (apply :: W v :: W a :: r) true) with
      (override_of (W kw_apply :: W v :: W a :: r) true).
    cbn [override_of]. rewrite K. cbv iota beta.
    destruct (text_eqb a kw_to) eqn:E; [|reflexivity]. apply text_eqb_iff in E. subst. now exfalso.
  - intros v r -> H. destruct r as [|[a| |] r]; try reflexivity. exfalso. eapply H. reflexivity.
  - intros v p r -> H. destruct r as [|[a| |] r]; try reflexivity. congruence.
Qed.
Print Assumptions C46_override_message.

Theorem C46_include_message : forall (t : text) (l : list symbol), ~ In NUL t -> reads t l ->
  ((forall p, hd_error l <> Some (W p)) -> parse_include t = Done (inr ExpectedPattern)) /\
  (forall p ov r, l = W p :: (match ov with [] => [] | _ => pairs_of ov ++ [Comma] end) ++ r ->
     (ov <> [] \/ r <> []) -> (forall f, hd_error r <> Some (W f)) ->
     parse_include t = Done (inr ExpectedOverrideField)) /\
  (forall p ov f r, l = W p :: (match ov with [] => [] | _ => pairs_of ov ++ [Comma] end) ++ W f :: r ->
     hd_error r <> Some Equals ->
     parse_include t = Done (inr ExpectedEquals)) /\
  (forall p ov f r, l = W p :: (match ov with [] => [] | _ => pairs_of ov ++ [Comma] end) ++ W f :: Equals :: r ->
     (forall v, hd_error r <> Some (W v)) ->
     parse_include t = Done (inr ExpectedOverrideValue)) /\
  (forall p ov r, ov <> [] -> l = W p :: pairs_of ov ++ r -> r <> [] -> hd_error r <> Some Comma ->
     parse_include t = Done (inr ExpectedComma)).
Proof.
  intros t l N R.
  assert (B : ~ bad_start t) by (intros B; eapply bad_start_symbols; eauto).
  pose proof (reads_ahead _ _ R N) as A. pose proof (ahead_short _ _ _ _ A) as L.
  rewrite (parse_include_ahead t l true A B). clear R B N A.
  assert (G : forall r e fuel, (forall fuel, length r < fuel -> pairs_from fuel false r true = Some (inr e)) ->
    forall ov, ov <> [] -> forall first, length (pairs_of ov ++ Comma :: r) < fuel ->
      pairs_from fuel first (pairs_of ov ++ Comma :: r) true = Some (inr e)).
  { intros r e. induction fuel as [|fuel IH]; intros H; [intros; lia|].
    induction ov as [|[f v] ov _]; intros NE first Hl; [congruence|]. destruct ov as [|q ov].
    - cbn in Hl. cbn [pairs_of app pairs_from]. rewrite (H fuel) by lia. reflexivity.
    - rewrite pairs_of_cons in * by discriminate. cbn [app pairs_from].
      rewrite (IH H (q :: ov)); [reflexivity|discriminate|]. cbn [app length] in Hl |- *. lia. }
  repeat split.
  - intros H. destruct l as [|[p| |] l]; try reflexivity. exfalso. eapply H. reflexivity.
  - intros p ov r -> NE H. destruct ov as [|q ov].
    + destruct r as [|[f| |] r]; try reflexivity; [|exfalso; eapply H; reflexivity].
      destruct NE; congruence.
    + rewrite <- app_assoc in *. change ([Comma] ++ r) with (Comma :: r) in *. cbn [length] in L.
      rewrite (G r ExpectedOverrideField); auto; try discriminate; try lia.
      intros fuel Hf. destruct fuel; [lia|]. destruct r as [|[f| |] r]; try reflexivity.
      exfalso; eapply H; reflexivity.
  - intros p ov f r -> H.
    assert (Z : forall fuel first, length (W f :: r) < fuel -> pairs_from fuel first (W f :: r) true = Some (inr ExpectedEquals)).
    { intros fuel first Hf. destruct fuel; [lia|]. destruct r as [|[w| |] r]; try reflexivity. now exfalso. }
    destruct ov as [|q ov].
    + cbn [app] in *. rewrite Z by (cbn in *; lia). reflexivity.
    + rewrite <- app_assoc in *. change ([Comma] ++ W f :: r) with (Comma :: W f :: r) in *. cbn [length] in L.
      rewrite (G (W f :: r) ExpectedEquals); auto; try discriminate; try lia.
  - intros p ov f r -> H.
    assert (Z : forall fuel first, length (W f :: Equals :: r) < fuel ->
      pairs_from fuel first (W f :: Equals :: r) true = Some (inr ExpectedOverrideValue)).
    { intros fuel first Hf. destruct fuel; [lia|]. destruct r as [|[w| |] r]; try reflexivity.
      exfalso; eapply H; reflexivity. }
    destruct ov as [|q ov].
    + cbn [app] in *. rewrite Z by (cbn in *; lia). reflexivity.
    + rewrite <- app_assoc in *. change ([Comma] ++ W f :: Equals :: r) with (Comma :: W f :: Equals :: r) in *. cbn [length] in L.
      rewrite (G (W f :: Equals :: r) ExpectedOverrideValue); auto; try discriminate; try lia.
  - intros p ov r NE -> NR H. cbn [length] in L.
    assert (Z : forall fuel first, length (pairs_of ov ++ r) < fuel ->
      pairs_from fuel first (pairs_of ov ++ r) true = Some (inr ExpectedComma)).
    { clear L G. induction ov as [|[f v] ov IH]; intros fuel first Hf; [congruence|].
      destruct fuel as [|fuel]; [lia|]. destruct ov as [|q ov].
      - cbn. destruct r as [|[w| |] r]; try reflexivity; [congruence|now exfalso].
      - rewrite pairs_of_cons in * by discriminate. cbn [app pairs_from].
        rewrite IH; [reflexivity|discriminate|]. cbn [app length] in Hf. lia. }
    rewrite Z by lia. reflexivity.
Qed.
Print Assumptions C46_include_message.

(** The lines of a field: the text between line ends. *)
Lemma splitlines_aux_nobreak l : forall acc, (forall c, In c l -> is_break c = false) ->
  splitlines_aux acc l = match rev acc ++ l with [] => [] | x => [x] end.
Proof.
  induction l as [|c l IH]; intros acc H.
  - cbn. rewrite app_nil_r. destruct acc as [|a acc]; [reflexivity|]. cbn [rev].
    destruct (rev acc ++ [a]) eqn:E; auto. symmetry in E. now apply app_cons_not_nil in E.
  - cbn [splitlines_aux]. rewrite (H c) by now left. rewrite IH by (intros; apply H; now right).
    cbn [rev]. now rewrite <- app_assoc.
Qed.

Lemma splitlines_aux_line l : forall acc t, (forall c, In c l -> is_break c = false) ->
  splitlines_aux acc (l ++ NL :: t) = (rev acc ++ l ++ [NL]) :: splitlines_aux [] t.
Proof.
  induction l as [|c l IH]; intros acc t H.
  - cbn [app splitlines_aux]. change (is_break NL) with true. cbv iota. cbn [rev].
    destruct t; [reflexivity|]. reflexivity.
  - cbn [app splitlines_aux]. rewrite (H c) by now left. rewrite IH by (intros; apply H; now right).
    cbn [rev]. now rewrite <- app_assoc.
Qed.

Lemma filter_nobreak l : (forall c, In c l -> is_break c = false) -> filter (fun c => negb (is_break c)) l = l.
Proof.
  induction l as [|c l IH]; intros H; cbn; auto. rewrite (H c) by now left. cbn. rewrite IH; auto.
  intros; apply H; now right.
Qed.

Theorem C46_lines : forall (ls : list text) (last : text),
  (forall l c, In l (ls ++ [last]) -> In c l -> is_break c = false) -> last <> [] ->
  lines_of (flat_map (fun l => l ++ [NL]) ls ++ last) = ls ++ [last].
Proof.
  intros ls last H NE. unfold lines_of, splitlines. induction ls as [|l ls IH]; cbn [flat_map app].
  - rewrite splitlines_aux_nobreak by (intros; apply (H last); auto; now left). cbn.
    destruct last; [congruence|]. cbn [map]. rewrite filter_nobreak; auto.
    intros; eapply H; eauto. now left.
  - rewrite <- !app_assoc. cbn [app]. rewrite splitlines_aux_line by (intros; apply (H l); auto; now left).
    cbn [map rev app]. rewrite filter_app, filter_nobreak by (intros; apply (H l); auto; now left).
    cbn. rewrite app_nil_r. rewrite IH; auto. intros l0 c Hl Hc. apply (H l0 c); auto. now right.
Qed.
Print Assumptions C46_lines.

(** A field holds one statement (or message) per line that is not empty, in
    order, under the number of its line. *)
Lemma each_line_spec {A} (f : text -> outcome (list A)) ls : forall n r,
  each_line f n ls = Done r <->
  exists parts, Forall2 (fun l p => f l = Done p) ls parts /\
    r = concat (map (fun '(k, p) => map (pair k) p) (combine (seq n (length ls)) parts)).
Proof.
  induction ls as [|l ls IH]; intros n r; cbn [each_line].
  - split.
    + intros H. injection H as <-. exists []. split; auto.
    + intros (parts & F & ->). inversion F. reflexivity.
  - split.
    + intros H. destruct (f l) as [a| |] eqn:E; try discriminate. cbn [obind] in H.
      destruct (each_line f (S n) ls) as [b| |] eqn:Eb; try discriminate. cbn in H. injection H as <-.
      destruct (proj1 (IH _ _) Eb) as (parts & F & ->). exists (a :: parts). split; auto.
    + intros (parts & F & ->). inversion F; subst. rewrite H1. cbn [obind].
      rewrite (proj2 (IH (S n) _) (ex_intro _ _ (conj H3 eq_refl))). reflexivity.
Qed.

Lemma lines_clean t : ~ In NUL t -> Forall (fun l => ~ In NUL l) (lines_of t).
Proof.
  intros N. apply Forall_forall. intros l Hl Hn. apply in_map_iff in Hl as (l' & <- & Hl).
    apply filter_In in Hn as [Hn _]. apply N. unfold splitlines in Hl.
    assert (X : forall t acc l', In l' (splitlines_aux acc t) -> In NUL l' -> In NUL (acc ++ t)).
    { clear. intros t. remember (length t) as k eqn:Hk. revert t Hk.
      induction k as [k IH] using lt_wf_ind. intros t Hk acc l' H Hn. destruct t as [|c t]; cbn in H.
      - destruct acc; [now exfalso|]. destruct H as [<-|[]]. rewrite app_nil_r. now apply in_rev.
      - destruct (is_break c).
        + destruct t as [|d t].
          * destruct H as [<-|[]]. cbn [rev] in Hn. apply in_app_or in Hn as [Hn|Hn].
            { apply in_or_app. left. now apply in_rev. }
            { apply in_or_app. now right. }
          * destruct (Ascii.eqb c CR && Ascii.eqb d NL)%bool.
            { destruct H as [<-|H].
              - cbn [rev] in Hn. apply in_app_or in Hn as [Hn|Hn].
                + apply in_app_or in Hn as [Hn|Hn].
                  * apply in_or_app. left. now apply in_rev.
                  * apply in_or_app. right. destruct Hn as [<-|[]]. now left.
                + apply in_or_app. right. destruct Hn as [<-|[]]. right. now left.
              - specialize (IH (length t) ltac:(cbn in Hk; lia) t eq_refl [] l' H Hn). cbn in IH.
                apply in_or_app. right. now do 2 right. }
            { destruct H as [<-|H].
              - cbn [rev] in Hn. apply in_app_or in Hn as [Hn|Hn].
                + apply in_or_app. left. now apply in_rev.
                + apply in_or_app. right. destruct Hn as [<-|[]]. now left.
              - specialize (IH (length (d :: t)) ltac:(cbn in *; lia) (d :: t) eq_refl [] l' H Hn).
                apply in_or_app. right. now right. }
        + specialize (IH (length t) ltac:(cbn in Hk; lia) t eq_refl (c :: acc) l' H Hn).
          cbn in IH. destruct IH as [IH|IH]; [apply in_or_app; right; now left|].
          apply in_app_or in IH as [IH|IH]; apply in_or_app; [now left|right; now right]. }
    exact (X t [] l' Hl Hn).
Qed.

Theorem C46_include_list : forall (t : text) (n : nat) r, ~ In NUL t ->
  parse_include_list t n = Done r ->
  exists parts,
    Forall2 (fun l part => (empty_line l /\ part = []) \/
                           (~ empty_line l /\ exists x, parse_include l = Done x /\ part = [x]))
      (lines_of t) parts /\
    r = concat (map (fun '(k, p) => map (pair k) p) (combine (seq n (length (lines_of t))) parts)).
Proof.
  intros t n r N H. apply each_line_spec in H as (parts & F & ->). exists parts. split; auto.
  pose proof (lines_clean t N) as NL'.
  clear N. revert parts F. induction (lines_of t) as [|l ls IH]; intros parts F; inversion F; subst; constructor.
  - inversion NL'; subst.
    assert (B : ~ bad_start l).
    { intros B. rewrite (next_bad_start _ B) in H1 by auto. discriminate. }
    assert (E : empty_line l <-> exists p lx, next l 0 = Done (EOF, lx, p)).
    { split.
      - intros Em. destruct (next_end _ _ (reads_ahead _ _ Em H2)) as (p & ->). eauto.
      - intros (p & lx & E). destruct (reads_or_broken l) as [(s & R)|(s & R)].
        + destruct (next_first_start _ _ _ (reads_ahead _ _ R H2) B) as (p' & E' & _). rewrite E in E'.
          injection E' as E' _. destruct s as [|[]]; try discriminate. exact R.
        + destruct (next_first_start _ _ _ (broken_ahead _ _ R H2) B) as (p' & E' & _). rewrite E in E'.
          injection E' as E' _. destruct s as [|[]]; discriminate. }
    destruct (next l 0) as [[[tok lx] p]| |] eqn:En; try discriminate. cbn [obind] in H1.
    destruct tok; try (right; split;
      [rewrite E; intros (? & ? & X); discriminate|
       destruct (parse_include l) as [x| |]; try discriminate; injection H1 as <-; eauto]).
    left. split; [|now injection H1]. apply E. eauto.
  - apply IH; auto. now inversion NL'.
Qed.
Print Assumptions C46_include_list.

(** The list of overrides does not skip empty lines: each one gives a message. *)
Theorem C46_override_list : forall (t : text) (n : nat) r,
  parse_override_list t n = Done r <->
  exists xs, Forall2 (fun l x => parse_override l = Done x) (lines_of t) xs /\
    r = combine (seq n (length (lines_of t))) xs.
Proof.
  intros t n r. unfold parse_override_list. rewrite each_line_spec.
  assert (X : forall ls k, (exists parts, Forall2 (fun l p => obind (parse_override l) (fun x => Done [x]) = Done p) ls parts /\
      r = concat (map (fun '(k, p) => map (pair k) p) (combine (seq k (length ls)) parts))) <->
      (exists xs, Forall2 (fun l x => parse_override l = Done x) ls xs /\ r = combine (seq k (length ls)) xs)).
  { intros ls. revert r. induction ls as [|l ls IH]; intros r k; split.
    - intros (parts & F & ->). exists []. inversion F. auto.
    - intros (xs & F & ->). exists []. auto.
    - intros (parts & F & ->). inversion F; subst.
      destruct (parse_override l) as [x| |] eqn:E; try discriminate. cbn in H1. injection H1 as <-.
      destruct (proj1 (IH _ (S k)) (ex_intro _ _ (conj H3 eq_refl))) as (xs & F' & Ex).
      exists (x :: xs). split; auto. cbn. now rewrite Ex.
    - intros (xs & F & ->). inversion F; subst.
      destruct (proj2 (IH _ (S k)) (ex_intro _ _ (conj H3 eq_refl))) as (parts & F' & Ex).
      exists ([y] :: parts). split; [constructor; auto; now rewrite H1|]. cbn. now rewrite Ex. }
  apply X.
Qed.
Print Assumptions C46_override_list.

(** A concrete case. *)
Definition sample_include : text :=
  ["j"; "o"; "b"; " "; "c"; "a"; "t"; "="; "x"; ","; "s"; "="; DQ; "a"; " "; "b"; DQ; " "; "#"; "!"]%char.
Example sample_include_reads :
  include_line sample_include ["j"; "o"; "b"]%char
    [(["c"; "a"; "t"], ["x"]); (["s"], ["a"; " "; "b"])]%char.
Proof.
  apply C46_include.
  - cbn. intros H. repeat (destruct H as [H|H]; [discriminate|]). exact H.
  - reflexivity.
Qed.
Definition sample_override : text :=
  [" "; "a"; "p"; "p"; "l"; "y"; " "; "c"; " "; "t"; "o"; " "; "j"; "."; "*"]%char.
Example sample_override_reads : override_line sample_override ["c"]%char ["j"; "."; "*"]%char.
Proof.
  apply C46_override.
  - cbn. intros H. repeat (destruct H as [H|H]; [discriminate|]). exact H.
  - reflexivity.
Qed.
Example sample_list :
  parse_include_list (sample_include ++ [NL; " "; NL] ++ ["k"])%char 0 =
  Done [(0, inl (["j"; "o"; "b"]%char, [(["c"; "a"; "t"], ["x"]); (["s"], ["a"; " "; "b"])]%char));
        (2, inl (["k"]%char, []))].
Proof. reflexivity. Qed.
Example sample_empty : parse_override_list (NL :: sample_override) 1 =
  Done [(1, inr (ExpectedApply (Some []))); (2, inl (["c"]%char, ["j"; "."; "*"]%char))].
Proof. reflexivity. Qed.
