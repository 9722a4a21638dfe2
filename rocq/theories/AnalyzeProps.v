(** * C93, C94: reports about jobs and paragraphs *)
From Coq Require Import String Ascii List Bool Arith Lia.
From Verif Require Import ScanModel Rfc822Model Rfc822Proofs IniModel AnalyzeModel.
Import ListNotations.
Local Open Scope list_scope.

Lemma spaces_length n : length (spaces n) = n. Proof. apply repeat_length. Qed.
Lemma max_len_le l j : In j l -> length (j_id j) <= max_len l.
Proof. unfold max_len. induction l as [|x l IH]; intros []; cbn [fold_right]; [subst; lia|]. specialize (IH H). lia. Qed.
Lemma max_len_is l : l <> [] -> exists j, In j l /\ max_len l = length (j_id j).
Proof.
  induction l as [|x l IH]; [congruence|]. intros _. unfold max_len. cbn [fold_right]. fold (max_len l). destruct l as [|y l].
  - exists x. split; [now left|]. cbn. lia.
  - destruct IH as (j & I & E); [discriminate|]. destruct (le_lt_dec (max_len (y :: l)) (length (j_id x))).
    + exists x. split; [now left|lia].
    + exists j. split; [now right|lia].
Qed.

(** ** C93: reports *)

(** A table: the columns before the last have one width each, that of the widest entry of the first *)
Definition column (w : nat) (t shown : text) : Prop := exists n, shown = t ++ spaces n /\ length shown = w.
(** The report of interactivity has a line for each job, in order, with aligned columns *)
Theorem C93_interactivity l :
  length (interactivity l) = length l /\
  exists w, (l <> [] -> exists j, In j l /\ w = length (j_id j)) /\
  forall n j, nth_error l n = Some j -> exists first second,
    nth_error (interactivity l) n = Some (first ++ L " : " ++ second ++ L " : " ++ match j_duration j with Some d => d | None => L "unknown" end) /\
    column w (j_id j) first /\ column 11 (if j_automated j then L "automatic" else L "interactive") second.
Proof.
  unfold interactivity. split; [apply map_length|]. exists (max_len l). split; [apply max_len_is|]. intros n j N.
  exists (ljust (max_len l) (j_id j)), (ljust 11 (if j_automated j then L "automatic" else L "interactive")). rewrite nth_error_map, N. split; [reflexivity|].
  pose proof (max_len_le l j (nth_error_In _ _ N)). split.
  - unfold column, ljust. eexists. split; [reflexivity|]. rewrite app_length, spaces_length. lia.
  - unfold column, ljust. eexists. split; [reflexivity|]. rewrite app_length, spaces_length. destruct (j_automated j); reflexivity.
Qed.
Print Assumptions C93_interactivity.

(** What is said of a job: its problem and, if there is one to tell, where the job comes from *)
Definition about (only_errors : bool) (w : nat) (j : job) : list text :=
  match j_problem j with
  | Some [] => [j_id j ++ spaces (w - length (j_id j)) ++ L " : "]
  | Some p => [j_id j ++ spaces (w - length (j_id j)) ++ L " : " ++ p; L "Job defined in " ++ j_origin j]
  | None => if only_errors then [] else [j_id j ++ spaces (w - length (j_id j)) ++ L " : "]
  end.
(** The report of validation: each job with a problem, and without that option each job; that there are no problems
    is said exactly when there are jobs, none has one, and only problems were asked for *)
Theorem C93_validation only_errors l : l <> [] -> exists w, (exists j, In j l /\ w = length (j_id j)) /\ (forall j, In j l -> length (j_id j) <= w) /\
  ((only_errors = true /\ (forall j, In j l -> j_problem j = None)) -> validation only_errors l = [L "No problems found"]) /\
  (~ (only_errors = true /\ (forall j, In j l -> j_problem j = None)) -> validation only_errors l = flat_map (about only_errors w) l).
Proof.
  intros NE. exists (max_len l). split; [now apply max_len_is|]. split; [intros; now apply max_len_le|].
  assert (X : forall l q, fst (validation_loop only_errors (max_len l) l q) = fst (validation_loop only_errors (max_len l) l None)) by (intros l0; generalize (max_len l0); intros w; induction l0 as [|j r IH]; intros q; [reflexivity|]; cbn [validation_loop]; destruct (j_problem j) as [p|];
    [destruct (validation_loop only_errors w r (Some p)); reflexivity|]; destruct only_errors; [apply IH|]; destruct (validation_loop false w r (Some [])); reflexivity). clear X.
  assert (O : forall w l q, fst (validation_loop only_errors w l q) = flat_map (about only_errors w) l).
  { intros w l0. induction l0 as [|j r IH]; intros q; [reflexivity|]. cbn [validation_loop flat_map]. unfold about at 1, ljust. destruct (j_problem j) as [p|].
    - specialize (IH (Some p)). destruct (validation_loop only_errors w r (Some p)) as [o q']. cbn [fst] in *. subst o. destruct p; cbn [app]; rewrite ?app_assoc, ?app_nil_r; reflexivity.
    - destruct only_errors; [apply IH|]. specialize (IH (Some [])). destruct (validation_loop false w r (Some [])) as [o q']. cbn [fst] in *. subst o. cbn [app]. rewrite ?app_assoc, ?app_nil_r. reflexivity. }
  assert (Q : forall w l q, snd (validation_loop only_errors w l q) = None <-> q = None /\ match l with [] => True | _ => only_errors = true /\ forall j, In j l -> j_problem j = None end).
  { intros w l0. induction l0 as [|j r IH]; intros q; cbn [validation_loop]; [cbn; tauto|]. destruct (j_problem j) as [p|] eqn:P.
    - specialize (IH (Some p)). destruct (validation_loop only_errors w r (Some p)) as [o q']. cbn [snd] in *. rewrite IH. split; [intros [X _]; discriminate|]. intros (_ & _ & F). specialize (F j (or_introl eq_refl)). congruence.
    - destruct only_errors.
      + rewrite IH. split; intros [-> F]; (split; [reflexivity|]).
        * split; [reflexivity|]. destruct r as [|k r]; [intros x [<-|[]]; exact P|]. destruct F as [_ F]. intros x [<-|I]; [exact P|now apply F].
        * destruct F as [_ F]. destruct r as [|k r]; [exact Logic.I|]. split; [reflexivity|]. intros x I. apply F. now right.
      + specialize (IH (Some [])). destruct (validation_loop false w r (Some [])) as [o q']. cbn [snd] in *. rewrite IH. split; [intros [X _]; discriminate|]. intros (_ & X & _). discriminate. }
  assert (V : validation only_errors l = fst (validation_loop only_errors (max_len l) l None) ++ (if only_errors && match snd (validation_loop only_errors (max_len l) l None) with None => true | _ => false end then [L "No problems found"] else [])).
  { unfold validation. destruct l as [|j r]; [congruence|]. now destruct (validation_loop only_errors (max_len (j :: r)) (j :: r) None). }
  rewrite V, O. specialize (Q (max_len l) l None). split.
  - intros (-> & F). assert (S : snd (validation_loop true (max_len l) l None) = None) by (apply Q; split; [reflexivity|]; destruct l; [exact Logic.I|]; split; [reflexivity|exact F]). rewrite S. cbn [andb].
    assert (Z : flat_map (about true (max_len l)) l = []); [|now rewrite Z]. clear - F. generalize (max_len l). intros w. induction l as [|j r IH]; [reflexivity|]. cbn [flat_map]. unfold about at 1. rewrite (F j) by now left. apply IH. intros x I. apply F. now right.
  - intros N. destruct only_errors; [|cbn; apply app_nil_r]. destruct (snd (validation_loop true (max_len l) l None)) eqn:S; [cbn; apply app_nil_r|]. exfalso. apply N. destruct (proj1 Q eq_refl) as [_ F]. destruct l; [congruence|]. exact F.
Qed.
Print Assumptions C93_validation.

(** The report of requirements never names a package: it is empty for jobs of providers, and fails for others *)
Lemma tprefix_spec p t : tprefix p t = true <-> exists r, t = p ++ r.
Proof.
  revert t. induction p as [|c p IH]; intros t; cbn [tprefix]; [split; [now exists t|reflexivity]|]. destruct t as [|d t]; [split; [discriminate|intros (r & E); discriminate]|].
  rewrite andb_true_iff, IH, Ascii.eqb_eq. split; [intros (-> & r & ->); now exists r|]. intros (r & E). injection E as -> ->. split; [reflexivity|now exists r].
Qed.
Lemma contains_app a sub b : contains sub (a ++ sub ++ b) = true.
Proof.
  induction a as [|c a IH]; cbn [app contains].
  - assert (E : tprefix sub (sub ++ b) = true) by (apply tprefix_spec; now exists b). destruct (sub ++ b); cbn [contains]; rewrite E; reflexivity.
  - rewrite IH. apply orb_true_r.
Qed.
Lemma qualified ns c x : ~ In (L "package") (resource_ids (Some (c :: ns)) x).
Proof.
  unfold resource_ids. intros I. apply in_map_iff in I as (i & E & _). assert (C : contains (L "::") (L "package") = true); [|discriminate]. rewrite <- E.
  destruct (contains (L "::") i) eqn:D; [exact D|]. apply (contains_app (c :: ns) (L "::") i).
Qed.
Theorem C93_requirements_refuted l :
  (requirement_report l = Printed [] \/ requirement_report l = Attribute_error) /\
  ((forall j, In j l -> exists c ns, j_namespace j = Some (c :: ns)) -> requirement_report l = Printed []).
Proof.
  unfold requirement_report. split.
  - assert (X : requirements l = Some [] \/ requirements l = None); [|destruct X as [-> | ->]; auto].
    induction l as [|j r IH]; cbn [requirements]; [now left|]. destruct (j_requires j) as [p|]; [|exact IH]. destruct (existsb _ _); [|exact IH]. destruct p; [exact IH|now right].
  - intros F. assert (X : requirements l = Some []); [|now rewrite X]. induction l as [|j r IH]; [reflexivity|]. cbn [requirements].
    assert (IH' : requirements r = Some []) by (apply IH; intros k I; apply F; now right). destruct (j_requires j) as [p|]; [|exact IH']. destruct (F j (or_introl eq_refl)) as (c & ns & ->).
    assert (E : existsb (text_eqb (L "package")) (flat_map (resource_ids (Some (c :: ns))) p) = false); [|now rewrite E].
    apply not_true_is_false. intros E. apply existsb_exists in E as (i & I & E). apply text_eqb_eq in E. subst i. apply in_flat_map in I as (x & _ & I). now apply qualified in I.
Qed.
Print Assumptions C93_requirements_refuted.

(** ** C94: paragraphs *)

(** A line of content: between the paddings, with spaces on the one side, on the other, or on both
    alike but for one *)
Definition placed (a : align) (w : nat) (line shown : text) : Prop :=
  exists l r, shown = spaces l ++ line ++ spaces r /\ length shown = Nat.max w (length line) /\
    match a with Left_ => l = 0 | Right_ => r = 0 | Center_ => l <= r + 1 /\ r <= l + 1 end.
Lemma placed_ok a w line : placed a w line ((match a with Left_ => ljust | Right_ => rjust | Center_ => center end) w line).
Proof.
  destruct a.
  - exists 0, (w - length line). split; [reflexivity|]. split; [|reflexivity]. unfold ljust. rewrite app_length, spaces_length. lia.
  - exists (w - length line), 0. split; [unfold rjust; now rewrite app_nil_r|]. split; [|reflexivity]. unfold rjust. rewrite app_length, spaces_length. lia.
  - unfold center. set (pad := w - length line). set (left := Nat.div2 pad + (if Nat.odd pad && Nat.odd w then 1 else 0)). exists left, (pad - left). split; [reflexivity|].
    assert (LE : left <= pad /\ left <= (pad - left) + 1 /\ pad - left <= left + 1).
    { pose proof (Nat.div2_odd pad) as D. unfold left. destruct (Nat.odd pad); cbn [Nat.b2n andb] in *; [destruct (Nat.odd w)|]; lia. }
    split; [|lia]. rewrite !app_length, !spaces_length. unfold pad in *. lia.
Qed.
Fixpoint joined (l : list text) : text := match l with [] => [] | x :: r => x ++ "010"%char :: joined r end.
Lemma split_joined l : (forall x, In x l -> ~ In "010"%char x) -> split_lines (joined l) = l.
Proof.
  induction l as [|x l IH]; intros F; [reflexivity|]. cbn [joined]. assert (N : ~ In "010"%char x) by (apply F; now left). assert (IH' : split_lines (joined l) = l) by (apply IH; intros y I; apply F; now right).
  induction x as [|c x IHx]; [cbn; now rewrite IH'|]. cbn [app split_lines]. assert (C : c <> "010"%char) by (intros ->; apply N; now left). apply Ascii.eqb_neq in C. unfold NL. rewrite C.
  assert (E : split_lines (x ++ "010"%char :: joined l) = x :: l) by (apply IHx; [intros y [<-|I]; [intros Z; apply N; now right|apply F; now right]|intros Z; apply N; now right]). now rewrite E.
Qed.

Section Wrap.
  Variable wrap : nat -> text -> list text.
  (** What textwrap promises: lines that fit, not empty, without line breaks *)
  Definition wraps : Prop := forall w t x, In x (wrap w t) -> length x <= w /\ x <> [] /\ ~ In "010"%char x.
  Lemma split_one x : x <> [] -> ~ In "010"%char x -> split_lines x = [x].
  Proof.
    induction x as [|c x IH]; [congruence|]. intros _ N. cbn [split_lines]. assert (C : c <> "010"%char) by (intros ->; apply N; now left). apply Ascii.eqb_neq in C. unfold NL. rewrite C.
    destruct x as [|d x]; [reflexivity|]. rewrite IH; [reflexivity|discriminate|]. intros Z. apply N. now right.
  Qed.

  (** A text is shown in a box: all lines have its width, there are as many empty ones above and below
      as was asked for, and between them the lines of the text in order, in their place *)
  Theorem C94_box s t : wraps -> s_left s + s_right s < s_width s ->
    exists body, para wrap s (A_text t) =
      Some (repeat (spaces (s_width s), false) (s_top s) ++ body ++ repeat (spaces (s_width s), false) (s_bottom s)) /\
    (forall line, In line body -> length (fst line) = s_width s) /\
    Forall2 (fun line shown => snd shown = s_bold s /\ exists mid, fst shown = spaces (s_left s) ++ mid ++ spaces (s_right s) /\ placed (s_align s) (s_width s - s_left s - s_right s) line mid)
      (wrap (s_width s - s_left s - s_right s) t) body.
  Proof.
    intros W LT. unfold para. set (w := s_width s - (s_left s + s_right s)). replace (s_width s - s_left s - s_right s) with w by (unfold w; lia).
    assert (P : Nat.eqb w 0 = false) by (apply Nat.eqb_neq; unfold w; lia). rewrite P. eexists. split; [reflexivity|].
    assert (F : flat_map split_lines (wrap w t) = wrap w t).
    { specialize (W w t). clear - W. induction (wrap w t) as [|x l IH]; [reflexivity|]. cbn [flat_map]. destruct (W x (or_introl eq_refl)) as (_ & A & B). rewrite split_one by assumption. cbn [app]. f_equal. apply IH. intros y I. apply W. now right. }
    rewrite F. split.
    - intros line I. apply in_map_iff in I as (x & <- & I). cbn [fst]. destruct (W w t x I) as (LE & _). destruct (placed_ok (s_align s) w x) as (l & r & _ & E & _).
      rewrite !app_length, !spaces_length, E. unfold w in *. lia.
    - clear. induction (wrap w t) as [|x l IH]; cbn [map]; constructor; [|exact IH]. cbn [fst snd]. split; [reflexivity|]. eexists. split; [reflexivity|apply placed_ok].
  Qed.
  (** Too narrow a box is refused *)
  Theorem C94_narrow s t : s_width s <= s_left s + s_right s -> para wrap s (A_text t) = None.
  Proof. intros LE. unfold para. replace (s_width s - (s_left s + s_right s)) with 0 by lia. reflexivity. Qed.
  (** Of lines that are given no one is lost: each is there in order, as long as it is *)
  Theorem C94_lines s l : (forall chunk, In chunk l -> forall x, In x chunk -> ~ In "010"%char x) ->
    exists body, para wrap s (Chunks (map joined l)) =
      Some (repeat (spaces (s_width s), false) (s_top s) ++ body ++ repeat (spaces (s_width s), false) (s_bottom s)) /\
    Forall2 (fun line shown => snd shown = s_bold s /\ exists mid, fst shown = spaces (s_left s) ++ mid ++ spaces (s_right s) /\ placed (s_align s) (s_width s - (s_left s + s_right s)) line mid)
      (concat l) body.
  Proof.
    intros F. unfold para. eexists. split; [reflexivity|].
    assert (E : flat_map split_lines (map joined l) = concat l).
    { clear - F. induction l as [|c l IH]; [reflexivity|]. cbn [map flat_map concat]. rewrite split_joined by (apply F; now left). f_equal. apply IH. intros d I. apply F. now right. }
    rewrite E. clear. induction (concat l) as [|x r IH]; cbn [map]; constructor; [|exact IH]. cbn [fst snd]. split; [reflexivity|]. eexists. split; [reflexivity|apply placed_ok].
  Qed.
  (** Long ones do not fit the box *)
  Theorem C94_box_refuted s line : line <> [] -> ~ In "010"%char line -> s_width s < length line ->
    exists body shown, para wrap s (Chunks [line]) = Some body /\ In shown body /\ s_width s < length (fst shown).
  Proof.
    intros NE N LT. unfold para. cbn [flat_map]. rewrite (split_one line NE N). cbn [app map].
    eexists _, _. split; [reflexivity|]. split; [apply in_or_app; right; left; reflexivity|]. cbn [fst].
    destruct (placed_ok (s_align s) (s_width s - (s_left s + s_right s)) line) as (l & r & _ & E & _). rewrite !app_length, E. lia.
  Qed.
End Wrap.
Print Assumptions C94_box.
Print Assumptions C94_narrow.
Print Assumptions C94_lines.
Print Assumptions C94_box_refuted.

(** ** Cases *)

Definition j1 := Job (L "a") true (Some (L "0:00:05")) None (L "x.pxu:1") (Some [Expr [L "package"] [L "bc"]]) (Some (L "ns")).
Definition j2 := Job (L "longer") false None (Some (L "no plugin")) (L "x.pxu:7") None (Some (L "ns")).
Example C93_case_reports : interactivity [j1; j2] = [L "a      : automatic   : 0:00:05"; L "longer : interactive : unknown"] /\
  validation true [j1; j2] = [L "longer : no plugin"; L "Job defined in x.pxu:7"] /\
  validation true [j1] = [L "No problems found"] /\ validation false [j1] = [L "a : "] /\
  requirement_report [j1] = Printed [] /\ requirement_report [Job (L "a") true None None [] (Some [Expr [L "package"] [L "bc"]]) None] = Attribute_error.
Proof. repeat split; reflexivity. Qed.
Example C94_case_box : para (fun w t => [firstn w t; skipn w t]) (Style 9 true 1 2 0 3 Center_) (A_text (L "abcdefg")) =
  Some [(L "         ", false); (L "   abcd  ", true); (L "   efg   ", true)] /\
  para (fun w t => [t]) (Style 4 false 0 0 1 1 Left_) (Chunks [L "ab
c
"]) = Some [(L " ab ", false); (L " c  ", false); (L "    ", false)].
Proof. split; reflexivity. Qed.
Example C94_case_wraps : wraps (fun w t => match t with c :: _ => if Nat.leb 1 w && negb (Ascii.eqb c "010"%char) then [[c]] else [] | [] => [] end).
Proof.
  intros w t x I. destruct t as [|c t]; [destruct I|]. destruct (Nat.leb_spec 1 w); [|destruct I]. cbn [andb] in I. destruct (Ascii.eqb_spec c "010"%char); [destruct I|]. destruct I as [<-|[]].
  split; [exact H|]. split; [discriminate|]. intros [E|[]]. congruence.
Qed.
