From Coq Require Import String Ascii List Bool Arith NArith Lia.
From Verif Require Import ScanModel Rfc822Model JsonModel IologModel IniModel ChecksumModel ExportModel PluginModel PluginSpec
  Rfc822Proofs IniProofs Utf8Model Utf8Spec Utf8Proofs Utf8Props PluginProps SheetModel SheetSpec.
Import ListNotations.
Local Open Scope nat_scope.
Local Open Scope list_scope.

Lemma bind_ok {A B} (a : res A) (f : A -> res B) b : bind a f = Ok b <-> exists x, a = Ok x /\ f x = Ok b.
Proof. destruct a as [x|e]; cbn; [split; [eauto|intros (y & E & F); now injection E as ->]|split; [discriminate|now intros (y & E & _)]]. Qed.
Lemma find_in {A} k (l : list (text * A)) a : NoDup (map fst l) -> (find k l = Some a <-> In (k, a) l).
Proof.
  induction l as [|[k' a'] l IH]; intros N; cbn [find]; [split; [discriminate|intros []]|].
  inversion N as [|? ? N1 N2]; subst. destruct (text_eqb k' k) eqn:E.
  - apply text_eqb_eq in E as ->. split.
    + intros H. injection H as ->. now left.
    + intros [H|H]; [now injection H as ->|]. exfalso. apply N1. apply in_map_iff. now exists (k, a).
  - apply text_eqb_neq in E. rewrite IH by assumption. split; [now right|]. intros [H|H]; [congruence|assumption].
Qed.
Lemma key_none {A} k (l : list (text * A)) : find k l = None <-> ~ In k (map fst l).
Proof.
  induction l as [|[k' a'] l IH]; cbn [find map fst]; [split; [intros _ []|reflexivity]|].
  destruct (text_eqb k' k) eqn:E.
  - apply text_eqb_eq in E as ->. split; [discriminate|]. intros H. exfalso. apply H. now left.
  - apply text_eqb_neq in E. rewrite IH. cbn. tauto.
Qed.

(** ** The tree *)
Section Tree.
  Variable categories : list (text * text).
  Definition within (name : text) (jj : text * jobdata) : bool := is_status (find (j_category (snd jj)) categories) name.
  Definition jobs_of (p : list (text * jobdata)) (name : text) : list text := map fst (filter (within name) p).
  Definition status_of (p : list (text * jobdata)) (name : text) : option text :=
    fold_left new_status (map (fun jj => j_outcome (snd jj)) (filter (within name) p)) None.
  Definition tree_inv (p : list (text * jobdata)) (cats : list cat) : Prop :=
    NoDup (map c_name cats) /\
    (forall c, In c cats -> c_jobs c = jobs_of p (c_name c) /\ c_status c = status_of p (c_name c)) /\
    (forall name, In name (map c_name cats) <-> exists jj, In jj p /\ within name jj = true).
  Lemma is_status_true s o : is_status s o = true <-> s = Some o.
  Proof. destruct s as [x|]; cbn; [|split; discriminate]. rewrite text_eqb_eq. split; [now intros ->|congruence]. Qed.
  Lemma jobs_snoc p jj name : jobs_of (p ++ [jj]) name = jobs_of p name ++ if within name jj then [fst jj] else [].
  Proof. unfold jobs_of. rewrite filter_app, map_app. cbn [filter]. now destruct (within name jj). Qed.
  Lemma status_snoc p jj name : status_of (p ++ [jj]) name =
    if within name jj then new_status (status_of p name) (j_outcome (snd jj)) else status_of p name.
  Proof.
    unfold status_of. rewrite filter_app, map_app, fold_left_app. cbn [filter]. now destruct (within name jj).
  Qed.
  Lemma filter_none p name : (~ exists jj, In jj p /\ within name jj = true) -> filter (within name) p = [].
  Proof.
    intros H. induction p as [|jj p IH]; [reflexivity|]. cbn [filter]. destruct (within name jj) eqn:E.
    - exfalso. apply H. exists jj. split; [now left|assumption].
    - apply IH. intros (x & I & W). apply H. exists x. split; [now right|assumption].
  Qed.
  Lemma add_job_names cats name job o : map c_name (add_job cats name job o) =
    map c_name cats ++ if existsb (fun c => text_eqb (c_name c) name) cats then [] else [name].
  Proof.
    induction cats as [|c cats IH]; [reflexivity|]. cbn [add_job existsb]. destruct (text_eqb (c_name c) name) eqn:E; cbn [map c_name orb app].
    - now rewrite app_nil_r.
    - now rewrite IH.
  Qed.
  Lemma existsb_names cats name : existsb (fun c => text_eqb (c_name c) name) cats = true <-> In name (map c_name cats).
  Proof.
    rewrite existsb_exists, in_map_iff. split; intros (c & A & B); exists c; [apply text_eqb_eq in B|apply text_eqb_eq in A]; now split.
  Qed.
  Lemma add_job_in cats name job o c : NoDup (map c_name cats) -> In c (add_job cats name job o) ->
    (In c cats /\ c_name c <> name) \/
    (exists c0, In c0 cats /\ c_name c0 = name /\ c = mk_cat name (new_status (c_status c0) o) (c_jobs c0 ++ [job])) \/
    (~ In name (map c_name cats) /\ c = mk_cat name (new_status None o) [job]).
  Proof.
    induction cats as [|c1 cats IH]; intros N I; cbn [add_job] in I.
    - destruct I as [<-|[]]. right. right. split; [intros []|reflexivity].
    - inversion N as [|? ? N1 N2]; subst. destruct (text_eqb (c_name c1) name) eqn:E.
      + apply text_eqb_eq in E. destruct I as [<-|I].
        * right. left. exists c1. rewrite E. repeat split. now left.
        * left. split; [now right|]. intros X. apply N1. rewrite E, <- X. now apply in_map.
      + apply text_eqb_neq in E. destruct I as [<-|I]; [left; split; [now left|assumption]|].
        destruct (IH N2 I) as [[A B]|[(c0 & A & B & C)|[A B]]].
        * left. split; [now right|assumption].
        * right. left. exists c0. repeat split; auto. now right.
        * right. right. split; [|assumption]. intros [X|X]; [congruence|contradiction].
  Qed.
  Lemma add_job_inv p cats job j name : tree_inv p cats -> find (j_category j) categories = Some name ->
    tree_inv (p ++ [(job, j)]) (add_job cats name job (j_outcome j)).
  Proof.
    intros (N & A & B) F.
    assert (W : forall n, within n (job, j) = text_eqb name n) by (intros n; unfold within; cbn [snd]; rewrite F; reflexivity).
    split; [|split].
    - rewrite add_job_names. destruct (existsb (fun c => text_eqb (c_name c) name) cats) eqn:E; [now rewrite app_nil_r|].
      assert (NI : ~ In name (map c_name cats)) by (rewrite <- existsb_names; congruence).
      clear - N NI. induction (map c_name cats) as [|x l IH]; [constructor; [intros []|constructor]|].
      inversion N; subst. cbn [app]. constructor.
      + rewrite in_app_iff. cbn. intros [H|[H|[]]]; [contradiction|]. apply NI. now left.
      + apply IH; [assumption|]. intros X. apply NI. now right.
    - intros c I. apply add_job_in in I; [|assumption]. rewrite jobs_snoc, status_snoc, W.
      destruct I as [[I D]|[(c0 & I & D & ->)|[D ->]]].
      + destruct (text_eqb name (c_name c)) eqn:E; [apply text_eqb_eq in E; congruence|]. rewrite app_nil_r. now apply A.
      + cbn [c_name c_jobs c_status]. rewrite (proj2 (text_eqb_eq name name) eq_refl). destruct (A c0 I) as [A1 A2]. rewrite D in A1, A2.
        cbn [fst snd]. now rewrite A1, A2.
      + cbn [c_name c_jobs c_status]. rewrite (proj2 (text_eqb_eq name name) eq_refl). cbn [fst snd].
        rewrite B in D. unfold jobs_of, status_of. rewrite (filter_none p name D). now split.
    - intros n. rewrite add_job_names, in_app_iff, B. split.
      + intros [(jj & I & X)|H]; [exists jj; split; [apply in_or_app; now left|assumption]|].
        destruct (existsb (fun c => text_eqb (c_name c) name) cats); [destruct H|]. destruct H as [<-|[]].
        exists (job, j). split; [apply in_or_app; right; now left|]. rewrite W. now apply text_eqb_eq.
      + intros (jj & I & X). apply in_app_or in I as [I|[<-|[]]]; [left; now exists jj|].
        rewrite W in X. apply text_eqb_eq in X as <-.
        destruct (existsb (fun c => text_eqb (c_name c) name) cats) eqn:E; [|right; now left]. left. apply B. now apply existsb_names.
  Qed.
  Lemma tree_ok l : forall p cats, tree_inv p cats -> (forall jj, In jj l -> find (j_category (snd jj)) categories <> None) ->
    exists cats', tree categories l cats = Ok cats' /\ tree_inv (p ++ l) cats'.
  Proof.
    induction l as [|[job j] l IH]; intros p cats I K; cbn [tree].
    - exists cats. rewrite app_nil_r. now split.
    - destruct (find (j_category j) categories) as [name|] eqn:F.
      + destruct (IH (p ++ [(job, j)]) _ (add_job_inv p cats job j name I F)) as (cats' & E & Q); [intros jj J; apply K; now right|].
        exists cats'. rewrite <- app_assoc in Q. now split.
      + exfalso. apply (K (job, j)); [now left|assumption].
  Qed.
  Lemma tree_raises l cats : (exists jj, In jj l /\ find (j_category (snd jj)) categories = None) -> tree categories l cats = Raised KeyError.
  Proof.
    revert cats. induction l as [|[job j] l IH]; intros cats (jj & I & F); [destruct I|]. cbn [tree].
    destruct I as [<-|I]; [cbn in F; now rewrite F|]. destruct (find (j_category j) categories); [|reflexivity].
    apply IH. now exists jj.
  Qed.
  Lemma tree_known l cats cats' : tree categories l cats = Ok cats' -> forall jj, In jj l -> find (j_category (snd jj)) categories <> None.
  Proof.
    intros E jj I F. rewrite tree_raises in E; [discriminate|]. now exists jj.
  Qed.
End Tree.

(** ** The status of a category *)
Lemma new_status_spec s o : In s [None; Some PASS; Some FAIL; Some SKIP] ->
  new_status s o =
    (if text_eqb o FAIL then Some FAIL else if is_status s FAIL then Some FAIL
     else if text_eqb o PASS then Some PASS else if is_status s PASS then Some PASS else Some SKIP).
Proof.
  intros [<-|[<-|[<-|[<-|[]]]]]; unfold new_status; destruct (text_eqb o FAIL), (text_eqb o PASS); vm_compute; reflexivity.
Qed.
Lemma status_fold l : forall s, In s [None; Some PASS; Some FAIL; Some SKIP] ->
  fold_left new_status l s =
    (if is_status s FAIL || existsb (fun o => text_eqb o FAIL) l then Some FAIL
     else if is_status s PASS || existsb (fun o => text_eqb o PASS) l then Some PASS
     else match l with [] => s | _ => Some SKIP end).
Proof.
  induction l as [|o l IH]; intros s I; cbn [fold_left existsb].
  - rewrite !orb_false_r. destruct I as [<-|[<-|[<-|[<-|[]]]]]; vm_compute; reflexivity.
  - rewrite new_status_spec by assumption. rewrite IH.
    + assert (X1 : is_status (Some FAIL) FAIL = true) by reflexivity. assert (X2 : is_status (Some PASS) FAIL = false) by reflexivity.
      assert (X3 : is_status (Some PASS) PASS = true) by reflexivity. assert (X4 : is_status (Some SKIP) FAIL = false) by reflexivity.
      assert (X5 : is_status (Some SKIP) PASS = false) by reflexivity.
      destruct (text_eqb o FAIL); [rewrite X1; cbn [orb]; now rewrite orb_true_r|].
      destruct (is_status s FAIL); [rewrite X1; reflexivity|].
      destruct (text_eqb o PASS); [rewrite X2, X3; cbn [orb]; rewrite orb_true_r; reflexivity|].
      destruct (is_status s PASS); [rewrite X2, X3; reflexivity|]. rewrite X4, X5. cbn [orb]. destruct l; reflexivity.
    + destruct (text_eqb o FAIL); [cbn; tauto|]. destruct (is_status s FAIL); [cbn; tauto|].
      destruct (text_eqb o PASS); [cbn; tauto|]. destruct (is_status s PASS); cbn; tauto.
Qed.

(** ** Items *)
Definition leafdata : Type := (text * jobdata * ustr)%type.
Inductive item := ICat (name status : text) | ILeaf (x : leafdata).
Definition leaf (lk : text -> option entry) (job : text) : res (list item) :=
  match lk job with
  | Some (Job j) =>
      match j_plugin j with
      | Some plugin => if text_eqb plugin LOCAL then Ok [] else bind (io_text plugin (j_io_log j)) (fun log => Ok [ILeaf (job, j, log)])
      | None => Raised KeyError
      end
  | _ => Raised KeyError
  end.
Fixpoint collect {A} (f : A -> res (list item)) (l : list A) : res (list item) :=
  match l with
  | [] => Ok []
  | x :: r => bind (f x) (fun a => bind (collect f r) (fun b => Ok (a ++ b)))
  end.
Definition cat_items (lk : text -> option entry) (c : cat) : res (list item) :=
  match c_status c with
  | None => Ok []
  | Some s => bind (collect (leaf lk) (sort_by (fun j => j) (c_jobs c))) (fun l => Ok (ICat (c_name c) s :: l))
  end.
Definition columns (descriptions : bool) (i : item) : list (nat * value) :=
  match i with
  | ICat name status => [(1, Txt name); (4, Label status)]
  | ILeaf (_, j, log) =>
      [(3, Txt (j_summary j))] ++ (if descriptions then [(3, Txt (j_summary j))] else []) ++
      [(2, Sigil (j_outcome j)); (4, Label (j_outcome j)); (5, Txt (cert_text (j_cert j)));
       (6, Utx (shorten log)); (7, Utx (comments_text (j_comments j)))]
  end.
Definition dcolumns (descriptions : bool) (i : item) : list (nat * value) :=
  if descriptions then
    match i with
    | ICat name _ => [(1, Txt name)]
    | ILeaf (_, j, _) => [(3, Txt (j_summary j)); (4, Txt (match j_description j with Some t => t | None => [] end))]
    end
  else [].
Fixpoint emit (f : item -> list (nat * value)) (n : nat) (l : list item) : list write :=
  match l with
  | [] => []
  | i :: r => map (fun cv => (n, fst cv, snd cv)) (f i) ++ emit f (n + 1) r
  end.
Definition leaf_outcomes (l : list item) : list text := concat (map (fun i => match i with ILeaf (_, j, _) => [j_outcome j] | ICat _ _ => [] end) l).
Definition is_pass (o : text) : bool := text_eqb o PASS.
Definition is_fail (o : text) : bool := text_eqb o FAIL.
Definition is_other (o : text) : bool := negb (text_eqb o PASS) && negb (text_eqb o FAIL).
Definition count (f : text -> bool) (l : list item) : nat := length (filter f (leaf_outcomes l)).
Definition put_items (descriptions : bool) (a : acc) (l : list item) : acc :=
  mk_acc (a_line a + length l) (a_total a + length (leaf_outcomes l)) (a_pass a + count is_pass l) (a_fail a + count is_fail l)
    (a_skip a + count is_other l) (a_results a ++ emit (columns descriptions) (a_line a + 1) l)
    (a_descriptions a ++ emit (dcolumns descriptions) (a_line a + 1) l).
Lemma emit_app f a : forall n b, emit f n (a ++ b) = emit f n a ++ emit f (n + length a) b.
Proof.
  induction a as [|i a IH]; intros n b; cbn [emit app length]; [now rewrite Nat.add_0_r|]. rewrite IH, app_assoc.
  now replace (n + 1 + length a) with (n + S (length a)) by lia.
Qed.
Lemma outcomes_app a b : leaf_outcomes (a ++ b) = leaf_outcomes a ++ leaf_outcomes b.
Proof. unfold leaf_outcomes. now rewrite map_app, concat_app. Qed.
Lemma count_app f a b : count f (a ++ b) = count f a + count f b.
Proof. unfold count. now rewrite outcomes_app, filter_app, app_length. Qed.
Lemma put_items_app d a x y : put_items d (put_items d a x) y = put_items d a (x ++ y).
Proof.
  unfold put_items. cbn [a_line a_total a_pass a_fail a_skip a_results a_descriptions].
  rewrite !emit_app, !count_app, !app_length, outcomes_app, app_length, !app_assoc, !Nat.add_assoc.
  replace (a_line a + length x + 1) with (a_line a + 1 + length x) by lia. reflexivity.
Qed.
Lemma put_items_nil d a : put_items d a [] = a.
Proof. unfold put_items. cbn. rewrite !Nat.add_0_r, !app_nil_r. now destruct a. Qed.
Lemma write_leaf_items d lk a job : write_leaf d lk a job = bind (leaf lk job) (fun l => Ok (put_items d a l)).
Proof.
  unfold write_leaf, leaf. destruct (lk job) as [[s|j]|]; try reflexivity. destruct (j_plugin j) as [p|]; [|reflexivity].
  destruct (text_eqb p LOCAL); [cbn; now rewrite put_items_nil|]. destruct (io_text p (j_io_log j)) as [log|e]; [|reflexivity]. cbn [bind].
  f_equal. unfold put_items, count, leaf_outcomes. cbn [map concat app length filter emit].
  f_equal; try (unfold is_pass, is_fail, is_other; destruct (text_eqb (j_outcome j) PASS) eqn:P, (text_eqb (j_outcome j) FAIL) eqn:F;
                try reflexivity; apply text_eqb_eq in P, F; rewrite P in F; discriminate F).
  - f_equal. rewrite app_nil_r. unfold columns. destruct d; reflexivity.
  - f_equal. rewrite app_nil_r. unfold dcolumns. destruct d; reflexivity.
Qed.
Lemma write_leaves_items d lk l : forall a, write_leaves d lk a l = bind (collect (leaf lk) l) (fun l => Ok (put_items d a l)).
Proof.
  induction l as [|job l IH]; intros a; cbn [write_leaves collect bind]; [now rewrite put_items_nil|].
  rewrite write_leaf_items. destruct (leaf lk job) as [x|e]; [|reflexivity]. cbn [bind]. rewrite IH.
  destruct (collect (leaf lk) l) as [y|e]; [|reflexivity]. cbn [bind]. now rewrite put_items_app.
Qed.
Lemma write_category_items d lk a c : write_category d lk a c = bind (cat_items lk c) (fun l => Ok (put_items d a l)).
Proof.
  unfold write_category, cat_items. destruct (c_status c) as [s|]; [|cbn; now rewrite put_items_nil].
  rewrite write_leaves_items. destruct (collect (leaf lk) (sort_by (fun j => j) (c_jobs c))) as [x|e]; [|reflexivity]. cbn [bind].
  f_equal. change (ICat (c_name c) s :: x) with ([ICat (c_name c) s] ++ x). rewrite <- put_items_app. f_equal.
  unfold put_items, count, leaf_outcomes. cbn [map concat app length filter emit columns fst snd]. rewrite !Nat.add_0_r.
  f_equal. f_equal. unfold dcolumns. destruct d; reflexivity.
Qed.
Lemma write_categories_items d lk l : forall a, write_categories d lk a l = bind (collect (cat_items lk) l) (fun l => Ok (put_items d a l)).
Proof.
  induction l as [|c l IH]; intros a; cbn [write_categories collect bind]; [now rewrite put_items_nil|].
  rewrite write_category_items. destruct (cat_items lk c) as [x|e]; [|reflexivity]. cbn [bind]. rewrite IH.
  destruct (collect (cat_items lk) l) as [y|e]; [|reflexivity]. cbn [bind]. now rewrite put_items_app.
Qed.

(** ** Cells *)
Definition functional (ws : list write) : Prop := forall r c v v', In (r, c, v) ws -> In (r, c, v') ws -> v = v'.
Lemma shows_in ws r c v : functional ws -> (shows ws r c v <-> In (r, c, v) ws).
Proof.
  intros F. split; [intros (a & b & -> & _); apply in_or_app; right; now left|]. intros I.
  assert (D : exists a w b, ws = a ++ w :: b /\ fst w = (r, c) /\ forall v', ~ In (r, c, v') b).
  { clear F. induction ws as [|w ws IH]; [destruct I|].
    destruct (in_dec (fun x y : nat * nat => ltac:(decide equality; apply Nat.eq_dec)) (r, c) (map fst ws)) as [J|J].
    - apply in_map_iff in J as (x & E & J). destruct x as [[r' c'] v']. cbn in E. injection E as -> ->.
      assert (P : forall u, In (r, c, u) ws -> exists a w b, ws = a ++ w :: b /\ fst w = (r, c) /\ forall v', ~ In (r, c, v') b).
      { clear. revert r c. induction ws as [|w ws IH]; intros r c u I; [destruct I|].
        destruct (in_dec (fun x y : nat * nat => ltac:(decide equality; apply Nat.eq_dec)) (r, c) (map fst ws)) as [J|J].
        - apply in_map_iff in J as ([[r' c'] v'] & E & J). cbn in E. injection E as -> ->.
          destruct (IH r c v' J) as (a & x & b & -> & Ex & Hb). exists (w :: a), x, b. repeat split; auto.
        - destruct I as [->|I]; [|exfalso; apply J; apply in_map_iff; now exists (r, c, u)].
          exists [], (r, c, u), ws. repeat split. intros v' I. apply J. apply in_map_iff. now exists (r, c, v'). }
      destruct (P v' J) as (a & x & b & -> & Ex & Hb). exists (w :: a), x, b. repeat split; auto.
    - destruct I as [->|I]; [|exfalso; apply J; apply in_map_iff; now exists (r, c, v)].
      exists [], (r, c, v), ws. repeat split. intros v' I. apply J. apply in_map_iff. now exists (r, c, v'). }
  destruct D as (a & w & b & -> & E & Hb). destruct w as [[r' c'] v']. cbn in E. injection E as -> ->.
  assert (v' = v) as ->. { apply (F r c); [apply in_or_app; right; now left|assumption]. }
  exists a, b. now split.
Qed.
Lemma emit_in f l : forall n r c v, In (r, c, v) (emit f n l) <-> exists i it, nth_error l i = Some it /\ r = n + i /\ In (c, v) (f it).
Proof.
  induction l as [|x l IH]; intros n r c v; cbn [emit].
  - split; [intros []|]. intros (i & it & E & _). now destruct i.
  - rewrite in_app_iff, in_map_iff, IH. split.
    + intros [([c' v'] & E & I)|(i & it & E & -> & I)].
      * injection E as <- <- <-. exists 0, x. repeat split; auto.
      * exists (S i), it. repeat split; auto. lia.
    + intros (i & it & E & -> & I). destruct i as [|i].
      * injection E as ->. left. exists (c, v). split; [cbn; now rewrite Nat.add_0_r|assumption].
      * right. exists i, it. repeat split; auto. lia.
Qed.
Definition fun_columns (f : item -> list (nat * value)) : Prop := forall it c v v', In (c, v) (f it) -> In (c, v') (f it) -> v = v'.
Lemma columns_fun d : fun_columns (columns d).
Proof.
  intros [name s|[[job j] log]] c v v'; cbn; destruct d; cbn;
    intros A B; repeat (destruct A as [A|A]; [injection A as <- <-; repeat (destruct B as [B|B]; [injection B as X; congruence || discriminate|]); destruct B|]); destruct A.
Qed.
Lemma dcolumns_fun d : fun_columns (dcolumns d).
Proof.
  unfold dcolumns. intros [name s|[[job j] log]] c v v'; destruct d; cbn; try tauto;
    intros A B; repeat (destruct A as [A|A]; [injection A as <- <-; repeat (destruct B as [B|B]; [injection B as X; congruence || discriminate|]); destruct B|]); destruct A.
Qed.

(** ** Texts *)
Lemma strict_decode s u : fst (decode true true true s) = Some u <-> Forall scalar u /\ s = utf8_text u.
Proof.
  assert (E : fst (decode true true true s) = full true s).
  { unfold decode, full, dec, dech. destruct (decode_loop true (true && negb true) (length s) s) as [[t|] [|x l]] eqn:E; cbn [andb negb] in E;
      unfold dec, dech; rewrite ?E; try reflexivity. }
  rewrite E. destruct (full_strict (length s) s (le_n _)) as [A B]. split.
  - intros F. destruct (A u F) as [P Q]. now split.
  - intros [P Q]. destruct (full true s) as [t|] eqn:F.
    + destruct (A t eq_refl) as [P' Q']. f_equal. apply C52_utf8_is_injective; congruence.
    + exfalso. apply (B eq_refl u P). now symmetry.
Qed.
Lemma strict_none s : fst (decode true true true s) = None <-> forall t, Forall scalar t -> utf8_text t <> s.
Proof.
  destruct (fst (decode true true true s)) as [u|] eqn:E.
  - split; [discriminate|]. intros H. apply strict_decode in E as [E ->]. exfalso. now apply (H u).
  - split; [|reflexivity]. intros _ t S H. assert (fst (decode true true true s) = Some t) by (apply strict_decode; split; congruence). congruence.
Qed.
Lemma uspace_blank c : uspace c = true <-> blank c.
Proof.
  unfold uspace, blank. rewrite !orb_true_iff, !andb_true_iff, existsb_exists, !N.leb_le. split.
  - intros [[[H|H]|H]|(x & I & E)].
    + assert (c = 9 \/ c = 10 \/ c = 11 \/ c = 12 \/ c = 13)%N as D by lia. cbn. intuition.
    + assert (c = 28 \/ c = 29 \/ c = 30 \/ c = 31 \/ c = 32)%N as D by lia. cbn. intuition.
    + assert (c = 8192 \/ c = 8193 \/ c = 8194 \/ c = 8195 \/ c = 8196 \/ c = 8197 \/ c = 8198 \/ c = 8199 \/ c = 8200 \/ c = 8201 \/ c = 8202)%N as D by lia.
      cbn. intuition.
    + apply N.eqb_eq in E as <-. cbn in *. intuition.
  - intros I. cbn in I.
    repeat (destruct I as [<-|I]; [first [left; left; left; lia | left; left; right; lia | left; right; lia
      | right; match goal with |- exists x, _ /\ N.eqb ?c x = true => exists c; split; [cbn; tauto|apply N.eqb_refl] end]|]). destruct I.
Qed.
Lemma udrop_spec t : exists w, t = w ++ udrop t /\ Forall blank w /\ forall c x, udrop t = c :: x -> ~ blank c.
Proof.
  induction t as [|c t (w & E & F & G)]; cbn [udrop]; [exists []; repeat split; [constructor|discriminate]|].
  destruct (uspace c) eqn:U.
  - exists (c :: w). repeat split; [cbn; now rewrite <- E|constructor; [now apply uspace_blank|assumption]|assumption].
  - exists []. repeat split; [constructor|]. intros c' x H. injection H as <- <-. rewrite <- uspace_blank. congruence.
Qed.
Lemma urstrip_trimmed t : trimmed t (urstrip t).
Proof.
  destruct (udrop_spec (rev t)) as (w & E & F & G). unfold urstrip. split.
  - exists (rev w). split; [rewrite <- rev_app_distr, <- E; now rewrite rev_involutive|]. apply Forall_forall. intros x I. rewrite <- in_rev in I.
    rewrite Forall_forall in F. auto.
  - intros x c H. apply (f_equal (@rev N)) in H. rewrite rev_involutive, rev_app_distr in H. cbn in H. eauto.
Qed.
Lemma trimmed_fun t s s' : trimmed t s -> trimmed t s' -> s = s'.
Proof.
  assert (K : forall w w' s s' : ustr, s ++ w = s' ++ w' -> Forall blank w -> Forall blank w' ->
            (forall x c, s = x ++ [c] -> ~ blank c) -> (forall x c, s' = x ++ [c] -> ~ blank c) -> s = s').
  { intros w. induction w as [|c w IH] using rev_ind; intros w' r r' E F F' G G'.
    - rewrite app_nil_r in E. subst r. destruct w' as [|c w' _] using rev_ind; [now rewrite app_nil_r|].
      exfalso. apply (G (r' ++ w') c); [now rewrite app_assoc|]. apply Forall_app in F' as [_ F']. now inversion F'.
    - apply Forall_app in F as [F1 F2]. inversion F2; subst. destruct w' as [|c' w' _] using rev_ind.
      + rewrite app_nil_r in E. subst r'. exfalso. apply (G' (r ++ w) c); [now rewrite app_assoc|assumption].
      + apply Forall_app in F' as [F1' F2']. rewrite !app_assoc in E. apply app_inj_tail in E as [E _]. eapply IH; eassumption. }
  intros [(w & E & F) G] [(w' & E' & F') G']. subst t. now apply (K w w').
Qed.
Lemma ends_line_spec c : ends_line c = true <-> ends c.
Proof.
  unfold ends_line, ends. rewrite existsb_exists. split.
  - intros (x & I & E). now apply N.eqb_eq in E as ->.
  - intros I. exists c. split; [assumption|apply N.eqb_refl].
Qed.
Lemma usplit_ulines n : forall t cur, length t <= n -> Forall (fun c => ~ ends c) cur -> ulines (rev cur ++ t) (usplit cur t).
Proof.
  induction n as [|n IH]; intros t cur L F.
  { destruct t; [|cbn in L; lia]. rewrite app_nil_r. cbn [usplit]. destruct cur as [|c cur]; [constructor|].
    apply ul_last; [intros X; apply (f_equal (@rev N)) in X; rewrite rev_involutive in X; discriminate|]. now apply Forall_rev. }
  destruct t as [|c r]; [now apply IH; [cbn; lia|]|]. cbn [usplit length] in *. destruct (ends_line c) eqn:E.
  - apply ends_line_spec in E. destruct (N.eqb c 13) eqn:C.
    + apply N.eqb_eq in C as ->. destruct r as [|d r'].
      * change (13%N :: []) with ([13%N] ++ []). apply ul_line; [now apply Forall_rev| |now apply (IH [] []); [cbn; lia|]].
        apply le_one; [assumption|]. intros (_ & r' & X). discriminate.
      * destruct (N.eqb d 10) eqn:D.
        -- apply N.eqb_eq in D as ->. change (13%N :: 10%N :: r') with ([13; 10]%N ++ r'). apply ul_line; [now apply Forall_rev|constructor|].
           apply (IH r' []); [cbn in L; lia|constructor].
        -- apply N.eqb_neq in D. change (13%N :: d :: r') with ([13%N] ++ d :: r'). apply ul_line; [now apply Forall_rev| |apply (IH (d :: r') []); [cbn in *; lia|constructor]].
           apply le_one; [assumption|]. intros (_ & r'' & X). congruence.
    + apply N.eqb_neq in C. change (c :: r) with ([c] ++ r). apply ul_line; [now apply Forall_rev| |apply (IH r []); [lia|constructor]].
      apply le_one; [assumption|]. intros (X & _). congruence.
  - replace (rev cur ++ c :: r) with (rev (c :: cur) ++ r) by (cbn [rev]; now rewrite <- app_assoc).
    apply IH; [lia|]. constructor; [|assumption]. rewrite <- ends_line_spec. congruence.
Qed.
Lemma usplitlines_ulines t : ulines t (usplitlines t).
Proof. apply (usplit_ulines (length t) t []); [lia|constructor]. Qed.
Lemma free_prefix (t u r s : ustr) : Forall (fun c => ~ ends c) t -> Forall (fun c => ~ ends c) u ->
  (exists c x, r = c :: x /\ ends c) -> (exists c x, s = c :: x /\ ends c) -> t ++ r = u ++ s -> t = u /\ r = s.
Proof.
  intros F. revert u. induction t as [|a t IH]; intros u G R S E.
  - destruct u as [|b' u]; [now split|]. exfalso. destruct R as (c & x & -> & X). cbn in E. injection E as -> E. inversion G; contradiction.
  - inversion F; subst. destruct u as [|b' u].
    + exfalso. destruct S as (c & x & -> & X). cbn in E. injection E as -> E. contradiction.
    + inversion G; subst. cbn in E. injection E as -> E. destruct (IH ltac:(assumption) u ltac:(assumption) R S E) as [-> ->]. now split.
Qed.
Lemma line_end_starts e r : line_end e r -> exists c x, e ++ r = c :: x /\ ends c.
Proof. intros [r'|c r' E _]; [exists 13%N, (10%N :: r'); split; [reflexivity|cbn; tauto]|exists c, r'; now split]. Qed.
Lemma no_end_last t e r u : Forall (fun c => ~ ends c) u -> line_end e r -> t ++ e ++ r <> u.
Proof.
  intros F L <-. destruct (line_end_starts e r L) as (c & x & E & X). rewrite E in F. apply Forall_app in F as [_ F]. now inversion F.
Qed.
Lemma ulines_fun t ls : ulines t ls -> forall ls', ulines t ls' -> ls = ls'.
Proof.
  induction 1 as [|t N F|t e r ls F L U IH]; intros ls' V.
  - inversion V as [|t' N' F' E1 E2|t' e r ls0 F' L U' E1 E2]; subst; [reflexivity|contradiction|].
    exfalso. destruct t'; [|discriminate]. destruct L; discriminate.
  - inversion V as [|t' N' F' E1 E2|t' e r ls0 F' L U' E1 E2]; subst; [contradiction|reflexivity|]. exfalso. now apply (no_end_last t' e r (t' ++ e ++ r)).
  - inversion V as [E1|t' N' F' E1 E2|t' e' r' ls0 F' L' U' E1 E2]; subst.
    + exfalso. destruct t; [|discriminate]. destruct L; discriminate.
    + exfalso. now apply (no_end_last t e r (t ++ e ++ r)).
    + apply free_prefix in E1; [|assumption|assumption|now apply line_end_starts|now apply line_end_starts].
      destruct E1 as [-> E]. f_equal. apply IH.
      assert (r' = r) as ->; [|assumption]. destruct L as [r0|c r0 X Y], L' as [r1|c' r1 X' Y']; cbn in E; try (injection E; congruence).
      * injection E as -> E. exfalso. apply Y'. split; [reflexivity|]. eauto.
      * injection E as <- E. exfalso. apply Y. split; [reflexivity|]. eauto.
Qed.
Lemma ulines_spec t ls : ulines t ls <-> ls = usplitlines t.
Proof. split; [intros H; eapply ulines_fun; [exact H|apply usplitlines_ulines]|intros ->; apply usplitlines_ulines]. Qed.
Lemma shorten_spec t u : abridged t u <-> u = shorten t.
Proof.
  unfold shorten, abridged. destruct (3 <? length (usplitlines t)) eqn:E.
  - apply Nat.ltb_lt in E. split.
    + intros [(ls & U & L & _)|(a & b & c & d & r & U & ->)]; apply ulines_spec in U; [subst; lia|]. rewrite <- U. cbn [firstn ujoin]. now rewrite <- !app_assoc.
    + intros ->. right. destruct (usplitlines t) as [|a [|b [|c [|d r]]]] eqn:S; cbn in E; try lia. exists a, b, c, d, r.
      split; [now apply ulines_spec|]. cbn [firstn ujoin]. now rewrite <- !app_assoc.
  - apply Nat.ltb_ge in E. split.
    + intros [(ls & _ & _ & ->)|(a & b & c & d & r & U & ->)]; [reflexivity|]. apply ulines_spec in U. rewrite <- U in E. cbn in E. lia.
    + intros ->. left. exists (usplitlines t). split; [apply usplitlines_ulines|now split].
Qed.
Lemma text_eqb_dec a b : text_eqb a b = if list_eq_dec ascii_dec a b then true else false.
Proof. destruct (list_eq_dec ascii_dec a b) as [->|N]; [now apply text_eqb_eq|now apply text_eqb_neq]. Qed.
Lemma special_plugin j p : j_plugin j = Some p ->
  (text_eqb p RESOURCE || text_eqb p ATTACHMENT = true <-> In (j_plugin j) [Some (T "resource"); Some (T "attachment")]).
Proof.
  intros ->. rewrite orb_true_iff, !text_eqb_eq. unfold RESOURCE, ATTACHMENT. split.
  - intros [H|H]; rewrite H; cbn; tauto.
  - intros [H|[H|[]]]; inversion H; tauto.
Qed.
Lemma utf8_text_nil u : utf8_text u = [] -> u = [].
Proof. destruct u as [|c u]; [reflexivity|]. cbn. intros H. apply app_eq_nil in H as [H _]. now apply utf8_not_nil in H. Qed.
Lemma io_text_spec j p log : j_plugin j = Some p -> (io_text p (j_io_log j) = Ok log <-> log_text j log).
Proof.
  intros P. pose proof (special_plugin j p P) as SP. unfold io_text. destruct (text_eqb p RESOURCE || text_eqb p ATTACHMENT) eqn:E.
  - apply proj1 in SP. specialize (SP eq_refl). split.
    + intros H. injection H as <-. now apply log_other.
    + intros H. inversion H; subst; [reflexivity|contradiction|contradiction].
  - assert (NS : ~ In (j_plugin j) [Some (T "resource"); Some (T "attachment")]) by (rewrite <- SP; congruence). clear SP.
    destruct (j_io_log j) as [[|x s]|] eqn:L.
    + split; [intros H; injection H as <-; now apply log_empty|]. intros H. inversion H as [|A B|t s A B C D Q]; subst; [reflexivity|reflexivity|].
      exfalso. rewrite L in D. injection D as D. symmetry in D. now apply utf8_text_nil in D.
    + destruct (fst (decode true true true (x :: s))) as [u|] eqn:D.
      * apply strict_decode in D as [D1 D2]. split.
        -- intros H. injection H as <-. apply (log_some j u); [assumption| |assumption|congruence|apply urstrip_trimmed].
           intros ->. discriminate D2.
        -- intros H. inversion H as [A|A B|t r A B C Q R]; subst; [contradiction|congruence|].
           rewrite L in Q. injection Q as Q. f_equal. apply (trimmed_fun u); [apply urstrip_trimmed|].
           replace u with t; [assumption|]. apply C52_utf8_is_injective; congruence.
      * split; [discriminate|]. intros H. inversion H as [A|A B|t r A B C Q R]; subst; [contradiction|congruence|].
        rewrite L in Q. injection Q as Q. rewrite strict_none in D. exfalso. now apply (D t).
    + split; [discriminate|]. intros H. inversion H as [A|A B|t r A B C Q R]; subst; congruence.
Qed.
Lemma io_text_ok j p : j_plugin j = Some p -> ((exists log, io_text p (j_io_log j) = Ok log) <->
  (In (j_plugin j) [Some (T "resource"); Some (T "attachment")] \/ exists t, Forall scalar t /\ j_io_log j = Some (utf8_text t))).
Proof.
  intros P. split.
  - intros (log & E). apply (io_text_spec j p log P) in E. destruct E as [H|_ H|t s _ _ F H _]; [now left| |]; right; [exists []; now split|now exists t].
  - intros H. destruct (in_dec (fun a b : option text => ltac:(decide equality; apply (list_eq_dec ascii_dec))) (j_plugin j) [Some (T "resource"); Some (T "attachment")]) as [I|N].
    + exists [32%N]. apply (io_text_spec j p _ P). now apply log_other.
    + destruct H as [H|(t & F & L)]; [contradiction|]. destruct t as [|c t].
      * exists [32%N]. apply (io_text_spec j p _ P). now apply log_empty.
      * exists (urstrip (c :: t)). apply (io_text_spec j p _ P). apply (log_some j (c :: t)); [assumption|discriminate|assumption|assumption|apply urstrip_trimmed].
Qed.
Lemma comments_spec j u : comment_text j u <-> u = comments_text (j_comments j).
Proof.
  unfold comments_text. split.
  - intros [I|t s N E R]; [destruct I as [<-|[<-|[]]]; reflexivity|]. rewrite E. destruct t as [|c t]; [contradiction|].
    eapply trimmed_fun; [exact R|apply urstrip_trimmed].
  - intros ->. destruct (j_comments j) as [[|c t]|] eqn:E.
    + apply comment_none. rewrite E. cbn. tauto.
    + apply (comment_some j (c :: t)); [discriminate|assumption|apply urstrip_trimmed].
    + apply comment_none. rewrite E. cbn. tauto.
Qed.

(** ** Sorting *)
From Coq Require Import Permutation.
Section Sorted.
  Context {A : Type} (key : A -> text).
  Lemma insert_perm x l : Permutation (insert_by key x l) (x :: l).
  Proof.
    induction l as [|z l IH]; cbn [insert_by]; [reflexivity|]. destruct (text_leb (key x) (key z)); [reflexivity|].
    rewrite IH. apply perm_swap.
  Qed.
  Lemma sort_perm l : Permutation (sort_by key l) l.
  Proof. induction l as [|x l IH]; cbn [sort_by]; [reflexivity|]. rewrite insert_perm. now constructor. Qed.
  Lemma weakly_increasing l : weakly key l -> NoDup (map key l) -> increasing (map key l).
  Proof.
    induction l as [|x l IH]; cbn [weakly map increasing]; [trivial|]. intros [W1 W2] N. inversion N as [|? ? N1 N2]; subst. split; [|auto].
    intros y I. apply in_map_iff in I as (z & <- & I). destruct (W1 z I) as [E|E]; [|assumption]. exfalso. apply N1. rewrite E. now apply in_map.
  Qed.
  Lemma sort_increasing l : NoDup (map key l) -> increasing (map key (sort_by key l)).
  Proof.
    intros N. apply weakly_increasing; [apply sort_weakly|]. eapply Permutation_NoDup; [|exact N]. apply Permutation_map. symmetry. apply sort_perm.
  Qed.
End Sorted.
Lemma increasing_NoDup l : increasing l -> NoDup l.
Proof.
  induction l as [|x l IH]; intros H; [constructor|]. destruct H as [H1 H2]. constructor; [|auto]. intros I. now apply (before_irrefl x), H1.
Qed.

(** ** Blocks *)
Lemma collect_spec {A} (f : A -> res (list item)) l its :
  collect f l = Ok its <-> exists ls, Forall2 (fun x y => f x = Ok y) l ls /\ its = concat ls.
Proof.
  revert its. induction l as [|x l IH]; intros its; cbn [collect].
  - split; [intros H; injection H as <-; exists []; now split|]. intros (ls & F & ->). inversion F. reflexivity.
  - rewrite bind_ok. split.
    + intros (a & E & H). apply bind_ok in H as (b & Eb & H). injection H as <-. apply IH in Eb as (ls & F & ->). exists (a :: ls). split; [now constructor|reflexivity].
    + intros (ls & F & ->). inversion F as [|? y ? ls' E F']; subst. exists y. split; [assumption|]. apply bind_ok. exists (concat ls').
      split; [apply IH; now exists ls'|reflexivity].
Qed.
Lemma collect_ok {A} (f : A -> res (list item)) l : (exists its, collect f l = Ok its) <-> forall x, In x l -> exists y, f x = Ok y.
Proof.
  induction l as [|x l IH]; cbn [collect]; [split; [intros _ x []|intros _; now exists []]|]. split.
  - intros (its & H). apply bind_ok in H as (a & E & H). apply bind_ok in H as (b & Eb & _). intros z [<-|I]; [now exists a|].
    apply IH; [now exists b|assumption].
  - intros H. destruct (H x (or_introl eq_refl)) as (a & E). destruct (proj2 IH) as (b & Eb); [intros z I; apply H; now right|].
    exists (a ++ b). now rewrite E, Eb.
Qed.
Definition item_line (i : item) : line := match i with ICat n s => LCategory n s | ILeaf (job, j, _) => LJob job j end.
Definition good_item (i : item) : Prop :=
  match i with ICat _ _ => True | ILeaf (_, j, log) => exists p, j_plugin j = Some p /\ io_text p (j_io_log j) = Ok log end.
Definition leaves_of (l : list item) : list (text * jobdata) :=
  concat (map (fun i => match i with ILeaf (job, j, _) => [(job, j)] | ICat _ _ => [] end) l).
Lemma columns_line d it c v : good_item it -> (In (c, v) (columns d it) <-> line_shows (item_line it) c v).
Proof.
  destruct it as [name s|[[job j] log]]; cbn [good_item item_line].
  - intros _. cbn. split.
    + intros [H|[H|[]]]; injection H as <- <-; constructor.
    + intros H. inversion H; subst; tauto.
  - intros (p & P & L). apply (io_text_spec j p log P) in L.
    assert (LF : forall log', log_text j log' -> log' = log).
    { intros log' L'. apply (io_text_spec j p _ P) in L, L'. congruence. }
    assert (CT : cert_text (j_cert j) = match j_cert j with Some t => if list_eq_dec ascii_dec t (T "unspecified") then [] else t | None => [] end).
    { unfold cert_text. destruct (j_cert j) as [t|]; [|reflexivity]. rewrite text_eqb_dec. now destruct (list_eq_dec ascii_dec t (T "unspecified")). }
    assert (X : In (c, v) (columns d (ILeaf (job, j, log))) <-> In (c, v)
      [(2, Sigil (j_outcome j)); (3, Txt (j_summary j)); (4, Label (j_outcome j)); (5, Txt (cert_text (j_cert j)));
       (6, Utx (shorten log)); (7, Utx (comments_text (j_comments j)))]).
    { unfold columns. destruct d; cbn [In app]; tauto. }
    rewrite X. clear X. cbn [In]. split.
    + intros [H|[H|[H|[H|[H|[H|[]]]]]]]; injection H as <- <-.
      * constructor.
      * constructor.
      * constructor.
      * rewrite CT. constructor.
      * eapply ls_log; [exact L|]. now apply shorten_spec.
      * apply ls_comments. now apply comments_spec.
    + intros H. inversion H as [| | | | |job' j' E|job' j' log' u L' B|job' j' u B]; subst; try tauto.
      * rewrite CT. tauto.
      * apply LF in L' as ->. apply shorten_spec in B as ->. tauto.
      * apply comments_spec in B as ->. tauto.
Qed.
Lemma dcolumns_line it c v : In (c, v) (dcolumns true it) <-> line_describes (item_line it) c v.
Proof.
  destruct it as [name s|[[job j] log]]; cbn; split.
  - intros [H|[]]; injection H as <- <-; constructor.
  - intros H; inversion H; subst; tauto.
  - intros [H|[H|[]]]; injection H as <- <-; constructor.
  - intros H; inversion H; subst; tauto.
Qed.
Lemma leaf_spec lk job its : leaf lk job = Ok its <->
  exists j p, lk job = Some (Job j) /\ j_plugin j = Some p /\
    ((p = T "local" /\ its = []) \/ (p <> T "local" /\ exists log, io_text p (j_io_log j) = Ok log /\ its = [ILeaf (job, j, log)])).
Proof.
  unfold leaf. destruct (lk job) as [[s|j]|]; try (split; [discriminate|intros (j0 & p & H & _); discriminate]).
  destruct (j_plugin j) as [p|] eqn:P; [|split; [discriminate|intros (j0 & p & H & Q & _); injection H as ->; congruence]].
  rewrite text_eqb_dec. change LOCAL with (T "local"). destruct (list_eq_dec ascii_dec p (T "local")) as [E|N].
  - split.
    + intros H. injection H as <-. exists j, p. repeat split; auto.
    + intros (j0 & p0 & H & Q & [[_ ->]|[N _]]); [reflexivity|]. injection H as <-. congruence.
  - rewrite bind_ok. split.
    + intros (log & L & H). injection H as <-. exists j, p. repeat split; auto. right. split; [assumption|]. now exists log.
    + intros (j0 & p0 & H & Q & [[E _]|[_ (log & L & ->)]]); injection H as <-; assert (p0 = p) as -> by congruence; [contradiction|]. now exists log.
Qed.
Lemma leaves_spec lk jobs : forall its, increasing jobs -> collect (leaf lk) jobs = Ok its ->
  map item_line its = map (fun jj => LJob (fst jj) (snd jj)) (leaves_of its) /\
  increasing (map fst (leaves_of its)) /\
  Forall good_item its /\
  leaf_outcomes its = map (fun jj => j_outcome (snd jj)) (leaves_of its) /\
  (forall job, In job jobs -> exists j, lk job = Some (Job j)) /\
  (forall job j, In (job, j) (leaves_of its) <-> In job jobs /\ lk job = Some (Job j) /\ ~ is_local j).
Proof.
  induction jobs as [|job jobs IH]; intros its I H.
  - cbn in H. injection H as <-. cbn. repeat split; auto; try (intros; contradiction). intros [[] _].
  - cbn [collect] in H. apply bind_ok in H as (a & E & H). apply bind_ok in H as (b & Eb & H). injection H as <-.
    destruct I as [I1 I2]. destruct (IH b I2 Eb) as (A1 & A2 & A3 & A4 & A6 & A5). apply leaf_spec in E as (j & p & L & P & [[-> ->]|(N & log & T & ->)]).
    + cbn [app]. repeat split; auto.
      * intros job0 [<-|I]; [now exists j|auto].
      * apply A5 in H as (X & _). now right.
      * now apply A5 in H as (_ & X & _).
      * now apply A5 in H as (_ & _ & X).
      * intros ([<-|X] & Y & Z); [|now apply A5]. exfalso. apply Z. unfold is_local. congruence.
    + change ([ILeaf (job, j, log)] ++ b) with (ILeaf (job, j, log) :: b).
      change (leaves_of (ILeaf (job, j, log) :: b)) with ((job, j) :: leaves_of b).
      change (leaf_outcomes (ILeaf (job, j, log) :: b)) with (j_outcome j :: leaf_outcomes b). cbn [map item_line fst snd increasing].
      repeat split; auto.
      * now rewrite A1.
      * intros y I. apply in_map_iff in I as ([job' j'] & <- & I). apply A5 in I as (I & _). now apply I1.
      * constructor; [|assumption]. exists p. now split.
      * now rewrite A4.
      * intros job0 [<-|I]; [now exists j|auto].
      * destruct H as [H|H]; [injection H as <- <-; now left|]. apply A5 in H as (X & _). now right.
      * destruct H as [H|H]; [injection H as <- <-; assumption|]. now apply A5 in H as (_ & X & _).
      * destruct H as [H|H]; [injection H as <- <-; unfold is_local; congruence|]. now apply A5 in H as (_ & _ & X).
      * intros ([<-|X] & Y & Z); [left; congruence|right; now apply A5].
Qed.

Lemma leaves_app a b : leaves_of (a ++ b) = leaves_of a ++ leaves_of b.
Proof. unfold leaves_of. now rewrite map_app, concat_app. Qed.

(** ** The layout *)
Section Layout.
  Variable d : data.
  Hypothesis ND : well_formed d.
  Lemma within_belongs name job j : In (job, j) (d_results d) /\ within (d_categories d) name (job, j) = true <-> belongs d name job j.
  Proof. unfold belongs, within. cbn [snd]. rewrite is_status_true, find_in by apply ND. reflexivity. Qed.
  Lemma belongs_fun name name' job j : belongs d name job j -> belongs d name' job j -> name = name'.
  Proof.
    intros [_ A] [_ B]. rewrite <- find_in in A, B by apply ND. congruence.
  Qed.
  Lemma result_fun job j j' : In (job, j) (d_results d) -> In (job, j') (d_results d) -> j = j'.
  Proof. intros A B. rewrite <- find_in in A, B by apply ND. congruence. Qed.
  Lemma in_jobs_of name job : In job (jobs_of (d_categories d) (d_results d) name) <-> exists j, belongs d name job j.
  Proof.
    unfold jobs_of. rewrite in_map_iff. split.
    - intros ([job' j] & E & I). cbn in E. subst job'. apply filter_In in I as [I W]. exists j. now apply within_belongs.
    - intros (j & B). exists (job, j). split; [reflexivity|]. apply filter_In. now apply within_belongs.
  Qed.
  Lemma jobs_of_NoDup name : NoDup (jobs_of (d_categories d) (d_results d) name).
  Proof.
    unfold jobs_of. destruct ND as [N _]. induction (d_results d) as [|[job j] l IH]; cbn [filter map]; [constructor|].
    inversion N as [|? ? N1 N2]; subst. destruct (within (d_categories d) name (job, j)); cbn [map fst]; [|auto]. constructor; [|auto].
    intros I. apply N1. apply in_map_iff in I as (x & E & I). apply filter_In in I as [I _]. apply in_map_iff. now exists x.
  Qed.
  Lemma status_verdict name s : (exists job j, belongs d name job j) -> status_of (d_categories d) (d_results d) name = Some s -> verdict d name s.
  Proof.
    intros (job0 & j0 & B0). unfold status_of. rewrite status_fold by (cbn; tauto). cbn [is_status orb].
    assert (X : forall o, existsb (fun x => text_eqb x o) (map (fun jj => j_outcome (snd jj)) (filter (within (d_categories d) name) (d_results d))) = true <-> some_outcome d name o).
    { intros o. rewrite existsb_exists. unfold some_outcome. split.
      - intros (x & I & E). apply text_eqb_eq in E as ->. apply in_map_iff in I as ([job j] & E & I). apply filter_In in I as [I W].
        exists job, j. split; [now apply within_belongs|assumption].
      - intros (job & j & B & E). exists o. split; [|now apply text_eqb_eq]. apply in_map_iff. exists (job, j). split; [assumption|].
        apply filter_In. now apply within_belongs. }
    pose proof (X FAIL) as XF. pose proof (X PASS) as XP. clear X. unfold verdict. change (T "fail") with FAIL. change (T "pass") with PASS. change (T "skip") with SKIP.
    destruct (existsb (fun o => text_eqb o FAIL) _).
    - intros H. injection H as <-. left. split; [now apply XF|reflexivity].
    - assert (~ some_outcome d name FAIL) by (rewrite <- XF; discriminate). destruct (existsb (fun o => text_eqb o PASS) _).
      + intros H1. injection H1 as <-. right. left. repeat split; [assumption|]. now apply XP.
      + assert (~ some_outcome d name PASS) by (rewrite <- XP; discriminate).
        destruct (filter (within (d_categories d) name) (d_results d)) as [|jj r] eqn:F.
        * exfalso. assert (I : In (job0, j0) (filter (within (d_categories d) name) (d_results d))) by (apply filter_In; now apply within_belongs).
          rewrite F in I. destruct I.
        * cbn [map]. intros H1. injection H1 as <-. right. right. now repeat split.
  Qed.
  Lemma status_some name : (exists job j, belongs d name job j) -> exists s, status_of (d_categories d) (d_results d) name = Some s.
  Proof.
    intros (job0 & j0 & B0). unfold status_of. rewrite status_fold by (cbn; tauto).
    destruct (is_status None FAIL || _); [eauto|]. destruct (is_status None PASS || _); [eauto|].
    destruct (filter (within (d_categories d) name) (d_results d)) as [|jj r] eqn:F; [|cbn; eauto].
    exfalso. assert (I : In (job0, j0) (filter (within (d_categories d) name) (d_results d))) by (apply filter_In; now apply within_belongs).
    rewrite F in I. destruct I.
  Qed.
  Variable cats : list cat.
  Hypothesis TI : tree_inv (d_categories d) (d_results d) cats.
  Lemma cat_name name : In name (map c_name cats) <-> exists job j, belongs d name job j.
  Proof.
    destruct TI as (_ & _ & H). rewrite H. split.
    - intros ([job j] & I & W). exists job, j. now apply within_belongs.
    - intros (job & j & B). exists (job, j). now apply within_belongs.
  Qed.
  Lemma lookup_spec job j : lookup (d_results d) cats job = Some (Job j) <-> In (job, j) (d_results d) /\ forall job' j', ~ belongs d job job' j'.
  Proof.
    unfold lookup. destruct (List.find (fun c => text_eqb (c_name c) job) cats) as [c|] eqn:F.
    - apply find_some in F as [I E]. apply text_eqb_eq in E. split; [discriminate|]. intros [_ H]. exfalso.
      destruct (proj1 (cat_name job)) as (job' & j' & B); [rewrite <- E; now apply in_map|]. now apply (H job' j').
    - assert (N : ~ exists job' j', belongs d job job' j').
      { rewrite <- cat_name. intros I. apply in_map_iff in I as (c & E & I). eapply List.find_none in F; [|exact I]. cbn in F. apply text_eqb_neq in F. contradiction. }
      destruct (find job (d_results d)) as [j0|] eqn:G; cbn [option_map].
      + apply find_in in G; [|apply ND]. split.
        * intros H. injection H as <-. split; [assumption|]. intros job' j' B. apply N. eauto.
        * intros [H _]. f_equal. f_equal. eapply result_fun; eassumption.
      + split; [discriminate|]. intros [H _]. apply (find_in job (d_results d) j) in H; [congruence|apply ND].
  Qed.
  Definition lk := lookup (d_results d) cats.
  Definition item_block (l : list item) : block :=
    match l with ICat n s :: r => (n, s, leaves_of r) | _ => ([], [], []) end.
  Lemma cat_items_spec c its : In c cats -> cat_items lk c = Ok its ->
    exists s r, its = ICat (c_name c) s :: r /\ map item_line its = block_lines (item_block its) /\ fst (fst (item_block its)) = c_name c /\
      Forall good_item its /\ good_block d (item_block its) /\
      leaf_outcomes its = map (fun jj => j_outcome (snd jj)) (leaves_of its) /\ leaves_of its = snd (item_block its).
  Proof.
    intros I H. unfold cat_items in H. destruct TI as (N & TJ & TN). destruct (TJ c I) as [J S].
    assert (B : exists job j, belongs d (c_name c) job j) by (apply cat_name; now apply in_map).
    destruct (status_some _ B) as (s & E). rewrite S, E in H. apply bind_ok in H as (r & Er & H). injection H as <-. exists s, r.
    assert (IN : increasing (sort_by (fun j => j) (c_jobs c))).
    { pose proof (sort_increasing (fun j : text => j) (c_jobs c)) as X. rewrite !map_id in X. apply X. rewrite J. apply jobs_of_NoDup. }
    destruct (leaves_spec lk _ r IN Er) as (A1 & A2 & A3 & A4 & A6 & A5). split; [reflexivity|].
    cbn [item_block fst snd map item_line]. unfold block_lines. cbn [fst snd].
    split; [now rewrite A1|]. split; [reflexivity|]. split; [constructor; [exact Logic.I|assumption]|]. split; [|split; [exact A4|reflexivity]].
    split; [|split; [exact A2|]]; cbn [fst snd].
    - now apply status_verdict.
    - intros job j. rewrite A5, sort_In, J, in_jobs_of. unfold lk. rewrite lookup_spec. split.
      + intros ((j' & B') & (I' & _) & L). split; [|assumption]. destruct B' as [B1 B2]. rewrite (result_fun job j j' I' B1). now split.
      + intros (B' & L). split; [now exists j|]. split; [|assumption]. apply lookup_spec.
        assert (IJ : In job (sort_by (fun j => j) (c_jobs c))) by (rewrite sort_In, J; apply in_jobs_of; now exists j).
        destruct (A6 job IJ) as (j1 & E1). unfold lk in E1. rewrite E1. apply lookup_spec in E1 as [E1 _].
        f_equal. f_equal. apply (result_fun job); [exact E1|apply B'].
  Qed.
  Lemma cats_items_spec its : collect (cat_items lk) (sort_by c_name cats) = Ok its ->
    exists ls, its = concat ls /\ Forall2 (fun c l => cat_items lk c = Ok l) (sort_by c_name cats) ls /\
      map item_line its = concat (map block_lines (map item_block ls)) /\
      map (fun b => fst (fst b)) (map item_block ls) = map c_name (sort_by c_name cats) /\
      Forall good_item its /\ Forall (good_block d) (map item_block ls) /\
      leaf_outcomes its = map (fun jj => j_outcome (snd jj)) (leaves_of its) /\
      leaves_of its = concat (map snd (map item_block ls)).
  Proof.
    intros H. apply collect_spec in H as (ls & F & ->). exists ls. split; [reflexivity|]. split; [assumption|].
    assert (SUB : forall c, In c (sort_by c_name cats) -> In c cats) by (intros c; apply sort_In).
    induction F as [|c l cs ls E F IH]; [repeat split; constructor|].
    destruct (cat_items_spec c l (SUB c (or_introl eq_refl)) E) as (s & r & -> & A1 & A2 & A3 & A4 & A5 & A6).
    destruct IH as (B1 & B2 & B3 & B4 & B5 & B6); [intros c' I'; apply SUB; now right|].
    cbn [concat map] in *. rewrite map_app. repeat split.
    - rewrite B1. f_equal. exact A1.
    - rewrite B2. f_equal.
    - apply Forall_app. now split.
    - now constructor.
    - rewrite outcomes_app, leaves_app, map_app. now rewrite A5, B5.
    - rewrite leaves_app. f_equal. exact B6.
  Qed.
  Lemma cats_NoDup : increasing (map c_name (sort_by c_name cats)).
  Proof. apply sort_increasing. apply TI. Qed.
  Lemma items_layout its : collect (cat_items lk) (sort_by c_name cats) = Ok its -> layout d (map item_line its).
  Proof.
    intros H. apply cats_items_spec in H as (ls & -> & _ & A1 & A2 & _ & A4 & _). exists (map item_block ls). split; [exact A1|].
    rewrite A2. split; [apply cats_NoDup|]. split; [|exact A4]. intros name. rewrite <- cat_name, !in_map_iff.
    split; intros (c & E & I); exists c; (split; [exact E|]); now apply (sort_In c_name).
  Qed.
End Layout.

(** ** Counting *)
Lemma NoDup_app_intro {A} (a b : list A) : NoDup a -> NoDup b -> (forall x, In x a -> ~ In x b) -> NoDup (a ++ b).
Proof.
  induction a as [|x a IH]; intros N M D; [assumption|]. inversion N; subst. cbn. constructor.
  - rewrite in_app_iff. intros [I|I]; [contradiction|]. apply (D x); [now left|assumption].
  - apply IH; auto. intros y I. apply D. now right.
Qed.
Lemma NoDup_map_fst {A B} (l : list (A * B)) : NoDup (map fst l) -> NoDup l.
Proof.
  induction l as [|x l IH]; intros N; [constructor|]. inversion N; subst. constructor; [|auto]. intros I. apply H1. now apply in_map.
Qed.
Lemma blocks_NoDup d blocks : well_formed d -> increasing (map (fun b => fst (fst b)) blocks) -> Forall (good_block d) blocks ->
  NoDup (concat (map snd blocks)).
Proof.
  intros W. induction blocks as [|b bs IH]; intros I F; cbn [map concat]; [constructor|].
  destruct I as [I1 I2]. inversion F as [|? ? G F']; subst. apply NoDup_app_intro; [| now apply IH|].
  - destruct G as (_ & G & _). apply NoDup_map_fst. now apply increasing_NoDup.
  - intros [job j] A B. apply in_concat in B as (l & L & B). apply in_map_iff in L as (b' & <- & L).
    destruct G as (_ & _ & G). apply G in A as [A _]. rewrite Forall_forall in F'. destruct (F' b' L) as (_ & _ & G'). apply G' in B as [B _].
    apply (before_irrefl (fst (fst b))). rewrite (belongs_fun d W _ _ job j A B) at 2. apply I1. now apply (in_map (fun b => fst (fst b))).
Qed.
Lemma in_counted d job j : In (job, j) (counted d) <-> In (job, j) (d_results d) /\ ~ is_local j.
Proof.
  unfold counted, is_local. rewrite filter_In. cbn [snd]. destruct (j_plugin j) as [p|].
  - destruct (list_eq_dec ascii_dec p (T "local")) as [->|N]; split; intros [A B]; split; auto; try discriminate; try congruence.
  - split; intros [A B]; split; auto. discriminate.
Qed.
Lemma layout_jobs d blocks : well_formed d -> (forall job j, In (job, j) (d_results d) -> exists name, belongs d name job j) ->
  increasing (map (fun b => fst (fst b)) blocks) ->
  (forall name, In name (map (fun b => fst (fst b)) blocks) <-> exists job j, belongs d name job j) -> Forall (good_block d) blocks ->
  Permutation (concat (map snd blocks)) (counted d).
Proof.
  intros W K I N F. apply NoDup_Permutation.
  - now apply (blocks_NoDup d).
  - unfold counted. apply NoDup_filter. apply NoDup_map_fst. apply W.
  - intros [job j]. rewrite in_counted, in_concat. split.
    + intros (l & L & B). apply in_map_iff in L as (b & <- & L). rewrite Forall_forall in F. destruct (F b L) as (_ & _ & G).
      apply G in B as [[B _] X]. now split.
    + intros [A X]. destruct (K job j A) as (name & B). assert (IN : In name (map (fun b => fst (fst b)) blocks)) by (apply N; eauto).
      apply in_map_iff in IN as (b & <- & L). exists (snd b). split; [now apply in_map|]. rewrite Forall_forall in F. destruct (F b L) as (_ & _ & G). now apply G.
Qed.
Lemma filter_length_perm {A} (f : A -> bool) l l' : Permutation l l' -> length (filter f l) = length (filter f l').
Proof.
  induction 1 as [|x l l' P IH|x y l|l l' l'' P IH Q IH']; cbn [filter]; [reflexivity| | |congruence].
  - destruct (f x); cbn; congruence.
  - destruct (f x), (f y); reflexivity.
Qed.
Lemma count_ended f o its l : leaf_outcomes its = map (fun jj : text * jobdata => j_outcome (snd jj)) (leaves_of its) -> Permutation (leaves_of its) l ->
  (forall x, f x = text_eqb x o) -> count f its = ended o l.
Proof.
  intros E P F. unfold count, ended. rewrite E. rewrite <- (filter_length_perm _ _ _ P). clear E P. induction (leaves_of its) as [|jj r IH]; [reflexivity|].
  cbn [map filter]. rewrite F, text_eqb_dec. destruct (list_eq_dec ascii_dec (j_outcome (snd jj)) o); cbn [length]; now rewrite IH.
Qed.
Lemma count_split its : count is_pass its + count is_fail its + count is_other its = length (leaf_outcomes its).
Proof.
  unfold count. induction (leaf_outcomes its) as [|o l IH]; [reflexivity|]. cbn [filter length].
  unfold is_pass, is_fail, is_other in *. destruct (text_eqb o PASS) eqn:P, (text_eqb o FAIL) eqn:F; cbn [negb andb length]; try lia.
  apply text_eqb_eq in P, F. rewrite P in F. discriminate F.
Qed.

(** ** Texts below headings *)
Definition kept (l : list (text * option ustr)) : list (text * list ustr) :=
  concat (map (fun a => match snd a with Some u => [(fst a, usplitlines u)] | None => [] end) l).
Lemma write_lines_in ls : forall row r c v, In (r, c, v) (write_lines row ls) <-> c = 1 /\ exists k l, nth_error ls k = Some l /\ r = row + k /\ v = Utx l.
Proof.
  induction ls as [|l ls IH]; intros row r c v; cbn [write_lines In].
  - split; [intros []|]. intros (_ & k & l & E & _). now destruct k.
  - rewrite IH. split.
    + intros [H|(-> & k & x & E & -> & ->)].
      * injection H as <- <- <-. split; [reflexivity|]. exists 0, l. repeat split. lia.
      * split; [reflexivity|]. exists (S k), x. repeat split; [assumption|lia].
    + intros (-> & k & x & E & -> & ->). destruct k as [|k]; [left; injection E as ->; now rewrite Nat.add_0_r|].
      right. split; [reflexivity|]. exists k, x. repeat split; [assumption|lia].
Qed.
Lemma write_texts_in l : forall i r c v, In (r, c, v) (write_texts i l) <-> c = 1 /\ written_below i (kept l) r v.
Proof.
  induction l as [|[name [u|]] l IH]; intros i r c v; cbn [write_texts].
  - split; [intros []|]. intros [_ H]. inversion H.
  - change (kept ((name, Some u) :: l)) with ((name, usplitlines u) :: kept l). cbn [In]. rewrite in_app_iff, write_lines_in, IH.
    replace (i + 1 + (1 + length (usplitlines u)) + 1) with (i + 3 + length (usplitlines u)) by lia. split.
    + intros [H|[(-> & k & x & E & -> & ->)|[-> H]]].
      * injection H as <- <- <-. split; [reflexivity|constructor].
      * split; [reflexivity|]. now constructor.
      * split; [reflexivity|]. now apply wb_later.
    + intros [-> H]. inversion H; subst.
      * now left.
      * right. left. split; [reflexivity|]. eauto.
      * right. right. now split.
  - change (kept ((name, None) :: l)) with (kept l). apply IH.
Qed.
Lemma written_below_ge i l r v : written_below i l r v -> i <= r.
Proof. induction 1; lia. Qed.
Lemma written_below_fun i l r v : written_below i l r v -> forall v', written_below i l r v' -> v = v'.
Proof.
  induction 1 as [row name ls r|row name ls r k l E|row name ls r row' v H IH]; intros v' K.
  - inversion K as [? ? ? ? |? ? ? ? k l E|? ? ? ? ? ? X]; subst; [reflexivity|lia|]. apply written_below_ge in X. lia.
  - assert (k < length ls) by (apply nth_error_Some; congruence).
    inversion K as [? ? ? ? E0|? ? ? ? k' l' E'|? ? ? ? ? ? X]; subst; [lia| |].
    + assert (k' = k) as -> by lia. congruence.
    + apply written_below_ge in X. lia.
  - pose proof (written_below_ge _ _ _ _ H) as G. inversion K as [? ? ? ? E0|? ? ? ? k' l' E'|? ? ? ? ? ? X]; subst; [lia| |auto].
    assert (k' < length ls) by (apply nth_error_Some; congruence). lia.
Qed.
Lemma texts_shows l r c v : shows (write_texts 4 l ++ [title]) r c v <->
  (r, c, v) = (1, 1, Txt (T "System Testing Report")) \/ c = 1 /\ written_below 4 (kept l) r v.
Proof.
  rewrite shows_in.
  - rewrite in_app_iff, write_texts_in. cbn [In]. unfold title. split; [intros [H|[H|[]]]; [now right|left; congruence]|intros [H|H]; [right; left; congruence|now left]].
  - intros r0 c0 v0 v1. rewrite !in_app_iff, !write_texts_in. cbn [In]. intros [[-> A]|[A|[]]] [[E B]|[B|[]]].
    + eapply written_below_fun; eassumption.
    + apply written_below_ge in A. unfold title in B. injection B as <-. lia.
    + apply written_below_ge in B. unfold title in A. injection A as <-. lia.
    + congruence.
Qed.
Lemma decoded_texts l : texts_of l (kept (map (fun a => (fst a, fst (decode true true true (snd a)))) l)).
Proof.
  induction l as [|[name s] l IH]; [constructor|]. cbn [map fst snd]. destruct (fst (decode true true true s)) as [u|] eqn:E.
  - apply strict_decode in E as [S ->]. apply to_text; [assumption|apply usplitlines_ulines|exact IH].
  - apply to_binary; [now apply strict_none|exact IH].
Qed.
Lemma resource_logs_spec l : forall logs, resource_logs l = Ok logs -> exists bs, resource_texts l bs /\ texts_of bs (kept logs).
Proof.
  induction l as [|[job j] l IH]; intros logs H; cbn [resource_logs] in H; [injection H as <-; exists []; split; constructor|].
  destruct (j_plugin j) as [p|] eqn:P; [|discriminate]. rewrite text_eqb_dec in H. change RESOURCE with (T "resource") in H.
  destruct (list_eq_dec ascii_dec p (T "resource")) as [->|N].
  - destruct (j_io_log j) as [s|] eqn:L; [|discriminate]. apply bind_ok in H as (l' & E & H). injection H as <-.
    destruct (IH l' E) as (bs & A & B). destruct s as [|x s].
    + exists ((job, T " ") :: bs). split; [now constructor|]. change (T " ") with (utf8_text [32%N]).
      change (kept ((job, Some SPACE) :: l')) with ((job, usplitlines [32%N]) :: kept l').
      apply to_text; [repeat constructor; red; lia|apply usplitlines_ulines|assumption].
    + exists ((job, x :: s) :: bs). split; [apply rt_log; auto; discriminate|]. destruct (fst (decode true true true (x :: s))) as [u|] eqn:D.
      * apply strict_decode in D as [S D]. rewrite D. apply to_text; [assumption|apply usplitlines_ulines|assumption].
      * apply to_binary; [now apply strict_none|assumption].
  - destruct (IH logs H) as (bs & A & B). exists bs. split; [|assumption]. constructor; [congruence|assumption].
Qed.
Lemma resource_logs_ok l : (exists logs, resource_logs l = Ok logs) <->
  forall job j, In (job, j) l -> j_plugin j <> None /\ (j_plugin j = Some (T "resource") -> j_io_log j <> None).
Proof.
  induction l as [|[job j] l IH]; cbn [resource_logs]; [split; [intros _ job j []|intros _; now exists []]|]. split.
  - intros (logs & H) job' j' [E|I].
    + injection E as <- <-. destruct (j_plugin j) as [p|] eqn:P; [|discriminate]. split; [discriminate|]. intros E. injection E as ->.
      rewrite (proj2 (text_eqb_eq _ _)) in H by reflexivity. destruct (j_io_log j); [discriminate|discriminate].
    + apply (proj1 IH) with job'; [|assumption]. destruct (j_plugin j) as [p|]; [|discriminate]. destruct (text_eqb p RESOURCE); [|eauto].
      destruct (j_io_log j); [|discriminate]. apply bind_ok in H as (l' & E & _). eauto.
  - intros H. destruct (H job j (or_introl eq_refl)) as [A B]. destruct (j_plugin j) as [p|]; [|congruence].
    destruct (proj2 IH) as (l' & E); [intros job' j' I; apply (H job'); now right|]. rewrite text_eqb_dec. change RESOURCE with (T "resource").
    destruct (list_eq_dec ascii_dec p (T "resource")) as [->|N]; [|eauto]. specialize (B eq_refl). destruct (j_io_log j); [|congruence].
    rewrite E. cbn [bind]. eauto.
Qed.
