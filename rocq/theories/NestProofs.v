From Coq Require Import String Ascii List Bool Arith ZArith Lia.
From Verif Require Import ScanModel Rfc822Model JsonModel IniModel ChecksumModel CacheModel Rfc822Proofs IniProofs CacheProofs NestModel NestSpec.
Import ListNotations.
Local Open Scope nat_scope.
Local Open Scope list_scope.

(** ** Names *)
Lemma named_spec f n : named f n <-> n = basename f.
Proof.
  unfold named, basename. change slash with SLASH. split.
  - intros [N [->|(d & ->)]].
    + now rewrite basename_from_plain.
    + rewrite basename_from_app. now rewrite basename_from_plain.
  - intros ->. split; [apply basename_from_no_slash; intros []|].
    assert (K : forall f acc, ~ In SLASH acc -> basename_from acc f = rev acc ++ f \/ exists d, rev acc ++ f = d ++ SLASH :: basename_from acc f).
    { clear f. induction f as [|c f IH]; intros acc A; cbn [basename_from]; [left; now rewrite app_nil_r|].
      destruct (Ascii.eqb c SLASH) eqn:E.
      - apply Ascii.eqb_eq in E as ->. right. destruct (IH [] (fun H => H)) as [H|(d & H)]; cbn [rev app] in H.
        + exists (rev acc). now rewrite H.
        + exists (rev acc ++ SLASH :: d). rewrite <- app_assoc. cbn. f_equal. f_equal. exact H.
      - apply Ascii.eqb_neq in E. destruct (IH (c :: acc)) as [H|(d & H)]; [intros [X|X]; [congruence|contradiction]| |].
        + left. rewrite H. cbn [rev]. now rewrite <- app_assoc.
        + right. exists d. rewrite <- H. cbn [rev]. now rewrite <- app_assoc. }
    destruct (K f [] (fun H => H)) as [H|(d & H)]; cbn [rev app] in H; [left; now symmetry|right; now exists d].
Qed.
Lemma no_clash_spec files : no_clash files <-> NoDup (map basename files).
Proof.
  induction files as [|f r IH]; cbn [map].
  - split; [constructor|]. intros _ a f b g c E. destruct a; discriminate.
  - split.
    + intros H. constructor.
      * intros I. apply in_map_iff in I as (g & E & I). apply in_split in I as (b & c & ->). apply (H [] f b g c eq_refl (basename f)).
        split; apply named_spec; congruence.
      * apply IH. intros a f' b g c -> n. apply (H (f :: a) f' b g c). reflexivity.
    + intros N a f' b g c E n [A B]. inversion N as [|? ? N1 N2]; subst. destruct a as [|x a].
      * cbn in E. injection E as <- ->. apply named_spec in A, B. apply N1. rewrite map_app. apply in_or_app. right. left. congruence.
      * cbn in E. injection E as <- ->. now apply (proj2 IH N2 a f' b g c eq_refl n).
Qed.
Lemma nest_files_gathered ns ps : gathered ns ps (nest_files ns ps).
Proof.
  unfold nest_files. induction ps as [|p ps IH]; cbn [map concat]; [constructor|]. destruct (text_eqb ns (p_namespace p)) eqn:E.
  - apply text_eqb_eq in E. constructor; [congruence|assumption].
  - apply text_eqb_neq in E. cbn [app]. constructor; [congruence|assumption].
Qed.
Lemma gathered_fun ns ps l : gathered ns ps l -> l = nest_files ns ps.
Proof.
  unfold nest_files. induction 1 as [|p r l E G IH|p r l E G IH]; cbn [map concat]; [reflexivity| |].
  - rewrite <- E, (proj2 (text_eqb_eq _ _) eq_refl). rewrite E. now rewrite IH.
  - destruct (text_eqb ns (p_namespace p)) eqn:X; [apply text_eqb_eq in X; congruence|exact IH].
Qed.
Lemma in_nest_files ns ps f : In f (nest_files ns ps) <-> available ns ps f.
Proof.
  unfold nest_files, available. rewrite in_concat. split.
  - intros (l & L & I). apply in_map_iff in L as (p & <- & L). destruct (text_eqb ns (p_namespace p)) eqn:E; [|destruct I].
    apply text_eqb_eq in E. exists p. repeat split; auto.
  - intros (p & P & E & I). exists (p_executables p). split; [|assumption]. apply in_map_iff. exists p. split; [|assumption].
    now rewrite (proj2 (text_eqb_eq _ _) (eq_sym E)).
Qed.
Lemma link_all_spec nest files : forall seen,
  (snd (link_all nest seen files) = None <-> NoDup (map basename files) /\ forall f, In f files -> ~ In (basename f) seen) /\
  (snd (link_all nest seen files) = None -> fst (link_all nest seen files) = map (fun f => Link f (join nest (basename f))) files) /\
  (forall x, snd (link_all nest seen files) = Some x -> x = FileExistsErr) /\
  (forall x, In x (fst (link_all nest seen files)) -> exists f, In f files /\ x = Link f (join nest (basename f))).
Proof.
  induction files as [|f r IH]; intros seen; cbn [link_all map].
  - cbn. repeat split; auto; try discriminate; try constructor; intros; contradiction.
  - destruct (tmem (basename f) seen) eqn:E.
    + apply tmem_In in E. cbn [fst snd]. repeat split; try discriminate.
      * intros [_ H]. exfalso. apply (H f); [now left|assumption].
      * intros x X. now injection X as <-.
      * intros x [].
    + assert (E' : ~ In (basename f) seen) by (rewrite <- tmem_In; congruence).
      destruct (IH (basename f :: seen)) as (A & B & C & D). cbn [fst snd]. repeat split; auto.
      * apply A in H as [H1 H2]. constructor; [|assumption]. intros I. apply in_map_iff in I as (g & G & I). apply (H2 g I). now left.
      * apply A in H as [H1 H2]. intros g [<-|I]; [assumption|]. intros X. apply (H2 g I). now right.
      * intros [N H]. apply A. inversion N as [|? ? N1 N2]; subst. split; [assumption|]. intros g I [X|X].
        -- apply N1. rewrite X. now apply in_map.
        -- now apply (H g (or_intror I)).
      * intros H. now rewrite B.
      * intros x [<-|I]; [exists f; split; [now left|reflexivity]|]. destruct (D x I) as (g & G & ->). exists g. split; [now right|reflexivity].
Qed.

(** ** Leftovers *)
Lemma node_ind' (P : node -> Prop) : P File -> P LinkToDir -> (forall r l, Forall (fun e => P (snd e)) l -> P (Dir r l)) -> forall n, P n.
Proof.
  intros A B C. fix IH 1. intros [| |r l]; [exact A|exact B|]. apply C. induction l as [|[name n] l IHl]; constructor; [apply IH|exact IHl].
Qed.
Lemma walk_dir top path l : walk top path (Dir true l) =
  (if top then [] else [path]) ++ map (fun e => join path (fst e)) (filter (fun e => is_file (snd e)) l) ++
  concat (map (fun e => walk false (join path (fst e)) (snd e)) l).
Proof.
  cbn [walk]. f_equal. f_equal. induction l as [|[name n] l IH]; [reflexivity|]. cbn [map concat fst snd]. now rewrite <- IH.
Qed.
Lemma is_file_spec n : is_file n = true <-> n = File.
Proof. destruct n; cbn; split; congruence. Qed.
Lemma walk_in n : forall top path q, In q (walk top path n) <->
  (top = false /\ q = path /\ exists l, n = Dir true l) \/ exists rel m, q = join path rel /\ below n rel m /\ reported m.
Proof.
  induction n as [| |r l IH] using node_ind'; intros top path q.
  - cbn. split; [intros []|]. intros [(_ & _ & l & H)|(rel & m & _ & H & _)]; [discriminate|inversion H].
  - cbn. split; [intros []|]. intros [(_ & _ & l & H)|(rel & m & _ & H & _)]; [discriminate|inversion H].
  - destruct r; [|cbn; split; [intros []|]; intros [(_ & _ & l' & H)|(rel & m & _ & H & _)]; [discriminate|inversion H]].
    rewrite walk_dir, !in_app_iff, in_map_iff, in_concat. rewrite Forall_forall in IH. split.
    + intros [H|[([name n] & <- & H)|(ws & H & I)]].
      * left. destruct top; [destruct H|]. destruct H as [<-|[]]. repeat split. now exists l.
      * right. apply filter_In in H as [H F]. cbn [fst snd] in *. apply is_file_spec in F as ->. exists name, File.
        split; [reflexivity|]. split; [now constructor|now left].
      * right. apply in_map_iff in H as ([name n] & <- & H). cbn [fst snd] in I. apply (IH (name, n) H) in I.
        destruct I as [(_ & -> & l' & E)|(rel & m & -> & B & R)].
        -- exists name, n. split; [reflexivity|]. split; [now constructor|]. right. cbn in E. now exists l'.
        -- exists (name ++ slash :: rel), m. split; [unfold join; now rewrite <- app_assoc|]. split; [|assumption]. eapply b_deep; eassumption.
    + intros [(-> & -> & _)|(rel & m & -> & B & R)]; [left; now left|]. right. inversion B as [l0 name n I|l0 name n rel' m' I B']; subst.
      * destruct R as [->|(l' & ->)].
        -- left. exists (rel, File). split; [reflexivity|]. now apply filter_In.
        -- right. exists (walk false (join path rel) (Dir true l')). split; [apply in_map_iff; now exists (rel, Dir true l')|].
           apply (IH (rel, Dir true l') I). left. repeat split. now exists l'.
      * right. exists (walk false (join path name) n). split; [apply in_map_iff; now exists (name, n)|].
        apply (IH (name, n) I). right. exists rel', m. split; [unfold join; now rewrite <- app_assoc|]. now split.
Qed.
Lemma join_length p r : length (join p r) = length p + S (length r).
Proof. unfold join. rewrite app_length. reflexivity. Qed.
Lemma noslash_split (a b x y : text) : ~ In slash a -> ~ In slash b -> (x = [] \/ exists x', x = slash :: x') -> (y = [] \/ exists y', y = slash :: y') ->
  a ++ x = b ++ y -> a = b.
Proof.
  revert b. induction a as [|c a IH]; intros b A B X Y E.
  - destruct b as [|d b]; [reflexivity|]. exfalso. cbn in E. destruct X as [->|(x' & ->)]; [discriminate|]. injection E as <- _. apply B. now left.
  - destruct b as [|d b].
    + exfalso. cbn in E. destruct Y as [->|(y' & ->)]; [discriminate|]. injection E as -> _. apply A. now left.
    + cbn in E. injection E as -> E. f_equal. apply (IH b); auto; intros H; [apply A|apply B]; now right.
Qed.
Lemma sub_walk path name n q : In q (walk false (join path name) n) -> exists x, q = path ++ slash :: name ++ x /\ (x = [] \/ exists x', x = slash :: x').
Proof.
  intros H. apply walk_in in H as [(_ & -> & _)|(rel & m & -> & _ & _)].
  - exists []. split; [unfold join; now rewrite app_nil_r|now left].
  - exists (slash :: rel). split; [unfold join; now rewrite <- app_assoc|right; now exists rel].
Qed.
Lemma NoDup_app_intro {A} (a b : list A) : NoDup a -> NoDup b -> (forall x, In x a -> ~ In x b) -> NoDup (a ++ b).
Proof.
  induction a as [|x a IH]; intros N M D; [assumption|]. inversion N; subst. cbn. constructor.
  - rewrite in_app_iff. intros [I|I]; [contradiction|]. apply (D x); [now left|assumption].
  - apply IH; auto. intros y I. apply D. now right.
Qed.
Lemma walk_NoDup n : proper n -> forall top path, NoDup (walk top path n).
Proof.
  induction n as [| |r l IH] using node_ind'; intros P top path; [constructor|constructor|]. destruct r; [|constructor].
  inversion P as [| |r' l' N F Q]; subst. rewrite walk_dir. apply NoDup_app_intro.
  - destruct top; [constructor|]. constructor; [intros []|constructor].
  - apply NoDup_app_intro.
    + clear IH P Q F. induction l as [|[name n] l IHl]; cbn [filter map fst]; [constructor|]. inversion N as [|? ? N1 N2]; subst.
      cbn [snd]. destruct (is_file n); [|auto]. cbn [map fst]. constructor; [|auto]. intros I. apply in_map_iff in I as ([name' n'] & E & I).
      unfold join in E. apply app_inv_head in E. injection E as E. cbn [fst] in E. subst name'. apply filter_In in I as [I _].
      apply N1. apply in_map_iff. now exists (name, n').
    + clear P. induction l as [|[name n] l IHl]; cbn [map concat fst snd]; [constructor|].
      inversion N as [|? ? N1 N2]; subst. inversion F as [|? ? F1 F2]; subst. inversion Q as [|? ? Q1 Q2]; subst. inversion IH as [|? ? I1 I2]; subst.
      apply NoDup_app_intro; [now apply I1|now apply IHl|]. intros q A B. apply in_concat in B as (ws & W & B). apply in_map_iff in W as ([name' n'] & <- & W).
      apply sub_walk in A as (x & -> & X). apply sub_walk in B as (y & E & Y). apply app_inv_head in E. injection E as E. cbn [fst] in *.
      rewrite Forall_forall in F2. assert (name = name') as <- by (eapply noslash_split; [apply F1|apply (F2 (name', n') W)|exact X|exact Y|exact E]).
      apply N1. apply in_map_iff. now exists (name, n').
    + intros q A B. apply in_map_iff in A as ([name n] & <- & A). apply filter_In in A as [A T]. apply in_concat in B as (ws & W & B).
      apply in_map_iff in W as ([name' n'] & <- & W). cbn [fst snd] in *. pose proof B as B0. apply sub_walk in B as (y & E & Y).
      unfold join in E. apply app_inv_head in E. injection E as E. rewrite Forall_forall in F.
      assert (name = name') as <-.
      { eapply (noslash_split name name' [] y); [apply (F (name, n) A)|apply (F (name', n') W)|now left|exact Y|now rewrite app_nil_r]. }
      assert (n' = n) as ->. { clear - N A W. induction l as [|[k m] l IHl]; [destruct A|]. inversion N as [|? ? N1 N2]; subst.
        destruct A as [A|A], W as [W|W]; [congruence| | |auto].
        - injection A as -> ->. exfalso. apply N1. apply in_map_iff. now exists (name, n').
        - injection W as -> ->. exfalso. apply N1. apply in_map_iff. now exists (name, n). }
      apply is_file_spec in T as ->. destruct B0.
  - intros q A B. destruct top; [destruct A|]. destruct A as [<-|[]]. apply in_app_or in B as [B|B].
    + apply in_map_iff in B as ([name n] & E & _). apply (f_equal (@length ascii)) in E. rewrite join_length in E. lia.
    + apply in_concat in B as (ws & W & B). apply in_map_iff in W as ([name n] & <- & W). apply sub_walk in B as (x & E & _).
      apply (f_equal (@length ascii)) in E. rewrite app_length in E. cbn [length] in E. lia.
Qed.
