(** * Packaging meta-data: what holds *)
From Coq Require Import String Ascii List Bool Arith Lia.
From Verif Require Import ScanModel Rfc822Model Rfc822Spec IniModel Rfc822Proofs IniProofs RestartModel RestartSpec RestartProofs
  PackagingModel PackagingSpec.
Import ListNotations.
Local Open Scope nat_scope.
Local Open Scope list_scope.

(** ** Which units apply *)

Lemma says_spec d k x : says d k x = true <-> exists v, x = Some v /\ tget k d = Some v.
Proof.
  unfold says. destruct (tget k d) as [v|], x as [w|]; split; intros H; try discriminate.
  - apply text_eqb_eq in H as ->. eauto.
  - destruct H as (u & E & F). injection E as ->. injection F as ->. apply text_eqb_refl.
  - destruct H as (u & E & F). discriminate.
  - destruct H as (u & E & F). discriminate.
  - destruct H as (u & E & F). discriminate.
Qed.
Lemma is_none_spec {A} (x : option A) : is_none x = true <-> x = None.
Proof. destruct x; split; intros H; try discriminate; auto. Qed.

Definition applies (d : tdict text) (u : punit) : Prop :=
  p_name u = T "packaging meta-data" /\
  meant_for (fun k => tget k d) (tget (T "os-id") (p_fields u)) (tget (T "os-version-id") (p_fields u)).

(** A unit is taken into account exactly when it is a packaging unit that is
    meant for the system. *)
Theorem C63_which_units_apply : forall d u, is_applicable d u = true <-> applies d u.
Proof.
  intros d u. unfold is_applicable, applies, meant_for.
  destruct (text_eqb (p_name u) (T "packaging meta-data")) eqn:E; cbn [negb].
  - apply text_eqb_eq in E.
    assert (A : strategy_id_version u d = true <-> exists i, os_id u = Some i /\ tget (T "ID") d = Some i /\
        exists v, os_version_id u = Some v /\ tget (T "VERSION_ID") d = Some v).
    { unfold strategy_id_version. rewrite andb_true_iff, !says_spec. split.
      - intros ((i & A & B) & v & C & D). eauto 8.
      - intros (i & A & B & v & C & D). eauto 8. }
    assert (B : strategy_id u d = true <-> exists i, os_id u = Some i /\ tget (T "ID") d = Some i /\ os_version_id u = None).
    { unfold strategy_id. rewrite andb_true_iff, says_spec, is_none_spec. split.
      - intros ((i & B & C) & D). eauto 8.
      - intros (i & B & C & D). eauto 8. }
    assert (C : strategy_id_like u d = true <-> exists i, os_id u = Some i /\ tget (T "ID_LIKE") d = Some i /\ os_version_id u = None).
    { unfold strategy_id_like. rewrite andb_true_iff, says_spec, is_none_spec. split.
      - intros ((i & X & Y) & D). eauto 8.
      - intros (i & X & Y & D). eauto 8. }
    change (tget (T "os-id") (p_fields u)) with (os_id u). change (tget (T "os-version-id") (p_fields u)) with (os_version_id u).
    destruct (strategy_id_version u d).
    { split; [|reflexivity]. intros _. split; [exact E|]. destruct (proj1 A eq_refl) as (i & X & Y & v & Z & W). exists i. eauto 8. }
    destruct (strategy_id u d).
    { split; [|reflexivity]. intros _. split; [exact E|]. destruct (proj1 B eq_refl) as (i & X & Y & Z). exists i. eauto 8. }
    destruct (strategy_id_like u d).
    { split; [|reflexivity]. intros _. split; [exact E|]. destruct (proj1 C eq_refl) as (i & X & Y & Z). exists i. eauto 8. }
    cbn [negb andb]. split; [discriminate|]. intros (_ & i & X & [[Y Z]|[[Y (v & Z & W)]|[Y Z]]]).
    + apply B. eauto.
    + apply A. eauto 8.
    + apply C. eauto.
  - split; [discriminate|]. intros [H _]. rewrite H in E. now rewrite text_eqb_refl in E.
Qed.

(** ** Relations *)

Lemma blank_white t : blank t = true <-> white t.
Proof.
  unfold blank, white. rewrite Forall_forall, forallb_forall. reflexivity.
Qed.
Lemma strip_solid t : strip t = [] \/ solid (strip t).
Proof.
  destruct (strip t) as [|c r] eqn:E; [now left|]. right.
  pose proof (strip_idem t) as I. rewrite E in I. split.
  - exists c, r. split; [reflexivity|]. exact (stripped_head _ I).
  - destruct (exists_last (l := c :: r) ltac:(discriminate)) as (r' & c' & F). exists r', c'. split; [exact F|].
    rewrite F in I. exact (stripped_last _ _ I).
Qed.
Lemma solid_strip a r b : white a -> solid r -> white b -> strip (a ++ r ++ b) = r.
Proof.
  intros A [(c & r1 & E1 & N1) (r2 & c2 & E2 & N2)] B. apply blank_white in A, B.
  rewrite strip_app_l by exact A. rewrite strip_app_r by exact B. unfold strip.
  assert (L : lstrip r = r). { apply lstrip_id. now rewrite E1. }
  rewrite L. unfold rstrip. rewrite E2, rev_app_distr. cbn [rev app]. rewrite lstrip_id by exact N2.
  cbn [rev]. now rewrite rev_involutive.
Qed.

Definition one (p : text) : list text := match strip p with [] => [] | r => [r] end.
Lemma piece_strip p rs : piece p rs -> rs = one p.
Proof.
  unfold one. intros [q W|a r b A S B].
  - apply blank_white, strip_nil in W. now rewrite W.
  - rewrite (solid_strip a r b A S B). destruct S as [(c & r1 & -> & _) _]. reflexivity.
Qed.
Lemma strip_piece p : piece p (one p).
Proof.
  unfold one. destruct (strip_split p) as (a & b & A & B & E). destruct (strip_solid p) as [N|S].
  - rewrite N. constructor. now apply blank_white, strip_nil.
  - rewrite E at 1. destruct (strip p) as [|c r]; [destruct S as [(x & y & K & _) _]; discriminate|].
    constructor; try apply blank_white; auto.
Qed.

Definition nonblank (rel : text) : bool := match strip rel with [] => false | _ => true end.
Definition rels (sk : bool) (acc t : text) : list text := map strip (filter nonblank (split_relations sk acc t)).
Lemma keep p rest : map strip (filter nonblank (p :: rest)) = one p ++ map strip (filter nonblank rest).
Proof. cbn [filter]. unfold nonblank at 1, one. destruct (strip p) as [|c r] eqn:E; [reflexivity|]. cbn [map]. now rewrite E. Qed.

Lemma one_space p : one (" "%char :: p) = one p.
Proof. unfold one. change (" "%char :: p) with ([" "%char] ++ p). now rewrite strip_app_l by reflexivity. Qed.

Lemma comma_neq c (p : text) : ~ In ","%char (c :: p) -> Ascii.eqb c COMMA_CHAR = false /\ ~ In ","%char p.
Proof.
  intros N. split; [|intros X; apply N; now right]. apply Ascii.eqb_neq. intros ->. apply N. now left.
Qed.

(** One piece after another *)
Lemma rels_piece p : ~ In ","%char p -> forall sk acc t, (sk = true -> acc = []) ->
  rels sk acc (p ++ ","%char :: t) = one (rev acc ++ p) ++ rels true [] t.
Proof.
  induction p as [|c p IH]; intros N sk acc t K.
  - cbn [app]. unfold rels. cbn [split_relations].
    replace (sk && Ascii.eqb "," " ") with false by (destruct sk; reflexivity).
    replace (Ascii.eqb "," COMMA_CHAR) with true by reflexivity. cbn iota. rewrite keep. now rewrite app_nil_r.
  - destruct (comma_neq c p N) as [C N']. cbn [app]. unfold rels in *. cbn [split_relations].
    destruct (sk && Ascii.eqb c " ") eqn:S.
    + apply andb_true_iff in S as [-> S]. apply Ascii.eqb_eq in S as ->. rewrite (K eq_refl). cbn [rev app].
      rewrite (IH N' true [] t) by auto. cbn [rev app]. now rewrite one_space.
    + rewrite C. rewrite (IH N' false (c :: acc) t) by discriminate. cbn [rev]. now rewrite <- app_assoc.
Qed.
Lemma rels_last p : ~ In ","%char p -> forall sk acc, (sk = true -> acc = []) -> rels sk acc p = one (rev acc ++ p).
Proof.
  induction p as [|c p IH]; intros N sk acc K.
  - unfold rels. cbn [split_relations]. rewrite keep, app_nil_r. cbn [filter map]. now rewrite app_nil_r.
  - destruct (comma_neq c p N) as [C N']. unfold rels in *. cbn [split_relations].
    destruct (sk && Ascii.eqb c " ") eqn:S.
    + apply andb_true_iff in S as [-> S]. apply Ascii.eqb_eq in S as ->. rewrite (K eq_refl). cbn [rev app].
      rewrite (IH N' true []) by auto. cbn [rev app]. now rewrite one_space.
    + rewrite C. rewrite (IH N' false (c :: acc)) by discriminate. cbn [rev]. now rewrite <- app_assoc.
Qed.

Lemma relations_rels v rs : relations v rs -> forall sk, rs = rels sk [] v.
Proof.
  induction 1 as [p rs N P|p rs t rs' N P R IH]; intros sk.
  - rewrite (rels_last p N sk []) by auto. now apply piece_strip.
  - rewrite (rels_piece p N sk []) by auto. cbn [rev app]. rewrite <- (IH true). now rewrite (piece_strip p rs P).
Qed.

(** What is written in a value is determined by the value. *)
Theorem C63_relations_are_determined : forall v rs rs', relations v rs -> relations v rs' -> rs = rs'.
Proof. intros v rs rs' A B. rewrite (relations_rels v rs A false). symmetry. exact (relations_rels v rs' B false). Qed.

Lemma at_comma (v : text) : ~ In ","%char v \/ exists p t, v = p ++ ","%char :: t /\ ~ In ","%char p.
Proof.
  induction v as [|c v IH]; [now left|]. destruct (ascii_dec c ","%char) as [->|N].
  - right. exists [], v. split; [reflexivity|]. intros [].
  - destruct IH as [IH|(p & t & -> & P)].
    + left. intros [X|X]; [now apply N|now apply IH].
    + right. exists (c :: p), t. split; [reflexivity|]. intros [X|X]; [now apply N|now apply P].
Qed.

Lemma rels_relations : forall n v, length v <= n -> relations v (rels false [] v).
Proof.
  induction n as [|n IH]; intros v L; destruct (at_comma v) as [N|(p & t & -> & N)].
  1, 3: rewrite (rels_last v N false []) by auto; constructor; [exact N|apply strip_piece].
  - rewrite app_length in L. cbn [length] in L. lia.
  - rewrite (rels_piece p N false []) by auto. apply relations_more; [exact N|apply strip_piece|].
    assert (R : relations t (rels false [] t)). { apply IH. rewrite app_length in L. cbn [length] in L. lia. }
    rewrite <- (relations_rels t _ R true). exact R.
Qed.

(** The relations that the driver finds in a field are the ones written there,
    in their order; none when the field is absent. *)
Theorem C63_relations_found_are_those_written : forall u field,
  (forall v, tget field (p_fields u) = Some v -> relations (one_lined v) (rel_list u field)) /\
  (tget field (p_fields u) = None -> rel_list u field = []).
Proof.
  intros u field. unfold rel_list. split.
  - intros v ->. cbv zeta.
    assert (E : map (fun c => if Ascii.eqb c NL then " "%char else c) v = one_lined v).
    { unfold one_lined. apply map_ext. intros c. destruct (ascii_dec c NL) as [->|N]; [reflexivity|].
      apply Ascii.eqb_neq in N. now rewrite N. }
    rewrite E. exact (rels_relations _ (one_lined v) (le_n _)).
  - intros ->. reflexivity.
Qed.

(** What they are like *)
Lemma piece_like p rs r : ~ In ","%char p -> piece p rs -> In r rs -> solid r /\ ~ In ","%char r /\ incl r p.
Proof.
  intros N P I. destruct P as [q W|a x b A S B]; [destruct I|]. destruct I as [->|[]]. split; [exact S|]. split.
  - intros X. apply N. rewrite !in_app_iff. auto.
  - intros c X. rewrite !in_app_iff. auto.
Qed.
Lemma relations_like v rs : relations v rs -> forall r, In r rs -> solid r /\ ~ In ","%char r /\ incl r v.
Proof.
  induction 1 as [p rs N P|p rs t rs' N P R IH]; intros r I.
  - exact (piece_like p rs r N P I).
  - apply in_app_or in I as [I|I].
    + destruct (piece_like p rs r N P I) as (A & B & C). split; [exact A|]. split; [exact B|]. intros c X. apply in_or_app. left. auto.
    + destruct (IH r I) as (A & B & C). split; [exact A|]. split; [exact B|]. intros c X. apply in_or_app. right. right. auto.
Qed.

Lemma solid_piece r : solid r -> piece r [r].
Proof. intros S. pose proof (piece_one [] r [] (Forall_nil _) S (Forall_nil _)) as P. now rewrite app_nil_r in P. Qed.
Lemma solid_piece_space r : solid r -> piece (" "%char :: r) [r].
Proof.
  intros S. assert (W : white [" "%char]) by (constructor; [reflexivity|constructor]).
  pose proof (piece_one [" "%char] r [] W S (Forall_nil _)) as P. rewrite app_nil_r in P. exact P.
Qed.
Definition fine (r : text) : Prop := solid r /\ ~ In ","%char r /\ ~ In NL r.

Lemma join_relations_read rs : rs <> [] -> (forall r, In r rs -> fine r) ->
  relations (join_relations rs) rs /\ relations (" "%char :: join_relations rs) rs /\ ~ In NL (join_relations rs).
Proof.
  induction rs as [|r rs IH]; [congruence|]. intros _ F. destruct (F r (or_introl eq_refl)) as (S & C & N).
  assert (C' : ~ In ","%char (" "%char :: r)) by (intros [X|X]; [discriminate|auto]).
  destruct rs as [|r' rs].
  - cbn [join_relations]. split; [|split]; [constructor; auto using solid_piece|constructor; auto using solid_piece_space|exact N].
  - destruct IH as (A & B & D); [discriminate|intros x X; apply F; now right|].
    change (join_relations (r :: r' :: rs)) with (r ++ COMMA_CHAR :: " "%char :: join_relations (r' :: rs)).
    remember (join_relations (r' :: rs)) as j. change COMMA_CHAR with ","%char. split; [|split].
    + change (r :: r' :: rs) with ([r] ++ r' :: rs). apply relations_more; auto using solid_piece.
    + change (r :: r' :: rs) with ([r] ++ r' :: rs). change (" "%char :: r ++ ","%char :: " "%char :: j)
        with ((" "%char :: r) ++ ","%char :: " "%char :: j). apply relations_more; auto using solid_piece_space.
    + rewrite in_app_iff. intros [X|[X|[X|X]]]; [auto|discriminate|discriminate|auto].
Qed.

Lemma one_lined_free v : ~ In NL (one_lined v).
Proof.
  unfold one_lined. rewrite in_map_iff. intros (c & E & _). destruct (ascii_dec c NL) as [|N]; [discriminate|congruence].
Qed.
Lemma rel_list_fine u field r : In r (rel_list u field) -> fine r.
Proof.
  intros I. destruct (C63_relations_found_are_those_written u field) as [A B].
  destruct (tget field (p_fields u)) as [v|].
  - destruct (relations_like _ _ (A v eq_refl) r I) as (S & C & K). split; [exact S|]. split; [exact C|].
    intros X. exact (one_lined_free v (K _ X)).
  - rewrite B in I by reflexivity. destruct I.
Qed.

(** ** What the packages get *)

(** [gathers d field us rs]: [rs] are the relations in the given field of those
    of the units [us] that apply, in the order of the units *)
Inductive gathers (d : tdict text) (field : text) : list punit -> list text -> Prop :=
| gathers_none : gathers d field [] []
| gathers_other u us rs : ~ applies d u -> gathers d field us rs -> gathers d field (u :: us) rs
| gathers_absent u us rs : applies d u -> tget field (p_fields u) = None -> gathers d field us rs -> gathers d field (u :: us) rs
| gathers_some u us v r rs : applies d u -> tget field (p_fields u) = Some v -> relations (one_lined v) r ->
    gathers d field us rs -> gathers d field (u :: us) (r ++ rs).

Definition collected (d : tdict text) (field : text) (us : list punit) : list text :=
  concat (map (fun u => if is_applicable d u then rel_list u field else []) us).
Lemma collected_gathers d field us : gathers d field us (collected d field us).
Proof.
  unfold collected. induction us as [|u us IH]; [constructor|]. cbn [map concat].
  destruct (is_applicable d u) eqn:E.
  - apply C63_which_units_apply in E. destruct (C63_relations_found_are_those_written u field) as [A B].
    destruct (tget field (p_fields u)) as [v|] eqn:F.
    + apply (gathers_some d field u us v); auto.
    + rewrite B by reflexivity. apply gathers_absent; auto.
  - cbn [app]. apply gathers_other; auto. intros X. apply C63_which_units_apply in X. congruence.
Qed.
Theorem C63_what_is_gathered_is_determined : forall d field us rs rs',
  gathers d field us rs -> gathers d field us rs' -> rs = rs'.
Proof.
  intros d field us rs rs' A. revert rs'.
  induction A as [|u us rs N A IH|u us rs P Q A IH|u us v r rs P Q R A IH]; intros rs' B; inversion B; subst; try contradiction; auto; try congruence.
  match goal with H : tget field (p_fields u) = Some ?w |- _ => assert (v = w) as <- by congruence end.
  f_equal; [eauto using C63_relations_are_determined|auto].
Qed.

Lemma inspect_provider_spec us : forall s, inspect_provider us s =
  mk_debian (d_release s)
    (d_depends s ++ collected (d_release s) (T "Depends") us)
    (d_suggests s ++ collected (d_release s) (T "Suggests") us)
    (d_recommends s ++ collected (d_release s) (T "Recommends") us) (d_packages s).
Proof.
  induction us as [|u us IH]; intros s.
  - cbn [inspect_provider]. unfold collected. cbn [map concat]. rewrite !app_nil_r. destruct s; reflexivity.
  - cbn [inspect_provider]. rewrite IH. unfold collected. cbn [map concat]. destruct (is_applicable (d_release s) u).
    + unfold collect. cbn [d_release d_depends d_suggests d_recommends d_packages]. now rewrite <- !app_assoc.
    + reflexivity.
Qed.

Lemma collected_fine d field us r : In r (collected d field us) -> fine r.
Proof.
  unfold collected. rewrite in_concat. intros (l & L & I). apply in_map_iff in L as (u & <- & _).
  destruct (is_applicable d u); [|destruct I]. now apply rel_list_fine in I.
Qed.
Lemma substvar_spec name rs : (forall r, In r rs -> fine r) -> variable name rs (substvar name rs).
Proof.
  intros F. unfold substvar. destruct rs as [|r rs]; [constructor|]. assert (NE : r :: rs <> []) by discriminate.
  destruct (join_relations_read (r :: rs) NE F) as (A & _ & C). exact (variable_some name (r :: rs) _ NE A C).
Qed.

(** The paragraphs with this name and marked as a provider's *)
Inductive provider_packages : list (text -> option text) -> list text -> Prop :=
| packages_none : provider_packages [] []
| packages_yes para ps pkg pkgs : para (T "Package") = Some pkg -> para (T "X-Plainbox-Provider") = Some (T "yes") ->
    provider_packages ps pkgs -> provider_packages (para :: ps) (pkg :: pkgs)
| packages_no para ps pkgs : para (T "Package") = None \/ para (T "X-Plainbox-Provider") <> Some (T "yes") ->
    provider_packages ps pkgs -> provider_packages (para :: ps) pkgs.
Lemma gen_packages ps pkgs : provider_packages ps pkgs -> gen_provider_packages ps = pkgs.
Proof.
  induction 1 as [|para ps pkg pkgs A B H IH|para ps pkgs A H IH]; [reflexivity| |]; cbn [gen_provider_packages].
  - rewrite A, B, text_eqb_refl. now rewrite IH.
  - destruct A as [A|A]; [now rewrite A|]. destruct (para (T "Package")); [|exact IH].
    destruct (para (T "X-Plainbox-Provider")) as [v|]; [|exact IH]. destruct (text_eqb v (T "yes")) eqn:E; [|exact IH].
    apply text_eqb_eq in E. congruence.
Qed.
Lemma packages_gen ps : provider_packages ps (gen_provider_packages ps).
Proof.
  induction ps as [|para ps IH]; [constructor|]. cbn [gen_provider_packages].
  destruct (para (T "Package")) as [pkg|] eqn:A; [|apply packages_no; auto].
  destruct (para (T "X-Plainbox-Provider")) as [v|] eqn:B; [|apply packages_no; [right; congruence|exact IH]].
  destruct (text_eqb v (T "yes")) eqn:E.
  - apply text_eqb_eq in E as ->. now apply packages_yes.
  - apply packages_no; [|exact IH]. right. rewrite B. intros X. injection X as ->. now rewrite text_eqb_refl in E.
Qed.

Lemma file_of_inj a b : substvars_file a = substvars_file b -> a = b.
Proof. unfold substvars_file. intros H. apply app_inv_head in H. now apply app_inv_tail in H. Qed.

Definition old_text (name : text) (files : tdict text) : text :=
  match tget name files with Some t => t | None => [] end.
Lemma tget_append n m t files : tget m (append_to n t files) = if text_eqb m n then Some (old_text n files ++ t) else tget m files.
Proof. unfold append_to, old_text. rewrite tget_tset. destruct (text_eqb m n); [|reflexivity]. destruct (tget n files); reflexivity. Qed.

Lemma write_all_works can s pkgs : (forall p, In p pkgs -> can (substvars_file p) = true) -> NoDup pkgs -> forall rest files,
  exists files', write_all can s (pkgs ++ rest) files = write_all can s rest files' /\
   (forall p, In p pkgs -> tget (substvars_file p) files' = Some (old_text (substvars_file p) files ++ pkg_substvars s)) /\
   (forall name, (forall p, In p pkgs -> name <> substvars_file p) -> tget name files' = tget name files).
Proof.
  induction pkgs as [|p pkgs IH]; intros C D rest files.
  - exists files. split; [reflexivity|]. split; [intros p []|reflexivity].
  - cbn [app write_all]. rewrite (C p (or_introl eq_refl)). inversion D as [|x l N D']; subst.
    destruct (IH (fun q Q => C q (or_intror Q)) D' rest (append_to (substvars_file p) (pkg_substvars s) files)) as (files' & E & A & B).
    exists files'. split; [exact E|]. split.
    + intros q [<-|Q].
      * rewrite B. { now rewrite tget_append, text_eqb_refl. }
        intros x X Y. apply file_of_inj in Y. subst x. contradiction.
      * rewrite (A q Q). f_equal. f_equal. unfold old_text. rewrite tget_append.
        destruct (text_eqb (substvars_file q) (substvars_file p)) eqn:Z; [|reflexivity].
        apply text_eqb_eq, file_of_inj in Z. subst q. contradiction.
    + intros name H. rewrite B by (intros x X; apply H; now right). rewrite tget_append.
      destruct (text_eqb name (substvars_file p)) eqn:Z; [|reflexivity]. apply text_eqb_eq in Z. exfalso. exact (H p (or_introl eq_refl) Z).
Qed.

(** The system is Debian, or like Debian *)
Definition like_debian (d : tdict text) : Prop := tget (T "ID") d = Some (T "debian") \/ tget (T "ID_LIKE") d = Some (T "debian").
Lemma like_debian_spec d : says d (T "ID") (Some (T "debian")) || says d (T "ID_LIKE") (Some (T "debian")) = true <-> like_debian d.
Proof.
  unfold like_debian. rewrite orb_true_iff, !says_spec. split.
  - intros [(v & E & F)|(v & E & F)]; injection E as <-; auto.
  - intros [H|H]; eauto.
Qed.
Definition linux (platform : text) : Prop := exists rest, platform = T "linux" ++ rest.
Lemma linux_spec platform : tprefix (T "linux") platform = true <-> linux platform.
Proof.
  unfold linux. assert (G : forall p t, tprefix p t = true <-> exists r, t = p ++ r).
  { induction p as [|c p IH]; intros t; cbn [tprefix].
    - split; [intros _; now exists t|reflexivity].
    - destruct t as [|c' t].
      + split; [discriminate|intros (r & E); discriminate].
      + rewrite andb_true_iff, IH, Ascii.eqb_eq. split.
        * intros [-> (r & ->)]. now exists r.
        * intros (r & E). injection E as -> ->. split; [reflexivity|]. now exists r. }
  apply G.
Qed.
Lemma driver_debian platform t d : linux platform -> get_os_release (Some t) = inl d -> like_debian d ->
  get_packaging_driver platform (Some t) = inl (Some (new_debian d)).
Proof.
  intros L R D. unfold get_packaging_driver. apply linux_spec in L. rewrite L, R. apply like_debian_spec in D. now rewrite D.
Qed.

Lemma packaging_writes platform t d ps pkgs us can files : linux platform -> get_os_release (Some t) = inl d -> like_debian d ->
  provider_packages ps pkgs -> pkgs <> [] ->
  packaging platform (Some t) (Paragraphs ps) us can files =
  match write_all can (mk_debian d (collected d (T "Depends") us) (collected d (T "Suggests") us) (collected d (T "Recommends") us) pkgs) pkgs files with
  | (files, None) => (files, Exit 0)
  | (files, Some f) => (files, Raised f)
  end.
Proof.
  intros L R D P N. unfold packaging. rewrite (driver_debian platform t d L R D). cbn [inspect_packaging].
  cbn [new_debian d_packages app]. rewrite (gen_packages ps pkgs P). destruct pkgs as [|p pkgs]; [congruence|].
  unfold modify_packaging_tree. rewrite inspect_provider_spec. reflexivity.
Qed.

(** On Debian and systems like it every binary package marked as a provider's
    gets the relations of all units that apply, no other file is changed. *)
Theorem C63_packages_get_the_relations_that_apply : forall platform t d ps pkgs us can files dep sug rec,
  linux platform -> get_os_release (Some t) = inl d -> like_debian d ->
  provider_packages ps pkgs -> pkgs <> [] -> NoDup pkgs ->
  gathers d (T "Depends") us dep -> gathers d (T "Suggests") us sug -> gathers d (T "Recommends") us rec ->
  (forall p, In p pkgs -> can (T "debian/" ++ p ++ T ".substvars") = true) ->
  exists files' a b c, packaging platform (Some t) (Paragraphs ps) us can files = (files', Exit 0) /\
    variable (T "Depends") dep a /\ variable (T "Suggests") sug b /\ variable (T "Recommends") rec c /\
    (forall p, In p pkgs -> tget (T "debian/" ++ p ++ T ".substvars") files' =
       Some (old_text (T "debian/" ++ p ++ T ".substvars") files ++ a ++ b ++ c)) /\
    (forall name, (forall p, In p pkgs -> name <> T "debian/" ++ p ++ T ".substvars") -> tget name files' = tget name files).
Proof.
  intros platform t d ps pkgs us can files dep sug rec L R D P N ND G1 G2 G3 C.
  rewrite (C63_what_is_gathered_is_determined _ _ _ _ _ G1 (collected_gathers d _ us)).
  rewrite (C63_what_is_gathered_is_determined _ _ _ _ _ G2 (collected_gathers d _ us)).
  rewrite (C63_what_is_gathered_is_determined _ _ _ _ _ G3 (collected_gathers d _ us)).
  rewrite (packaging_writes platform t d ps pkgs us can files L R D P N). set (s := mk_debian _ _ _ _ _).
  destruct (write_all_works can s pkgs C ND [] files) as (files' & E & A & B). rewrite app_nil_r in E. rewrite E. cbn [write_all].
  exists files', (substvar (T "Depends") (collected d (T "Depends") us)), (substvar (T "Suggests") (collected d (T "Suggests") us)),
    (substvar (T "Recommends") (collected d (T "Recommends") us)).
  split; [reflexivity|]. split; [apply substvar_spec, collected_fine|]. split; [apply substvar_spec, collected_fine|].
  split; [apply substvar_spec, collected_fine|]. split; [exact A|exact B].
Qed.

(** When a file cannot be opened the packages before have got everything and
    the ones after it nothing. *)
Theorem C63_a_file_that_cannot_be_opened : forall platform t d ps pkgs bad later us can files,
  linux platform -> get_os_release (Some t) = inl d -> like_debian d ->
  provider_packages ps (pkgs ++ bad :: later) -> NoDup pkgs ->
  (forall p, In p pkgs -> can (T "debian/" ++ p ++ T ".substvars") = true) ->
  can (T "debian/" ++ bad ++ T ".substvars") = false ->
  exists files' a b c, packaging platform (Some t) (Paragraphs ps) us can files = (files', Raised Os_error) /\
    (forall dep, gathers d (T "Depends") us dep -> variable (T "Depends") dep a) /\
    (forall sug, gathers d (T "Suggests") us sug -> variable (T "Suggests") sug b) /\
    (forall rec, gathers d (T "Recommends") us rec -> variable (T "Recommends") rec c) /\
    (forall p, In p pkgs -> tget (T "debian/" ++ p ++ T ".substvars") files' =
       Some (old_text (T "debian/" ++ p ++ T ".substvars") files ++ a ++ b ++ c)) /\
    (forall name, (forall p, In p pkgs -> name <> T "debian/" ++ p ++ T ".substvars") -> tget name files' = tget name files).
Proof.
  intros platform t d ps pkgs bad later us can files L R D P ND C B.
  assert (N : pkgs ++ bad :: later <> []) by (intros X; apply app_eq_nil in X as [_ X]; discriminate).
  rewrite (packaging_writes platform t d ps _ us can files L R D P N). set (s := mk_debian _ _ _ _ _).
  destruct (write_all_works can s pkgs C ND (bad :: later) files) as (files' & E & A & O). rewrite E. cbn [write_all].
  unfold substvars_file at 1. rewrite B.
  exists files', (substvar (T "Depends") (collected d (T "Depends") us)), (substvar (T "Suggests") (collected d (T "Suggests") us)),
    (substvar (T "Recommends") (collected d (T "Recommends") us)).
  split; [reflexivity|]. split; [|split; [|split; [|split; [exact A|exact O]]]].
  all: intros x G; rewrite (C63_what_is_gathered_is_determined _ _ _ _ _ G (collected_gathers d _ us)); apply substvar_spec, collected_fine.
Qed.

(** In all other cases nothing is written: the command does nothing and
    succeeds on systems that are neither Debian nor like it, ends with a
    failure when there is no package to be found, and with an exception when
    the system cannot be told. *)
Theorem C63_otherwise_nothing_is_written : forall platform contents c us can files,
  (~ linux platform -> packaging platform contents c us can files = (files, Exit 0)) /\
  (forall f, linux platform -> get_os_release contents = inr f -> packaging platform contents c us can files = (files, Raised f)) /\
  (forall d, linux platform -> get_os_release contents = inl d -> ~ like_debian d ->
     packaging platform contents c us can files = (files, Exit 0)) /\
  (forall d, linux platform -> get_os_release contents = inl d -> like_debian d ->
     c = Missing \/ c = Unreadable \/ (exists ps, c = Paragraphs ps /\ provider_packages ps []) ->
     packaging platform contents c us can files = (files, Exit 1)).
Proof.
  intros platform contents c us can files. split; [|split; [|split]].
  - intros N. unfold packaging, get_packaging_driver. destruct (tprefix (T "linux") platform) eqn:E; [|reflexivity].
    apply linux_spec in E. contradiction.
  - intros f L R. unfold packaging, get_packaging_driver. apply linux_spec in L. now rewrite L, R.
  - intros d L R D. unfold packaging, get_packaging_driver. apply linux_spec in L. rewrite L, R.
    destruct (_ || _) eqn:E; [|reflexivity]. apply like_debian_spec in E. contradiction.
  - intros d L R D C. destruct contents as [t|]; [|discriminate R]. unfold packaging. rewrite (driver_debian platform t d L R D).
    destruct C as [->|[->|(ps & -> & P)]]; [reflexivity|reflexivity|]. cbn [inspect_packaging new_debian d_packages app].
    now rewrite (gen_packages ps [] P).
Qed.
(** Either there are packages or there are none: no case is left out. *)
Theorem C63_packages_are_found : forall ps, exists pkgs, provider_packages ps pkgs.
Proof. intros ps. exists (gen_provider_packages ps). apply packages_gen. Qed.

(** The command appends: run twice, it defines every variable twice. *)
Theorem C63_running_it_again_refuted : forall platform t d ps p us can files dep,
  linux platform -> get_os_release (Some t) = inl d -> like_debian d -> provider_packages ps [p] ->
  gathers d (T "Depends") us dep -> dep <> [] -> can (T "debian/" ++ p ++ T ".substvars") = true ->
  let once := fst (packaging platform (Some t) (Paragraphs ps) us can files) in
  let twice := fst (packaging platform (Some t) (Paragraphs ps) us can once) in
  exists added, added <> [] /\
    tget (T "debian/" ++ p ++ T ".substvars") once = Some (old_text (T "debian/" ++ p ++ T ".substvars") files ++ added) /\
    tget (T "debian/" ++ p ++ T ".substvars") twice = Some (old_text (T "debian/" ++ p ++ T ".substvars") files ++ added ++ added).
Proof.
  intros platform t d ps p us can files dep L R D P G NE C once twice.
  assert (N : [p] <> []) by discriminate. unfold twice, once.
  rewrite (packaging_writes platform t d ps [p] us can _ L R D P N).
  rewrite (packaging_writes platform t d ps [p] us can _ L R D P N). set (s := mk_debian _ _ _ _ _).
  unfold write_all. change (can (substvars_file p)) with (can (T "debian/" ++ p ++ T ".substvars")). rewrite C. cbn [fst].
  exists (pkg_substvars s). split.
  { unfold pkg_substvars, s. cbn [d_depends]. rewrite (C63_what_is_gathered_is_determined _ _ _ _ _ (collected_gathers d _ us) G).
    destruct dep as [|x dep]; [congruence|]. cbn [substvar]. unfold T at 1. cbn [list_ascii_of_string app]. discriminate. }
  change (T "debian/" ++ p ++ T ".substvars") with (substvars_file p). rewrite !tget_append, text_eqb_refl. split; [reflexivity|].
  unfold old_text at 1. rewrite tget_append, text_eqb_refl. now rewrite <- app_assoc.
Qed.

(** ** The description of the system *)

Lemma split_equal_app k v : ~ In "="%char k -> split_equal (k ++ "="%char :: v) = Some (k, v).
Proof.
  induction k as [|c k IH]; intros N.
  - cbn [app split_equal]. reflexivity.
  - cbn [app split_equal]. replace (Ascii.eqb c EQUAL) with false.
    + rewrite IH; [reflexivity|]. intros X. apply N. now right.
    + symmetry. apply Ascii.eqb_neq. intros ->. apply N. now left.
Qed.
Lemma harmless_word k : (forall c, In c k -> harmless c) -> sh_word k k.
Proof. induction k as [|c k IH]; intros H; constructor; [apply H; now left|apply IH; intros x X; apply H; now right]. Qed.

Lemma release_words t kvs : release_file t kvs -> shlex_split t = Some (map (fun kv => fst kv ++ "="%char :: snd kv) kvs).
Proof.
  unfold shlex_split. induction 1 as [|t kvs H IH|k w v t kvs NE K W H IH].
  - reflexivity.
  - cbn [shlex]. replace (shblank NL) with true by reflexivity. exact IH.
  - assert (S : sh_word (k ++ "="%char :: w) (k ++ "="%char :: v)).
    { apply sh_app; [apply harmless_word; intros c X; apply K, X|]. constructor; [|exact W].
      unfold harmless. vm_compute. tauto. }
    assert (N : k ++ "="%char :: w <> []) by (destruct k; discriminate).
    destruct (shlex_sh_start _ _ N S (NL :: t)) as (q & E & F).
    replace (k ++ "="%char :: w ++ NL :: t) with ((k ++ "="%char :: w) ++ NL :: t) by now rewrite <- app_assoc.
    rewrite E. cbn [shlex]. replace (shblank NL) with true by reflexivity. rewrite IH. rewrite shlex_emit by exact F.
    now rewrite rev_involutive.
Qed.

Lemma entries_spec kvs : (forall k v, In (k, v) kvs -> ~ In "="%char k) -> forall d0, exists d,
  entries d0 (map (fun kv => fst kv ++ "="%char :: snd kv) kvs) = Some d /\
  forall k, tget k d = match last_value k kvs with Some v => Some v | None => tget k d0 end.
Proof.
  induction kvs as [|[k v] kvs IH]; intros N d0.
  - exists d0. split; reflexivity.
  - cbn [map entries fst snd]. rewrite split_equal_app by exact (N k v (or_introl eq_refl)).
    destruct (IH (fun k' v' I => N k' v' (or_intror I)) (tset k v d0)) as (d & E & F). exists d. split; [exact E|].
    intros x. rewrite F. cbn [last_value]. destruct (last_value x kvs); [reflexivity|]. rewrite tget_tset.
    unfold text_eqb. destruct (list_eq_dec ascii_dec x k); reflexivity.
Qed.

(** A file of assignments is read as what it says, whatever quotes it uses. *)
Theorem C63_the_release_file_is_read : forall t kvs, release_file t kvs ->
  exists d, get_os_release (Some t) = inl d /\ forall k, tget k d = last_value k kvs.
Proof.
  intros t kvs H. unfold get_os_release. rewrite (release_words t kvs H).
  assert (N : forall k v, In (k, v) kvs -> ~ In "="%char k).
  { induction H as [|t kvs H IH|k w v t kvs NE K W H IH]; intros k' v' I; [destruct I|eauto|].
    destruct I as [I|I]; [|eauto]. injection I as <- <-. intros X. now apply (K "="%char X). }
  destruct (entries_spec kvs N []) as (d & E & F). rewrite E. exists d. split; [reflexivity|].
  intros k. rewrite F. now destruct (last_value k kvs).
Qed.

(** os-release(5) allows comments.  A comment makes the file unreadable, unless
    all its words are assignments. *)
Theorem C63_a_stray_word_refuted : forall t ws w, shlex_split t = Some ws -> In w ws -> ~ In "="%char w ->
  get_os_release (Some t) = inr Value_error.
Proof.
  intros t ws w H I N. unfold get_os_release. rewrite H.
  assert (E : forall d, entries d ws = None); [|now rewrite E].
  assert (S : split_equal w = None).
  { clear H I. induction w as [|c w IH]; [reflexivity|]. cbn [split_equal]. replace (Ascii.eqb c EQUAL) with false.
    - now rewrite IH by (intros X; apply N; now right).
    - symmetry. apply Ascii.eqb_neq. intros ->. apply N. now left. }
  clear H. induction ws as [|x ws IH]; [destruct I|]. intros d. cbn [entries]. destruct I as [->|I].
  - now rewrite S.
  - destruct (split_equal x) as [[k v]|]; [auto|reflexivity].
Qed.
Theorem C63_comments_refuted : exists line t kvs, tprefix (T "# ") line = true /\ release_file t kvs /\
  get_os_release (Some (line ++ NL :: t)) = inr Value_error.
Proof.
  exists (T "# a comment"), (T "ID=debian" ++ [NL]), [(T "ID", T "debian")]. split; [reflexivity|]. split.
  - apply (release_set (T "ID") (T "debian") (T "debian") [] []); [discriminate| | |constructor].
    + intros c [<-|[<-|[]]]; (split; [unfold harmless; vm_compute; tauto|discriminate]).
    + apply harmless_word. intros c I. vm_compute in I. unfold harmless.
      repeat (destruct I as [<-|I]; [vm_compute; tauto|]). destruct I.
  - vm_compute. reflexivity.
Qed.

(** A system may be like several others; then only units for a system with
    that very list as its identifier apply, and on such systems (unless they
    are Debian itself) the command does nothing. *)
Theorem C63_being_like_several_refuted : forall platform t d a b c us can files,
  linux platform -> get_os_release (Some t) = inl d -> tget (T "ID") d <> Some (T "debian") ->
  tget (T "ID_LIKE") d = Some (a ++ " "%char :: b) ->
  packaging platform (Some t) c us can files = (files, Exit 0).
Proof.
  intros platform t d a b c us can files L R I K.
  apply (proj1 (proj2 (proj2 (C63_otherwise_nothing_is_written platform (Some t) c us can files))) d L R).
  intros [X|X]; [contradiction|]. assert (Z : a ++ " "%char :: b = T "debian") by congruence. clear X.
  assert (Y : In " "%char (T "debian")) by (rewrite <- Z; apply in_or_app; right; now left).
  vm_compute in Y. repeat (destruct Y as [Y|Y]; [discriminate|]). destruct Y.
Qed.

(** ** The local device *)

Lemma amp_split x y x' y' : ~ In "&"%char x -> ~ In "&"%char x' -> x ++ "&"%char :: y = x' ++ "&"%char :: y' -> x = x' /\ y = y'.
Proof.
  revert x'. induction x as [|c x IH]; intros [|c' x'] N N' E; cbn [app] in E.
  - injection E as ->. auto.
  - injection E as <- E. exfalso. apply N'. now left.
  - injection E as -> E. exfalso. apply N. now left.
  - injection E as -> E. destruct (IH x') as [-> ->]; auto; intros X; [apply N|apply N']; now right.
Qed.

(** On Linux there is one device when the system can be told and a package
    manager tells the architecture; its cookie tells systems apart. *)
Theorem C63_the_local_device : forall t d dpkg rpm arch,
  get_os_release (Some t) = inl d -> dpkg = Some arch \/ (dpkg = None /\ rpm = Some arch) ->
  exists cookie, discover (T "linux") (Some t) dpkg rpm = inl [cookie] /\
    cookie = T "local://localhost/?os=linux&id=" ++ match tget (T "ID") d with Some v => v | None => T "Linux" end ++
      T "&version_id=" ++ match tget (T "VERSION_ID") d with Some v => v | None => [] end ++ T "&arch=" ++ strip arch.
Proof.
  intros t d dpkg rpm arch R H. unfold discover. rewrite text_eqb_refl. cbn [orb]. unfold discover_linux. rewrite R.
  destruct H as [->|[-> ->]]; eexists; split; reflexivity.
Qed.
Theorem C63_cookies_tell_systems_apart : forall d d' arch arch' (i i' v v' : text),
  tget (T "ID") d = Some i -> tget (T "ID") d' = Some i' -> tget (T "VERSION_ID") d = Some v -> tget (T "VERSION_ID") d' = Some v' ->
  ~ In "&"%char i -> ~ In "&"%char i' -> ~ In "&"%char v -> ~ In "&"%char v' ->
  cookie_linux d arch = cookie_linux d' arch' -> i = i' /\ v = v' /\ arch = arch'.
Proof.
  intros d d' arch arch' i i' v v' E1 E2 E3 E4 N1 N2 N3 N4 H. unfold cookie_linux in H. rewrite E1, E2, E3, E4 in H.
  apply app_inv_head in H. change (T "&version_id=") with ("&"%char :: T "version_id=") in H.
  change (T "&arch=") with ("&"%char :: T "arch=") in H. cbn [app] in H.
  apply amp_split in H as [-> H]; auto. apply app_inv_head in H. apply amp_split in H as [-> H]; auto.
  apply app_inv_head in H. auto.
Qed.
Theorem C63_when_there_is_no_device : forall platform contents dpkg rpm,
  (platform = T "linux" -> (exists f, get_os_release contents = inr f) -> discover platform contents dpkg rpm = inl []) /\
  (~ linux platform -> platform <> T "win32" -> discover platform contents dpkg rpm = inl []).
Proof.
  intros platform contents dpkg rpm. split.
  - intros -> (f & R). unfold discover. rewrite text_eqb_refl. cbn [orb]. unfold discover_linux. now rewrite R.
  - intros L W. unfold discover. destruct (text_eqb platform (T "linux") || text_eqb platform (T "linux2")) eqn:E.
    + exfalso. apply L. apply orb_true_iff in E as [E|E]; apply text_eqb_eq in E as ->; [now exists []|now exists (T "2")].
    + destruct (text_eqb platform (T "win32")) eqn:F; [apply text_eqb_eq in F; contradiction|reflexivity].
Qed.
(** Without a package manager the fall-back, uname, is not reached: asking
    for devices ends with an exception. *)
Theorem C63_the_last_resort_refuted : forall t d, get_os_release (Some t) = inl d ->
  discover (T "linux") (Some t) None None = inr Attribute_error.
Proof. intros t d R. unfold discover. rewrite text_eqb_refl. cbn [orb]. unfold discover_linux. now rewrite R. Qed.

(** ** Cases *)

Definition case_release : text := T "NAME=""Ubuntu""" ++ NL :: T "ID=ubuntu" ++ NL :: T "ID_LIKE=debian" ++ NL :: T "VERSION_ID=""14.04""" ++ [NL].
Definition case_units : list punit :=
  [ mk_punit (T "packaging meta-data") [(T "os-id", T "debian"); (T "Depends", T "python3, ," ++ NL :: T "dmidecode (>= 2)")];
    mk_punit (T "packaging meta-data") [(T "os-id", T "ubuntu"); (T "os-version-id", T "12.04"); (T "Depends", T "old")];
    mk_punit (T "packaging meta-data") [(T "os-id", T "ubuntu"); (T "os-version-id", T "14.04"); (T "Suggests", T " a  ,b ")];
    mk_punit (T "packaging meta-data") [(T "os-id", T "debian"); (T "os-version-id", T "14.04"); (T "Depends", T "no")];
    mk_punit (T "job") [(T "os-id", T "ubuntu"); (T "Depends", T "job")] ].
Definition case_para (n : text) (mark : option text) : text -> option text :=
  fun k => if text_eqb k (T "Package") then Some n else if text_eqb k (T "X-Plainbox-Provider") then mark else None.
Example C63_case_packaging :
  packaging (T "linux") (Some case_release)
    (Paragraphs [(fun _ => None); case_para (T "p1") (Some (T "yes")); case_para (T "p2") None]) case_units (fun _ => true)
    [(T "debian/p1.substvars", T "misc:Depends=" ++ [NL])] =
  ([(T "debian/p1.substvars", T "misc:Depends=" ++ NL :: T "plainbox:Depends=python3, dmidecode (>= 2)" ++ NL ::
      T "plainbox:Suggests=a, b" ++ [NL])], Exit 0).
Proof. vm_compute. reflexivity. Qed.
Example C63_case_release_file : release_file case_release
  [(T "NAME", T "Ubuntu"); (T "ID", T "ubuntu"); (T "ID_LIKE", T "debian"); (T "VERSION_ID", T "14.04")].
Proof.
  unfold case_release.
  assert (K : forall k, forallb (fun c => word_like c) k = true -> k <> [] -> forall c, In c k -> harmless c /\ c <> "="%char).
  { intros k F _ c I. rewrite forallb_forall in F. specialize (F c I). split.
    - apply safe_harmless. unfold safe_char. now rewrite F.
    - intros ->. discriminate F. }
  assert (Q : forall s, forallb (fun c => negb (existsb (Ascii.eqb c) [DQ; "$"; "`"; "\"]%char)) s = true ->
    sh_word (DQ :: s ++ [DQ]) s).
  { intros s F. rewrite <- (app_nil_r s) at 2. apply sh_double; [|constructor]. intros c I J. rewrite forallb_forall in F.
    specialize (F c I). apply negb_true_iff in F. assert (X : existsb (Ascii.eqb c) [DQ; "$"; "`"; "\"]%char = true).
    { apply existsb_exists. exists c. split; [exact J|apply Ascii.eqb_refl]. } congruence. }
  apply (release_set (T "NAME") (T """Ubuntu""") (T "Ubuntu")); [discriminate|apply K; [reflexivity|discriminate]|apply (Q (T "Ubuntu")); reflexivity|].
  apply (release_set (T "ID") (T "ubuntu") (T "ubuntu")); [discriminate|apply K; [reflexivity|discriminate]|apply safe_sh; reflexivity|].
  apply (release_set (T "ID_LIKE") (T "debian") (T "debian")); [discriminate|apply K; [reflexivity|discriminate]|apply safe_sh; reflexivity|].
  apply (release_set (T "VERSION_ID") (T """14.04""") (T "14.04") []); [discriminate|apply K; [reflexivity|discriminate]|apply (Q (T "14.04")); reflexivity|constructor].
Qed.
Example C63_case_device : discover (T "linux") (Some case_release) (Some (T "amd64" ++ [NL])) None =
  inl [T "local://localhost/?os=linux&id=ubuntu&version_id=14.04&arch=amd64"].
Proof. vm_compute. reflexivity. Qed.
Example C63_case_mint : get_packaging_driver (T "linux") (Some (T "ID=linuxmint" ++ NL :: T "ID_LIKE=""ubuntu debian""")) = inl None.
Proof. vm_compute. reflexivity. Qed.

Print Assumptions C63_which_units_apply.
Print Assumptions C63_relations_are_determined.
Print Assumptions C63_relations_found_are_those_written.
Print Assumptions C63_what_is_gathered_is_determined.
Print Assumptions C63_packages_get_the_relations_that_apply.
Print Assumptions C63_a_file_that_cannot_be_opened.
Print Assumptions C63_otherwise_nothing_is_written.
Print Assumptions C63_packages_are_found.
Print Assumptions C63_running_it_again_refuted.
Print Assumptions C63_the_release_file_is_read.
Print Assumptions C63_a_stray_word_refuted.
Print Assumptions C63_comments_refuted.
Print Assumptions C63_being_like_several_refuted.
Print Assumptions C63_the_local_device.
Print Assumptions C63_cookies_tell_systems_apart.
Print Assumptions C63_when_there_is_no_device.
Print Assumptions C63_the_last_resort_refuted.
