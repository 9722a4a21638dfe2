(** * Installing providers: definition files *)
From Coq Require Import String Ascii List Bool Arith Lia.
From Verif Require Import ScanModel Rfc822Model Rfc822Spec Rfc822Proofs IniModel IniProofs ConfigModel ConfigSpec ConfigProofs ConfigWrite ConfigRound ConfigProps
  PluginModel ProviderModel ProvdefModel ProvdefSpec ProvdefProps InstallModel InstallSpec.
Import ListNotations.
Local Open Scope nat_scope.
Local Open Scope list_scope.

(** A parser with one section of texts that can be carried *)
Definition carries (d : tdict (option text)) : Prop :=
  NoDup (map fst d) /\ forall k v, In (k, v) d -> option_name k /\ exists t, v = Some t /\ portable t.
Definition good (i : ini) : Prop := i_defaults i = [] /\ exists d, i_sections i = [(SECTION, d)] /\ carries d.
Definition has (i : ini) (k : text) : option (option text) := held i SECTION k.

Lemma not_default : text_eqb SECTION DEFAULT = false. Proof. reflexivity. Qed.
Lemma has_good i d k : i_sections i = [(SECTION, d)] -> has i k = tget k d.
Proof. intros E. unfold has, held. rewrite not_default, E. cbn [tget]. now rewrite text_eqb_refl. Qed.
Lemma carries_tset d k v : carries d -> option_name k -> portable v -> carries (tset k (Some v) d).
Proof.
  intros [N F] K P. split; [now apply NoDup_tset|]. intros k' v' I.
  assert (X : In (k', v') d \/ (k' = k /\ v' = Some v)).
  { clear - I. induction d as [|[a w] d IH]; cbn [tset] in I.
    - destruct I as [I|[]]. injection I as <- <-. now right.
    - destruct (text_eqb k a) eqn:E; cbn [In] in *.
      + apply text_eqb_eq in E. subst a. destruct I as [I|I]; [injection I as <- <-; now right|left; now right].
      + destruct I as [I|I]; [left; now left|]. destruct (IH I) as [?|?]; auto. }
  destruct X as [X|[-> ->]]; [now apply F|]. split; [exact K|]. eauto.
Qed.
Lemma set_good i k v : good i -> option_name k -> portable v -> exists i', ini_set SECTION k v i = Some i' /\ good i' /\
  forall k', has i' k' = if text_eqb k' k then Some (Some v) else has i k'.
Proof.
  intros (D & d & S & C) K P. unfold ini_set. rewrite set_ok_plain by apply P. change (is_default SECTION) with false. cbv iota.
  rewrite S, D. cbn [tget tset]. rewrite !text_eqb_refl. eexists. split; [reflexivity|]. split.
  - split; [reflexivity|]. eexists. split; [reflexivity|]. now apply carries_tset.
  - intros k'. rewrite (has_good _ _ _ S). erewrite has_good by reflexivity. apply tget_tset.
Qed.
Lemma remove_good i k : good i -> good (remove_option k i) /\ forall k', has (remove_option k i) k' = if text_eqb k' k then None else has i k'.
Proof.
  intros (D & d & S & C). unfold remove_option. rewrite S, D. cbn [tget tset]. rewrite !text_eqb_refl. split.
  - split; [reflexivity|]. eexists. split; [reflexivity|]. destruct C as [N F]. split.
    + clear - N. induction d as [|[a w] d IH]; [constructor|]. cbn [tdel filter map fst] in *. inversion N as [|? ? X Y]; subst.
      destruct (negb (text_eqb k a)); [|now apply IH]. cbn [map fst]. constructor; [|now apply IH]. intros I. apply X. clear - I.
      apply in_map_iff in I as ([b u] & <- & I). apply filter_In in I as [I _]. now apply (in_map fst) in I.
    + intros k' v I. apply filter_In in I as [I _]. now apply F.
  - intros k'. rewrite (has_good _ _ _ S). erewrite has_good by reflexivity. apply tget_tdel.
Qed.

(** ** Writing the variables *)

Definition plain_value (v : value) : Prop := v = VUnset \/ exists t, v = VStr t /\ portable t.
Lemma write_good g : forall l i, good i ->
  (forall x, In x l -> v_section x = SECTION /\ option_name (v_name x) /\ plain_value (get_var x g)) -> NoDup (map v_name l) ->
  exists i', write_variables l g i = Some i' /\ good i' /\
    (forall x, In x l -> has i' (v_name x) = match get_var x g with VStr t => Some (Some t) | _ => has i (v_name x) end) /\
    (forall k, ~ In k (map v_name l) -> has i' k = has i k).
Proof.
  induction l as [|x l IH]; intros i G F N; cbn [write_variables].
  - exists i. split; [reflexivity|]. split; [exact G|]. split; [intros x []|reflexivity].
  - destruct (F x (or_introl eq_refl)) as (SX & NX & VX). rewrite SX. change (is_default SECTION) with false. cbv iota.
    assert (E : ensure_section SECTION i = i).
    { destruct G as (_ & d & S & _). unfold ensure_section. rewrite S. cbn [tget]. now rewrite text_eqb_refl. }
    rewrite E. inversion N as [|? ? X N']; subst.
    assert (F' : forall y, In y l -> v_section y = SECTION /\ option_name (v_name y) /\ plain_value (get_var y g)) by (intros y Y; apply F; now right).
    destruct VX as [VX|(t & VX & P)]; rewrite VX.
    + destruct (IH i G F' N') as (i' & W & G' & A & B). exists i'. split; [exact W|]. split; [exact G'|]. split.
      * intros y [<-|Y]; [rewrite VX; apply B, X|now apply A].
      * intros k K. apply B. intros Y. apply K. now right.
    + destruct (set_good i (v_name x) t G NX P) as (i1 & E1 & G1 & H1). cbn [value_str]. rewrite E1.
      destruct (IH i1 G1 F' N') as (i' & W & G' & A & B). exists i'. split; [exact W|]. split; [exact G'|]. split.
      * intros y [<-|Y].
        -- rewrite VX, (B _ X), H1, text_eqb_refl. reflexivity.
        -- rewrite (A y Y). destruct (get_var y g); try reflexivity; rewrite H1; destruct (text_eqb (v_name y) (v_name x)) eqn:Q; try reflexivity;
             apply text_eqb_eq in Q; exfalso; apply X; rewrite <- Q; now apply in_map.
      * intros k K. rewrite B by (intros Y; apply K; now right). rewrite H1. destruct (text_eqb k (v_name x)) eqn:Q; [|reflexivity].
        apply text_eqb_eq in Q. exfalso. apply K. now left.
Qed.

Definition names : list text :=
  map T ["relocatable"; "location"; "name"; "namespace"; "version"; "description"; "gettext_domain"; "units_dir"; "jobs_dir"; "data_dir"; "bin_dir"; "locale_dir"]%string.
Lemma class_names isdir : map v_name (c_variables (definition_class isdir)) = names.
Proof. reflexivity. Qed.
Lemma names_nodup : NoDup names.
Proof. repeat (constructor; [intros H; vm_compute in H; intuition discriminate|]). constructor. Qed.
Lemma names_good k : In k names -> option_name k.
Proof.
  intros H. unfold names in H. cbn [map In] in H. repeat destruct H as [<-|H]; try contradiction;
    (split; [discriminate|]; split; [reflexivity|]; split; [intros X; vm_compute in X; intuition discriminate|]; split; [intros X; vm_compute in X; intuition discriminate|]; vm_compute; intuition discriminate).
Qed.
Definition start : ini := ensure_section SECTION empty_ini.
Lemma start_good : good start.
Proof. split; [reflexivity|]. exists []. split; [reflexivity|]. split; [constructor|intros k v []]. Qed.
Lemma has_start k : has start k = None. Proof. reflexivity. Qed.

Lemma started x l g : v_section x = SECTION -> write_variables (x :: l) g empty_ini = write_variables (x :: l) g start.
Proof.
  intros S. cbn [write_variables]. rewrite S. change (is_default SECTION) with false. cbv iota.
  replace (ensure_section SECTION start) with start by reflexivity. reflexivity.
Qed.
Lemma parser_obj isdir g : (forall x, In x (c_variables (definition_class isdir)) -> plain_value (get_var x g)) ->
  exists i, get_parser_obj (definition_class isdir) g = Some i /\ good i /\
    (forall x, In x (c_variables (definition_class isdir)) -> has i (v_name x) = match get_var x g with VStr t => Some (Some t) | _ => None end) /\
    (forall k, ~ In k names -> has i k = None).
Proof.
  intros P. destruct (write_good g (c_variables (definition_class isdir)) start start_good) as (i & W & G & A & B).
  - intros x X. split; [cbn in X; repeat destruct X as [<-|X]; try contradiction; reflexivity|]. split; [|now apply P].
    apply names_good. rewrite <- (class_names isdir). now apply in_map.
  - rewrite class_names. apply names_nodup.
  - exists i. unfold get_parser_obj. change (c_sections (definition_class isdir)) with (@nil text). change (c_parametric (definition_class isdir)) with (@nil text).
    assert (W' : write_variables (c_variables (definition_class isdir)) g empty_ini = Some i).
    { rewrite <- W. apply started. reflexivity. }
    rewrite W'. cbn [write_sections write_parametric]. split; [reflexivity|]. split; [exact G|]. split; [exact A|].
    intros k K. rewrite B; [apply has_start|]. now rewrite class_names.
Qed.

Lemma set_options_good : forall l i, good i -> (forall k v, In (k, v) l -> In k names /\ portable v) ->
  exists i', set_options l i = Some i' /\ good i' /\ forall k, has i' k = match tget k (rev l) with Some v => Some (Some v) | None => has i k end.
Proof.
  induction l as [|[k v] l IH]; intros i G F; cbn [set_options rev].
  - exists i. now split.
  - destruct (F k v (or_introl eq_refl)) as [K P]. destruct (set_good i k v G (names_good _ K) P) as (i1 & E & G1 & H1). rewrite E.
    destruct (IH i1 G1) as (i' & E' & G' & H'); [intros a b I; apply F; now right|]. exists i'. split; [exact E'|]. split; [exact G'|].
    intros k'. rewrite H', H1. clear. induction (rev l) as [|[a b] r IH]; cbn [app tget].
    + now destruct (text_eqb k' k).
    + destruct (text_eqb k' a); [reflexivity|exact IH].
Qed.

(** ** Reading them back *)

Section Back.
  Variable to_float : text -> option text.
  Lemma good_writable i : good i -> writable_ini i.
  Proof.
    intros (D & d & S & N & F). split; [rewrite D; split; [constructor|intros k v []]|]. rewrite S. split; [constructor; [intros []|constructor]|].
    intros s d' [I|[]]. injection I as <- <-. split; [split; [discriminate|intros X; vm_compute in X; intuition discriminate]|]. split; [discriminate|].
    split; [exact N|]. intros k v I. destruct (F k v I) as [K (t & -> & P)]. split; [exact K|apply P].
  Qed.
  Lemma good_value i k t : good i -> has i k = Some (Some t) -> portable t.
  Proof.
    intros (D & d & S & N & F) H. rewrite (has_good _ _ _ S) in H. apply tget_In in H. destruct (F _ _ H) as [_ (t' & E & P)]. congruence.
  Qed.
  Lemma read_good i : good i -> exists i', read_text (write_ini i) empty_ini = (i', Fine) /\
    (forall k o, has i (T k) = option_map Some o -> says_text to_float i' k o) /\
    (has i (T "relocatable") = None -> says_flag to_float i' "relocatable" false) /\
    (has i (T "relocatable") = Some (Some (T "True")) -> says_flag to_float i' "relocatable" true).
  Proof.
    intros G. destruct (C49_ini_round_trip i (good_writable i G)) as (i' & R & H & HS). exists i'. split; [exact R|].
    assert (S : has_section i' SECTION).
    { apply HS. right. destruct G as (_ & d & S & _). exists d. rewrite S. cbn [tget]. now rewrite text_eqb_refl. }
    assert (ND : forall k, held i' DEFAULT k = None).
    { intros k. rewrite H. unfold held. rewrite text_eqb_refl. destruct G as (-> & _). reflexivity. }
    assert (OFF : forall k, offered i' SECTION k = has i k).
    { intros k. unfold offered. rewrite H, ND. unfold has. now destruct (held i SECTION k). }
    split; [|split].
    - intros k o E. unfold says_text. destruct o as [t|]; cbn [option_map] in E.
      + apply (says_value _ _ _ t t); [exact S|cbn [option_ v_section v_name]; now rewrite OFF| |constructor].
        apply expands_plain. now apply (good_value i (T k) t).
      + apply (says_nothing to_float i' (option_ k KStr)); [exact S|cbn [option_ v_section v_name]; now rewrite OFF].
    - intros E. right. split; [reflexivity|]. apply (says_nothing to_float i' (option_ "relocatable" KBool)); [exact S|cbn [option_ v_section v_name]; now rewrite OFF].
    - intros E. left. apply (says_value _ _ _ (T "True") (T "True")); [exact S|cbn [option_ v_section v_name]; now rewrite OFF| |].
      + apply expands_plain. intros X. vm_compute in X. intuition discriminate.
      + cbn [v_kind option_]. apply d_true. vm_compute. tauto.
  Qed.
End Back.
