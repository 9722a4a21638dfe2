(** * C82: an exporter is offered exactly when its unit is in order *)
From Coq Require Import String Ascii List Bool Arith Lia.
From Verif Require Import PathModel ScanModel Rfc822Model Rfc822Proofs JsonModel IniModel IniProofs FieldsModel SiblingsModel ValidateModel ValidateProofs ExportModel ExportSpec ExportProps
  ExpunitModel ExpunitSpec ExpunitProofs.
Import ListNotations.
Local Open Scope nat_scope.
Local Open Scope list_scope.

(** ** Dictionaries *)

Definition through (L : list (text * text)) {A} (m : list (text * A)) (k : text) : option A :=
  match find (fun nl => text_eqb k (snd nl)) L with
  | Some nl => match tget (fst nl) m with Some s => Some s | None => tget k m end
  | None => tget k m
  end.
Lemma fold_legacy {A} (L : list (text * text)) : forall (m : list (text * A)) k,
  NoDup (map snd L) -> (forall a b, In a L -> In b L -> fst a <> snd b) ->
  tget k (fold_left (fun m nl => match tget (fst nl) m with Some s => tset (snd nl) s m | None => m end) L m) = through L m k.
Proof.
  unfold through. induction L as [|[f n] L IH]; intros m k N D; [reflexivity|]. cbn [fold_left find snd fst].
  inversion N as [|x l NI N' E]; subst. rewrite IH; [|exact N'|intros a b A1 B1; apply D; now right].
  assert (K : forall x, (forall a, In a ((f, n) :: L) -> x <> snd a) ->
    tget x (match tget f m with Some s => tset n s m | None => m end) = tget x m).
  { intros x X. destruct (tget f m); [|reflexivity]. rewrite tget_tset.
    assert (Q : text_eqb x n = false) by (apply text_eqb_neq; apply (X (f, n)); now left). now rewrite Q. }
  destruct (text_eqb k n) eqn:E.
  - apply text_eqb_eq in E as ->.
    destruct (find (fun nl => text_eqb n (snd nl)) L) as [nl|] eqn:F.
    + apply find_some in F as [I F]. apply text_eqb_eq in F. exfalso. apply NI. rewrite F. now apply in_map.
    + cbn [fst]. destruct (tget f m) eqn:FM; [|reflexivity]. now rewrite tget_tset, text_eqb_refl.
  - assert (M : tget k (match tget f m with Some s => tset n s m | None => m end) = tget k m).
    { destruct (tget f m); [|reflexivity]. now rewrite tget_tset, E. }
    destruct (find (fun nl => text_eqb k (snd nl)) L) as [nl|] eqn:F; rewrite M; [|reflexivity].
    apply find_some in F as [I _]. rewrite K; [reflexivity|]. intros a A1. apply D; [now right|exact A1].
Qed.

Section Props.
  Variable P : Type.
  Variable vformat : P -> text -> text + fault.
  Variable render : option P -> text -> text.
  Variable accessed : bool -> text -> list text + fault.
  Variable has_param : P -> text -> bool.
  Variable shlex : text -> option nat.
  Variable number_truth : text -> bool.
  Variable isfile : text -> bool.
  Variable wordchar : ascii -> bool.
  Variable C : Type.
  Variable load_entry_point : text -> option C.
  Variable data_dir : unit_ P -> option text.
  Variable supported : C -> option (list text).

  Notation vunit := (vunit P).
  Notation value := (value P vformat render).
  Notation check_exporter := (check_exporter P vformat render accessed has_param shlex number_truth isfile wordchar C load_entry_point data_dir).
  Notation support_of := (support_of P vformat render accessed has_param shlex number_truth isfile wordchar C load_entry_point data_dir).
  Notation make_support := (make_support P vformat render C load_entry_point data_dir).
  Notation exporter_map := (exporter_map P vformat render accessed has_param shlex number_truth isfile wordchar C load_entry_point data_dir).
  Notation create := (create P vformat render accessed has_param shlex number_truth isfile wordchar C load_entry_point data_dir supported).
  Notation all_exporters := (all_exporters P vformat render C load_entry_point data_dir).
  Notation usable_ u see :=
    (usable P accessed has_param number_truth isfile wordchar C load_entry_point see
       (translatable P (v_unit P u)) (v_virtual P u) (jinja P (v_unit P u)) (f_params P (v_unit P u)) (f_data P (v_unit P u)) (data_dir (v_unit P u))).

  (** An exporter of a provider whose fields can be read, [see] tells what reading them gives and
      [tr] is its summary in the language of the user *)
  Record exporter_unit (u : vunit) (see : text -> option text -> option text) (tr : option text) : Prop := {
    x_cls : v_cls P u = CNamed k_exporter;
    x_provider : f_provider P (v_unit P u) <> None;
    x_reads : forall n d, value u n d = inl (see n d);
    x_tr : translated_value P vformat render (v_unit P u) k_summary (Some []) = inl tr
  }.

  Definition carries (see : text -> option text -> option text) (u : vunit) (tr : option text) (s : support C) : Prop :=
    (forall t j, see (W "data") None = Some t -> t <> [] -> loads t = Some j -> s_data C s = j) /\
    (see (W "data") None = None \/ see (W "data") None = Some [] -> s_data C s = JObj []) /\
    s_data_dir C s = data_dir (v_unit P u) /\
    (exists n, see (W "entry_point") None = Some n /\ load_entry_point n = Some (s_class C s)) /\
    (forall t, see (W "options") None = Some t -> t <> [] -> worded t (s_options C s)) /\
    (see (W "options") None = None \/ see (W "options") None = Some [] -> s_options C s = []) /\
    s_extension C s = see (W "file_extension") None /\
    s_summary C s = tr /\
    (see (W "entry_point") None = Some (W "jinja2") ->
      exists kvs v, s_data C s = JObj kvs /\ says_last kvs (W "template") v /\ s_template C s = Some v).

  Lemma option_list_spec u see tr : exporter_unit u see tr ->
    exists l, get_option_list P vformat render u = inl l /\
      (forall t, see k_options None = Some t -> t <> [] -> worded t l) /\
      (see k_options None = None \/ see k_options None = Some [] -> l = []).
  Proof.
    intros X. unfold get_option_list, rbind. rewrite (x_reads u see tr X). destruct (see k_options None) as [[|c r]|].
    - exists []. repeat split; auto. intros t [= <-] N. congruence.
    - exists (split_options false [] (c :: r)). repeat split; [|intros [H|H]; discriminate].
      intros t [= <-] _. destruct (worded_some (c :: r)) as [l L]. now rewrite (split_worded _ _ L).
    - exists []. repeat split; auto. intros t [=].
  Qed.

  Lemma make_support_spec u see tr : exporter_unit u see tr ->
    match make_support u with
    | inl s => loadable C load_entry_point see /\ carries see u tr s
    | inr _ => ~ loadable C load_entry_point see
    end.
  Proof.
    intros X. unfold ExpunitModel.make_support. destruct (option_list_spec u see tr X) as (l & OL & O1 & O2).
    unfold get_data, get_class, rbind. rewrite !(x_reads u see tr X), OL, (x_tr u see tr X).
    assert (DATA : (exists j, match see k_data None with
                       | Some (c :: r) => match loads (c :: r) with Some j => inl j | None => inr Other_error end
                       | _ => (inl (JObj []) : json + fault) end = inl j /\
                     (forall t, see k_data None = Some t -> t <> [] -> loads t = Some j) /\
                     (see k_data None = None \/ see k_data None = Some [] -> j = JObj [])) \/
                   (exists e, match see k_data None with
                       | Some (c :: r) => match loads (c :: r) with Some j => inl j | None => inr Other_error end
                       | _ => (inl (JObj []) : json + fault) end = inr e /\
                     exists t, see k_data None = Some t /\ t <> [] /\ loads t = None)).
    { destruct (see k_data None) as [[|c r]|].
      - left. exists (JObj []). repeat split; auto. intros t [= <-] N. congruence.
      - destruct (loads (c :: r)) as [j|] eqn:L.
        + left. exists j. repeat split; auto; [intros t [= <-] _; exact L|intros [H|H]; discriminate].
        + right. exists Other_error. split; auto. exists (c :: r). repeat split; auto. discriminate.
      - left. exists (JObj []). repeat split; auto. intros t [=]. }
    destruct DATA as [(j & -> & D1 & D2)|(e & -> & t & T1 & T2 & T3)].
    2:{ intros L. exact (l_data _ _ _ L t T1 T2 T3). }
    destruct (f_provider P (v_unit P u)) eqn:F; [|exfalso; now apply (x_provider u see tr X)].
    destruct (see k_entry_point None) as [n|] eqn:EN.
    2:{ intros L. destruct (l_class _ _ _ L) as (n & c & H & _). cbn in H, EN. congruence. }
    destruct (load_entry_point n) as [c|] eqn:LE.
    2:{ intros L. destruct (l_class _ _ _ L) as (n' & c & H & H'). cbn in H, EN. congruence. }
    assert (LC : exists n c, see (W "entry_point") None = Some n /\ load_entry_point n = Some c) by (exists n, c; auto).
    assert (LD : forall t, see (W "data") None = Some t -> t <> [] -> loads t <> None).
    { intros t E N. rewrite (D1 t E N). discriminate. }
    destruct (is (Some n) w_jinja2) eqn:J.
    - apply is_spec in J. injection J as ->.
      assert (NL : (forall kvs v, j = JObj kvs -> ~ says_last kvs (W "template") v) -> ~ loadable C load_entry_point see).
      { intros H L. destruct (l_template _ _ _ L EN) as (t & kvs & v & E & N & LT & S).
        specialize (D1 t E N). rewrite LT in D1. injection D1 as <-. exact (H kvs v eq_refl S). }
      destruct j as [|b|x|x|x|kvs]; try (apply NL; intros kvs v H; discriminate).
      destruct (jlookup k_template kvs) as [v|] eqn:JL.
      + apply jlookup_spec in JL. split.
        * constructor; auto. intros _. destruct (see k_data None) as [t|] eqn:ED.
          2:{ specialize (D2 (or_introl eq_refl)). injection D2 as ->. destruct JL as (a & b & E & _). destruct a; discriminate. }
          destruct t as [|c0 t]. { specialize (D2 (or_intror eq_refl)). injection D2 as ->. destruct JL as (a & b & E & _). destruct a; discriminate. }
          exists (c0 :: t), kvs, v. split; [exact ED|]. split; [discriminate|]. split; [apply D1; [reflexivity|discriminate]|exact JL].
        * unfold carries. cbn [s_data s_data_dir s_class s_options s_extension s_summary s_template].
          repeat match goal with |- _ /\ _ => split end; auto.
          -- intros t j E N LT. specialize (D1 t E N). congruence.
          -- exists w_jinja2. auto.
          -- intros _. exists kvs, v. auto.
      + apply NL. intros kvs' v [= <-] S. apply jlookup_spec in S. cbn in S, JL. congruence.
    - split.
      + constructor; auto. intros E. change (see k_entry_point None = Some w_jinja2) in E. rewrite EN in E. injection E as ->.
        rewrite (proj2 (is_spec _ _) eq_refl) in J. discriminate.
      + unfold carries. cbn [s_data s_data_dir s_class s_options s_extension s_summary s_template].
        repeat match goal with |- _ /\ _ => split end; auto.
        * intros t j' E N LT. specialize (D1 t E N). congruence.
        * exists n. auto.
        * intros E. change (see k_entry_point None = Some w_jinja2) in E. rewrite EN in E. injection E as ->.
          rewrite (proj2 (is_spec _ _) eq_refl) in J. discriminate.
  Qed.

  Lemma usable_loadable u see : usable_ u see -> loadable C load_entry_point see.
  Proof.
    intros U. constructor.
    - exact (u_class _ _ _ _ _ _ _ _ _ _ _ _ _ _ _ U).
    - intros t E N. destruct (u_data _ _ _ _ _ _ _ _ _ _ _ _ _ _ _ U t E N) as (j & -> & _). discriminate.
    - intros E. destruct (u_template _ _ _ _ _ _ _ _ _ _ _ _ _ _ _ U E) as (t & kvs & d & name & A & L & _ & S & _).
      exists t, kvs, (JStr name). split; [exact A|]. split; [|split; assumption]. intros ->. discriminate.
  Qed.

  (** Whether check raises: it does not, as all fields can be read *)
  Lemma check_no_fault u see tr : exporter_unit u see tr ->
    (forall p v, f_params P (v_unit P u) = Some p -> exists l, accessed (jinja P (v_unit P u)) v = inl l) ->
    snd (check_exporter u) = None.
  Proof.
    intros X AC. unfold ExpunitModel.check_exporter.
    assert (G : forall l, Forall (fun g : gen => snd g = None) l -> snd (gcat l) = None).
    { induction 1 as [|g l H _ IH]; [reflexivity|]. cbn [gcat fold_right]. fold (gcat l). destruct g as [i [e|]]; [discriminate|]. exact IH. }
    assert (RP : forall o f k s n, snd (report P vformat render u o f k s n) = None).
    { intros o f k s n. unfold report, message_fault. rewrite (x_cls u see tr X). now rewrite (x_reads u see tr X). }
    assert (CO : forall k s o j f, (exists b, o u = inl b) -> (exists r, j u = inl r) ->
      snd (run P vformat render accessed has_param shlex (Correct P k s o j) u f) = None).
    { intros k s o j f (b & O) (r & J). cbn [run]. rewrite O. destruct b; [|reflexivity]. rewrite J. destruct r as [[|]|]; auto. }
    assert (UN : forall f, snd (run P vformat render accessed has_param shlex (Untranslatable P) u f) = None).
    { intros f. cbn [run]. rewrite (x_reads u see tr X). destruct (_ && _); auto. }
    assert (TRL : forall f, snd (run P vformat render accessed has_param shlex (Translatable P) u f) = None).
    { intros f. cbn [run]. rewrite (x_reads u see tr X). destruct (v_virtual P u), (see f None), (translatable P (v_unit P u) f); auto. }
    assert (VA : forall f, snd (run P vformat render accessed has_param shlex (Variant P) u f) = None).
    { intros f. cbn [run]. unfold parameters_used. destruct (f_params P (v_unit P u)) as [p|]; [|reflexivity]. destruct (tget f _) as [v|]; [|reflexivity].
      destruct (AC p v eq_refl) as (l & ->). destruct l as [|x l]; [apply RP|]. apply G. rewrite Forall_map, Forall_forall. intros n _.
      destruct (has_param p n); auto. }
    assert (IV : forall f, snd (run P vformat render accessed has_param shlex (Invariant P) u f) = None).
    { intros f. cbn [run]. unfold parameters_used. destruct (f_params P (v_unit P u)) as [p|]; [|reflexivity]. destruct (tget f _) as [v|]; [|reflexivity].
      destruct (AC p v eq_refl) as (l & ->). destruct l as [|x l]; [reflexivity|apply RP]. }
    assert (AT : forall n d, exists r, value u n d = inl r) by (intros n d; rewrite (x_reads u see tr X); eauto).
    assert (IDA : exists r, id_attribute P vformat render u = inl r).
    { unfold id_attribute, id_of. rewrite (x_cls u see tr X). unfold named_id, rbind. rewrite (x_reads u see tr X). eauto. }
    destruct IDA as [ida IDA].
    apply G. unfold exporter_validators. cbn [map fst snd].
    repeat (apply Forall_cons; [apply G; cbn [map]|]); try apply Forall_nil;
      unfold id_validators, unit_validators, Present_field, One_line, Short_value, summary_attr; cbn [map];
      repeat (apply Forall_cons; [|]); try apply Forall_nil; try apply UN; try apply VA; try apply TRL; try apply IV; try reflexivity;
      (apply CO; [unfold always, rbind; try rewrite (x_reads u see tr X); eauto|]);
      unfold judge, unit_of, rbind; try rewrite IDA; try rewrite (x_cls u see tr X); try rewrite (x_reads u see tr X); eauto.
  Qed.

  (** ** The theorems *)

  (** An exporter is offered exactly when its unit is usable, and reading what is offered never
      raises; what is offered is what the fields say. *)
  Theorem C82_offered u see tr : exporter_unit u see tr ->
    (forall p v, f_params P (v_unit P u) = Some p -> exists l, accessed (jinja P (v_unit P u)) v = inl l) ->
    exists r, support_of u = inl r /\ (r <> None <-> usable_ u see) /\ forall s, r = Some s -> carries see u tr s.
  Proof.
    intros X AC. pose proof (check_no_fault u see tr X AC) as NF. pose proof (check_silent P vformat render accessed has_param shlex number_truth isfile wordchar C load_entry_point data_dir u see (x_cls _ _ _ X) (x_reads _ _ _ X) (x_provider _ _ _ X)) as CS.
    unfold ExpunitModel.support_of. destruct (check_exporter u) as [l e]. cbn [snd] in NF. subst e. destruct l as [|i l].
    - pose proof (proj1 CS eq_refl) as U. pose proof (make_support_spec u see tr X) as M. destruct (make_support u) as [s|e].
      + exists (Some s). split; [reflexivity|]. split; [split; [intros _; exact U|intros _ H; discriminate H]|]. intros s' [= <-]. apply M.
      + exfalso. apply M. now apply (usable_loadable u).
    - exists None. split; [reflexivity|]. split; [|intros s H; discriminate H]. split; [congruence|]. intros U. apply CS in U. discriminate U.
  Qed.

  (** The exporter in a unit of a session, with its name *)
  Definition named (u : vunit) : option (text * support C) :=
    match v_cls P u with
    | CNamed k =>
        if text_eqb k (W "exporter")
        then match support_of u, named_id P vformat render u with
             | inl (Some s), inl (Some i) => Some (i, s)
             | _, _ => None
             end
        else None
    | _ => None
    end.
  Definition in_order (u : vunit) : Prop := v_cls P u = CNamed (W "exporter") ->
    exists see tr, exporter_unit u see tr /\
      (forall p v, f_params P (v_unit P u) = Some p -> exists l, accessed (jinja P (v_unit P u)) v = inl l).

  Lemma is_exporter_spec u : is_exporter P u = true <-> v_cls P u = CNamed (W "exporter").
  Proof.
    unfold is_exporter. destruct (v_cls P u); try (split; discriminate). rewrite text_eqb_eq. split; [intros ->|intros [= ->]]; reflexivity.
  Qed.
  Lemma step_in_order u : in_order u -> v_cls P u = CNamed (W "exporter") ->
    support_of u = inl None /\ named u = None \/
    exists s i, support_of u = inl (Some s) /\ named_id P vformat render u = inl (Some i) /\ named u = Some (i, s).
  Proof.
    intros O K. destruct (O K) as (see & tr & X & AC). destruct (C82_offered u see tr X AC) as (r & E & U & _).
    unfold named. rewrite K, text_eqb_refl, E. destruct r as [s|]; [|left; auto]. right.
    assert (US : usable_ u see) by (apply U; discriminate). destruct (u_id _ _ _ _ _ _ _ _ _ _ _ _ _ _ _ US) as (i & HI & _).
    unfold named_id, rbind. rewrite (x_reads _ _ _ X). change (see k_id None = Some i) in HI. rewrite HI.
    destruct (f_provider P (v_unit P u)) as [[ns t]|], i as [|c i]; eauto 6.
  Qed.
  Lemma offered_cons u us k s : offered named (u :: us) k s <->
    offered named us k s \/ named u = Some (k, s) /\ forall v s', In v us -> named v <> Some (k, s').
  Proof.
    split.
    - intros (b & x & a & E & N & A). destruct b as [|y b].
      + injection E as -> ->. right. auto.
      + injection E as -> ->. left. exists b, x, a. auto.
    - intros [(b & x & a & -> & N & A)|[N A]].
      + exists (u :: b), x, a. auto.
      + exists [], u, us. auto.
  Qed.
  Lemma offered_nothing us k : (forall v s', In v us -> named v <> Some (k, s')) -> forall s, ~ offered named us k s.
  Proof. intros H s (b & x & a & -> & N & _). apply (H x s); [apply in_app_iff; right; now left|exact N]. Qed.
  Lemma offered_dec us k : (exists s, offered named us k s) \/ forall v s', In v us -> named v <> Some (k, s').
  Proof.
    induction us as [|u us IH]; [right; intros v s []|].
    destruct IH as [[s O]|N]; [left; exists s; apply offered_cons; auto|].
    destruct (named u) as [[k' s]|] eqn:E.
    - destruct (list_eq_dec ascii_dec k k') as [<-|D].
      + left. exists s. apply offered_cons. right. auto.
      + right. intros v s' [<-|I]; [congruence|now apply N].
    - right. intros v s' [<-|I]; [congruence|now apply N].
  Qed.
  Lemma collect_spec : forall us m, Forall in_order us ->
    exists m', collect P vformat render accessed has_param shlex number_truth isfile wordchar C load_entry_point data_dir us m = inl m' /\
      forall k, (forall s, offered named us k s -> tget k m' = Some s) /\
                ((forall v s', In v us -> named v <> Some (k, s')) -> tget k m' = tget k m).
  Proof.
    induction us as [|u us IH]; intros m O.
    - exists m. split; [reflexivity|]. intros k. split; [|reflexivity]. intros s (b & ? & ? & E & _). destruct b; discriminate.
    - inversion O as [|? ? O1 O2]; subst. cbn [collect].
      assert (SKIP : named u = None -> forall m1, (exists m', m1 = inl m' /\
          forall k, (forall s, offered named us k s -> tget k m' = Some s) /\ ((forall v s', In v us -> named v <> Some (k, s')) -> tget k m' = tget k m)) ->
        exists m', m1 = (inl m' : _ + fault) /\ forall k, (forall s, offered named (u :: us) k s -> tget k m' = Some s) /\
                ((forall v s', In v (u :: us) -> named v <> Some (k, s')) -> tget k m' = tget k m)).
      { intros N m1 (m' & E & H). exists m'. split; [exact E|]. intros k. split.
        - intros s A. apply offered_cons in A as [A|[A _]]; [now apply H|congruence].
        - intros A. apply H. intros v s' I. apply A. now right. }
      destruct (is_exporter P u) eqn:E.
      + apply is_exporter_spec in E. destruct (step_in_order u O1 E) as [[S N]|(s & i & S & NI & N)]; rewrite S; unfold rbind.
        * apply SKIP; [exact N|]. now apply IH.
        * rewrite NI. cbn [key]. destruct (IH (tset i s m) O2) as (m' & E' & H). exists m'. split; [exact E'|]. intros k. split.
          -- intros s0 A. apply offered_cons in A as [A|[A M]]; [now apply H|]. rewrite N in A. injection A as <- <-.
             rewrite (proj2 (H i) M), tget_tset, text_eqb_refl. reflexivity.
          -- intros A. rewrite (proj2 (H k)) by (intros v s' I; apply A; now right). rewrite tget_tset.
             assert (Q : text_eqb k i = false); [|now rewrite Q]. apply text_eqb_neq. intros ->. apply (A u s); [now left|exact N].
      + apply SKIP; [|now apply IH]. unfold named. destruct (v_cls P u) as [| |kk|] eqn:K; try reflexivity.
        destruct (text_eqb kk (W "exporter")) eqn:Q; [|reflexivity]. apply text_eqb_eq in Q as ->.
        exfalso. apply is_exporter_spec in K. congruence.
  Qed.
  Lemma collected us : Forall in_order us ->
    exists m, collect P vformat render accessed has_param shlex number_truth isfile wordchar C load_entry_point data_dir us [] = inl m /\
      forall k s, tget k m = Some s <-> offered named us k s.
  Proof.
    intros O. destruct (collect_spec us [] O) as (m & E & H). exists m. split; [exact E|]. intros k s. split; [|apply H].
    intros G. destruct (offered_dec us k) as [[s' A]|A].
    - pose proof (proj1 (H k) s' A). replace s with s' by congruence. exact A.
    - rewrite (proj2 (H k) A) in G. discriminate.
  Qed.
  Lemma find_short k : match find (fun nl => text_eqb k (snd nl)) legacy with
    | Some nl => forall full, short k full <-> full = fst nl
    | None => forall full, ~ short k full
    end.
  Proof.
    destruct (find (fun nl => text_eqb k (snd nl)) legacy) as [[f n]|] eqn:F.
    - apply find_some in F as [I E]. cbn [snd] in E. apply text_eqb_eq in E as <-. intros full. cbn [fst].
      assert (R : short k f).
      { cbn in I. repeat destruct I as [I|I]; try contradiction; injection I as <- <-; (split; [cbn; tauto|reflexivity]). }
      split; [|intros ->; exact R]. intros [_ ->]. destruct R as [_ ->]. reflexivity.
    - intros full [I _]. assert (A : In k (map snd legacy)) by exact I.
      apply in_map_iff in A as ([f n] & <- & A). apply find_none with (x := (f, n)) in F; [|exact A].
      cbn [snd] in F. rewrite text_eqb_refl in F. discriminate.
  Qed.

  (** Asking a session for its exporters gives exactly those that are offered; the short names
      stand for those of plainbox, and hide exporters that happen to be called so. *)
  Theorem C82_map us : Forall in_order us ->
    exists m, exporter_map us = inl m /\ forall k s, tget k m = Some s <-> listed named us k s.
  Proof.
    intros O. unfold ExpunitModel.exporter_map. destruct (collected us O) as (m & -> & H). eexists. split; [reflexivity|].
    intros k s. unfold add_legacy. rewrite fold_legacy.
    2:{ repeat (constructor; [cbn; intuition discriminate|]). constructor. }
    2:{ intros a b A B. cbn in A, B. repeat destruct A as [<-|A]; repeat destruct B as [<-|B]; try contradiction; discriminate. }
    unfold through, listed. pose proof (find_short k) as F. destruct (find _ legacy) as [nl|].
    - destruct (tget (fst nl) m) as [s0|] eqn:G.
      + apply H in G. split.
        * intros [= <-]. left. exists (fst nl). split; [now apply F|exact G].
        * intros [(full & A & B)|[_ B]]; [|exfalso; exact (B _ _ (proj2 (F _) eq_refl) G)].
          apply F in A as ->. apply H in G, B. congruence.
      + rewrite H. split.
        * intros A. right. split; [exact A|]. intros full s' S B. apply F in S as ->. apply H in B. congruence.
        * intros [(full & A & B)|[A _]]; [|exact A]. apply F in A as ->. apply H in B. congruence.
    - rewrite H. split.
      + intros A. right. split; [exact A|]. intros full s' S. now apply F in S.
      + intros [(full & A & _)|[A _]]; [now apply F in A|exact A].
  Qed.
  Lemma listed_fun us k s s' : Forall in_order us -> listed named us k s -> listed named us k s' -> s = s'.
  Proof. intros O A B. destruct (C82_map us O) as (m & _ & H). apply H in A, B. congruence. Qed.

  (** Creating an exporter succeeds exactly when there is one of that name and every option, the
      one of the user and the one in the unit, is one that its class knows.  Without [strict] the
      options of the user are not in the way. *)
  Theorem C82_created us id strict l : Forall in_order us ->
    (forall c sup o, supported c = Some sup -> In o sup -> ~ In "="%char o) ->
    (exists c o, create us id strict l = Made C c o) <->
    exists s, listed named us id s /\
      forall sup, supported (s_class C s) = Some sup ->
        forall o n v, In o (s_options C s) \/ strict = true /\ In o l -> says o n v -> In n sup.
  Proof.
    intros O SUP. destruct (C82_map us O) as (m & E & H).
    unfold ExpunitModel.create. rewrite E. split.
    - intros (c & o & M). destruct (tget id m) as [s|] eqn:G; [|discriminate]. exists s. split; [now apply H|].
      intros sup Z. unfold make_exporter in M. rewrite Z in M. destruct (create_exporter strict sup l (s_options C s)) as [d|] eqn:K; [|discriminate].
      unfold create_exporter in K. pose proof (proj1 (C51_options_accepted _ _ _) (ex_intro _ d K)) as A. intros o' n v [I|[-> I]] S.
      + apply (A o' n v); [apply in_app_iff; now right|exact S].
      + apply (A o' n v); [apply in_app_iff; now left|exact S].
    - intros (s & L & A). apply H in L. rewrite L. unfold make_exporter. destruct (supported (s_class C s)) as [sup|] eqn:Z; [|eauto].
      assert (K : exists d, create_exporter strict sup l (s_options C s) = Some d).
      { unfold create_exporter. apply C51_options_accepted. intros o n v I S. apply in_app_iff in I as [I|I]; [|eauto].
        destruct strict; [eauto|]. apply filter_In in I as [_ I]. apply tmem_In in I.
        destruct (says_fun _ _ _ _ _ S (says_plain o (SUP _ _ _ Z I))) as [-> _]. exact I. }
      destruct K as [d ->]. eauto.
  Qed.
  (** What goes wrong otherwise, and what is created *)
  Theorem C82_creating us id strict l : Forall in_order us ->
    match create us id strict l with
    | Made _ c o => exists s, listed named us id s /\ s_class C s = c
    | No_such_exporter _ => forall s, ~ listed named us id s
    | Unsupported_option _ => exists s, listed named us id s
    | Raised _ _ => False
    end.
  Proof.
    intros O. destruct (C82_map us O) as (m & E & H). unfold ExpunitModel.create. rewrite E. destruct (tget id m) as [s|] eqn:G.
    - apply H in G. destruct (make_exporter C supported strict l s); eauto.
    - intros s L. apply H in L. congruence.
  Qed.

  (** ** The archive *)

  Definition readable (u : vunit) : Prop := v_cls P u = CNamed (W "exporter") -> exists see tr, exporter_unit u see tr.

  (** Making an archive needs every exporter of every provider, usable or not. *)
  Theorem C82_archive us : Forall readable us ->
    (exists m, all_exporters us [] = inl m) <->
    forall u see tr, In u us -> exporter_unit u see tr -> loadable C load_entry_point see.
  Proof.
    generalize (@nil (text * support C)). induction us as [|u us IH]; intros m R.
    - split; [intros _ u see tr []|intros _; now exists m].
    - inversion R as [|? ? R1 R2]; subst. cbn [ExpunitModel.all_exporters]. destruct (is_exporter P u) eqn:E.
      + apply is_exporter_spec in E. destruct (R1 E) as (see & tr & X). pose proof (make_support_spec u see tr X) as M.
        assert (SAME : forall see' tr', exporter_unit u see' tr' -> forall n d, see' n d = see n d).
        { intros see' tr' X' n d. pose proof (x_reads _ _ _ X n d) as A. pose proof (x_reads _ _ _ X' n d) as B. congruence. }
        destruct (make_support u) as [s|e]; unfold rbind.
        * destruct M as [M _]. unfold named_id, rbind. rewrite (x_reads _ _ _ X). rewrite (IH _ R2). split.
          -- intros H u' see' tr' [<-|I] X'; [|now apply (H u' see' tr')]. destruct M as [[n [c M1]] M2 M3].
             constructor.
             ++ exists n, c. now rewrite (SAME _ _ X').
             ++ intros t. rewrite (SAME _ _ X'). apply M2.
             ++ rewrite !(SAME _ _ X'). exact M3.
          -- intros H u' see' tr' I. apply H. now right.
        * split; [intros [m' [=]]|]. intros H. exfalso. apply M. apply (H u see tr); [now left|exact X].
      + rewrite (IH _ R2). split.
        * intros H u' see' tr' [<-|I] X'; [|now apply (H u' see' tr')]. exfalso.
          pose proof (proj2 (is_exporter_spec u) (x_cls _ _ _ X')). congruence.
        * intros H u' see' tr' I. apply H. now right.
  Qed.

  (** A unit without parameters, which every unit that is not an instance of a template is, can be
      read *)
  Theorem C82_plain u : v_cls P u = CNamed (W "exporter") -> f_provider P (v_unit P u) <> None -> f_params P (v_unit P u) = None ->
    in_order u /\ readable u /\
    exists tr, exporter_unit u (fun n d => match value u n d with inl v => v | inr _ => None end) tr.
  Proof.
    intros K F N.
    assert (X : exists tr, exporter_unit u (fun n d => match value u n d with inl v => v | inr _ => None end) tr).
    { unfold translated_value. assert (I : forall t, exists v, insert P vformat render (v_unit P u) t = inl v).
      { intros t. unfold insert. rewrite N. destruct (jinja P (v_unit P u)); eauto. }
      assert (TR : exists tr, translated_value P vformat render (v_unit P u) k_summary (Some []) = inl tr).
      { unfold translated_value. destruct (tget (UNDERSCORE :: k_summary) _) as [m|].
        - destruct (I (normalize (translated_data P (v_unit P u) m))) as [v ->]. eauto.
        - destruct (tget k_summary _) as [m|]; [|eauto]. destruct (I m) as [v ->]. eauto. }
      destruct TR as [tr TR]. exists tr. constructor; auto. intros n d. unfold ValidateModel.value, record_value.
      destruct (either n _ d) as [t|]; [|reflexivity]. destruct (I t) as [v ->]. reflexivity. }
    destruct X as [tr X]. split; [|split]; eauto.
    - intros _. exists (fun n d => match value u n d with inl v => v | inr _ => None end), tr. split; [exact X|]. intros p v Q. congruence.
    - intros _. eauto.
  Qed.
End Props.
Print Assumptions C82_offered.
Print Assumptions C82_map.
Print Assumptions C82_created.
Print Assumptions C82_creating.
Print Assumptions C82_archive.
Print Assumptions C82_plain.

(** ** Cases *)

Definition ex_vformat (_ : unit) (t : text) : text + fault := inl t.
Definition ex_word (c : ascii) : bool := let n := nat_of_ascii c in (97 <=? n) && (n <=? 122) || (48 <=? n) && (n <=? 57).
Definition ex_class (n : text) : option text := if text_eqb n (T "jinja2") || text_eqb n (T "xlsx") || text_eqb n (T "text") then Some n else None.
Definition ex_supported (c : text) : option (list text) := if text_eqb c (T "text") then Some [T "with-io-log"; T "with-comments"] else None.
Definition ex_isfile (p : text) : bool := text_eqb p (T "/d/r.html").
Definition ex_raw (ns : string) (data : list (string * string)) : vunit unit :=
  mk_vunit unit 0 (CNamed (T "exporter"))
    (mk_unit unit (map (fun kv => (T (fst kv), T (snd kv))) (("unit", "exporter")%string :: data))
       (map (fun kv => (T (fst kv), T (snd kv))) data) (Some (T ns, fun t => t)) None)
    false None [].
Definition ex_support := support_of unit ex_vformat (fun _ t => t) (fun _ _ => inl []) (fun _ _ => true) (fun _ => None) (fun _ => true)
  ex_isfile ex_word text ex_class (fun _ => Some (T "/d")).
Definition ex_check := check_exporter unit ex_vformat (fun _ t => t) (fun _ _ => inl []) (fun _ _ => true) (fun _ => None) (fun _ => true)
  ex_isfile ex_word text ex_class (fun _ => Some (T "/d")).
Definition ex_create := create unit ex_vformat (fun _ t => t) (fun _ _ => inl []) (fun _ _ => true) (fun _ => None) (fun _ => true)
  ex_isfile ex_word text ex_class (fun _ => Some (T "/d")) ex_supported.
Definition ex_map := exporter_map unit ex_vformat (fun _ t => t) (fun _ _ => inl []) (fun _ _ => true) (fun _ => None) (fun _ => true)
  ex_isfile ex_word text ex_class (fun _ => Some (T "/d")).
Definition ex_all (us : list (vunit unit)) := all_exporters unit ex_vformat (fun _ t => t) text ex_class (fun _ => Some (T "/d")) us [].

Definition ex_text : vunit unit :=
  ex_raw "com.canonical.plainbox" [("id", "text"); ("_summary", "Plain text"); ("entry_point", "text"); ("file_extension", "txt"); ("options", "with-io-log, with-comments")]%string.
Definition Q : string := String (ascii_of_nat 34) EmptyString.
Definition ex_html : vunit unit :=
  ex_raw "com.canonical.plainbox" [("id", "html"); ("_summary", "A page"); ("entry_point", "jinja2"); ("file_extension", "html");
    ("data", "{" ++ Q ++ "template" ++ Q ++ ": " ++ Q ++ "r.html" ++ Q ++ "}")]%string.
(** The hypotheses hold of these *)
Example C82_case_hypotheses : Forall (in_order unit ex_vformat (fun _ t => t) (fun _ _ => inl [])) [ex_text; ex_html].
Proof.
  repeat constructor; apply (C82_plain unit ex_vformat (fun _ t => t) (fun _ _ => inl [])); try reflexivity; discriminate.
Qed.
Example C82_case_offered : exists s, ex_support ex_html = inl (Some s) /\ s_template _ s = Some (JStr (T "r.html")) /\ s_summary _ s = Some (T "A page").
Proof. eexists. split; [vm_compute; reflexivity|]. split; reflexivity. Qed.
Example C82_case_created :
  ex_create [ex_text; ex_html] (T "text") true [] = Made text (T "text") [(T "with-io-log", OTrue); (T "with-comments", OTrue)] /\
  ex_create [ex_text; ex_html] (T "com.canonical.plainbox::html") true [] = Made text (T "jinja2") [] /\
  ex_create [ex_text; ex_html] (T "xlsx") true [] = No_such_exporter text /\
  ex_create [ex_text; ex_html] (T "text") true [T "with-x"] = Unsupported_option text.
Proof. repeat split; vm_compute; reflexivity. Qed.

(** ** What one may expect that is not so *)

(** A warning or a piece of advice, not an error, hides an exporter: here the summary is not
    marked for translation *)
Theorem C82_warnings_do_not_hide_refuted : exists u i,
  ex_check u = ([i], None) /\ i_sev i <> Error /\ ex_support u = inl None.
Proof.
  exists (ex_raw "ns" [("id", "x"); ("summary", "Plain text"); ("entry_point", "text"); ("file_extension", "txt")]%string).
  eexists. split; [vm_compute; reflexivity|]. split; [discriminate|vm_compute; reflexivity].
Qed.
(** Empty data that is well written counts as a mistake *)
Theorem C82_any_json_is_fine_refuted : exists u i,
  ex_check u = ([i], None) /\ i_kind i = Syntax_error /\
  value unit ex_vformat (fun _ t => t) u (T "data") None = inl (Some (T "{}")) /\ loads (T "{}") = Some (JObj []).
Proof.
  exists (ex_raw "ns" [("id", "x"); ("_summary", "Plain text"); ("entry_point", "text"); ("file_extension", "txt"); ("data", "{}")]%string).
  eexists. split; [vm_compute; reflexivity|]. repeat split; vm_compute; reflexivity.
Qed.
(** An exporter that passes every check and is listed but cannot be created, with any options: a
    comma at the end of its options *)
Theorem C82_listed_can_be_created_refuted : exists u, ex_check u = quiet /\
  (exists m s, ex_map [u] = inl m /\ tget (T "ns::x") m = Some s) /\ ex_create [u] (T "ns::x") false [] = Unsupported_option text.
Proof.
  exists (ex_raw "ns" [("id", "x"); ("_summary", "Plain text"); ("entry_point", "text"); ("file_extension", "txt"); ("options", "with-io-log,")]%string).
  split; [vm_compute; reflexivity|]. split; [|vm_compute; reflexivity]. do 2 eexists. split; vm_compute; reflexivity.
Qed.
(** One broken exporter, which is not even listed, stops archives from being made *)
Theorem C82_unusable_is_ignored_refuted : exists u, ex_support u = inl None /\
  (exists m, ex_all [ex_text; ex_html] = inl m) /\ exists e, ex_all [ex_text; ex_html; u] = inr e.
Proof.
  exists (ex_raw "other" [("id", "x"); ("_summary", "Old"); ("entry_point", "gone"); ("file_extension", "txt")]%string).
  split; [vm_compute; reflexivity|]. split; eexists; vm_compute; reflexivity.
Qed.
(** The advice to have a summary is never given *)
Theorem C82_summary_is_asked_for_refuted :
  ex_check (ex_raw "ns" [("id", "x"); ("entry_point", "text"); ("file_extension", "txt")]%string) = quiet.
Proof. vm_compute. reflexivity. Qed.
(** A template may lie outside of the data directory *)
Theorem C82_template_stays_inside_refuted : exists u s,
  support_of unit ex_vformat (fun _ t => t) (fun _ _ => inl []) (fun _ _ => true) (fun _ => None) (fun _ => true)
    (fun p => text_eqb p (T "/d/../e")) ex_word text ex_class (fun _ => Some (T "/d")) u = inl (Some s) /\
  s_template _ s = Some (JStr (T "../e")).
Proof.
  exists (ex_raw "ns" [("id", "x"); ("_summary", "A page"); ("entry_point", "jinja2"); ("file_extension", "html");
    ("data", "{" ++ Q ++ "template" ++ Q ++ ": " ++ Q ++ "../e" ++ Q ++ "}")]%string).
  eexists. split; [vm_compute; reflexivity|reflexivity].
Qed.
Print Assumptions C82_warnings_do_not_hide_refuted.
Print Assumptions C82_any_json_is_fine_refuted.
Print Assumptions C82_listed_can_be_created_refuted.
Print Assumptions C82_unusable_is_ignored_refuted.
Print Assumptions C82_summary_is_asked_for_refuted.
Print Assumptions C82_template_stays_inside_refuted.
