(** Properties of configuration objects: C40, C49 and C50. *)
From Coq Require Import String Ascii List Bool Arith ZArith Lia Permutation.
From Verif Require Import ScanModel Rfc822Model Rfc822Spec Rfc822Proofs IniModel ConfigModel ConfigSpec IniProofs IniMerge ConfigProofs ConfigWrite ConfigRound.
Import ListNotations.
Local Open Scope nat_scope.
Local Open Scope list_scope.

Lemma read_files_spec files : forall i, no_default i -> nodup_ini i ->
  match read_files files i with
  | inl i' => no_default i' /\ nodup_ini i' /\
      (forall s k, held i' s k = match latest files s k with Some v => Some v | None => held i s k end) /\
      (forall s, has_section i' s <-> has_section i s \/ exists t, In (Some t) files /\ has_section (fst (read_text t empty_ini)) s) /\
      (forall t, In (Some t) files -> snd (read_text t empty_ini) = Fine)
  | inr e => exists t, In (Some t) files /\ snd (read_text t empty_ini) <> Fine
  end.
Proof.
  induction files as [|[t|] files IH]; intros i N D; cbn [read_files].
  - split; [exact N|]. split; [exact D|]. split; [reflexivity|]. split; [|intros t []].
    intros s. split; [tauto|]. intros [H|(t & [] & _)]. exact H.
  - destruct (read_text t i) as [i1 e1] eqn:E1. destruct (read_text t empty_ini) as [i2 e2] eqn:E2.
    destruct (read_text_merge t i i1 e1 i2 e2 N E1 E2) as (-> & N1 & H1 & S1).
    assert (D1 : nodup_ini i1) by (pose proof (read_text_nodup t i D) as Q; now rewrite E1 in Q).
    destruct e2.
    + specialize (IH i1 N1 D1). destruct (read_files files i1) as [i'|e].
      * destruct IH as (A & B & C & E & F). split; [exact A|]. split; [exact B|]. split; [|split].
        -- intros s k. rewrite C. cbn [latest file_says]. rewrite E2. cbn [fst]. rewrite H1.
           destruct (latest files s k); reflexivity.
        -- intros s. rewrite E, S1. split.
           ++ intros [[H|H]|(t' & Ht & H)]; [|tauto|]; right.
              ** exists t. rewrite E2. split; [now left|exact H].
              ** exists t'. split; [now right|exact H].
           ++ intros [H|(t' & [Ht|Ht] & H)]; [tauto| |right; eauto].
              injection Ht as <-. rewrite E2 in H. left. left. exact H.
        -- intros t' [Ht|Ht]; [injection Ht as <-; now rewrite E2|auto].
      * destruct IH as (t' & Ht & H). exists t'. split; auto. now right.
    + exists t. rewrite E2. split; [now left|discriminate].
    + exists t. rewrite E2. split; [now left|discriminate].
  - specialize (IH i N D). destruct (read_files files i) as [i'|e].
    + destruct IH as (A & B & C & E & F). split; [exact A|]. split; [exact B|]. split; [|split].
      * intros s k. rewrite C. cbn [latest file_says]. now destruct (latest files s k).
      * intros s. rewrite E. split; intros [H|(t & Ht & H)]; [tauto|right; exists t; split; [now right|exact H]|tauto|].
        destruct Ht as [Ht|Ht]; [discriminate|]. right. eauto.
      * intros t [Ht|Ht]; [discriminate|auto].
    + destruct IH as (t' & Ht & H). exists t'. split; auto. now right.
Qed.

Section C.
  Variable to_float : text -> option text.
  Variable whole_ok : config -> bool.

  Lemma commit_configured c i g g' : no_default i -> nodup_ini i ->
    NoDup (map mangled (c_variables c)) -> NoDup (c_sections c ++ c_parametric c) ->
    forall first, read_commit to_float whole_ok c i (mk_config (g_var g) (g_sect g) first) = (g', None) ->
    configured to_float whole_ok c i first g g'.
  Proof.
    intros N D Nv Ns first H. exact (read_commit_spec to_float whole_ok c i _ g' N D Nv Ns H).
  Qed.

  (** When [read_string] returns, each variable has been set to what the text says
      (its default if nothing) if its validators allow that and keeps its value
      otherwise; the problems are those of the parser, then one for each refused
      value in the order of the class, then the one of the whole configuration. *)
  Theorem C40_read_string c t g g' i e :
    NoDup (map mangled (c_variables c)) -> NoDup (c_sections c ++ c_parametric c) ->
    read_text t empty_ini = (i, e) ->
    read_string to_float whole_ok c t g = (g', None) ->
    e <> AttrError /\
    configured to_float whole_ok c i (match e with ParserError => [PParse] | _ => [] end) g g'.
  Proof.
    intros Nv Ns E H. unfold read_string in H. rewrite E in H.
    pose proof (read_text_no_default t empty_ini no_default_empty) as N. rewrite E in N. cbn [fst] in N.
    pose proof (read_text_nodup t empty_ini nodup_empty) as D. rewrite E in D. cbn [fst] in D.
    destruct e; [| |discriminate]; (split; [discriminate|]); now apply commit_configured.
  Qed.

  (** It returns exactly if the parser does not stumble over a continuation of an
      option without a value, and everything the class asks for has the right form. *)
  Theorem C40_read_string_returns c t g i e :
    read_text t empty_ini = (i, e) ->
    snd (read_string to_float whole_ok c t g) = None <-> e <> AttrError /\ intelligible to_float c i.
  Proof.
    intros E. unfold read_string. rewrite E.
    pose proof (read_text_no_default t empty_ini no_default_empty) as N. rewrite E in N. cbn [fst] in N.
    pose proof (read_text_nodup t empty_ini nodup_empty) as D. rewrite E in D. cbn [fst] in D.
    destruct e; cbn [snd].
    - rewrite read_commit_ends by auto. unfold intelligible. intuition discriminate.
    - rewrite read_commit_ends by auto. unfold intelligible. intuition discriminate.
    - intuition discriminate.
  Qed.

  (** What a text says about a variable is determined. *)
  Theorem C40_one_meaning t x v v' :
    says to_float (fst (read_text t empty_ini)) x v -> says to_float (fst (read_text t empty_ini)) x v' -> v = v'.
  Proof.
    pose proof (read_text_no_default t empty_ini no_default_empty) as N.
    intros H H'. apply read_value_says in H; auto. apply read_value_says in H'; auto. congruence.
  Qed.

  (** *** Histories *)

  Inductive op :=
  | OSet (x : variable) (v : value)
  | ODelete (x : variable)
  | OSection (s : text) (v : sectval)
  | OReadString (t : text)
  | ORead (files : list (option text)).

  (** What an operation leaves, also when it raises. *)
  Definition perform (c : cls) (o : op) (g : config) : config :=
    match o with
    | OSet x v => match set_var x v g with Some g' => g' | None => g end
    | ODelete x => match del_var x g with Some g' => g' | None => g end
    | OSection s v => set_section s v g
    | OReadString t => fst (read_string to_float whole_ok c t g)
    | ORead files => fst (read to_float whole_ok c files g)
    end.
  Definition on_class (c : cls) (o : op) : Prop :=
    match o with OSet x _ | ODelete x => In x (c_variables c) | _ => True end.

  Definition all_valid (c : cls) (g : config) : Prop :=
    forall x v, In x (c_variables c) -> tget (mangled x) (g_var g) = Some v -> validate x v = true.

  Lemma tget_tdel {A} k k' (d : tdict A) : tget k (tdel k' d) = if text_eqb k k' then None else tget k d.
  Proof.
    unfold tdel. induction d as [|[a b] d IH]; cbn [filter tget]; [now destruct (text_eqb k k')|].
    cbn [fst]. destruct (text_eqb k' a) eqn:E; cbn [negb].
    - apply text_eqb_eq in E. subst. rewrite IH. destruct (text_eqb k a); reflexivity.
    - cbn [tget]. destruct (text_eqb k a) eqn:E2; [|exact IH]. apply text_eqb_eq in E2. subst.
      assert (text_eqb a k' = false) as -> by (apply text_eqb_neq; apply text_eqb_neq in E; congruence). reflexivity.
  Qed.

  Lemma same_mangled c x y : NoDup (map mangled (c_variables c)) -> In x (c_variables c) -> In y (c_variables c) ->
    mangled x = mangled y -> x = y.
  Proof.
    intros N Hx Hy M. induction (c_variables c) as [|a l IH]; [destruct Hx|]. cbn in N. inversion N; subst.
    destruct Hx as [->|Hx], Hy as [->|Hy]; auto.
    - exfalso. apply H1. rewrite M. now apply in_map.
    - exfalso. apply H1. rewrite <- M. now apply in_map.
  Qed.

  Lemma valid_set c x v g g' : NoDup (map mangled (c_variables c)) -> In x (c_variables c) -> all_valid c g ->
    set_var x v g = Some g' -> all_valid c g'.
  Proof.
    intros N Hx H E. apply set_var_some in E. destruct E as (V & _ & _ & E). intros y w Hy. rewrite E.
    destruct (text_eqb (mangled y) (mangled x)) eqn:M; [|now apply H]. intros [= <-].
    apply text_eqb_eq in M. assert (y = x) by (eapply same_mangled; eauto). now subst.
  Qed.

  Lemma valid_read_variables c i l : NoDup (map mangled (c_variables c)) -> incl l (c_variables c) -> forall g,
    all_valid c g -> all_valid c (fst (read_variables to_float i l g)).
  Proof.
    intros N. induction l as [|x l IH]; intros Hl g H; cbn [read_variables]; [exact H|].
    assert (Hl' : incl l (c_variables c)) by (intros y Hy; apply Hl; now right).
    destruct (read_value to_float i x); [|exact H]. destruct (set_var x v g) eqn:E.
    - apply IH; auto. eapply valid_set; eauto. apply Hl. now left.
    - apply IH; auto.
  Qed.

  Lemma sections_var i l : forall g, g_var (fst (read_sections i l g)) = g_var g.
  Proof.
    induction l as [|s l IH]; intros g; cbn [read_sections]; [reflexivity|].
    destruct (ini_items i s) as [[d|e]|]; [now rewrite IH|reflexivity|apply IH].
  Qed.
  Lemma parametric_var i l : forall g, g_var (fst (read_parametric i l g)) = g_var g.
  Proof.
    induction l as [|s l IH]; intros g; cbn [read_parametric]; [reflexivity|].
    destruct (parametric_values i (s ++ T ":") (ini_keys i) []) as [d|e]; [now rewrite IH|reflexivity].
  Qed.

  Lemma valid_commit c i g : NoDup (map mangled (c_variables c)) -> all_valid c g ->
    all_valid c (fst (read_commit to_float whole_ok c i g)).
  Proof.
    intros N H. unfold read_commit.
    pose proof (valid_read_variables c i (c_variables c) N (incl_refl _) g H) as A.
    destruct (read_variables to_float i (c_variables c) g) as [g1 [e|]]; [exact A|]. cbn [fst] in A.
    pose proof (sections_var i (c_sections c) g1) as B. destruct (read_sections i (c_sections c) g1) as [g2 [e|]]; cbn [fst] in B.
    { intros x v. cbn [fst]. rewrite B. apply A. }
    pose proof (parametric_var i (c_parametric c) g2) as C. destruct (read_parametric i (c_parametric c) g2) as [g3 [e|]]; cbn [fst] in C.
    { intros x v. cbn [fst]. rewrite C, B. apply A. }
    destruct (whole_ok g3); intros x v; cbn [fst g_var add_problem]; rewrite C, B; apply A.
  Qed.

  (** Whatever is assigned, deleted and read, in any order and also when reading
      raises, a variable has its default value or one its validators accept. *)
  Theorem C40_always_valid c ops x :
    NoDup (map mangled (c_variables c)) -> Forall (on_class c) ops -> In x (c_variables c) ->
    let g := fold_left (fun g o => perform c o g) ops new_config in
    get_var x g = v_default x \/ validate x (get_var x g) = true.
  Proof.
    intros N Ho Hx g.
    assert (A : all_valid c g).
    { unfold g. assert (A0 : all_valid c new_config) by (intros y v Hy; discriminate).
      revert A0. generalize new_config. clear g. induction Ho as [|o ops Ho1 Ho IH]; intros g A; [exact A|].
      cbn [fold_left]. apply IH. destruct o as [y v|y|s v|t|files]; cbn [perform on_class] in *.
      - destruct (set_var y v g) eqn:E; [|exact A]. now apply (valid_set c y v g).
      - unfold del_var. destruct (tget (mangled y) (g_var g)); [|exact A]. intros z w Hz. cbn [g_var]. rewrite tget_tdel.
        destruct (text_eqb (mangled z) (mangled y)); [discriminate|now apply A].
      - exact A.
      - unfold read_string. destruct (read_text t empty_ini) as [i [| |]]; [| |exact A]; now apply valid_commit.
      - unfold read. destruct (read_files files empty_ini) as [i|e]; [|exact A]. now apply valid_commit. }
    unfold get_var. destruct (tget (mangled x) (g_var g)) as [v|] eqn:E; [|now left]. right. now apply (A x).
  Qed.

  (** Assigning: a value that is not valid changes nothing, a valid one is what
      is read afterwards, and no other variable changes. *)
  Theorem C40_assignment c x v g :
    NoDup (map mangled (c_variables c)) -> In x (c_variables c) ->
    match set_var x v g with
    | None => validate x v = false
    | Some g' => validate x v = true /\ get_var x g' = v /\
        forall y, In y (c_variables c) -> y <> x -> get_var y g' = get_var y g
    end.
  Proof.
    intros N Hx. destruct (set_var x v g) as [g'|] eqn:E.
    - apply set_var_some in E. destruct E as (V & _ & _ & E). split; [exact V|]. split.
      + unfold get_var. now rewrite E, text_eqb_refl.
      + intros y Hy Ny. unfold get_var. rewrite E. destruct (text_eqb (mangled y) (mangled x)) eqn:M; [|reflexivity].
        apply text_eqb_eq in M. exfalso. apply Ny. eapply same_mangled; eauto.
    - unfold set_var in E. now destruct (validate x v).
  Qed.

  (** ** C49: writing and reading back *)

  Theorem C49_written_can_be_read_back c g : good_class c -> good_config to_float c g ->
    exists t g', write c g = Some t /\ read_string to_float whole_ok c t new_config = (g', None) /\
      (forall x, In x (c_variables c) ->
         get_var x g' = match get_var x g with VUnset => v_default x | v => v end) /\
      (forall s d, In s (c_sections c) -> get_section s g = Some (SPlain d) ->
         exists d', get_section s g' = Some (SPlain d') /\ restored c g d d') /\
      (forall s d, In s (c_parametric c) -> get_section s g = Some (SParam d) ->
         exists d', get_section s g' = Some (SParam d') /\
           forall k, match tget k d, tget k d' with
             | Some e, Some e' => restored c g e e' | None, None => True | _, _ => False end) /\
      forall p, In p (g_problems g') -> p = PWhole \/
        exists x, In x (c_variables c) /\ get_var x g = VUnset /\ validate x (v_default x) = false /\ p = PValue x (v_default x).
  Proof.
    intros GC GG. destruct (round_trip to_float whole_ok c g GC GG) as (t & g' & A & B & C & D & E & F).
    exists t, g'. split; [exact A|]. split; [exact B|]. split; [exact C|]. split; [exact D|]. split; [exact E|].
    cbn zeta in F. rewrite F. intros p Hp. apply in_app_or in Hp. destruct Hp as [Hp|Hp].
    - right. unfold refusals in Hp. apply in_map_iff in Hp. destruct Hp as ([x v] & <- & Hx).
      apply filter_In in Hx. destruct Hx as [Hx V]. apply in_map_iff in Hx. destruct Hx as (y & Ey & Hy).
      injection Ey as <- <-. cbn [fst snd] in *. exists y. split; [exact Hy|]. unfold back in *.
      destruct (gg_variables _ _ _ GG y Hy) as [N|[S V']].
      + rewrite N in *. apply negb_true_iff in V. auto.
      + exfalso. apply negb_true_iff in V. destruct (get_var y g) eqn:Eg; try congruence. inversion S.
    - left. destruct (whole_ok _); cbn in Hp; intuition congruence.
  Qed.

  (** The INI layer: what is written for names and values of the right form is
      what is read. *)
  Theorem C49_ini_round_trip i : writable_ini i ->
    exists i', read_text (write_ini i) empty_ini = (i', Fine) /\
      (forall s k, held i' s k = held i s k) /\ (forall s, has_section i' s <-> has_section i s).
  Proof.
    intros H. exists (sorted_ini i). split; [now apply read_written|].
    split; [intros; now apply held_sorted|apply has_sorted].
  Qed.

  (** ** C50: several files *)

  Theorem C50_later_files_win c files g g' :
    NoDup (map mangled (c_variables c)) -> NoDup (c_sections c ++ c_parametric c) ->
    read to_float whole_ok c files g = (g', None) ->
    exists i, (forall s k, held i s k = latest files s k) /\
      (forall s, has_section i s <-> s = DEFAULT \/
         exists t, In (Some t) files /\ has_section (fst (read_text t empty_ini)) s) /\
      configured to_float whole_ok c i [] g g'.
  Proof.
    intros Nv Ns H. unfold read in H. pose proof (read_files_spec files empty_ini no_default_empty nodup_empty) as R.
    destruct (read_files files empty_ini) as [i|e]; [|discriminate]. destruct R as (N & D & A & B & _).
    exists i. split; [|split].
    - intros s k. rewrite A. destruct (latest files s k); [reflexivity|].
      unfold held, empty_ini. cbn [i_defaults i_sections tget]. now destruct (text_eqb s DEFAULT).
    - intros s. rewrite B. split; intros [X|X]; auto.
      + destruct X as [X|[d X]]; [now left|discriminate].
      + left. now left.
    - now apply commit_configured.
  Qed.

  (** Reading raises exactly if a file is faulty or the whole is not intelligible. *)
  Theorem C50_reading_returns c files g :
    snd (read to_float whole_ok c files g) = None <->
    (forall t, In (Some t) files -> snd (read_text t empty_ini) = Fine) /\
    exists i, read_files files empty_ini = inl i /\ intelligible to_float c i.
  Proof.
    unfold read. pose proof (read_files_spec files empty_ini no_default_empty nodup_empty) as R.
    destruct (read_files files empty_ini) as [i|e].
    - destruct R as (N & D & _ & _ & F). rewrite read_commit_ends by auto. split.
      + intros H. split; [exact F|]. exists i. split; [reflexivity|exact H].
      + intros (_ & i' & [= <-] & H). exact H.
    - destruct R as (t & Ht & X). cbn. split; [discriminate|]. intros (H & _). exfalso. apply X. now apply H.
  Qed.
End C.
Print Assumptions C40_read_string.
Print Assumptions C40_read_string_returns.
Print Assumptions C40_one_meaning.
Print Assumptions C40_always_valid.
Print Assumptions C40_assignment.
Print Assumptions C49_written_can_be_read_back.
Print Assumptions C49_ini_round_trip.
Print Assumptions C50_later_files_win.
Print Assumptions C50_reading_returns.

(** ** Expansion of %(name)s *)

Theorem C40_expansion m t u : interpolate max_depth m t = inl u <-> expands m 9 t u.
Proof. apply interpolate_iff. Qed.
Print Assumptions C40_expansion.

(** ** Examples and counterexamples *)

Definition tf (t : text) : option text := if text_eqb t (T "1.5") then Some t else None.
Definition any (g : config) : bool := true.
Definition X_title : variable := mk_variable (T "title") DEFAULT KStr (VStr (T "none")) [kind_validator].
Definition X_tries : variable := mk_variable (T "tries") (T "run") KInt (VInt 3) [kind_validator].
Definition X_fast : variable := mk_variable (T "fast") (T "run") KBool VUnset [kind_validator].
Definition X_color : variable :=
  mk_variable (T "color") (T "ui") KStr (VStr (T "red")) [kind_validator; choice_validator [T "red"; T "blue"]].
Definition X_tags : variable := mk_variable (T "tags") (T "ui") KList (VList []) [kind_validator].
Definition X_secret : variable := mk_variable (T "secret") (T "ui") KStr VUnset [not_unset_validator; kind_validator].
Definition X_class : cls :=
  mk_cls [X_title; X_tries; X_fast; X_color; X_tags; X_secret] [T "environment"] [T "transport"].
Definition lines (l : list string) : text := flat_map (fun s => T s ++ [NL]) l.

Definition X_text : text := lines
  ["[DEFAULT]"; "title = The %(word)s"; "word = 100%%";
   "[run]"; "tries = 7"; "fast = Yes";
   "[ui]"; "color = green"; "tags = a, 'b c' d";
   "[environment]"; "HOME = /root";
   "[transport:x]"; "stream = stdout"]%string.

(** A reading: a refused colour, a missing secret, an expansion, a list. *)
Example X_read :
  let r := read_string tf any X_class X_text new_config in
  snd r = None /\
  map (fun x => get_var x (fst r)) (c_variables X_class) =
    [VStr (T "The 100%"); VInt 7; VBool true; VStr (T "red"); VList [T "a"; T "b c"; T "d"]; VUnset] /\
  map (fun p => match p with PValue x v => Some (v_name x, v) | _ => None end) (g_problems (fst r)) =
    [Some (T "color", VStr (T "green")); Some (T "secret", VUnset)] /\
  get_section (T "environment") (fst r) =
    Some (SPlain [(T "title", T "The 100%"); (T "word", T "100%"); (T "HOME", T "/root")]) /\
  get_section (T "transport") (fst r) =
    Some (SParam [(T "x", [(T "title", T "The 100%"); (T "word", T "100%"); (T "stream", T "stdout")])]).
Proof. vm_compute. repeat split; reflexivity. Qed.

Ltac not_in := cbn; intuition discriminate.
Lemma X_nodup : NoDup (map mangled (c_variables X_class)) /\ NoDup (c_sections X_class ++ c_parametric X_class).
Proof. split; cbn; repeat (constructor; [cbn; intuition discriminate|]); constructor. Qed.

(** The hypotheses of C40 and C50 hold for it, and for two files. *)
Example X_meets_C40 : exists g' i, read_text X_text empty_ini = (i, Fine) /\
  read_string tf any X_class X_text new_config = (g', None) /\ g_problems g' <> [].
Proof.
  exists (fst (read_string tf any X_class X_text new_config)), (fst (read_text X_text empty_ini)).
  split; [vm_compute; reflexivity|]. split; [vm_compute; reflexivity|]. vm_compute. discriminate.
Qed.
Example X_two_files :
  let a := lines ["[ui]"; "color = blue"; "tags = old"; "[run]"; "tries = 1"]%string in
  let b := lines ["[ui]"; "tags = new"]%string in
  let r := read tf any X_class [Some a; None; Some b] new_config in
  snd r = None /\ get_var X_color (fst r) = VStr (T "blue") /\ get_var X_tags (fst r) = VList [T "new"] /\
  get_var X_tries (fst r) = VInt 1.
Proof. vm_compute. repeat split; reflexivity. Qed.

(** A configuration that meets the hypotheses of C49. *)
Definition X_config : config := mk_config
  [(mangled X_title, VStr (T "two" ++ NL :: T "lines")); (mangled X_tries, VInt (-12));
   (mangled X_fast, VBool false); (mangled X_tags, VList [T "a"; T "b-c"]); (mangled X_secret, VStr (T "x=y; z"))]
  [(T "environment", SPlain [(T "PATH", T "/bin:/usr/bin"); (T "EMPTY", [])]);
   (T "transport", SParam [(T "a:b", [(T "stream", T "stderr")])])] [].

Lemma option_name_bool k : 
  (match k with c :: _ => negb (Ascii.eqb c "#" || Ascii.eqb c ";" || Ascii.eqb c "[") | [] => false end &&
   text_eqb (strip k) k && negb (existsb (Ascii.eqb NL) k) && negb (existsb (Ascii.eqb "=") k))%bool = true -> option_name k.
Proof.
  intros H. apply andb_prop in H. destruct H as [H H4]. apply andb_prop in H. destruct H as [H H3].
  apply andb_prop in H. destruct H as [H1 H2]. apply text_eqb_eq in H2.
  assert (N : forall c, negb (existsb (Ascii.eqb c) k) = true -> ~ In c k).
  { intros c Hc Hin. apply negb_true_iff in Hc. assert (existsb (Ascii.eqb c) k = true); [|congruence].
    apply existsb_exists. exists c. split; auto. apply Ascii.eqb_refl. }
  split; [destruct k; congruence|]. split; [exact H2|]. split; [now apply N|]. split; [now apply N|].
  destruct k as [|c r]; [exact I|]. apply negb_true_iff in H1. apply orb_false_iff in H1. destruct H1 as [H1 H5].
  apply orb_false_iff in H1. destruct H1 as [H1 H6].
  repeat split; intros ->; discriminate.
Qed.

Lemma X_good_class : good_class X_class.
Proof.
  constructor.
  - intros x Hx. cbn in Hx.
    repeat (destruct Hx as [<-|Hx]; [split; [apply option_name_bool; reflexivity|];
      split; [split; [split; [discriminate|not_in]|not_in]|not_in]|]). destruct Hx.
  - apply X_nodup.
  - intros x y Hx Hy. cbn in Hx, Hy.
    repeat (destruct Hx as [<-|Hx]; [repeat (destruct Hy as [<-|Hy]; [cbn; congruence|]); destruct Hy|]). destruct Hx.
  - apply X_nodup.
  - intros s Hs. cbn in Hs.
    repeat (destruct Hs as [<-|Hs]; [split; [split; [split; [discriminate|not_in]|not_in]|discriminate]|]). destruct Hs.
Qed.

Lemma X_good_config : good_config tf X_class X_config.
Proof.
  assert (W : forall t, ~ In NL t -> strip t = t -> writable t).
  { intros t H E. unfold writable. rewrite split_nl_line by exact H. split; [exact E|]. split; [constructor|now left]. }
  constructor.
  - intros x Hx. cbn in Hx. destruct Hx as [<-|[<-|[<-|[<-|[<-|[<-|[]]]]]]]; right; (split; [|reflexivity]).
    + constructor; [|not_in]. vm_compute. split; [reflexivity|]. split.
      * constructor; [|constructor]. split; [reflexivity|]. split; discriminate.
      * right. discriminate.
    + constructor.
    + constructor.
    + constructor; [|not_in]. apply W; [not_in|reflexivity].
    + change (storable tf KList (VList [T "a"; T "b-c"])). constructor.
      assert (Q : forall c, In c (T "ab-c") -> word_char c).
      { intros c Hc. cbn in Hc. repeat (destruct Hc as [<-|Hc]; [repeat split; discriminate|]). destruct Hc. }
      constructor; [|constructor; [|constructor]]; (split; [discriminate|]); intros c Hc; apply Q; cbn in *; tauto.
    + constructor; [|not_in]. apply W; [not_in|reflexivity].
  - intros s [<-|[]]. eexists. split; [reflexivity|]. split.
    + cbn. repeat (constructor; [cbn; intuition discriminate|]). constructor.
    + intros k v [[= <- <-]|[[= <- <-]|[]]]; (split; [apply option_name_bool; reflexivity|]); (split; [apply W; [not_in|reflexivity]|not_in]).
  - intros s [<-|[]]. eexists. split; [reflexivity|]. split.
    + cbn. constructor; [intros []|constructor].
    + intros k e [[= <- <-]|[]]. split; [not_in|]. split.
      * cbn. constructor; [intros []|constructor].
      * intros k v [[= <- <-]|[]]. split; [apply option_name_bool; reflexivity|]. split; [apply W; [not_in|reflexivity]|not_in].
Qed.

(** Texts for which reading raises, although problems should be listed. *)
Theorem C40_always_returns_refuted :
  let raises t e := snd (read_string tf any X_class (lines t) new_config) = Some e in
  raises ["[run]"; "tries = many"]%string EValue /\
  raises ["[run]"; "fast = maybe"]%string EValue /\
  raises ["[ui]"; "tags = 'x"]%string EValue /\
  raises ["[ui]"; "color = 50%"]%string EInterpolation /\
  raises ["[environment]"; "X = %(Y)s"]%string EInterpolation /\
  raises ["[run]"; "tries"]%string EType /\
  raises ["[run]"; "fast"]%string EAttribute /\
  raises ["[extra]"; "x"; "  y"]%string EAttribute.
Proof. vm_compute. repeat split; reflexivity. Qed.

(** A syntax error is listed by read_string but raised by read. *)
Theorem C50_syntax_errors_are_listed_refuted :
  let t := lines ["no section"]%string in
  g_problems (fst (read_string tf any X_class t new_config)) <> [] /\
  snd (read_string tf any X_class t new_config) = None /\
  snd (read tf any X_class [Some t] new_config) = Some EParser.
Proof. vm_compute. repeat split; try reflexivity. discriminate. Qed.

(** Variables that share a mangled name share their value. *)
Theorem C40_distinct_variables_refuted : exists x y g,
  (v_section x, v_name x) <> (v_section y, v_name y) /\
  (forall v, set_var x v g <> None -> option_map (get_var y) (set_var x v g) = Some v).
Proof.
  exists (mk_variable (T "c") (T "a__b") KStr VUnset []), (mk_variable (T "b__c") (T "a") KStr VUnset []), new_config.
  split; [discriminate|]. intros v _. unfold set_var. cbn [validate v_validators forallb option_map]. unfold get_var.
  cbn. reflexivity.
Qed.

(** Outside the good configurations: writing raises for a percent sign, a lost
    percent sign, a list that comes back split, and a variable of another
    section that takes its value from [DEFAULT]. *)
Theorem C49_everything_survives_refuted :
  let c := mk_cls [X_title; X_tags] [] [] in
  let g v w := mk_config [(mangled X_title, VStr v); (mangled X_tags, VList w)] [] [] in
  let again v w := match write c (g v w) with
    | Some t => let g' := fst (read_string tf any c t new_config) in Some (get_var X_title g', get_var X_tags g')
    | None => None end in
  again (T "50%") [] = None /\
  again (T "50%%") [] = Some (VStr (T "50%"), VList []) /\
  again (T " x") [T "a b"] = Some (VStr (T "x"), VList [T "a"; T "b"]).
Proof. vm_compute. repeat split; reflexivity. Qed.
Print Assumptions C40_always_returns_refuted.
Print Assumptions C50_syntax_errors_are_listed_refuted.
Print Assumptions C40_distinct_variables_refuted.
Print Assumptions C49_everything_survives_refuted.
