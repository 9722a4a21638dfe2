(** * Restarting: the lemmas *)
From Coq Require Import String Ascii List Bool Arith Lia.
From Verif Require Import ScanModel Rfc822Model IniModel Rfc822Proofs IniProofs ConfigWrite RestartModel RestartSpec.
Import ListNotations.
Local Open Scope nat_scope.
Local Open Scope list_scope.

(** ** Quoting *)

Definition harmless_chars : text :=
  T "abcdefghijklmnopqrstuvwxyzABCDEFGHIJKLMNOPQRSTUVWXYZ0123456789_@%+=:,./-".
Lemma safe_harmless c : safe_char c = true -> harmless c.
Proof.
  intros H. assert (E : existsb (Ascii.eqb c) harmless_chars = true).
  { revert H. destruct c as [[] [] [] [] [] [] [] []]; vm_compute; congruence. }
  apply existsb_exists in E as (d & I & E). apply Ascii.eqb_eq in E as ->. exact I.
Qed.

Lemma safe_sh w : forallb safe_char w = true -> sh_word w w.
Proof.
  induction w as [|c w IH]; simpl; intros H; [constructor|]. apply andb_true_iff in H as [A B].
  constructor; auto using safe_harmless.
Qed.

Lemma sh_app w u w' u' : sh_word w u -> sh_word w' u' -> sh_word (w ++ w') (u ++ u').
Proof.
  induction 1; simpl; intros H'; auto.
  - constructor; auto.
  - rewrite <- !app_assoc. simpl. apply sh_single; auto.
  - rewrite <- !app_assoc. simpl. apply sh_double; auto.
Qed.

(** A text cut at its single quotes *)
Fixpoint at_quotes (s : text) : text * option text :=
  match s with
  | [] => ([], None)
  | c :: r => if Ascii.eqb c SQ then ([], Some r) else
      let (a, b) := at_quotes r in (c :: a, b)
  end.
Lemma at_quotes_spec s : let (a, b) := at_quotes s in
  ~ In SQ a /\ (match b with Some r => s = a ++ SQ :: r | None => s = a end) /\
  guard_quotes s = a ++ match b with Some r => [SQ; DQ; SQ; DQ; SQ] ++ guard_quotes r | None => [] end.
Proof.
  induction s as [|c s IH]; simpl; [auto|]. destruct (Ascii.eqb c SQ) eqn:E.
  - apply Ascii.eqb_eq in E as ->. simpl. auto.
  - destruct (at_quotes s) as [a b]. destruct IH as (A & B & C). apply Ascii.eqb_neq in E.
    split; [|split].
    + simpl. intros [X|X]; auto.
    + destruct b; simpl; now rewrite B.
    + simpl. now rewrite C.
Qed.

Lemma guard_sh : forall n s, length s <= n -> sh_word (SQ :: guard_quotes s ++ [SQ]) s.
Proof.
  induction n as [|n IH]; intros s L.
  - destruct s; simpl in *; [|lia]. apply (sh_single [] [] []); [intros []|constructor].
  - pose proof (at_quotes_spec s) as X. destruct (at_quotes s) as [a b]. destruct X as (A & B & C).
    rewrite C. destruct b as [r|].
    + rewrite B. rewrite <- app_assoc. cbn [app].
      apply (sh_single a (DQ :: SQ :: DQ :: SQ :: guard_quotes r ++ [SQ]) (SQ :: r)); [exact A|].
      apply (sh_double [SQ] (SQ :: guard_quotes r ++ [SQ]) r).
      * intros c [<-|[]] I. vm_compute in I. repeat destruct I as [I|I]; try discriminate I; exact I.
      * apply IH. rewrite B, app_length in L. simpl in L. lia.
    + rewrite B, app_nil_r. rewrite <- (app_nil_r a) at 2. apply (sh_single a [] []); [exact A|constructor].
Qed.

Lemma quote_sh s : quote s <> [] /\ sh_word (quote s) s.
Proof.
  unfold quote. destruct s as [|c s].
  - split; [discriminate|]. apply (sh_single [] [] []); [intros []|constructor].
  - destruct (forallb safe_char (c :: s)) eqn:E.
    + split; [discriminate|]. now apply safe_sh.
    + split; [discriminate|]. apply (guard_sh (length (c :: s))). reflexivity.
Qed.

(** What shlex makes of such a word *)
Lemma harmless_shlex c : harmless c -> shblank c = false /\ shquote c = false /\ Ascii.eqb c backslash = false.
Proof.
  intros H. assert (E : forallb (fun c => negb (shblank c) && negb (shquote c) && negb (Ascii.eqb c backslash)) harmless_chars = true)
    by reflexivity.
  rewrite forallb_forall in E. apply E in H. apply andb_true_iff in H as [H C]. apply andb_true_iff in H as [A B].
  repeat split; now apply negb_true_iff.
Qed.

Lemma shlex_single s : ~ In "'"%char s -> forall tok q rest,
  shlex (SQuote "'"%char) tok q (s ++ "'"%char :: rest) = shlex SWord (rev s ++ tok) true rest.
Proof.
  induction s as [|c s IH]; intros H tok q rest.
  - cbn [app]. cbn [shlex rev]. rewrite Ascii.eqb_refl. reflexivity.
  - cbn [app]. cbn [shlex]. destruct (Ascii.eqb c "'") eqn:E.
    { apply Ascii.eqb_eq in E. destruct H. now left. }
    replace (Ascii.eqb "'" DQ) with false by reflexivity. rewrite andb_false_r.
    rewrite IH by (intros X; apply H; now right). cbn [rev]. now rewrite <- app_assoc.
Qed.
Lemma shlex_double s : (forall c, In c s -> ~ In c [DQ; "$"; "`"; "\"]%char) -> forall tok q rest,
  shlex (SQuote DQ) tok q (s ++ DQ :: rest) = shlex SWord (rev s ++ tok) true rest.
Proof.
  induction s as [|c s IH]; intros H tok q rest.
  - cbn [app]. cbn [shlex rev]. rewrite Ascii.eqb_refl. reflexivity.
  - cbn [app]. cbn [shlex]. pose proof (H c (or_introl eq_refl)) as N. destruct (Ascii.eqb c DQ) eqn:E.
    { apply Ascii.eqb_eq in E. destruct N. now left. }
    destruct (Ascii.eqb c backslash) eqn:F.
    { apply Ascii.eqb_eq in F. destruct N. rewrite F. right. right. right. now left. }
    cbn [andb]. rewrite IH by (intros x X; apply H; now right). cbn [rev]. now rewrite <- app_assoc.
Qed.

(** In the middle of a word *)
Lemma shlex_sh w u : sh_word w u -> forall tok q, (tok <> [] \/ q = true \/ w = []) -> forall rest, exists q',
  shlex SWord tok q (w ++ rest) = shlex SWord (rev u ++ tok) q' rest /\ (rev u ++ tok <> [] \/ q' = true \/ (w = [] /\ q' = q)).
Proof.
  induction 1 as [|c w u S H IH|s w u N H IH|s w u N H IH]; intros tok q K rest.
  - exists q. split; [reflexivity|]. destruct K as [K|[K|K]]; auto.
  - destruct (harmless_shlex c S) as (A & B & C). cbn [app]. cbn [shlex]. rewrite A, B, C.
    assert (NE : c :: tok <> []) by discriminate. destruct (IH (c :: tok) q (or_introl NE) rest) as (q' & E & F).
    exists q'. cbn [rev]. rewrite <- app_assoc. cbn [app]. rewrite E. split; [reflexivity|].
    left. intros X. apply app_eq_nil in X as [_ X]. discriminate X.
  - cbn [app]. rewrite <- app_assoc. cbn [app]. cbn [shlex].
    replace (shblank "'") with false by reflexivity. replace (shquote "'") with true by reflexivity. cbn iota.
    rewrite shlex_single by exact N.
    destruct (IH (rev s ++ tok) true (or_intror (or_introl eq_refl)) rest) as (q' & E & F).
    exists q'. rewrite rev_app_distr, <- app_assoc. rewrite E. split; [reflexivity|].
    destruct F as [F|[F|[F1 F2]]]; auto.
  - cbn [app]. rewrite <- app_assoc. cbn [app]. cbn [shlex].
    replace (shblank DQ) with false by reflexivity. replace (shquote DQ) with true by reflexivity. cbn iota.
    rewrite shlex_double by exact N.
    destruct (IH (rev s ++ tok) true (or_intror (or_introl eq_refl)) rest) as (q' & E & F).
    exists q'. rewrite rev_app_distr, <- app_assoc. rewrite E. split; [reflexivity|].
    destruct F as [F|[F|[F1 F2]]]; auto.
Qed.

(** At its start *)
Lemma shlex_sh_start w u : w <> [] -> sh_word w u -> forall rest, exists q',
  shlex SSpace [] false (w ++ rest) = shlex SWord (rev u) q' rest /\ (rev u <> [] \/ q' = true).
Proof.
  intros N H rest. inversion H as [|c w' u' S H' E1 E2|s w' u' K H' E1 E2|s w' u' K H' E1 E2]; subst.
  - congruence.
  - destruct (harmless_shlex c S) as (A & B & C). cbn [app]. cbn [shlex]. rewrite A, B, C.
    assert (NE : [c] <> []) by discriminate. destruct (shlex_sh w' u' H' [c] false (or_introl NE) rest) as (q' & E & F).
    exists q'. rewrite E. split; [reflexivity|]. left. cbn [rev]. intros X. apply app_eq_nil in X as [_ X]. discriminate X.
  - cbn [app]. rewrite <- app_assoc. cbn [app]. cbn [shlex].
    replace (shblank "'") with false by reflexivity. replace (Ascii.eqb "'" backslash) with false by reflexivity.
    replace (shquote "'") with true by reflexivity. cbn iota.
    rewrite shlex_single by exact K. rewrite app_nil_r.
    destruct (shlex_sh w' u' H' (rev s) true (or_intror (or_introl eq_refl)) rest) as (q' & E & F).
    exists q'. rewrite rev_app_distr, E. split; [reflexivity|]. destruct F as [F|[F|[F1 F2]]]; auto.
  - cbn [app]. rewrite <- app_assoc. cbn [app]. cbn [shlex].
    replace (shblank DQ) with false by reflexivity. replace (Ascii.eqb DQ backslash) with false by reflexivity.
    replace (shquote DQ) with true by reflexivity. cbn iota.
    rewrite shlex_double by exact K. rewrite app_nil_r.
    destruct (shlex_sh w' u' H' (rev s) true (or_intror (or_introl eq_refl)) rest) as (q' & E & F).
    exists q'. rewrite rev_app_distr, E. split; [reflexivity|]. destruct F as [F|[F|[F1 F2]]]; auto.
Qed.

Lemma shlex_emit (tok : text) (q : bool) (r : list text) : tok <> [] \/ q = true ->
  match tok, q with
  | [], false => Some r
  | _, _ => Some (rev tok :: r)
  end = Some (rev tok :: r).
Proof. destruct tok, q; intros [H|H]; try congruence; reflexivity. Qed.

Lemma shlex_line t us : sh_line t us -> shlex_split t = Some us.
Proof.
  unfold shlex_split. induction 1 as [|w u N H|w u t us N H K L IH].
  - reflexivity.
  - destruct (shlex_sh_start w u N H []) as (q & E & F). rewrite app_nil_r in E. rewrite E. cbn [shlex].
    rewrite shlex_emit by exact F. now rewrite rev_involutive.
  - destruct (shlex_sh_start w u N H (" "%char :: t)) as (q & E & F). rewrite E. cbn [shlex].
    replace (shblank " ") with true by reflexivity. cbn iota. rewrite IH.
    rewrite shlex_emit by exact F. now rewrite rev_involutive.
Qed.

Lemma command_line parts : sh_line (restart_command parts) parts.
Proof.
  unfold restart_command. induction parts as [|p parts IH]; [constructor|]. destruct (quote_sh p) as [N H].
  destruct parts as [|p' parts].
  - cbn [map unwords]. now constructor.
  - cbn [map] in *. cbn [unwords] in *. apply line_more; auto. discriminate.
Qed.

(** ** The files *)

Lemma indent_one_line v : one_line v -> indent_lines v = v.
Proof.
  unfold one_line. induction v as [|c v IH]; simpl; intros H; [reflexivity|].
  destruct (Ascii.eqb c NL) eqn:E; [apply Ascii.eqb_eq in E; destruct H; auto|]. rewrite IH; auto.
Qed.

Lemma set_all_plain sect : sect <> DEFAULT -> forall kvs i j, set_all sect kvs i = inl j -> i_defaults i = [] ->
  i_defaults j = [] /\ i_sections j = match kvs with [] => i_sections i | _ =>
    tset sect (fold_left (fun d kv => tset (fst kv) (Some (snd kv)) d) kvs
      (match tget sect (i_sections i) with Some d => d | None => [] end)) (i_sections i) end.
Proof.
  intros NS. induction kvs as [|[k v] kvs IH]; simpl; intros i j H D.
  - injection H as <-. auto.
  - unfold ini_set in H. destruct (set_ok v); [|discriminate]. unfold is_default in H.
    destruct (text_eqb sect DEFAULT) eqn:E; [apply text_eqb_eq in E; congruence|].
    apply IH in H; [|exact D]. destruct H as [A B]. split; [exact A|]. rewrite B. simpl.
    destruct kvs as [|kv kvs]; [reflexivity|]. rewrite tget_tset, text_eqb_refl, tset_tset. reflexivity.
Qed.

Definition xdg_base (a : xdg_args) : tdict (option text) :=
  [ (T "Type", Some (T "Application")); (T "Version", Some (T "1.0"));
    (T "Name", Some (or_else (x_name a) (T "Resume Testing Session")));
    (T "GenericName", Some (or_else (x_generic a) (T "Resume Testing Session")));
    (T "Comment", Some (or_else (x_comment a) (T "Automatically resume the testing session")));
    (T "Terminal", Some (yes_no (x_terminal a))) ] ++
  match x_icon a with Some (c :: r) => [(T "Icon", Some (c :: r))] | _ => [] end ++
  [ (T "Categories", Some (or_else (x_categories a) (T "System")));
    (T "StartupNotify", Some (yes_no (x_notify a))) ].

Definition exec_option (o : option text) : tdict (option text) :=
  match o with Some c => [(T "Exec", Some c)] | None => [] end.
Definition xdg_config (a : xdg_args) (o : option text) : ini :=
  mk_ini [] [(desktop_entry, xdg_base a ++ exec_option o)].

Lemma xdg_init_shape a c : xdg_init a = inl c -> c = xdg_config a None.
Proof.
  unfold xdg_init. intros H. apply set_all_plain in H; [|discriminate|reflexivity].
  destruct c as [d s]. cbn [i_defaults i_sections] in H. destruct H as [-> H]. unfold xdg_config. f_equal. rewrite H.
  unfold xdg_base. destruct (x_icon a) as [[|c r]|]; cbn [exec_option]; rewrite app_nil_r; reflexivity.
Qed.

Lemma xdg_set_exec a o cmd c : ini_set desktop_entry (T "Exec") cmd (xdg_config a o) = Some c -> c = xdg_config a (Some cmd).
Proof.
  unfold ini_set. destruct (set_ok cmd); [|discriminate]. intros H. change (is_default desktop_entry) with false in H.
  cbn iota in H. injection H as <-. unfold xdg_config, xdg_base.
  destruct (x_icon a) as [[|i r]|]; destruct o; reflexivity.
Qed.

Lemma xdg_set_exec_ok a o cmd : plain_value cmd -> exists c, ini_set desktop_entry (T "Exec") cmd (xdg_config a o) = Some c.
Proof. intros P. unfold ini_set. rewrite set_ok_plain by exact P. eexists. reflexivity. Qed.

Definition icons (a : xdg_args) : list text := match x_icon a with Some (c :: r) => [c :: r] | _ => [] end.
(** The values of a desktop entry have no line breaks *)
Definition tidy (a : xdg_args) : Prop :=
  forall v, In (Some v) [x_name a; x_generic a; x_comment a; x_icon a; x_categories a] -> one_line v.

Lemma one_line_T s : forallb (fun c => negb (Ascii.eqb c NL)) (T s) = true -> one_line (T s).
Proof. apply In_T_nl. Qed.
Lemma or_else_line o d : (forall v, o = Some v -> one_line v) -> one_line d -> one_line (or_else o d).
Proof. destruct o as [[|c r]|]; simpl; intros H D; auto. Qed.
Lemma yes_no_line b : one_line (yes_no b).
Proof. destruct b; apply one_line_T; reflexivity. Qed.

Lemma tight_line (k v : text) (rest : text) :
  write_option_tight (k, Some v) ++ rest = k ++ T "=" ++ indent_lines v ++ NL :: rest.
Proof. unfold write_option_tight. cbn [fst snd]. now rewrite <- !app_assoc. Qed.

Lemma line_cons l ls : lines (l :: ls) = l ++ NL :: lines ls.
Proof. unfold lines. cbn [map concat]. now rewrite <- app_assoc. Qed.

Lemma desktop_text a cmd : tidy a -> one_line cmd ->
  write_tight (xdg_config a (Some cmd)) =
  lines (desktop_lines (or_else (x_name a) (T "Resume Testing Session")) (or_else (x_generic a) (T "Resume Testing Session"))
    (or_else (x_comment a) (T "Automatically resume the testing session")) (icons a) (x_terminal a) (x_notify a)
    (or_else (x_categories a) (T "System")) cmd).
Proof.
  intros TD C. unfold write_tight, xdg_config. cbn [i_defaults i_sections flat_map app fst snd]. rewrite app_nil_r.
  assert (L : forall v d, In v [x_name a; x_generic a; x_comment a; x_icon a; x_categories a] -> one_line d -> one_line (or_else v d)).
  { intros v d I D. apply or_else_line; auto. intros t ->. now apply TD. }
  pose proof (L (x_name a) (T "Resume Testing Session") ltac:(simpl; auto) ltac:(apply one_line_T; reflexivity)) as L1.
  pose proof (L (x_generic a) (T "Resume Testing Session") ltac:(simpl; auto) ltac:(apply one_line_T; reflexivity)) as L2.
  pose proof (L (x_comment a) (T "Automatically resume the testing session") ltac:(simpl; auto) ltac:(apply one_line_T; reflexivity)) as L3.
  pose proof (L (x_categories a) (T "System") ltac:(simpl; auto 6) ltac:(apply one_line_T; reflexivity)) as L4.
  pose proof (yes_no_line (x_terminal a)) as L5. pose proof (yes_no_line (x_notify a)) as L6.
  change (if x_terminal a then T "true" else T "false") with (yes_no (x_terminal a)).
  assert (LI : forall i, In i (icons a) -> one_line i).
  { unfold icons. destruct (x_icon a) as [[|c r]|] eqn:E; intros i []; [|contradiction]. subst i. apply TD. rewrite E. simpl. auto. }
  unfold desktop_lines. fold (yes_no (x_terminal a)). fold (yes_no (x_notify a)).
  unfold xdg_base. unfold icons in *.
  set (v1 := or_else (x_name a) _) in *. set (v2 := or_else (x_generic a) _) in *.
  set (v3 := or_else (x_comment a) _) in *. set (v4 := or_else (x_categories a) _) in *.
  set (v5 := yes_no (x_terminal a)) in *. set (v6 := yes_no (x_notify a)) in *.
  assert (G : forall ic : list text, (forall i, In i ic -> one_line i) -> (ic = [] \/ exists i, ic = [i]) ->
    write_section_tight desktop_entry
      ([(T "Type", Some (T "Application")); (T "Version", Some (T "1.0")); (T "Name", Some v1); (T "GenericName", Some v2);
        (T "Comment", Some v3); (T "Terminal", Some v5)] ++ map (fun i => (T "Icon", Some i)) ic ++
       [(T "Categories", Some v4); (T "StartupNotify", Some v6)] ++ [(T "Exec", Some cmd)]) =
    lines ([T "[Desktop Entry]"; T "Categories=" ++ v4; T "Comment=" ++ v3; T "Exec=" ++ cmd; T "GenericName=" ++ v2] ++
           map (fun i => T "Icon=" ++ i) ic ++
           [T "Name=" ++ v1; T "StartupNotify=" ++ v6; T "Terminal=" ++ v5; T "Type=Application"; T "Version=1.0"; []])).
  { intros ic Hic [-> | [i ->]].
    - unfold write_section_tight. cbn [map app].
      set (d := sort_items _).
      assert (D : d = [(T "Categories", Some v4); (T "Comment", Some v3); (T "Exec", Some cmd); (T "GenericName", Some v2); (T "Name", Some v1);
        (T "StartupNotify", Some v6); (T "Terminal", Some v5); (T "Type", Some (T "Application")); (T "Version", Some (T "1.0"))]) by reflexivity.
      rewrite D. cbn [flat_map]. rewrite <- !app_assoc. rewrite !tight_line.
      rewrite !indent_one_line by (assumption || (apply one_line_T; reflexivity)).
      rewrite !line_cons. rewrite <- !app_assoc. vm_compute. reflexivity.
    - assert (Li : one_line i) by (apply Hic; now left). unfold write_section_tight. cbn [map app].
      set (d := sort_items _).
      assert (D : d = [(T "Categories", Some v4); (T "Comment", Some v3); (T "Exec", Some cmd); (T "GenericName", Some v2); (T "Icon", Some i); (T "Name", Some v1);
        (T "StartupNotify", Some v6); (T "Terminal", Some v5); (T "Type", Some (T "Application")); (T "Version", Some (T "1.0"))]) by reflexivity.
      rewrite D. cbn [flat_map]. rewrite <- !app_assoc. rewrite !tight_line.
      rewrite !indent_one_line by (assumption || (apply one_line_T; reflexivity)).
      rewrite !line_cons. rewrite <- !app_assoc. vm_compute. reflexivity. }
  destruct (x_icon a) as [[|c r]|].
  - exact (G [] LI (or_introl eq_refl)).
  - exact (G [c :: r] LI (or_intror (ex_intro _ _ eq_refl))).
  - exact (G [] LI (or_introl eq_refl)).
Qed.

Definition snappy_config (user : text) (o : option text) : ini :=
  mk_ini []
    [ (T "Unit", [ (T "Description", Some (T "Plainbox Resume Wrapper")); (T "After", Some (T "ubuntu-snappy.frameworks.target"));
                   (T "Requires", Some (T "ubuntu-snappy.frameworks.target")); (T "X-Snappy", Some (T "yes")) ]);
      (T "Service", [ (T "Type", Some (T "oneshot")); (T "User", Some user) ] ++
         match o with Some c => [(T "ExecStart", Some c)] | None => [] end);
      (T "Install", [ (T "WantedBy", Some (T "multi-user.target")) ]) ].

Lemma snappy_init_shape env c : snappy_init env = inl c -> exists user, env (T "USER") = Some user /\ c = snappy_config user None.
Proof.
  unfold snappy_init. destruct (set_all _ _ _) as [i|] eqn:E1; [|discriminate].
  vm_compute in E1. destruct (env (T "USER")) as [user|]; [|discriminate].
  intros H. exists user. split; [reflexivity|]. injection E1 as <-.
  destruct (set_all (T "Service") _ _) as [j|] eqn:E2 in H; [|discriminate].
  apply set_all_plain in E2; [|discriminate|reflexivity]. apply set_all_plain in H; [|discriminate|].
  - destruct c as [d s]. cbn [i_defaults i_sections] in H. destruct H as [-> H]. unfold snappy_config. f_equal. rewrite H.
    destruct E2 as [_ E2]. destruct j as [jd js]. cbn [i_sections] in E2. subst js. reflexivity.
  - destruct E2 as [E2 _]. destruct j as [jd js]. cbn [i_defaults] in E2. subst jd. unfold ensure_section. destruct (tget _ _); reflexivity.
Qed.

Lemma snappy_set_exec user o cmd c : ini_set (T "Service") (T "ExecStart") cmd (snappy_config user o) = Some c ->
  c = snappy_config user (Some cmd).
Proof.
  unfold ini_set. destruct (set_ok cmd); [|discriminate]. intros H. change (is_default (T "Service")) with false in H.
  cbn iota in H. injection H as <-. destruct o; reflexivity.
Qed.

Lemma lines_app a b : lines (a ++ b) = lines a ++ lines b.
Proof. unfold lines. now rewrite map_app, concat_app. Qed.
Lemma section_text name d d' : sort_items d = d' -> (forall k v, In (k, v) d' -> exists t, v = Some t /\ one_line t) ->
  write_section_tight name d = lines ([T "[" ++ name ++ T "]"] ++
    map (fun kv => fst kv ++ T "=" ++ match snd kv with Some t => t | None => [] end) d' ++ [[]]).
Proof.
  intros S H. unfold write_section_tight. rewrite S. clear S. rewrite !lines_app.
  assert (X : flat_map write_option_tight d' =
    lines (map (fun kv => fst kv ++ T "=" ++ match snd kv with Some t => t | None => [] end) d')).
  { induction d' as [|[k v] d' IH]; [reflexivity|]. cbn [flat_map map]. rewrite line_cons, <- IH.
    - destruct (H k v (or_introl eq_refl)) as (t & -> & L). rewrite tight_line, indent_one_line by exact L. cbn [fst snd].
      now rewrite <- !app_assoc.
    - intros k' v' I. apply (H k' v'). now right. }
  rewrite X. rewrite line_cons. change (lines []) with (@nil ascii). rewrite <- !app_assoc. reflexivity.
Qed.
Lemma one_line_b v : forallb (fun c => negb (Ascii.eqb c NL)) v = true -> one_line v.
Proof.
  intros H I. rewrite forallb_forall in H. apply H in I. rewrite Ascii.eqb_refl in I. discriminate I.
Qed.
Ltac some_lines :=
  let k := fresh in let v := fresh in let I := fresh in
  intros k v I; cbn [In] in I; repeat destruct I as [I|I]; try (injection I as <- <-; eexists; split; [reflexivity|]; first [assumption | apply one_line_b; reflexivity]); destruct I.

Lemma service_text user cmd : one_line user -> one_line cmd ->
  write_tight (snappy_config user (Some cmd)) = lines (service_lines user cmd).
Proof.
  intros U C. unfold write_tight, snappy_config. cbn [i_defaults i_sections flat_map fst snd].
  rewrite (section_text (T "Unit") _ [(T "After", Some (T "ubuntu-snappy.frameworks.target")); (T "Description", Some (T "Plainbox Resume Wrapper"));
    (T "Requires", Some (T "ubuntu-snappy.frameworks.target")); (T "X-Snappy", Some (T "yes"))]); [|reflexivity|some_lines].
  rewrite (section_text (T "Service") _ [(T "ExecStart", Some cmd); (T "Type", Some (T "oneshot")); (T "User", Some user)]); [|reflexivity|some_lines].
  rewrite (section_text (T "Install") _ [(T "WantedBy", Some (T "multi-user.target"))]); [|reflexivity|some_lines].
  rewrite app_nil_r, app_nil_l, <- !lines_app. reflexivity.
Qed.

(** ** Characters of a command *)

Lemma guard_In c s : In c (guard_quotes s) -> In c s \/ c = SQ \/ c = DQ.
Proof.
  induction s as [|x s IH]; simpl; [auto|]. destruct (Ascii.eqb x SQ) eqn:E; simpl; intuition.
Qed.
Lemma quote_In c s : In c (quote s) -> In c s \/ c = SQ \/ c = DQ.
Proof.
  unfold quote. destruct s as [|x s]; [simpl; intuition|]. destruct (forallb safe_char (x :: s)); [auto|].
  intros [H|H]; [auto|]. apply in_app_or in H as [H|[H|[]]]; [now apply guard_In in H|auto].
Qed.
Lemma unwords_In c ws : In c (unwords ws) -> c = " "%char \/ exists w, In w ws /\ In c w.
Proof.
  induction ws as [|w ws IH]; [intros []|]. destruct ws as [|w' ws].
  - simpl. intros H. right. exists w. auto.
  - change (unwords (w :: w' :: ws)) with (w ++ " "%char :: unwords (w' :: ws)). intros H.
    apply in_app_or in H as [H|[H|H]]; [right; exists w; simpl; auto|auto|].
    destruct (IH H) as [X|(v & A & B)]; [auto|]. right. exists v. split; [now right|exact B].
Qed.
Lemma command_In c parts : In c (restart_command parts) -> c = " "%char \/ c = SQ \/ c = DQ \/ exists p, In p parts /\ In c p.
Proof.
  unfold restart_command. intros H. apply unwords_In in H as [H|(w & A & B)]; [auto|].
  apply in_map_iff in A as (p & <- & A). apply quote_In in B as [B|[B|B]]; eauto 6.
Qed.
Lemma command_one_line parts : Forall one_line parts -> one_line (restart_command parts).
Proof.
  intros H I. apply command_In in I as [I|[I|[I|(p & A & B)]]]; try discriminate I. rewrite Forall_forall in H. now apply (H p A).
Qed.
Lemma command_plain parts : Forall plain_value parts -> plain_value (restart_command parts).
Proof.
  intros H I. apply command_In in I as [I|[I|[I|(p & A & B)]]]; try discriminate I. rewrite Forall_forall in H. now apply (H p A).
Qed.

Lemma split_words_In : forall t acc w c, In w (split_words acc t) -> In c w -> (forall x, In x acc -> isspace x = false) ->
  isspace c = false /\ (In c acc \/ In c t).
Proof.
  assert (R : forall (acc : text) c, (forall x, In x acc -> isspace x = false) -> In c (rev acc) -> isspace c = false /\ In c acc).
  { intros acc c A I. apply in_rev in I. auto. }
  induction t as [|x t IH]; simpl; intros acc w c H I A.
  - destruct acc as [|y acc]; [destruct H|]. destruct H as [<-|[]]. apply R in I; [|exact A]. destruct I as [I J]. auto.
  - destruct (isspace x) eqn:E.
    + destruct acc as [|y acc].
      * destruct (IH [] w c H I ltac:(intros ? [])) as [B [[]|D]]. auto.
      * destruct H as [<-|H].
        { apply R in I; [|exact A]. destruct I as [I J]. auto. }
        destruct (IH [] w c H I ltac:(intros ? [])) as [B [[]|D]]. auto.
    + destruct (IH (x :: acc) w c H I) as [B D].
      { intros z [<-|Z]; auto. }
      split; [exact B|]. destruct D as [[D|D]|D]; auto.
Qed.
Lemma py_split_In t w c : In w (py_split t) -> In c w -> isspace c = false /\ In c t.
Proof. intros H I. destruct (split_words_In t [] w c H I ltac:(intros ? [])) as [A [[]|B]]. auto. Qed.

Lemma tl_In {A} (x : A) l : In x (tl l) -> In x l.
Proof. destruct l; simpl; auto. Qed.

Lemma arguments_one_line p : one_line (unwords (tl (py_split p))).
Proof.
  intros I. apply unwords_In in I as [I|(w & A & B)]; [discriminate I|]. apply tl_In in A.
  destruct (py_split_In p w NL A B) as [C _]. vm_compute in C. discriminate C.
Qed.
Lemma arguments_plain p : plain_value p -> plain_value (unwords (tl (py_split p))).
Proof.
  intros P I. apply unwords_In in I as [I|(w & A & B)]; [discriminate I|]. apply tl_In in A.
  destruct (py_split_In p w _ A B) as [_ C]. now apply P.
Qed.

(** Words that are written with blanks between them are found again *)
Lemma split_words_word w : (forall c, In c w -> isspace c = false) -> forall acc t, split_words acc (w ++ t) = split_words (rev w ++ acc) t.
Proof.
  induction w as [|c w IH]; intros H acc t; [reflexivity|]. cbn [app split_words]. rewrite (H c) by now left.
  rewrite IH by (intros x X; apply H; now right). cbn [rev]. now rewrite <- app_assoc.
Qed.
Lemma py_split_unwords ws : (forall w, In w ws -> w <> [] /\ forall c, In c w -> isspace c = false) -> py_split (unwords ws) = ws.
Proof.
  unfold py_split. induction ws as [|w ws IH]; intros H; [reflexivity|].
  destruct (H w (or_introl eq_refl)) as [N S]. assert (R : rev w <> []).
  { intros E. apply (f_equal (@rev ascii)) in E. rewrite rev_involutive in E. auto. }
  destruct ws as [|w' ws].
  - cbn [unwords]. rewrite <- (app_nil_r w) at 1. rewrite split_words_word by exact S. rewrite app_nil_r. cbn [split_words].
    destruct (rev w) eqn:E; [congruence|]. rewrite <- E, rev_involutive. reflexivity.
  - change (unwords (w :: w' :: ws)) with (w ++ " "%char :: unwords (w' :: ws)).
    rewrite split_words_word by exact S. rewrite app_nil_r. cbn [split_words]. change (isspace " ") with true. cbn iota.
    destruct (rev w) eqn:E; [congruence|]. rewrite <- E, rev_involutive. f_equal. apply IH. intros v V. apply H. now right.
Qed.

(** ** The name of the file *)

Lemma expand_plain env t : ~ In "$"%char t -> expandvars env VText t = t.
Proof.
  induction t as [|c t IH]; intros H; [reflexivity|]. cbn [expandvars]. destruct (Ascii.eqb c DOLLAR) eqn:E.
  { apply Ascii.eqb_eq in E. destruct H. now left. }
  rewrite IH; [reflexivity|]. intros X. apply H. now right.
Qed.
Lemma expand_name env w : forallb word_like w = true -> forall acc t,
  expandvars env (VName acc) (w ++ t) = expandvars env (VName (rev w ++ acc)) t.
Proof.
  induction w as [|c w IH]; intros H acc t; [reflexivity|]. simpl in H. apply andb_true_iff in H as [A B].
  cbn [app expandvars]. rewrite A, IH by exact B. cbn [rev]. now rewrite <- app_assoc.
Qed.
Lemma expand_var env name v c rest : forallb word_like name = true -> name <> [] -> env name = Some v ->
  word_like c = false -> ~ In "$"%char (c :: rest) ->
  expandvars env VText (DOLLAR :: name ++ c :: rest) = v ++ c :: rest.
Proof.
  intros W N E C P. cbn [expandvars]. rewrite Ascii.eqb_refl. destruct name as [|x name]; [congruence|]. simpl in W.
  apply andb_true_iff in W as [W1 W2]. cbn [app]. cbn [expandvars]. rewrite W1, expand_name by exact W2.
  cbn [expandvars]. rewrite C. unfold var_value. rewrite rev_app_distr, rev_involutive. cbn [rev app]. rewrite E.
  destruct (Ascii.eqb c DOLLAR) eqn:F; [apply Ascii.eqb_eq in F; destruct P; now left|].
  rewrite expand_plain; [reflexivity|]. intros X. apply P. now right.
Qed.
Lemma home_split X : T "$HOME/.config/autostart/" ++ X = DOLLAR :: T "HOME" ++ "/"%char :: T ".config/autostart/" ++ X.
Proof. vm_compute. reflexivity. Qed.
Lemma home_join X : T "/.config/autostart/" ++ X = "/"%char :: T ".config/autostart/" ++ X.
Proof. vm_compute. reflexivity. Qed.
Lemma not_in_b c t : forallb (fun x => negb (Ascii.eqb x c)) t = true -> ~ In c t.
Proof. intros H I. rewrite forallb_forall in H. apply H in I. rewrite Ascii.eqb_refl in I. discriminate I. Qed.
Lemma desktop_name env home app : env (T "HOME") = Some home -> ~ In "$"%char app ->
  desktop_filename env app = home ++ T "/.config/autostart/" ++ app ++ T ".desktop".
Proof.
  intros H N. unfold desktop_filename. rewrite home_split, home_join.
  assert (P1 : ~ In "$"%char (T ".config/autostart/")) by (apply not_in_b; vm_compute; reflexivity).
  assert (P2 : ~ In "$"%char (T ".desktop")) by (apply not_in_b; vm_compute; reflexivity).
  apply expand_var.
  - vm_compute. reflexivity.
  - discriminate.
  - exact H.
  - vm_compute. reflexivity.
  - intros [X|X]; [discriminate X|]. apply in_app_or in X as [X|X]; [exact (P1 X)|].
    apply in_app_or in X as [X|X]; [exact (N X)|exact (P2 X)].
Qed.

(** ** Effects *)

Lemma perform_app es es' w : perform (es ++ es') w = perform es' (perform es w).
Proof. unfold perform. apply fold_left_app. Qed.
Lemma perform_cons e es w : perform (e :: es) w = perform es (act e w).
Proof. reflexivity. Qed.

Lemma tget_tdel {A} k n (d : tdict A) : tget n (tdel k d) = if text_eqb k n then None else tget n d.
Proof.
  induction d as [|[m v] d IH]; simpl; [now destruct (text_eqb k n)|].
  destruct (text_eqb k m) eqn:E; simpl.
  - apply text_eqb_eq in E as ->. rewrite IH. destruct (text_eqb m n) eqn:F; [reflexivity|].
    destruct (text_eqb n m) eqn:G; [|reflexivity]. apply text_eqb_eq in G as ->. rewrite text_eqb_refl in F. discriminate.
  - rewrite IH. destruct (text_eqb n m) eqn:G; [|reflexivity]. apply text_eqb_eq in G as ->. now rewrite E.
Qed.
Lemma tdel_tdel {A} k (d : tdict A) : tdel k (tdel k d) = tdel k d.
Proof.
  induction d as [|[m v] d IH]; simpl; [reflexivity|]. destruct (text_eqb k m) eqn:E; simpl; [exact IH|]. rewrite E. simpl. now rewrite IH.
Qed.

(** What stays as it is when only the file [n] is written *)
Definition only_file (n : text) (w w' : world) : Prop :=
  same_but [n] (files (disk w)) (files (disk w')) /\ enabled (disk w') = enabled (disk w) /\ saved w' = saved w /\ memory w' = memory w.
Lemma only_file_refl n w : only_file n w w.
Proof. split; [intros m _; reflexivity|auto]. Qed.
Lemma only_file_trans n a b c : only_file n a b -> only_file n b c -> only_file n a c.
Proof.
  intros (A & B & C & D) (A' & B' & C' & D'). split; [intros m M; rewrite (A' m M); now apply A|repeat split; congruence].
Qed.

Lemma tget_other {A} n m (v : A) d : ~ In m [n] -> tget m (tset n v d) = tget m d.
Proof.
  intros H. rewrite tget_tset. destruct (text_eqb m n) eqn:E; [|reflexivity]. apply text_eqb_eq in E as ->. destruct H. now left.
Qed.

Lemma perform_pieces n ps : forall w t, tget n (files (disk w)) = Some t ->
  let w' := perform (map (EWrite n) ps) w in
  tget n (files (disk w')) = Some (t ++ concat ps) /\ only_file n w w'.
Proof.
  induction ps as [|p ps IH]; intros w t H; cbn zeta.
  - cbn. rewrite app_nil_r. split; [exact H|apply only_file_refl].
  - cbn [map]. rewrite perform_cons. set (w1 := act (EWrite n p) w).
    assert (E : tget n (files (disk w1)) = Some (t ++ p)).
    { cbn. rewrite tget_tset, text_eqb_refl. unfold content. now rewrite H. }
    destruct (IH w1 (t ++ p) E) as [A B]. cbn [concat]. rewrite app_assoc. split; [exact A|].
    apply only_file_trans with w1; [|exact B]. split; [intros m M; now apply tget_other|repeat split].
Qed.

Lemma perform_writing cut n t w : concat (cut t) = t ->
  let w' := perform (writing cut n t) w in
  tget n (files (disk w')) = Some t /\ only_file n w w'.
Proof.
  intros C. cbn zeta. unfold writing. rewrite perform_cons. set (w1 := act (ETruncate n) w).
  assert (E : tget n (files (disk w1)) = Some []) by (cbn; now rewrite tget_tset, text_eqb_refl).
  destruct (perform_pieces n (cut t) w1 [] E) as [A B]. rewrite C in A. split; [exact A|].
  apply only_file_trans with w1; [|exact B]. split; [intros m M; now apply tget_other|repeat split].
Qed.
