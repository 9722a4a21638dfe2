(** * C98: where log messages go *)
From Coq Require Import String Ascii List Bool Arith Lia.
From Verif Require Import ScanModel Rfc822Model Rfc822Proofs LoggingModel.
Import ListNotations.
Local Open Scope list_scope.

(** Everything that adjustments can lead to *)
Inductive reached (usable : bool) : state -> Prop :=
  | R_setup : reached usable (setup usable)
  | R_adjust st l t c : reached usable st -> reached usable (adjust l t c st).
(** Messages that are not below the level of their logger *)
Definition enabled (st : state) (n : name) (lvl : nat) : Prop := effective (st_levels st) n <= lvl.
Definition is_console (h : handler) : bool := match h with Console_debug | Console_info | Console_warning | Console_error => true | _ => false end.
(** The one for a level *)
Definition console_for (l : level) : handler := match l with DEBUG => Console_debug | INFO => Console_info | WARNING => Console_warning | ERROR | CRITICAL => Console_error end.

Lemma name_eqb_eq a : forall b, name_eqb a b = true <-> a = b.
Proof.
  induction a as [|x a IH]; intros [|y b]; cbn; try (split; [discriminate|discriminate]); [tauto|]. rewrite andb_true_iff, text_eqb_eq, IH. split; [intros [-> ->]; reflexivity|]. intros [= -> ->]. auto.
Qed.
Lemma name_eqb_neq a b : a <> b -> name_eqb a b = false.
Proof. intros N. destruct (name_eqb a b) eqn:E; [apply name_eqb_eq in E; contradiction|reflexivity]. Qed.
Lemma handlers_long co n : 3 <= length n -> handlers co n = [].
Proof.
  intros G. unfold handlers. rewrite !name_eqb_neq; [reflexivity|..]; intros ->; cbn in G; lia.
Qed.

(** ** The handlers on the way *)

Definition special (co : bool) (top : name) (p : name) : list handler :=
  match rev p with
  | [] => []
  | x :: _ => handlers co (x :: top)
  end.
Lemma chain_spec co top p : length top = 1 -> chain co (p ++ top) = special co top p ++ handlers co top.
Proof.
  intros L1. induction p as [|x p IH].
  - destruct top as [|t [|]]; try discriminate. cbn [app chain]. unfold special. cbn [rev app]. change (handlers co []) with (@nil handler). now rewrite !app_nil_r.
  - cbn [app chain]. rewrite IH. rewrite app_assoc. f_equal. destruct p as [|y p].
    + unfold special. cbn [rev app]. now rewrite app_nil_r.
    + rewrite handlers_long by (cbn [app length]; rewrite app_length; lia). cbn [app]. unfold special. destruct (rev (y :: p)) as [|z r] eqn:E; [apply (f_equal (@length _)) in E; rewrite rev_length in E; discriminate|].
      assert (RX : rev (x :: y :: p) = z :: r ++ [x]) by (change (rev (x :: y :: p)) with (rev (y :: p) ++ [x]); now rewrite E). now rewrite RX.
Qed.
(** Below a logger of the program there can be one more handler, of crashes or of bugs *)
Lemma special_spec top p : top = plainbox \/ top = checkbox ->
  special false top p = [] \/ (top = plainbox /\ exists r, p = r ++ [L "crashes"] /\ special false top p = [Logfile_crash]) \/ (top = plainbox /\ exists r, p = r ++ [L "bug"] /\ special false top p = [Logfile_bug]).
Proof.
  intros T. unfold special. destruct (rev p) as [|x r] eqn:E; [now left|]. assert (P : p = rev r ++ [x]) by (rewrite <- (rev_involutive p), E; reflexivity).
  unfold handlers. rewrite (name_eqb_neq (x :: top) plainbox), (name_eqb_neq (x :: top) checkbox) by (destruct T as [-> | ->]; discriminate).
  destruct (name_eqb (x :: top) crashes) eqn:C; [apply name_eqb_eq in C; injection C as -> ->; right; left; eauto|]. destruct (name_eqb (x :: top) bug) eqn:B; [apply name_eqb_eq in B; injection B as -> ->; right; right; eauto|]. now left.
Qed.
Lemma top_handlers top : top = plainbox \/ top = checkbox -> handlers false top = console ++ [Logfile_error; Logfile_debug].
Proof. intros [-> | ->]; reflexivity. Qed.
Lemma top_length top : top = plainbox \/ top = checkbox -> length top = 1.
Proof. intros [-> | ->]; reflexivity. Qed.
Lemma adjust_console_only l t c st : st_console_only (adjust l t c st) = st_console_only st.
Proof.
  assert (F : forall names s, st_console_only (fold_left (fun s0 t0 => set_level (get_logger t0) (levelno DEBUG) s0) names s) = st_console_only s) by (induction names as [|x names IH]; intros s; cbn [fold_left]; [reflexivity|now rewrite IH]).
  unfold adjust. destruct l as [l|], t as [t|]; destruct (c && _); cbn [st_console_only set_level]; rewrite ?F; reflexivity.
Qed.
Lemma reached_config usable st : reached usable st -> st_console_only st = negb usable.
Proof. induction 1; [now destruct usable|now rewrite adjust_console_only]. Qed.
Lemma adjust_debug l t c st : st_debug (adjust l t c st) = if c && (match l with Some DEBUG => true | _ => false end || match t with Some (_ :: _) => true | _ => false end) then 10 else st_debug st.
Proof.
  assert (F : forall names s, st_debug (fold_left (fun s0 t0 => set_level (get_logger t0) (levelno DEBUG) s0) names s) = st_debug s) by (induction names as [|x names IH]; intros s; cbn [fold_left]; [reflexivity|now rewrite IH]).
  unfold adjust. destruct (c && _); [reflexivity|]. destruct l as [l|], t as [t|]; cbn [st_debug set_level]; rewrite ?F; reflexivity.
Qed.
Lemma reached_debug usable st : reached usable st -> st_debug st = 150 \/ st_debug st = 10.
Proof. induction 1; [left; reflexivity|]. rewrite adjust_debug. destruct (c && _); auto. Qed.

Lemma destinations_spec usable st top p lvl : top = plainbox \/ top = checkbox -> reached usable st -> usable = true ->
  destinations st (p ++ top) lvl = if Nat.leb (effective (st_levels st) (p ++ top)) lvl then filter (fun h => accepts st h lvl) (special false top p ++ console ++ [Logfile_error; Logfile_debug]) else [].
Proof.
  intros T R ->. unfold destinations. rewrite (reached_config true st R), chain_spec by now apply top_length. cbn [negb]. now rewrite top_handlers.
Qed.

(** ** The console *)

(** What is shown: a message of the program is shown once, by the handler of its level, if it is enabled; only that
    debugging messages are not shown before that was asked for *)
Theorem C98_console st top p l : top = plainbox \/ top = checkbox -> reached true st ->
  (enabled st (p ++ top) (levelno l) -> (l = DEBUG -> st_debug st = 10) -> filter is_console (destinations st (p ++ top) (levelno l)) = [console_for l]) /\
  (~ enabled st (p ++ top) (levelno l) -> destinations st (p ++ top) (levelno l) = []) /\
  (l = DEBUG -> st_debug st <> 10 -> filter is_console (destinations st (p ++ top) (levelno l)) = []).
Proof.
  intros T R. rewrite (destinations_spec true st top p _ T R eq_refl). unfold enabled. split; [|split].
  - intros E D. rewrite (proj2 (Nat.leb_le _ _) E). rewrite filter_app, filter_app.
    assert (S : filter is_console (filter (fun h => accepts st h (levelno l)) (special false top p)) = []).
    { destruct (special_spec top p T) as [-> | [(_ & r & _ & ->)|(_ & r & _ & ->)]]; [reflexivity|cbn; now destruct l|reflexivity]. }
    rewrite S. cbn [app]. destruct l; cbn [filter console app accepts levelno level_filter]; try (rewrite (D eq_refl); reflexivity); destruct (reached_debug _ _ R) as [-> | ->]; reflexivity.
  - intros E. destruct (Nat.leb_spec (effective (st_levels st) (p ++ top)) (levelno l)) as [X|X]; [contradiction|reflexivity].
  - intros -> N. destruct (Nat.leb _ _); [|reflexivity]. rewrite filter_app, filter_app. destruct (reached_debug _ _ R) as [E|E]; [|contradiction].
    destruct (special_spec top p T) as [-> | [(_ & r & _ & ->)|(_ & r & _ & ->)]]; cbn; rewrite E; reflexivity.
Qed.
Print Assumptions C98_console.
(** Debugging messages are asked for when the console was, with that level or with names *)
Theorem C98_debugging_asked_for (adjustments : list (option level * option (list text) * bool)) :
  let st := fold_left (fun st a => adjust (fst (fst a)) (snd (fst a)) (snd a) st) adjustments (setup true) in
  st_debug st = 10 <-> exists l t, In (l, t, true) adjustments /\ (l = Some DEBUG \/ exists x r, t = Some (x :: r)).
Proof.
  cbv zeta. assert (G : forall st, st_debug (fold_left (fun st a => adjust (fst (fst a)) (snd (fst a)) (snd a) st) adjustments st) = 10 <-> st_debug st = 10 \/ exists l t, In (l, t, true) adjustments /\ (l = Some DEBUG \/ exists x r, t = Some (x :: r))).
  - induction adjustments as [|[[l t] c] rest IH]; intros st; cbn [fold_left fst snd].
    + split; [auto|intros [H|(l & t & [] & _)]; exact H].
    + rewrite IH, adjust_debug. split.
      * intros [H|(l' & t' & I & K)]; [|right; exists l', t'; split; [now right|exact K]]. destruct (c && _) eqn:E; [|now left]. right. apply andb_true_iff in E as [-> E]. exists l, t. split; [now left|]. apply orb_true_iff in E as [E|E]; [left; destruct l as [[]|]; discriminate || reflexivity|right; destruct t as [[|x r]|]; try discriminate; eauto].
      * intros [H|(l' & t' & [[= <- <- ->]|I] & K)]; [left; destruct (c && _); auto|left|right; eauto]. destruct K as [-> |(x & r & ->)]; cbn; [reflexivity|]. now rewrite orb_true_r.
  - rewrite G. cbn [setup st_debug]. split; [intros [H|H]; [discriminate|exact H]|auto].
Qed.
Print Assumptions C98_debugging_asked_for.

(** ** Files *)

(** Warnings and what is worse go to the file of problems, debugging to its file; nothing goes anywhere twice *)
Theorem C98_files st top p lvl : top = plainbox \/ top = checkbox -> reached true st ->
  (In Logfile_error (destinations st (p ++ top) lvl) <-> enabled st (p ++ top) lvl /\ 30 <= lvl) /\
  (In Logfile_debug (destinations st (p ++ top) lvl) <-> enabled st (p ++ top) lvl /\ lvl <= 10) /\
  (In Logfile_crash (destinations st (p ++ top) lvl) <-> enabled st (p ++ top) lvl /\ 40 <= lvl /\ exists r, p ++ top = r ++ crashes) /\
  (In Logfile_bug (destinations st (p ++ top) lvl) <-> enabled st (p ++ top) lvl /\ exists r, p ++ top = r ++ bug) /\
  NoDup (destinations st (p ++ top) lvl).
Proof.
  intros T R. rewrite (destinations_spec true st top p _ T R eq_refl). unfold enabled. destruct (Nat.leb_spec (effective (st_levels st) (p ++ top)) lvl) as [E|E].
  2: { split; [|split; [|split; [|split]]]; try (cbn; split; [intros []|intros [H _]; lia]). constructor. }
  assert (SP : forall x y r, p = r ++ [x] -> p ++ top <> r ++ [y; L "plainbox"] \/ x = y).
  { intros x y r ->. destruct (list_eq_dec ascii_dec x y) as [->|N]; [now right|]. left. rewrite <- app_assoc. intros H. apply app_inv_head in H. now injection H. }
  assert (CR : forall y, (exists r, p ++ top = r ++ [y; L "plainbox"]) -> exists r, p = r ++ [y] /\ top = plainbox).
  { intros y (r & H). destruct T as [-> | ->]; unfold plainbox, checkbox in H; change ([y; L "plainbox"]) with ([y] ++ [L "plainbox"]) in H; rewrite app_assoc in H; apply app_inj_tail in H as [H1 H2]; [eauto|discriminate]. }
  rewrite !filter_In, !in_app_iff.
  assert (NS : forall h, In h (special false top p) -> h = Logfile_crash /\ (exists r, p ++ top = r ++ crashes) \/ h = Logfile_bug /\ (exists r, p ++ top = r ++ bug)).
  { intros h. destruct (special_spec top p T) as [-> | [(-> & r & -> & ->)|(-> & r & -> & ->)]]; [intros []|intros [<-|[]]; left|intros [<-|[]]; right]; (split; [reflexivity|]; exists r; now rewrite <- app_assoc). }
  assert (SC : (exists r, p ++ top = r ++ crashes) -> In Logfile_crash (special false top p)).
  { intros H. destruct (CR _ H) as (r & -> & ->). unfold special. rewrite rev_app_distr. now left. }
  assert (SB : (exists r, p ++ top = r ++ bug) -> In Logfile_bug (special false top p)).
  { intros H. destruct (CR _ H) as (r & -> & ->). unfold special. rewrite rev_app_distr. now left. }
  split; [|split; [|split; [|split]]].
  - cbn [accepts]. rewrite Nat.leb_le. split; [tauto|]. intros [_ H]. split; [|exact H]. right. right. cbn. auto.
  - cbn [accepts level_filter]. unfold level_filter. cbn [Nat.leb andb]. rewrite Nat.leb_le. split; [tauto|]. intros [_ H]. split; [|exact H]. right. right. cbn. auto.
  - cbn [accepts]. rewrite Nat.leb_le. split.
    + intros [[H|H] G]; [apply NS in H as [[_ H]|[H _]]; [auto|discriminate]|]. cbn in H. intuition discriminate.
    + intros (_ & G & H). auto.
  - cbn [accepts]. split.
    + intros [[H|H] G]; [apply NS in H as [[H _]|[_ H]]; [discriminate|auto]|]. cbn in H. intuition discriminate.
    + intros (_ & H). auto.
  - apply NoDup_filter. destruct (special_spec top p T) as [-> | [(_ & r & _ & ->)|(_ & r & _ & ->)]]; cbn; repeat constructor; cbn; intuition discriminate.
Qed.
Print Assumptions C98_files.

(** ** Crashes *)

Lemma level_of_cons n m v l : level_of n ((m, v) :: l) = if name_eqb m n then Some v else level_of n l.
Proof. reflexivity. Qed.
Definition calm (levels : list (name * nat)) : Prop :=
  (exists v, level_of crashes levels = Some v /\ v <= 40) /\ forall p v, level_of (p ++ crashes) levels = Some v -> v <= 40.
Lemma calm_set n v st : calm (st_levels st) -> (v <= 40 \/ forall p, p ++ crashes <> n) -> calm (st_levels (set_level n v st)).
Proof.
  intros [(w & W & WL) B] A. unfold calm. cbn [st_levels set_level]. split.
  - rewrite level_of_cons. destruct (name_eqb n crashes) eqn:E; [|eauto]. apply name_eqb_eq in E. destruct A as [A|A]; [eauto|]. now destruct (A []).
  - intros p x. rewrite level_of_cons. destruct (name_eqb n (p ++ crashes)) eqn:E; [|apply B]. apply name_eqb_eq in E. intros [= <-]. destruct A as [A|A]; [exact A|]. now destruct (A p).
Qed.
Lemma short_not_crash n p : length n <= 1 -> p ++ crashes <> n.
Proof. intros G <-. rewrite app_length in G. cbn in G. lia. Qed.
Lemma reached_calm usable st : reached usable st -> calm (st_levels st).
Proof.
  induction 1 as [|st l t c R IH].
  - assert (K : forall ls, (forall n v, In (n, v) ls -> v <= 40) -> forall n v, level_of n ls = Some v -> v <= 40).
    { induction ls as [|[m w] ls IH]; intros A n v; cbn [level_of]; [discriminate|]. destruct (name_eqb m n); [intros [= <-]; apply (A m); now left|apply IH; intros n' v' I; apply (A n'); now right]. }
    split; [exists 40; split; [now destruct usable|lia]|]. intros p v. apply K. intros n w I. destruct usable; cbn in I; repeat (destruct I as [[= <- <-]|I]; [lia|]); destruct I.
  - assert (A : forall s, calm (st_levels s) -> calm (st_levels (match l with Some l0 => set_level checkbox (levelno l0) (set_level plainbox (levelno l0) (set_level [] (levelno l0) s)) | None => s end))).
    { intros s C. destruct l as [l|]; [|exact C]. repeat (apply calm_set; [|right; intros p; apply short_not_crash; cbn; lia]). exact C. }
    assert (B : forall names s, calm (st_levels s) -> calm (st_levels (fold_left (fun s0 t0 => set_level (get_logger t0) (levelno DEBUG) s0) names s))).
    { induction names as [|x names IHn]; intros s C; [exact C|]. cbn [fold_left]. apply IHn, calm_set; [exact C|left; cbn; lia]. }
    unfold adjust. destruct t as [t|]; destruct (c && _); cbn [st_levels]; auto.
Qed.
(** Whatever is adjusted: errors and what is worse of the logger of crashes and of those below it are in the file of
    crashes, in that of problems, and shown *)
Theorem C98_crashes st p lvl : reached true st -> 40 <= lvl ->
  In Logfile_crash (destinations st (p ++ crashes) lvl) /\ In Logfile_error (destinations st (p ++ crashes) lvl) /\ In Console_error (destinations st (p ++ crashes) lvl).
Proof.
  intros R G. destruct (reached_calm true st R) as [(w & W & WL) B].
  assert (E : effective (st_levels st) (p ++ crashes) <= lvl).
  { clear R. induction p as [|x p IH]; cbn [app]; [|specialize (B (x :: p)) as Bx; cbn [app] in Bx; cbn [effective]; destruct (level_of (x :: p ++ crashes) (st_levels st)) as [v|]; [specialize (Bx v eq_refl); lia|exact IH]].
    change (effective (st_levels st) crashes <= lvl). unfold crashes in W |- *. cbn [effective]. rewrite W. lia. }
  change crashes with ([L "crashes"] ++ plainbox) in E |- *. rewrite app_assoc in E |- *. set (q := p ++ [L "crashes"]) in *.
  destruct (C98_files st plainbox q lvl (or_introl eq_refl) R) as (F1 & _ & F3 & _). split; [apply F3; split; [exact E|]; split; [exact G|]; exists p; unfold q; now rewrite <- app_assoc|]. split; [apply F1; split; [exact E|lia]|].
  rewrite (destinations_spec true st plainbox q lvl (or_introl eq_refl) R eq_refl), (proj2 (Nat.leb_le _ _) E). apply filter_In. split; [apply in_app_iff; right; cbn; tauto|]. cbn [accepts]. now apply Nat.leb_le.
Qed.
Print Assumptions C98_crashes.
(** Without files a crash is shown twice *)
Theorem C98_crash_twice_refuted : destinations (setup false) crashes (levelno CRITICAL) = [Console_error; Console_error].
Proof. reflexivity. Qed.
Print Assumptions C98_crash_twice_refuted.
(** Levels between those that have names are not shown *)
Theorem C98_between_refuted st : reached true st -> enabled st plainbox 35 -> destinations st plainbox 35 = [Logfile_error].
Proof. intros R E. pose proof (destinations_spec true st plainbox [] 35 (or_introl eq_refl) R eq_refl) as D. cbn [app] in D. rewrite D. unfold enabled in E. rewrite (proj2 (Nat.leb_le _ _) E). destruct (reached_debug _ _ R) as [H|H]; cbn; rewrite H; reflexivity. Qed.
Print Assumptions C98_between_refuted.

(** ** Levels and names *)

(** No logger from [p ++ n] up to, and not with, [n] has a level of its own *)
Definition unset (st : state) (p n : name) : Prop := forall r q, p = r ++ q -> q <> [] -> level_of (q ++ n) (st_levels st) = None.
Lemma effective_unset levels p n : (forall r q, p = r ++ q -> q <> [] -> level_of (q ++ n) levels = None) -> effective levels (p ++ n) = effective levels n.
Proof.
  induction p as [|x p IH]; intros U; [reflexivity|]. cbn [app effective]. pose proof (U [] (x :: p) eq_refl ltac:(discriminate)) as X. cbn [app] in X. rewrite X. apply IH. intros r q -> N. now apply (U (x :: r) q).
Qed.
Lemma levels_of_trace t c st : st_levels (adjust None (Some [t]) c st) = (get_logger t, 10) :: st_levels st.
Proof. unfold adjust. cbn [fold_left]. now destruct (c && _). Qed.
(** The level that is asked for is that of all loggers of the program that have none of their own *)
Theorem C98_level st l c p lvl top : top = plainbox \/ top = checkbox -> unset st p top -> enabled (adjust (Some l) None c st) (p ++ top) lvl <-> levelno l <= lvl.
Proof.
  intros T U. unfold enabled. assert (LS : st_levels (adjust (Some l) None c st) = (checkbox, levelno l) :: (plainbox, levelno l) :: ([], levelno l) :: st_levels st) by (unfold adjust; now destruct (c && _)). rewrite LS.
  rewrite effective_unset.
  - destruct T as [-> | ->]; reflexivity.
  - intros r q E N. rewrite !level_of_cons, !name_eqb_neq; [now apply (U r q)|..]; destruct q as [|x q]; try contradiction; destruct T as [-> | ->]; intros H; apply (f_equal (@length _)) in H; cbn in H; rewrite app_length in H; cbn in H; lia.
Qed.
Print Assumptions C98_level.
(** A name that is traced: everything of its logger, and of those below without a level of their own, is
    enabled from debugging on; all others are as they were *)
Theorem C98_trace st t c p lvl : unset st p (get_logger t) -> enabled (adjust None (Some [t]) c st) (p ++ get_logger t) lvl <-> 10 <= lvl.
Proof.
  intros U. unfold enabled. rewrite levels_of_trace, effective_unset.
  - assert (E : effective ((get_logger t, 10) :: st_levels st) (get_logger t) = 10) by (destruct (get_logger t) eqn:G; cbn [effective]; rewrite level_of_cons, (proj2 (name_eqb_eq _ _) eq_refl); reflexivity). now rewrite E.
  - intros r q E N. rewrite level_of_cons, name_eqb_neq; [now apply (U r q)|]. intros H. apply (f_equal (@length _)) in H. rewrite app_length in H. destruct q; [contradiction|cbn in H; lia].
Qed.
Print Assumptions C98_trace.
Theorem C98_trace_others st t c m lvl : (forall p, m <> p ++ get_logger t) -> enabled (adjust None (Some [t]) c st) m lvl <-> enabled st m lvl.
Proof.
  intros O. unfold enabled. rewrite levels_of_trace. assert (E : effective ((get_logger t, 10) :: st_levels st) m = effective (st_levels st) m); [|now rewrite E].
  induction m as [|x m IH]; cbn [effective]; rewrite level_of_cons, name_eqb_neq.
  - reflexivity.
  - intros H. now apply (O []).
  - destruct (level_of _ _); [reflexivity|]. apply IH. intros p ->. now apply (O (x :: p)).
  - intros H. now apply (O []).
Qed.
Print Assumptions C98_trace_others.

(** Without names in the environment, the root logger is traced, whatever level is asked for *)
Theorem C98_environment_refuted debug l : debug <> [] ->
  enabled (from_environment debug (Some l) None (setup true)) [] (levelno DEBUG) /\ (debug = L "console" -> st_debug (from_environment debug (Some l) None (setup true)) = 10).
Proof.
  intros N. destruct debug as [|x debug]; [contradiction|]. unfold from_environment. split.
  - unfold enabled, adjust. cbn [split_commas fold_left get_logger]. destruct (text_eqb _ _ && _); cbn; lia.
  - intros ->. rewrite adjust_debug. cbn. now destruct l.
Qed.
Print Assumptions C98_environment_refuted.

(** ** Cases *)

Example C98_case : let st := adjust None (Some [L "plainbox.session"]) true (adjust (Some INFO) None false (setup true)) in
  reached true st /\ destinations st (get_logger (L "plainbox.session.manager")) 10 = [Console_debug; Logfile_debug] /\
  destinations st (get_logger (L "plainbox.runner")) 10 = [] /\ destinations st (get_logger (L "plainbox.runner")) 20 = [Console_info] /\
  destinations st (get_logger (L "plainbox.crashes")) 40 = [Logfile_crash; Console_error; Logfile_error] /\
  unset (setup true) [L "manager"] (get_logger (L "plainbox.session")).
Proof.
  cbv zeta. split; [repeat constructor|]. split; [reflexivity|]. split; [reflexivity|]. split; [reflexivity|]. split; [reflexivity|].
  intros r q E N. destruct q as [|y q]; [contradiction|]. destruct r as [|z r]; [injection E as <- <-; reflexivity|]. apply (f_equal (@length _)) in E. cbn in E. rewrite app_length in E. cbn in E. lia.
Qed.
