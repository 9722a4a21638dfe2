From Coq Require Import String Ascii List Bool Arith ZArith Lia.
From Verif Require Import SessionModel DialogModel DialogSpec.
Import ListNotations.
Open Scope string_scope.
Open Scope list_scope.

(** ** Picking *)

Lemma chosen_spec l k lb c : chosen l (k, lb, c) = true <-> l = k \/ l = lb.
Proof. cbn [chosen]. rewrite orb_true_iff, !String.eqb_eq. tauto. Qed.
Lemma find_spec l actions c : (exists a, find (chosen l) actions = Some a /\ snd a = c) <-> means actions l c.
Proof.
  induction actions as [|[[k lb] c'] r IH]; cbn [find].
  - split; [intros (a & H & _); discriminate|]. intros (b & k & lb & af & E & _). now destruct b.
  - destruct (chosen l (k, lb, c')) eqn:E.
    + split.
      * intros (a & [= <-] & <-). exists [], k, lb, r. split; [reflexivity|]. split; [now apply chosen_spec in E|]. intros ? ? ? [].
      * intros (b & k1 & lb1 & af & Ea & Hl & Hb). destruct b as [|[[k2 lb2] c2] b].
        -- injection Ea as -> -> -> ->. eexists. split; [reflexivity|]. reflexivity.
        -- injection Ea as -> -> -> Ea. exfalso. destruct (Hb _ _ _ (or_introl eq_refl)) as [H1 H2].
           apply chosen_spec in E. tauto.
    + rewrite IH. assert (Hn : l <> k /\ l <> lb).
      { split; intros ->; assert (chosen k (k, lb, c') = true \/ chosen lb (k, lb, c') = true) as [H|H] by
          (first [left; apply chosen_spec; tauto | right; apply chosen_spec; tauto]); try congruence;
          (assert (chosen k (k, lb, c') = true) by (apply chosen_spec; tauto)); (assert (chosen lb (k, lb, c') = true) by (apply chosen_spec; tauto)); congruence. }
      split.
      * intros (b & k1 & lb1 & af & -> & Hl & Hb). exists ((k, lb, c') :: b), k1, lb1, af. split; [reflexivity|].
        split; [assumption|]. intros k2 l2 c2 [[= <- <- <-]|H]; [assumption|]. eapply Hb; eassumption.
      * intros (b & k1 & lb1 & af & Ea & Hl & Hb). destruct b as [|[[k2 lb2] c2] b].
        -- injection Ea as -> -> -> ->. tauto.
        -- injection Ea as -> -> -> Ea. exists b, k1, lb1, af. split; [assumption|]. split; [assumption|].
           intros ? ? ? H. eapply Hb. right. eassumption.
Qed.
Lemma means_one actions l c c' : means actions l c -> means actions l c' -> c = c'.
Proof. rewrite <- !find_spec. intros (a & E & <-) (b & E' & <-). congruence. Qed.
Lemma pick_reads actions lines c rest : pick actions lines = (c, rest) -> reads actions lines c rest.
Proof.
  revert c rest. induction lines as [|l r IH]; intros c rest; cbn [pick].
  - intros [= <- <-]. exists []. now split.
  - destruct (find (chosen l) actions) as [a|] eqn:E.
    + intros [= <- <-]. exists []. split; [easy|]. exists l. split; [|reflexivity]. apply find_spec. now exists a.
    + intros H. apply IH in H as (ig & Hig & H). exists (l :: ig). split.
      * intros l' [<-|Hl']; [|now apply Hig]. intros c' Hc. apply find_spec in Hc as (a & E' & _). congruence.
      * destruct c as [c|]; [destruct H as (l' & Hl & ->); now exists l'|]. now destruct H as [-> ->].
Qed.
Lemma reads_one actions lines c rest c' rest' : reads actions lines c rest -> reads actions lines c' rest' -> c = c' /\ rest = rest'.
Proof.
  intros (ig & Hig & H) (ig' & Hig' & H'). revert ig' Hig' lines H H'.
  assert (Hcase : forall (x : string) l, (forall y, In y (x :: l) -> means_nothing actions y) -> means_nothing actions x /\ forall y, In y l -> means_nothing actions y).
  { intros x l HH. split; [apply HH; now left|]. intros y Hy. apply HH. now right. }
  induction ig as [|x ig IH]; intros ig' Hig' lines H H'.
  - destruct c as [c|].
    + destruct H as (l & Hm & ->). destruct ig' as [|y ig'].
      * destruct c' as [c'|]; [|destruct H' as [H' _]; discriminate H']. destruct H' as (l' & Hm' & [= <- <-]). split; [f_equal; eapply means_one; eassumption|reflexivity].
      * exfalso. assert (y = l) as -> by (destruct c'; [destruct H' as (l' & _ & H')|destruct H' as [H' _]]; cbn in H'; congruence).
        apply Hcase in Hig' as [Hy _]. exact (Hy _ Hm).
    + destruct H as [-> ->]. destruct c' as [c'|]; [destruct H' as (l' & _ & H'); now destruct ig'|]. now destruct H' as [_ ->].
  - apply Hcase in Hig as [Hx Hig]. destruct ig' as [|y ig'].
    + destruct c' as [c'|].
      * destruct H' as (l' & Hm' & ->). exfalso. assert (x = l') as -> by (destruct c; [destruct H as (l & _ & H)|destruct H as [H _]]; cbn in H; congruence). exact (Hx _ Hm').
      * destruct H' as [-> ->]. destruct c; [destruct H as (l & _ & H)|destruct H as [H _]]; discriminate H.
    + apply Hcase in Hig' as [_ Hig']. destruct lines as [|z lines]; [destruct c; [destruct H as (l & _ & H)|destruct H as [H _]]; discriminate H|].
      apply (IH Hig ig' Hig' lines).
      * destruct c; [destruct H as (l & Hm & [= <- ->]); now exists l|destruct H as [[= <- ->] ->]; easy].
      * destruct c'; [destruct H' as (l & Hm & [= _ ->]); now exists l|destruct H' as [[= _ ->] ->]; easy].
Qed.
Lemma reads_shorter actions lines c rest : reads actions lines (Some c) rest -> length rest < length lines.
Proof. intros (ig & _ & l & _ & ->). rewrite app_length. cbn. lia. Qed.
Lemma reads_le actions lines c rest : reads actions lines c rest -> length rest <= length lines.
Proof. destruct c; [intros H; apply reads_shorter in H; lia|]. intros (ig & _ & -> & ->). cbn. lia. Qed.
Lemma reads_listed actions lines c rest : reads actions lines (Some c) rest -> exists k l, In (k, l, c) actions.
Proof. intros (ig & _ & l & (b & k & lb & a & -> & _) & _). exists k, lb. apply in_app_iff. right. now left. Qed.

(** ** Texts *)

Lemma runs_app a b : runs (a ++ b) = runs a ++ runs b.
Proof. apply flat_map_app. Qed.
Lemma typed_app a b : typed (a ++ b) = typed a ++ typed b.
Proof. apply flat_map_app. Qed.
Lemma reruns_app a b : reruns (a ++ b) = reruns a + reruns b.
Proof. unfold reruns. now rewrite filter_app, app_length. Qed.
Lemma since_last_run_app l k t : runs t = [] -> since_last_run (l ++ Ran k :: t) = t.
Proof.
  intros Ht. induction l as [|x l IH]; cbn [app since_last_run].
  - now rewrite Ht.
  - rewrite runs_app. cbn [runs flat_map]. change (flat_map _ t) with (runs t). now destruct (runs l).
Qed.
Lemma since_last_run_none h : runs h = [] -> since_last_run h = h.
Proof. destruct h as [|x h]; [easy|]. intros H. destruct x; cbn in *; try discriminate; change (flat_map _ h) with (runs h) in H; now rewrite H. Qed.
Lemma sapp_nil s : (s ++ "")%string = s.
Proof. induction s as [|c s IH]; [easy|]. cbn. now rewrite IH. Qed.
Lemma sapp_assoc a b c : ((a ++ b) ++ c)%string = (a ++ b ++ c)%string.
Proof. induction a as [|x a IH]; [easy|]. cbn. now rewrite IH. Qed.
Lemma as_lines_app a b : as_lines (a ++ b) = (as_lines a ++ as_lines b)%string.
Proof.
  unfold as_lines. induction a as [|x a IH]; [reflexivity|]. cbn [app fold_right]. rewrite IH. now rewrite !sapp_assoc.
Qed.
Lemma as_lines_nil l : as_lines l = "" -> l = [].
Proof. destruct l as [|[|c s] l]; [easy|discriminate|discriminate]. Qed.
Lemma appended_app b x y : appended b (x ++ y) = appended (appended b x) y.
Proof. apply fold_left_app. Qed.

Lemma only_comments_runs l : only_comments l -> runs l = [].
Proof. induction 1; cbn; auto. Qed.
Lemma only_comments_reruns l : only_comments l -> reruns l = 0.
Proof. induction 1; cbn; auto. Qed.
Lemma said_only_comments l r : only_comments l -> said (l ++ r) = said r.
Proof. induction 1; cbn [app said]; auto. Qed.

  (** *** What comes right before a run *)
  Fixpoint each_run (P : option happening -> Prop) (prev : option happening) (h : list happening) : Prop :=
    match h with
    | [] => True
    | x :: r => match x with Ran _ => P prev | _ => True end /\ each_run P (Some x) r
    end.
  Definition ends (prev : option happening) (h : list happening) : option happening := fold_left (fun _ x => Some x) h prev.
  Lemma each_run_app P prev a b : each_run P prev (a ++ b) <-> each_run P prev a /\ each_run P (ends prev a) b.
  Proof. revert prev. induction a as [|x a IH]; intros prev; cbn [app each_run ends fold_left]; [tauto|]. rewrite IH. unfold ends. tauto. Qed.
  Lemma ends_snoc prev l x : ends prev (l ++ [x]) = Some x.
  Proof. unfold ends. rewrite fold_left_app. reflexivity. Qed.
  Lemma each_run_none P prev h : runs h = [] -> each_run P prev h.
  Proof. revert prev. induction h as [|x h IH]; intros prev H; [exact I|]. destruct x; cbn in H |- *; [split; [exact I|]; now apply IH ..|discriminate]. Qed.
  Lemma each_run_at P prev l k t : each_run P prev (l ++ Ran k :: t) -> P (ends prev l).
  Proof. rewrite each_run_app. cbn. tauto. Qed.

Section Proofs.
  Variable label : cmd -> string.
  Variable interactive : bool.
  Variable plugin : string.
  Variable has_command explicit_fail : bool.
  Variable outcome_of_run : nat -> option outcome.
  Variable comments_of_run : nat -> option string.
  Variable code_of_run : nat -> option Z.
  Variable skipped_text : string.
  Notation verdicts := (verdicts label has_command).
  Notation prompt := (prompt label).
  Notation verdict := (verdict label has_command explicit_fail).
  Notation dialogue := (dialogue label interactive plugin has_command explicit_fail outcome_of_run comments_of_run code_of_run skipped_text).
  Notation asks_first := (asks_first interactive plugin).
  Notation follows := (follows prompt (fun n => verdicts (code_of_run n))).

  Lemma verdicts_in code k l c : In (k, l, c) (verdicts code) ->
    c = Set_comments \/ c = Set_pass \/ c = Set_fail \/ c = Set_skip \/ (c = Re_run /\ has_command = true) \/ (c = Set_suggested /\ code <> None).
  Proof.
    unfold DialogModel.verdicts. rewrite !in_app_iff. cbn [In].
    intros [[[= <- <- <-]|[[= <- <- <-]|[[= <- <- <-]|[[= <- <- <-]|[]]]]]|[H|H]]; auto 8.
    - destruct has_command; [|easy]. destruct H as [[= <- <- <-]|[]]. auto 8.
    - destruct code; [|easy]. destruct H as [[= <- <- <-]|[]]. repeat right. now split.
  Qed.
  Lemma prompt_in k l c : In (k, l, c) prompt -> c = Run \/ c = Comment \/ c = Skip \/ c = Quit.
  Proof. cbn. intros [[= <- <- <-]|[[= <- <- <-]|[[= <- <- <-]|[[= <- <- <-]|[]]]]]; auto. Qed.

  Lemma note_comments t d : dr_comments (note t d) = appended (dr_comments d) (something t).
  Proof. unfold note, something. destruct (String.eqb t ""); reflexivity. Qed.
  Lemma note_rest t d : dr_outcome (note t d) = dr_outcome d /\ dr_code (note t d) = dr_code d /\ dr_run (note t d) = dr_run d.
  Proof. unfold note. now destruct (String.eqb t ""). Qed.

  (** *** The verdict on a run *)
  Definition final (code : option Z) (h : list happening) (o : option outcome) : Prop :=
    exists l c t, h = l ++ Picked c :: t /\ only_comments l /\ decision code c = o /\ o <> None /\
      (t = [] \/ exists s, t = [Typed s] /\ c = Some Set_fail /\ explicit_fail = true).

  Definition verdict_shape (n : nat) (d : draft) (lines : list string) (h : list happening) (a : answer) : Prop :=
    match a with
    | Decided d' rest =>
        final (code_of_run n) h (dr_outcome d') /\ dr_comments d' = appended (dr_comments d) (typed h) /\
        dr_code d' = dr_code d /\ dr_run d' = dr_run d /\ follows (Some n) h lines rest
    | Again rest =>
        exists l, h = l ++ [Picked (Some Re_run)] /\ only_comments l /\ has_command = true /\
          length rest < length lines /\
          (forall h' r, follows None h' rest r -> follows (Some n) (h ++ h') lines r)
    | End_of_input =>
        exists l c, h = l ++ [Picked (Some c)] /\ only_comments l /\ (c = Set_comments \/ c = Set_fail /\ explicit_fail = true) /\ follows (Some n) h lines []
    | Out_of_fuel => False
    end.

  Lemma verdict_spec n fuel : forall d lines h a, S (length lines) < fuel -> dr_code d = code_of_run n -> is_decision (dr_outcome d) = false ->
    verdict fuel d lines = (h, a) -> verdict_shape n d lines h a.
  Proof.
    induction fuel as [|f IH]; intros d lines h a Hf Hc Hd; [lia|]. cbn [DialogModel.verdict]. rewrite Hd.
    destruct (pick (verdicts (dr_code d)) lines) as [c lines1] eqn:Ep. apply pick_reads in Ep. rewrite Hc in Ep.
    assert (Hdone : forall f' o d' lines2, dr_outcome d' = Some o -> is_decision (Some o) = true ->
              verdict f' d' lines2 = match f' with 0 => ([], Out_of_fuel) | _ => ([], Decided d' lines2) end) .
    { intros f' o d' lines2 Ho Hdec. destruct f'; [reflexivity|]. cbn [DialogModel.verdict]. now rewrite Ho, Hdec. }
    assert (Hfin : forall c o t (Hcc : c <> Some Re_run), reads (verdicts (code_of_run n)) lines c lines1 -> decision (code_of_run n) c = Some o ->
              is_decision (Some o) = true -> 0 < f ->
              forall d' lines2, dr_outcome d' = Some o -> dr_comments d' = appended (dr_comments d) (typed t) -> dr_code d' = dr_code d -> dr_run d' = dr_run d ->
              (t = [] /\ lines2 = lines1 \/ exists s, t = [Typed s] /\ c = Some Set_fail /\ explicit_fail = true /\ lines1 = s :: lines2) ->
              match verdict f d' lines2 with (l, a) => (Picked c :: t ++ l, a) end = (h, a) -> verdict_shape n d lines h a).
    { clear c Ep. intros c o t Hcc Hr Hdec Hdo Hf0 d' lines2 Ho Hcm Hcd Hrn Ht. rewrite (Hdone f o d' lines2 Ho Hdo).
      destruct f as [|f']; [lia|]. intros [= <- <-]. rewrite app_nil_r. cbn [verdict_shape]. split; [|split; [|split; [|split]]]; [| exact Hcm | exact Hcd | exact Hrn | ].
      - exists [], c, t. split; [reflexivity|]. split; [constructor|]. split; [now rewrite Ho|]. split; [now rewrite Ho|].
        destruct Ht as [[-> _]|(s & -> & -> & He & _)]; [now left|]. right. now exists s.
      - eapply F_verdict; [exact Hcc|exact Hr|]. destruct Ht as [[-> ->]|(s & -> & -> & He & ->)]; [constructor|]. constructor. constructor. }
    assert (Hf0 : 0 < f) by lia.
    destruct c as [c|].
    2:{ apply (Hfin None OSkip []); try easy; auto. }
    pose proof (reads_shorter _ _ _ _ Ep) as Hlen.
    destruct (reads_listed _ _ _ _ Ep) as (k & lb & Hin). apply verdicts_in in Hin.
    destruct Hin as [->|[->|[->|[->|[[-> Hcmd]|[-> Hcode]]]]]].
    - (* a comment *)
      destruct lines1 as [|t lines2].
      + intros [= <- <-]. exists [], Set_comments. split; [reflexivity|]. split; [constructor|]. split; [now left|].
        eapply F_verdict; [discriminate|exact Ep|constructor].
      + destruct (verdict f (note t d) lines2) as [h1 a1] eqn:E. intros [= <- <-].
        destruct (note_rest t d) as (No & Nc & Nr).
        apply IH in E; [|cbn in Hlen; lia|now rewrite Nc|now rewrite No].
        assert (Hfol : forall h2 r, follows (Some n) h2 lines2 r -> follows (Some n) (Picked (Some Set_comments) :: Typed t :: h2) lines r).
        { intros h2 r H2. eapply F_verdict; [discriminate|exact Ep|]. now constructor. }
        destruct a1 as [d' rest|rest| |]; cbn [verdict_shape] in E |- *.
        * destruct E as ((l & c & t' & -> & Hl & Hdec & Hn & Ht) & Hcm & Hcd & Hrn & Hfo).
          split; [|split; [|split; [|split]]].
          -- exists (Picked (Some Set_comments) :: Typed t :: l), c, t'. split; [reflexivity|]. split; [now constructor|]. auto.
          -- rewrite Hcm, note_comments, <- appended_app. reflexivity.
          -- now rewrite Hcd.
          -- now rewrite Hrn.
          -- now apply Hfol.
        * destruct E as (l & -> & Hl & Hcmd & Hlr & Hfo). exists (Picked (Some Set_comments) :: Typed t :: l). split; [reflexivity|].
          split; [now constructor|]. split; [assumption|]. split; [cbn in Hlen; lia|]. intros h' r H'. cbn [app]. apply Hfol. now apply Hfo.
        * destruct E as (l & c & -> & Hl & Hc' & Hfo). exists (Picked (Some Set_comments) :: Typed t :: l), c. split; [reflexivity|].
          split; [now constructor|]. split; [assumption|]. now apply Hfol.
        * exact E.
    - apply (Hfin (Some Set_pass) OPass []); try easy; auto.
    - destruct explicit_fail eqn:Ee.
      + destruct lines1 as [|t lines2].
        * intros [= <- <-]. exists [], Set_fail. split; [reflexivity|]. split; [constructor|]. split; [now right|].
          eapply F_verdict; [discriminate|exact Ep|constructor].
        * destruct (note_rest t d) as (No & Nc & Nr).
          apply (Hfin (Some Set_fail) OFail [Typed t]); try easy; auto.
          -- cbn [set_outcome dr_comments typed flat_map]. rewrite app_nil_r. apply note_comments.
          -- right. now exists t.
      + apply (Hfin (Some Set_fail) OFail []); try easy; auto.
    - apply (Hfin (Some Set_skip) OSkip []); try easy; auto.
    - intros [= <- <-]. exists []. split; [reflexivity|]. split; [constructor|]. split; [assumption|]. split; [assumption|].
      intros h' r H'. eapply F_again; eassumption.
    - apply (Hfin (Some Set_suggested) (suggested (dr_code d)) []); try easy; auto; rewrite <- ?Hc in *.
      + unfold suggested, decision. destruct (dr_code d) as [[|p|p]|]; easy.
      + unfold suggested. destruct (dr_code d) as [[|p|p]|]; easy.
  Qed.

  (** *** The whole dialogue *)
  Definition end_shape (n : nat) (comments : string) (lines : list string) (h : list happening) (e : end_of_dialogue) : Prop :=
    runs h = seq n (length (runs h)) /\
    match e with
    | Result d rest =>
        follows None h lines rest /\
        ((asks_first = true /\ plugin <> "manual" /\ (exists l, h = l ++ [Picked (Some Skip)]) /\ length (runs h) = reruns h /\
          d = mk_draft (Some OSkip) (Some (if String.eqb (comments ++ as_lines (said h)) "" then skipped_text else (comments ++ as_lines (said h))%string)) None None)
         \/ exists k l t, h = l ++ Ran k :: t /\ runs t = [] /\ k = n + reruns h /\ dr_run d = Some k /\ dr_code d = code_of_run k /\
              said h = said l /\
              dr_comments d = appended (if asks_first then Some (comments ++ as_lines (said h))%string else comments_of_run k) (typed t) /\
              (t = [] /\ dr_outcome d = outcome_of_run k /\ (interactive = true -> outcome_of_run k <> Some OUndecided)
               \/ interactive = true /\ outcome_of_run k = Some OUndecided /\ final (code_of_run k) t (dr_outcome d)))
    | Quits => asks_first = true /\ plugin <> "manual" /\ (exists l, h = l ++ [Picked (Some Quit)]) /\ exists rest, follows None h lines rest
    | Eof_error => follows None h lines [] /\ interactive = true /\
        exists l c, h = l ++ [Picked (Some c)] /\ (c = Comment \/ c = Set_comments \/ c = Set_fail /\ explicit_fail = true)
    | No_fuel => False
    end.

  Lemma final_facts code h o : final code h o -> runs h = [] /\ reruns h = 0 /\ said h = [].
  Proof.
    intros (l & c & t & -> & Hl & Hd & Ho & Ht). rewrite runs_app, reruns_app, (only_comments_runs _ Hl), (only_comments_reruns _ Hl), (said_only_comments _ _ Hl).
    destruct Ht as [->|(s & -> & -> & _)].
    - split; [reflexivity|]. destruct c as [[]|]; try easy; now subst o.
    - easy.
  Qed.
  Lemma said_ran l k t : said (l ++ Ran k :: t) = said l ++ said t.
  Proof.
    remember (length l) as m eqn:Em. assert (Hm : length l <= m) by lia. clear Em. revert l Hm.
    induction m as [|m IH]; intros [|x l] Hm; try reflexivity; [cbn in Hm; lia|].
    assert (Hl : said (l ++ Ran k :: t) = said l ++ said t) by (apply IH; cbn in Hm; lia).
    destruct x as [c|u|q]; cbn [app said]; try exact Hl.
    destruct c as [[]|]; try exact Hl. destruct l as [|[c'|u|q] l]; cbn [app] in *; try exact Hl.
    rewrite <- app_assoc. f_equal. apply IH. cbn in Hm. lia.
  Qed.

  Lemma dialogue_spec fuel : forall n comments lines h e, length lines < fuel -> (asks_first = false -> comments = "") ->
    dialogue fuel n comments lines = (h, e) -> end_shape n comments lines h e.
  Proof.
    induction fuel as [|f IH]; intros n comments lines h e Hf Hcom; [lia|]. cbn [DialogModel.dialogue]. cbv zeta.
    set (ran := mk_draft (outcome_of_run n) (comments_of_run n) (code_of_run n) (Some n)).
    (* after the run *)
    assert (Hafter : forall h0 lines1, said h0 = [] -> runs h0 = [] -> reruns h0 = 0 -> length lines1 <= length lines ->
              (forall h' r, follows None (Ran n :: h') lines1 r -> follows None (h0 ++ Ran n :: h') lines r) ->
              (asks_first = true -> True) ->
              (if interactive && match dr_outcome (if asks_first then set_comments (Some comments) ran else ran) with Some OUndecided => true | _ => false end then
                 match verdict (2 + length lines1) (if String.eqb comments "" then (if asks_first then set_comments (Some comments) ran else ran)
                                   else set_comments (Some comments) (if asks_first then set_comments (Some comments) ran else ran)) lines1 with
                 | (l, Decided d' rest) => ((h0 ++ [Ran n]) ++ l, Result d' rest)
                 | (l, Again rest) => match dialogue f (S n) comments rest with (l', e) => ((h0 ++ [Ran n]) ++ l ++ l', e) end
                 | (l, End_of_input) => ((h0 ++ [Ran n]) ++ l, Eof_error)
                 | (l, Out_of_fuel) => ((h0 ++ [Ran n]) ++ l, No_fuel)
                 end
               else (h0 ++ [Ran n], Result (if asks_first then set_comments (Some comments) ran else ran) lines1)) = (h, e) ->
              end_shape n comments lines h e).
    { intros h0 lines1 Hs0 Hr0 Hrr0 Hlen Hfol _.
      set (d0 := if asks_first then set_comments (Some comments) ran else ran).
      assert (D0 : dr_outcome d0 = outcome_of_run n /\ dr_code d0 = code_of_run n /\ dr_run d0 = Some n /\
                   dr_comments d0 = if asks_first then Some comments else comments_of_run n).
      { unfold d0. destruct asks_first; easy. }
      destruct D0 as (Do & Dc & Dr & Dm).
      assert (Ed : (if String.eqb comments "" then d0 else set_comments (Some comments) d0) = d0).
      { destruct (String.eqb comments "") eqn:Ec; [reflexivity|]. unfold d0. destruct asks_first; [reflexivity|].
        rewrite Hcom in Ec by reflexivity. discriminate Ec. }
      rewrite Ed, Do.
      destruct (interactive && match outcome_of_run n with Some OUndecided => true | _ => false end) eqn:Eu.
      - apply andb_true_iff in Eu as [Ei Eu]. assert (Eo : outcome_of_run n = Some OUndecided) by (destruct (outcome_of_run n) as [[]|]; easy).
        destruct (verdict (2 + length lines1) d0 lines1) as [l a] eqn:Ev.
        apply (verdict_spec n) in Ev; [|lia|assumption|now rewrite Do, Eo].
        destruct a as [d' rest|rest| |]; cbn [verdict_shape] in Ev.
        + intros [= <- <-]. destruct Ev as (Hfin & Hm & Hc & Hr & Hfo). destruct (final_facts _ _ _ Hfin) as (F1 & F2 & F3).
          rewrite <- app_assoc. cbn [app]. unfold end_shape. rewrite runs_app, reruns_app. cbn [runs flat_map]. change (flat_map _ l) with (runs l).
          rewrite Hr0, F1. split; [reflexivity|]. split; [apply Hfol; now constructor|]. right.
          exists n, h0, l. rewrite said_ran, Hs0, F3. split; [reflexivity|]. split; [assumption|].
          split; [rewrite Hrr0; change (reruns (Ran n :: l)) with (reruns l); lia|]. split; [congruence|]. split; [congruence|].
          split; [reflexivity|]. cbn [app as_lines fold_right]. rewrite sapp_nil. split; [now rewrite Hm, Dm|]. right. easy.
        + destruct Ev as (l0 & -> & Hl0 & Hcmd & Hlt & Hfo).
          destruct (dialogue f (S n) comments rest) as [l' e'] eqn:E. intros [= <- <-]. apply IH in E; [|lia|assumption].
          rewrite <- !app_assoc. cbn [app]. destruct E as (Hruns & E).
          assert (Eh : exists p, forall x, h0 ++ Ran n :: l0 ++ Picked (Some Re_run) :: x = p ++ x).
          { exists (h0 ++ Ran n :: l0 ++ [Picked (Some Re_run)]). intros x; rewrite <- !app_assoc; cbn [app]; now rewrite <- app_assoc. }
          destruct Eh as [p Eh].
          assert (Hr1 : runs (h0 ++ Ran n :: l0 ++ Picked (Some Re_run) :: l') = n :: runs l').
          { rewrite runs_app, Hr0. cbn [app runs flat_map]. change (flat_map ?f (l0 ++ ?x)) with (runs (l0 ++ x)). rewrite runs_app, (only_comments_runs _ Hl0). reflexivity. }
          assert (Hrr1 : forall x, reruns (h0 ++ Ran n :: l0 ++ Picked (Some Re_run) :: x) = S (reruns x)).
          { intros x. rewrite reruns_app, Hrr0. change (reruns (Ran n :: ?y)) with (reruns y). rewrite reruns_app, (only_comments_reruns _ Hl0). reflexivity. }
          assert (Hs1 : forall x, said (h0 ++ Ran n :: l0 ++ Picked (Some Re_run) :: x) = said x).
          { intros x. rewrite said_ran, Hs0, (said_only_comments _ _ Hl0). reflexivity. }
          assert (Hfo1 : forall x r, follows None x rest r -> follows None (h0 ++ Ran n :: l0 ++ Picked (Some Re_run) :: x) lines r).
          { intros x r Hx. apply Hfol. constructor. specialize (Hfo x r Hx). now rewrite <- app_assoc in Hfo. }
          unfold end_shape. rewrite Hr1. split; [cbn [length seq]; now rewrite <- Hruns|].
          destruct e' as [d rest'| | |].
          * destruct E as (Hfe & E). split; [now apply Hfo1|]. rewrite Hrr1, Hs1. destruct E as [(Ea & Em & (l2 & ->) & Hlen2 & ->)|(k & l2 & t & -> & Ht & Ek & R1 & R2 & R3 & R4 & R5)].
            -- left. split; [assumption|]. split; [assumption|]. split; [|split; [cbn [length]; now rewrite Hlen2|reflexivity]].
               exists (h0 ++ Ran n :: l0 ++ Picked (Some Re_run) :: l2). rewrite !Eh. now rewrite app_assoc.
            -- right. exists k, (h0 ++ Ran n :: l0 ++ Picked (Some Re_run) :: l2), t.
               rewrite Hs1. split; [rewrite !Eh; now rewrite <- app_assoc|]. split; [assumption|]. split; [lia|]. auto 8.
          * destruct E as (Ea & Em & (l2 & ->) & (rest' & Hfe)). split; [assumption|]. split; [assumption|]. split.
            -- exists (h0 ++ Ran n :: l0 ++ Picked (Some Re_run) :: l2). rewrite !Eh. now rewrite app_assoc.
            -- exists rest'. now apply Hfo1.
          * destruct E as (Hfe & _ & (l2 & c & -> & Hcc)). split; [now apply Hfo1|]. split; [assumption|].
            exists (h0 ++ Ran n :: l0 ++ Picked (Some Re_run) :: l2), c. split; [rewrite !Eh; now rewrite app_assoc|assumption].
          * easy.
        + intros [= <- <-]. destruct Ev as (l0 & c & -> & Hl0 & Hcc & Hfo). rewrite <- app_assoc. cbn [app].
          unfold end_shape. rewrite runs_app, Hr0. cbn [app runs flat_map]. change (flat_map ?f (l0 ++ ?x)) with (runs (l0 ++ x)). rewrite runs_app, (only_comments_runs _ Hl0).
          split; [reflexivity|]. split; [apply Hfol; now constructor|]. split; [assumption|].
          exists (h0 ++ Ran n :: l0), c. split; [now rewrite <- app_assoc|]. now right.
        + easy.
      - intros [= <- <-]. unfold end_shape. rewrite runs_app, Hr0. split; [reflexivity|].
        split; [apply Hfol; constructor; constructor|]. right. exists n, h0, []. rewrite said_ran, Hs0, reruns_app, Hrr0.
        split; [reflexivity|]. split; [reflexivity|]. split; [cbn; lia|]. split; [assumption|]. split; [assumption|]. split; [reflexivity|].
        cbn [app said as_lines fold_right typed flat_map appended fold_left]. rewrite sapp_nil. split; [assumption|]. left. split; [reflexivity|]. split; [assumption|].
        intros Ei Eo. rewrite Ei, Eo in Eu. discriminate Eu. }
    destruct asks_first eqn:Ea.
    2:{ intros H. apply (Hafter [] lines); try easy; auto. }
    destruct (String.eqb plugin "manual") eqn:Em.
    { intros H. apply (Hafter [] lines); try easy; auto. }
    apply String.eqb_neq in Em.
    destruct (pick prompt lines) as [c lines1] eqn:Ep. apply pick_reads in Ep.
    assert (Hrun : forall h' r, follows None (Ran n :: h') lines1 r -> follows None ([Picked c] ++ Ran n :: h') lines r)
      by (intros h' r H; cbn [app]; eapply F_prompt; eassumption).
    pose proof (reads_le _ _ _ _ Ep) as Hle.
    destruct c as [c|].
    2:{ intros H. apply (Hafter [Picked None] lines1); try easy; auto. }
    pose proof (reads_shorter _ _ _ _ Ep) as Hlt.
    destruct (reads_listed _ _ _ _ Ep) as (k & lb & Hin). apply prompt_in in Hin as [->|[->|[->| ->]]].
    - intros H. apply (Hafter [Picked (Some Run)] lines1); try easy; auto.
    - destruct lines1 as [|t lines2].
      + intros [= <- <-]. split; [reflexivity|]. split; [eapply F_prompt; [eassumption|constructor]|].
        split; [unfold DialogModel.asks_first in Ea; now destruct interactive|]. exists [], Comment. split; [reflexivity|now left].
      + destruct (dialogue f n _ lines2) as [l e'] eqn:E. intros [= <- <-].
        apply IH in E; [|cbn in Hlt; lia|intros H'; discriminate H'].
        assert (Ec : (if String.eqb t "" then comments else (comments ++ t ++ NL)%string) = (comments ++ as_lines (something t))%string).
        { unfold something. destruct (String.eqb t ""); [cbn; now rewrite sapp_nil|]. reflexivity. }
        rewrite Ec in E. clear Ec. destruct E as (Hruns & E). cbn [app].
        set (p := [Picked (Some Comment); Typed t]).
        assert (Hx : forall x, Picked (Some Comment) :: Typed t :: x = p ++ x) by easy.
        assert (Hs1 : forall x, said (Picked (Some Comment) :: Typed t :: x) = something t ++ said x) by easy.
        assert (Hfo1 : forall x r, follows None x lines2 r -> follows None (Picked (Some Comment) :: Typed t :: x) lines r).
        { intros x r H. eapply F_prompt; [eassumption|]. now constructor. }
        unfold end_shape. change (runs (Picked (Some Comment) :: Typed t :: l)) with (runs l). split; [assumption|].
        change (reruns (Picked (Some Comment) :: Typed t :: l)) with (reruns l).
        destruct e' as [d rest'| | |].
        * destruct E as (Hfe & E). split; [now apply Hfo1|]. rewrite Hs1, as_lines_app, <- sapp_assoc.
          destruct E as [(_ & _ & (l2 & ->) & Hlen2 & ->)|(k' & l2 & t' & -> & Ht & Ek & R1 & R2 & R3 & R4 & R5)].
          -- left. split; [assumption|]. split; [assumption|]. split; [|split; [assumption|reflexivity]]. now exists (p ++ l2).
          -- right. exists k', (p ++ l2), t'. split; [reflexivity|]. split; [assumption|]. split; [assumption|].
             split; [assumption|]. split; [assumption|]. split; [|split; assumption]. change (said (p ++ l2)) with (something t ++ said l2). now rewrite R3.
        * destruct E as (_ & _ & (l2 & ->) & (rest' & Hfe)). split; [assumption|]. split; [assumption|]. split; [now exists (p ++ l2)|].
          exists rest'. now apply Hfo1.
        * destruct E as (Hfe & Ei & (l2 & c & -> & Hcc)). split; [now apply Hfo1|]. split; [assumption|]. exists (p ++ l2), c. now split.
        * easy.
    - intros [= <- <-]. split; [reflexivity|]. split; [eapply F_prompt; [eassumption|constructor]|]. left. split; [assumption|]. split; [assumption|].
      split; [now exists []|]. split; [reflexivity|]. cbn [said as_lines fold_right]. rewrite sapp_nil. reflexivity.
    - intros [= <- <-]. split; [reflexivity|]. split; [assumption|]. split; [assumption|]. split; [now exists []|]. exists lines1. eapply F_prompt; [eassumption|constructor].
  Qed.

  Lemma verdict_no_runs fuel : forall d lines, runs (fst (verdict fuel d lines)) = [].
  Proof.
    induction fuel as [|f IH]; intros d lines; [reflexivity|]. cbn [DialogModel.verdict].
    destruct (is_decision (dr_outcome d)); [reflexivity|]. destruct (pick _ lines) as [c lines1].
    assert (H : forall h d' lines', runs h = [] -> runs (fst (match verdict f d' lines' with (l, a) => (Picked c :: h ++ l, a) end)) = []).
    { intros h d' lines' Hh. specialize (IH d' lines'). destruct (verdict f d' lines') as [l a]. cbn [fst] in *.
      change (runs (Picked c :: h ++ l)) with (runs (h ++ l)). now rewrite runs_app, Hh, IH. }
    destruct c as [[]|]; cbv zeta; try (now apply H); try reflexivity.
    - destruct lines1; [reflexivity|now apply H].
    - destruct explicit_fail; [|now apply H]. destruct lines1; [reflexivity|now apply H].
  Qed.

  Definition right_before (prev : option happening) : Prop :=
    if asks_first && negb (String.eqb plugin "manual")
    then prev = Some (Picked (Some Run)) \/ prev = Some (Picked None)
    else prev = None \/ prev = Some (Picked (Some Re_run)).

  Lemma dialogue_each_run fuel : forall n comments lines prev, length lines < fuel -> (prev = None \/ prev = Some (Picked (Some Re_run)) \/ asks_first && negb (String.eqb plugin "manual") = true) ->
    (asks_first = false -> comments = "") ->
    each_run right_before prev (fst (dialogue fuel n comments lines)).
  Proof.
    induction fuel as [|f IH]; intros n comments lines prev Hf Hp Hcom; [lia|]. cbn [DialogModel.dialogue]. cbv zeta.
    set (ran := mk_draft (outcome_of_run n) (comments_of_run n) (code_of_run n) (Some n)).
    assert (Hafter : forall h0 lines1 d, length lines1 <= length lines -> each_run right_before prev h0 -> right_before (ends prev h0) ->
              dr_code d = code_of_run n ->
              each_run right_before prev (fst
              (if interactive && match dr_outcome d with Some OUndecided => true | _ => false end then
                 match verdict (2 + length lines1) (if String.eqb comments "" then d else set_comments (Some comments) d) lines1 with
                 | (l, Decided d' rest) => ((h0 ++ [Ran n]) ++ l, Result d' rest)
                 | (l, Again rest) => match dialogue f (S n) comments rest with (l', e) => ((h0 ++ [Ran n]) ++ l ++ l', e) end
                 | (l, End_of_input) => ((h0 ++ [Ran n]) ++ l, Eof_error)
                 | (l, Out_of_fuel) => ((h0 ++ [Ran n]) ++ l, No_fuel)
                 end
               else (h0 ++ [Ran n], Result d lines1)))).
    { intros h0 lines1 d Hle H0 Hb Hc.
      assert (H1 : each_run right_before prev (h0 ++ [Ran n])) by (rewrite each_run_app; cbn; tauto).
      destruct (interactive && _) eqn:Eu; [|exact H1]. apply andb_true_iff in Eu as [_ Eu].
      set (d1 := if String.eqb comments "" then d else set_comments (Some comments) d).
      pose proof (verdict_no_runs (2 + length lines1) d1 lines1) as Hn.
      destruct (verdict (2 + length lines1) d1 lines1) as [l a] eqn:Ev. cbn [fst] in Hn.
      apply (verdict_spec n) in Ev; [|lia|unfold d1; now destruct (String.eqb comments "")|unfold d1; destruct (String.eqb comments ""); cbn [set_comments dr_outcome]; now destruct (dr_outcome d) as [[]|]].
      destruct a as [d' rest|rest| |]; try (cbn [fst]; rewrite each_run_app; split; [exact H1|now apply each_run_none]).
      destruct Ev as (l0 & El & _ & _ & Hlt & _).
      specialize (IH (S n) comments rest (Some (Picked (Some Re_run)))). destruct (dialogue f (S n) comments rest) as [l' e]. cbn [fst] in *.
      rewrite each_run_app. split; [exact H1|]. rewrite each_run_app. split; [now apply each_run_none|]. rewrite El, ends_snoc. apply IH; [lia|auto|assumption]. }
    unfold right_before in *. destruct asks_first eqn:Ea; cbn [andb] in *.
    2:{ apply (Hafter [] lines ran); cbn; auto. destruct Hp as [->|[->|H]]; auto. discriminate. }
    destruct (String.eqb plugin "manual") eqn:Em; cbn [negb] in *.
    { apply (Hafter [] lines (set_comments (Some comments) ran)); cbn; auto. destruct Hp as [->|[->|H]]; auto. discriminate. }
    destruct (pick prompt lines) as [c lines1] eqn:Ep. apply pick_reads in Ep. pose proof (reads_le _ _ _ _ Ep) as Hle.
    destruct c as [c|].
    2:{ apply (Hafter [Picked None] lines1 (set_comments (Some comments) ran)); cbn; auto. }
    pose proof (reads_shorter _ _ _ _ Ep) as Hlt.
    destruct (reads_listed _ _ _ _ Ep) as (k & lb & Hin). apply prompt_in in Hin as [->|[->|[->| ->]]]; cbn; auto.
    - apply (Hafter [Picked (Some Run)] lines1 (set_comments (Some comments) ran)); cbn; auto.
    - destruct lines1 as [|t lines2]; [cbn; auto|].
      specialize (IH n (if String.eqb t "" then comments else (comments ++ t ++ NL)%string) lines2 (Some (Typed t))).
      destruct (dialogue f n _ lines2) as [l e]. cbn [fst app each_run] in *. split; [exact I|]. split; [exact I|].
      apply IH; [cbn in Hlt; lia|auto|discriminate].
  Qed.
End Proofs.
