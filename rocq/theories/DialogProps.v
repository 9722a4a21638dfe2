(** * C58: what the dialogue about a job leaves in its result *)
From Coq Require Import String Ascii List Bool Arith ZArith Lia.
From Verif Require Import SessionModel DialogModel DialogSpec DialogProofs.
Import ListNotations.
Open Scope string_scope.
Open Scope list_scope.

(** ** Picking *)

(** Exactly: lines that mean nothing are passed over, the first that means something is what
    is picked, and the end of the input is no command at all. *)
Theorem C58_picking actions lines c rest : pick actions lines = (c, rest) <-> reads actions lines c rest.
Proof.
  split; [apply pick_reads|]. intros H. destruct (pick actions lines) as [c' rest'] eqn:E. apply pick_reads in E.
  destruct (reads_one _ _ _ _ _ _ E H) as [-> ->]. reflexivity.
Qed.

(** The keys, whatever the labels, if those are longer than a letter *)
Theorem C58_keys label has_command code key c :
  (forall c, 2 <= String.length (label c)) -> String.length key <= 1 ->
  (means (prompt label) key c <-> In (key, c) [("", Run); ("c", Comment); ("s", Skip); ("q", Quit)]) /\
  (means (verdicts label has_command code) key c <->
     In (key, c) [("c", Set_comments); ("p", Set_pass); ("f", Set_fail); ("s", Set_skip)] \/
     (key, c) = ("r", Re_run) /\ has_command = true \/
     (key, c) = ("", Set_suggested) /\ code <> None).
Proof.
  intros Hl Hk.
  assert (Hch : forall a d, chosen key (act label a d) = String.eqb key a).
  { intros a d. cbn [act chosen]. destruct (String.eqb_spec key (label d)) as [->|_]; [specialize (Hl d); lia|]. apply orb_false_r. }
  assert (Hone : String.length key <= 1 -> key = "" \/ exists x, key = String x "").
  { destruct key as [|x [|y s]]; cbn; [auto|eauto|lia]. }
  split; rewrite <- find_spec.
  - unfold prompt. cbn [find]. rewrite !Hch. split.
    + intros (a & E & <-).
      destruct (String.eqb_spec key "") as [->|N1]; [injection E as <-; cbn; auto 8|].
      destruct (String.eqb_spec key "c") as [->|N2]; [injection E as <-; cbn; auto 8|].
      destruct (String.eqb_spec key "s") as [->|N3]; [injection E as <-; cbn; auto 8|].
      destruct (String.eqb_spec key "q") as [->|N4]; [injection E as <-; cbn; auto 8|discriminate].
    + cbn [In]. intros [[= <- <-]|[[= <- <-]|[[= <- <-]|[[= <- <-]|[]]]]]; cbn; eexists; (split; [reflexivity|reflexivity]).
  - unfold verdicts. cbn [app find]. rewrite !Hch. split.
    + intros (a & E & <-).
      destruct (String.eqb_spec key "c") as [->|N1]; [injection E as <-; cbn; auto 8|].
      destruct (String.eqb_spec key "p") as [->|N2]; [injection E as <-; cbn; auto 8|].
      destruct (String.eqb_spec key "f") as [->|N3]; [injection E as <-; cbn; auto 8|].
      destruct (String.eqb_spec key "s") as [->|N4]; [injection E as <-; cbn; auto 8|].
      right. destruct has_command; cbn [app find] in E; rewrite ?Hch in E.
      * destruct (String.eqb_spec key "r") as [->|N5]; [injection E as <-; cbn; auto 8|].
        right. destruct code; cbn [find] in E; rewrite ?Hch in E; [|discriminate].
        destruct (String.eqb_spec key "") as [->|N6]; [injection E as <-; easy|discriminate].
      * right. destruct code; cbn [find] in E; rewrite ?Hch in E; [|discriminate].
        destruct (String.eqb_spec key "") as [->|N6]; [injection E as <-; easy|discriminate].
    + cbn [In]. intros [[[= <- <-]|[[= <- <-]|[[= <- <-]|[[= <- <-]|[]]]]]|[[[= -> ->] ->]|[[= -> ->] Hc]]];
        cbn [String.eqb Ascii.eqb Bool.eqb app find]; try (eexists; split; [reflexivity|reflexivity]).
      destruct code as [z|]; [|easy]. destruct has_command; cbn [app find]; rewrite ?Hch; cbn [String.eqb Ascii.eqb Bool.eqb]; eexists; split; reflexivity.
Qed.

Section Props.
  (** Any job, any runner, any labels *)
  Variable label : cmd -> string.
  Variable interactive : bool.
  Variable plugin : string.
  Variable has_command explicit_fail : bool.
  Variable outcome_of_run : nat -> option outcome.
  Variable comments_of_run : nat -> option string.
  Variable code_of_run : nat -> option Z.
  Variable skipped_text : string.
  Notation talk := (talk label interactive plugin has_command explicit_fail outcome_of_run comments_of_run code_of_run skipped_text).
  Notation asks_first := (asks_first interactive plugin).
  Notation follows := (follows (prompt label) (fun n => verdicts label has_command (code_of_run n))).

  Let spec lines h e : talk lines = (h, e) ->
    end_shape label interactive plugin has_command explicit_fail outcome_of_run comments_of_run code_of_run skipped_text 0 "" lines h e.
  Proof. unfold DialogModel.talk. apply dialogue_spec; [apply Nat.lt_succ_diag_r|easy]. Qed.

  (** ** The dialogue ends, whatever is typed, and is what is typed *)
  Theorem C58_dialogue_ends lines : snd (talk lines) <> No_fuel.
  Proof. destruct (talk lines) as [h e] eqn:E. apply spec in E as [_ E]. cbn. now intros ->. Qed.

  Theorem C58_transcript lines h e : talk lines = (h, e) ->
    exists rest, follows None h lines rest /\
      match e with Result _ r => r = rest | Quits => True | _ => rest = [] end.
  Proof.
    intros E. apply spec in E as [_ E]. destruct e as [d rest| | |]; [|destruct E as (_ & _ & _ & rest & E)|destruct E as [E _]|destruct E].
    - exists rest. now destruct E.
    - now exists rest.
    - now exists [].
  Qed.

  (** ** Which runs there are, and which one the result is about *)
  Theorem C58_result_of_the_last_run lines h d rest : talk lines = (h, Result d rest) ->
    match dr_run d with
    | Some n => runs h = seq 0 (S n) /\ n = reruns h /\ dr_code d = code_of_run n
    | None => runs h = seq 0 (reruns h) /\ dr_code d = None /\ dr_outcome d = Some OSkip /\
              asks_first = true /\ plugin <> "manual" /\ exists l, h = l ++ [Picked (Some Skip)]
    end.
  Proof.
    intros E. apply spec in E as [Hr [_ E]]. destruct E as [(Ha & Hp & Hl & Hlen & ->)|(k & l & t & -> & Ht & Ek & R1 & R2 & R3 & R4 & R5)].
    - cbn [dr_run dr_code dr_outcome]. rewrite Hr, Hlen. auto 8.
    - rewrite R1. split; [|split; [assumption|assumption]].
      rewrite runs_app in Hr |- *. cbn [runs flat_map] in Hr |- *. change (flat_map _ t) with (runs t) in Hr |- *. rewrite Ht in Hr |- *.
      rewrite app_length, Nat.add_1_r, seq_S in Hr. apply app_inj_tail in Hr as [Hl Hk]. cbn in Hk.
      rewrite Hl at 1. rewrite Hk at 2. symmetry. rewrite Hk. apply seq_S.
  Qed.

  (** A job that needs its user is run only when they agree (or cannot be asked any more);
      others are run at once.  Later runs are asked for. *)
  Theorem C58_asked_before_each_run lines h e l k t : talk lines = (h, e) -> h = l ++ Ran k :: t ->
    if interactive && existsb (String.eqb plugin) ["user-interact"; "user-interact-verify"]
    then exists l' c, l = l' ++ [Picked c] /\ (c = Some Run \/ c = None)
    else l = [] \/ exists l', l = l' ++ [Picked (Some Re_run)].
  Proof.
    intros E ->.
    pose proof (dialogue_each_run label interactive plugin has_command explicit_fail outcome_of_run comments_of_run code_of_run skipped_text
                  (S (length lines)) 0 "" lines None (Nat.lt_succ_diag_r _) (or_introl eq_refl) (fun _ => eq_refl)) as H.
    unfold DialogModel.talk in E. rewrite E in H. apply each_run_at in H. unfold right_before in H.
    assert (Eq : asks_first && negb (String.eqb plugin "manual") = interactive && existsb (String.eqb plugin) ["user-interact"; "user-interact-verify"]).
    { unfold DialogModel.asks_first. cbn [existsb]. destruct interactive; [|reflexivity]. cbn [andb].
      destruct (String.eqb_spec plugin "manual") as [->|_]; [reflexivity|].
      destruct (String.eqb plugin "user-interact"), (String.eqb plugin "user-interact-verify"); reflexivity. }
    rewrite <- Eq. destruct l as [|x l IHl] using rev_ind.
    - destruct (asks_first && _); [destruct H as [H|H]; discriminate|now left].
    - rewrite ends_snoc in H. destruct (asks_first && _).
      + destruct H as [[= ->]|[= ->]]; exists l; eexists; (split; [reflexivity|auto]).
      + destruct H as [H|[= ->]]; [discriminate H|]. right. now exists l.
  Qed.

  (** ** The outcome

      In an interactive session the outcome is that of the last run, when that is not
      undecided; else it is the one that the user decided on, with the first decision after
      that run.  So no job is left undecided. *)
  Theorem C58_outcome_is_the_users lines h d rest n : interactive = true -> talk lines = (h, Result d rest) -> dr_run d = Some n ->
    (outcome_of_run n <> Some OUndecided /\ dr_outcome d = outcome_of_run n /\ since_last_run h = [])
    \/ (outcome_of_run n = Some OUndecided /\
        exists l c t o, since_last_run h = l ++ Picked c :: t /\ only_comments l /\
          decision (code_of_run n) c = Some o /\ dr_outcome d = Some o /\
          (t = [] \/ exists s, t = [Typed s] /\ c = Some Set_fail /\ explicit_fail = true)).
  Proof.
    intros Hi E Hn. apply spec in E as [_ [_ E]]. destruct E as [(_ & _ & _ & _ & ->)|(k & l & t & -> & Ht & Ek & R1 & R2 & R3 & R4 & R5)]; [discriminate|].
    assert (k = n) as -> by congruence. rewrite (since_last_run_app _ _ _ Ht).
    destruct R5 as [(-> & Ho & Hu)|(_ & Hu & (l' & c & t' & -> & Hl & Hd & Hn' & Ht'))].
    - left. auto.
    - right. split; [assumption|]. destruct (dr_outcome d) as [o|]; [|easy]. exists l', c, t', o. auto.
  Qed.
  Theorem C58_nothing_undecided lines h d rest : interactive = true -> talk lines = (h, Result d rest) -> dr_outcome d <> Some OUndecided.
  Proof.
    intros Hi E. destruct (dr_run d) as [n|] eqn:En.
    - destruct (C58_outcome_is_the_users _ _ _ _ _ Hi E En) as [(H1 & H2 & _)|(_ & l & c & t & o & _ & _ & Hd & -> & _)]; [congruence|].
      intros [= ->]. destruct c as [[]|]; try discriminate. cbn in Hd. destruct (code_of_run n) as [[]|]; discriminate.
    - apply C58_result_of_the_last_run in E. rewrite En in E. destruct E as (_ & _ & -> & _). discriminate.
  Qed.

  (** ** The comments *)
  Theorem C58_comments lines h d rest : talk lines = (h, Result d rest) ->
    dr_comments d =
      match dr_run d with
      | Some n => appended (if asks_first then Some (as_lines (said h)) else comments_of_run n) (typed (since_last_run h))
      | None => Some (match said h with [] => skipped_text | l => as_lines l end)
      end.
  Proof.
    intros E. apply spec in E as [_ [_ E]]. cbn [append] in E.
    destruct E as [(_ & _ & _ & _ & ->)|(k & l & t & -> & Ht & Ek & R1 & R2 & R3 & R4 & R5)].
    - cbn [dr_run dr_comments]. destruct (String.eqb_spec (as_lines (said h)) "") as [He|He].
      + now rewrite (as_lines_nil _ He).
      + destruct (said h); [now destruct He|reflexivity].
    - now rewrite R1, (since_last_run_app _ _ _ Ht).
  Qed.

  (** ** Leaving *)
  Theorem C58_quit lines h e : talk lines = (h, e) -> (e = Quits <-> exists l, h = l ++ [Picked (Some Quit)]).
  Proof.
    intros E. apply spec in E as [_ E]. split.
    - intros ->. now destruct E as (_ & _ & H & _).
    - intros (l & ->). destruct e as [d rest| | |]; [|reflexivity| |destruct E].
      + exfalso. destruct E as [_ [(_ & _ & (l' & H) & _)|(k & l' & t & H & Ht & _ & _ & _ & _ & _ & R5)]].
        * apply app_inj_tail in H as [_ H]. discriminate.
        * destruct t as [|x t IHt] using rev_ind; [apply app_inj_tail in H as [_ H]; discriminate|]. clear IHt.
          rewrite app_comm_cons, app_assoc in H. apply app_inj_tail in H as [_ <-].
          destruct R5 as [(H & _)|(_ & _ & (l2 & c & t' & H & _ & Hd & Hn & Ht'))]; [now destruct t|].
          destruct Ht' as [->|(s & -> & _)].
          -- apply app_inj_tail in H as [_ [= <-]]. cbn in Hd. now rewrite <- Hd in Hn.
          -- rewrite (app_assoc l2 [Picked c] [Typed s] : l2 ++ Picked c :: [Typed s] = _) in H. apply app_inj_tail in H as [_ H]. discriminate.
      + exfalso. destruct E as (_ & _ & l' & c & H & Hc). apply app_inj_tail in H as [_ [= <-]].
        destruct Hc as [H|[H|[H _]]]; discriminate.
  Qed.

  (** The input may end where a command is expected: the job is then run, or skipped after it
      has been run.  It is an error exactly where a text is expected. *)
  Theorem C58_end_of_input lines h : talk lines = (h, Eof_error) ->
    follows None h lines [] /\ exists l c, h = l ++ [Picked (Some c)] /\ (c = Comment \/ c = Set_comments \/ c = Set_fail /\ explicit_fail = true).
  Proof. intros E. apply spec in E as [_ (H1 & _ & H2)]. now split. Qed.
  Theorem C58_no_input : exists h d, talk [] = (h, Result d []) /\ runs h = [0] /\ dr_run d = Some 0.
  Proof.
    destruct (talk []) as [h e] eqn:E. pose proof (spec _ _ _ E) as S.
    assert (N : forall c r, ~ reads (prompt label) [] (Some c) r) by (intros c r H; apply reads_shorter in H; cbn in H; lia).
    assert (N' : forall n c r, ~ reads (verdicts label has_command (code_of_run n)) [] (Some c) r) by (intros n c r H; apply reads_shorter in H; cbn in H; lia).
    assert (F : forall s h0 l0 r, follows s h0 l0 r -> l0 = [] -> r = [] /\ reruns h0 = 0 /\ forall c, ~ In (Picked (Some c)) h0).
    { induction 1 as [s l0|s n h0 l0 r H IH|s t h0 l0 r H IH|c h0 l0 l1 r Hr H IH|n h0 l0 l1 r Hr H IH|n c h0 l0 l1 r Hc Hr H IH]; intros El0; try discriminate El0; subst l0.
      - auto.
      - destruct IH as (? & ? & Hin); [reflexivity|]. split; [assumption|]. split; [assumption|]. intros c [Hx|Hx]; [discriminate|]. exact (Hin c Hx).
      - destruct c as [c|]; [destruct (N _ _ Hr)|]. assert (l1 = []) as -> by (apply reads_le in Hr; destruct l1; [easy|cbn in Hr; lia]).
        destruct IH as (? & ? & Hin); [reflexivity|]. split; [assumption|]. split; [assumption|]. intros c [Hx|Hx]; [discriminate|]. exact (Hin c Hx).
      - destruct (N' _ _ _ Hr).
      - destruct c as [c|]; [destruct (N' _ _ _ Hr)|]. assert (l1 = []) as -> by (apply reads_le in Hr; destruct l1; [easy|cbn in Hr; lia]).
        destruct IH as (? & ? & Hin); [reflexivity|]. split; [assumption|]. split; [assumption|]. intros c [Hx|Hx]; [discriminate|]. exact (Hin c Hx). }
    destruct (C58_transcript _ _ _ E) as (rest & Hf & He). destruct (F _ _ _ _ Hf eq_refl) as (-> & Hre & Hin).
    assert (Hl : forall l c, h <> l ++ [Picked (Some c)]) by (intros l c ->; apply (Hin c); apply in_app_iff; right; now left).
    destruct e as [d r| | |].
    - subst r. exists h, d. split; [reflexivity|]. apply C58_result_of_the_last_run in E. destruct (dr_run d) as [n|].
      + destruct E as (-> & -> & _). rewrite Hre. auto.
      + destruct E as (_ & _ & _ & _ & _ & l & Hx). destruct (Hl _ _ Hx).
    - destruct S as (_ & _ & _ & (l & Hx) & _). destruct (Hl _ _ Hx).
    - destruct S as (_ & _ & _ & l & c & Hx & _). destruct (Hl _ _ Hx).
    - destruct S as [_ []].
  Qed.

  (** ** Without a user *)
  Theorem C58_unattended lines : interactive = false ->
    talk lines = ([Ran 0], Result (mk_draft (outcome_of_run 0) (comments_of_run 0) (code_of_run 0) (Some 0)) lines).
  Proof. intros ->. reflexivity. Qed.
  (** Jobs that decide for themselves are not talked about *)
  Theorem C58_automatic lines : ~ In plugin ["user-interact"; "user-interact-verify"; "manual"] -> outcome_of_run 0 <> Some OUndecided ->
    talk lines = ([Ran 0], Result (mk_draft (outcome_of_run 0) (comments_of_run 0) (code_of_run 0) (Some 0)) lines).
  Proof.
    intros Hp Ho. unfold DialogModel.talk. cbn [dialogue].
    assert (Ha : asks_first = false).
    { unfold DialogModel.asks_first. destruct (existsb (String.eqb plugin) _) eqn:E; [|apply andb_false_r].
      apply existsb_exists in E as (x & Hx & He). apply String.eqb_eq in He. subst x. now destruct Hp. }
    rewrite Ha. cbn [dr_outcome]. destruct (outcome_of_run 0) as [[]|]; try (now destruct interactive); now destruct Ho.
  Qed.
End Props.
Print Assumptions C58_picking.
Print Assumptions C58_keys.
Print Assumptions C58_dialogue_ends.
Print Assumptions C58_transcript.
Print Assumptions C58_result_of_the_last_run.
Print Assumptions C58_outcome_is_the_users.
Print Assumptions C58_nothing_undecided.
Print Assumptions C58_asked_before_each_run.
Print Assumptions C58_comments.
Print Assumptions C58_quit.
Print Assumptions C58_end_of_input.
Print Assumptions C58_no_input.
Print Assumptions C58_unattended.
Print Assumptions C58_automatic.

(** ** A case *)

Definition ex_label (c : cmd) : string :=
  match c with
  | Run => "press ENTER to continue" | Comment | Set_comments => "add a comment" | Skip => "skip this job"
  | Quit => "save the session and quit" | Set_pass => "set outcome to pass" | Set_fail => "set outcome to fail"
  | Set_skip => "set outcome to skip" | Re_run => "re-run this job" | Set_suggested => "set suggested outcome"
  end.
Definition ex_talk plugin := talk ex_label true plugin true true (fun _ => Some OUndecided) (fun _ => None)
  (fun n => match n with 0 => Some 1%Z | _ => Some 0%Z end) "Explicitly skipped before execution".

(** A remark, a run, a second run, what is suggested *)
Example C58_case :
  ex_talk "user-interact-verify" ["what?"; "c"; "screen is dark"; ""; "r"; "add a comment"; "better now"; ""; "c"; "fine"; ""; "p"] =
  ([Picked (Some Comment); Typed "screen is dark"; Picked (Some Run); Ran 0; Picked (Some Re_run);
    Picked (Some Comment); Typed "better now"; Picked (Some Run); Ran 1;
    Picked (Some Set_comments); Typed "fine"; Picked (Some Set_suggested)],
   Result (mk_draft (Some OPass) (Some ("screen is dark" ++ NL ++ "better now" ++ NL ++ NL ++ "fine")%string) (Some 0%Z) (Some 1)) ["p"]).
Proof. reflexivity. Qed.
Example C58_case_keys : (forall c, 2 <= String.length (ex_label c)) /\ String.length "p" <= 1.
Proof. split; [intros []; cbn; lia|cbn; lia]. Qed.
Example C58_case_quit : ex_talk "user-interact" ["c"; "no time"; "q"] = ([Picked (Some Comment); Typed "no time"; Picked (Some Quit)], Quits).
Proof. reflexivity. Qed.
Example C58_case_skip :
  ex_talk "user-interact" ["c"; "no time"; "s"] =
  ([Picked (Some Comment); Typed "no time"; Picked (Some Skip)], Result (mk_draft (Some OSkip) (Some ("no time" ++ NL)%string) None None) []).
Proof. reflexivity. Qed.

(** ** What does not hold *)

(** A first comment is kept as typed: the comments of a run that was asked for begin as the
    empty text, so the first remark on it follows an empty line *)
Theorem C58_only_comment_is_kept_as_typed_refuted :
  ~ (forall lines h d rest t, ex_talk "manual" lines = (h, Result d rest) -> typed h = [t] -> dr_comments d = Some t).
Proof. intros H. specialize (H ["c"; "fine"; "p"] _ _ _ "fine" eq_refl eq_refl). discriminate H. Qed.
(** Comments survive another run *)
Theorem C58_comments_survive_a_rerun_refuted :
  ~ (forall lines h d rest t, ex_talk "user-verify" lines = (h, Result d rest) -> In t (typed h) ->
       exists a b, dr_comments d = Some (a ++ t ++ b)%string).
Proof.
  intros H. destruct (H ["c"; "seen"; "r"; "p"] _ _ _ "seen" eq_refl (or_introl eq_refl)) as (a & b & E). cbn in E. discriminate E.
Qed.
(** A job flagged explicit-fail fails with a comment *)
Theorem C58_explicit_fail_has_a_comment_refuted :
  ~ (forall lines h d rest, ex_talk "user-verify" lines = (h, Result d rest) -> dr_outcome d = Some OFail -> dr_comments d <> None).
Proof. intros H. apply (H ["f"; ""] _ _ _ eq_refl eq_refl). reflexivity. Qed.
(** The end of the input is always handled *)
Theorem C58_end_of_input_is_handled_refuted : ~ (forall lines h e, ex_talk "manual" lines = (h, e) -> e <> Eof_error).
Proof. intros H. now apply (H ["c"] _ _ eq_refl). Qed.
(** What the runner says about a run is kept when the user was asked first *)
Theorem C58_runner_comments_are_kept_refuted :
  ~ (forall lines h d rest n t, talk ex_label true "user-interact" true false (fun _ => Some OPass) (fun _ => Some "took long") (fun _ => Some 0%Z) "skipped" lines = (h, Result d rest) ->
       dr_run d = Some n -> t = "took long" -> exists a b, dr_comments d = Some (a ++ t ++ b)%string).
Proof. intros H. destruct (H [""] _ _ _ 0 _ eq_refl eq_refl eq_refl) as (a & b & E). cbn in E. injection E as E. now destruct a. Qed.
(** Unattended, a job may be left undecided *)
Theorem C58_unattended_is_decided_refuted :
  ~ (forall lines h d rest, talk ex_label false "manual" false false (fun _ => Some OUndecided) (fun _ => None) (fun _ => None) "skipped" lines = (h, Result d rest) ->
       dr_outcome d <> Some OUndecided).
Proof. intros H. now apply (H [] _ _ _ eq_refl). Qed.
Print Assumptions C58_only_comment_is_kept_as_typed_refuted.
Print Assumptions C58_comments_survive_a_rerun_refuted.
Print Assumptions C58_explicit_fail_has_a_comment_refuted.
Print Assumptions C58_end_of_input_is_handled_refuted.
Print Assumptions C58_runner_comments_are_kept_refuted.
Print Assumptions C58_unattended_is_decided_refuted.
