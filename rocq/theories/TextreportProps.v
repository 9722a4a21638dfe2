(** * Theorems about the text report (C110) *)
From Coq Require Import String Ascii List Bool Arith Lia.
From Verif Require Import ScanModel Rfc822Model ColorModel TextreportModel.
Import ListNotations.
Local Open Scope list_scope.

(** ** Specification: how someone reads a report *)

(** The lines of a text each of which ends with a newline *)
Fixpoint lines_from (cur t : text) : list text :=
  match t with
  | [] => []
  | c :: r => if ascii_dec c "010"%char then cur :: lines_from [] r else lines_from (cur ++ [c]) r
  end.
Definition lines (t : text) : list text := lines_from [] t.
(** What is before the first colon, and what is after it and a space *)
Fixpoint before_colon (t : text) : text :=
  match t with [] => [] | c :: r => if ascii_dec c ":"%char then [] else c :: before_colon r end.
Fixpoint after_colon (t : text) : text :=
  match t with [] => [] | c :: r => if ascii_dec c ":"%char then tl r else after_colon r end.
Fixpoint strip_left (t : text) : text :=
  match t with [] => [] | c :: r => if ascii_dec c " "%char then strip_left r else t end.
Definition strip_blanks (t : text) : text := rev (strip_left (rev (strip_left t))).
Definition read_line (t : text) : text * text := (strip_blanks (before_colon t), after_colon t).
(** Jobs that have a result *)
Definition with_result (l : list job_state) : list job_state := filter (fun s => negb (hollow s)) l.
Definition one_line (t : text) : Prop := ~ In "010"%char t.
Definition is_history (t : text) : bool :=
  if list_eq_dec ascii_dec (firstn 11 t) (list_ascii_of_string "  history: ") then true else false.

(** ** Proofs *)
Lemma lines_one a : forall cur t, one_line a -> lines_from cur (a ++ "010"%char :: t) = (cur ++ a) :: lines_from [] t.
Proof.
  induction a as [|c a IH]; intros cur t N; cbn [app lines_from].
  - destruct (ascii_dec "010" "010"); [|congruence]. now rewrite app_nil_r.
  - destruct (ascii_dec c "010") as [->|D]; [exfalso; apply N; now left|].
    rewrite IH by (intros I; apply N; now right). now rewrite <- app_assoc.
Qed.
Lemma before_app a t : ~ In ":"%char a -> before_colon (a ++ ":"%char :: t) = a.
Proof.
  induction a as [|c a IH]; intros N; cbn; [reflexivity|].
  destruct (ascii_dec c ":") as [->|D]; [exfalso; apply N; now left|]. f_equal. apply IH. intros I. apply N. now right.
Qed.
Lemma after_app a t : ~ In ":"%char a -> after_colon (a ++ ":"%char :: t) = tl t.
Proof.
  induction a as [|c a IH]; intros N; cbn; [reflexivity|].
  destruct (ascii_dec c ":") as [->|D]; [exfalso; apply N; now left|]. apply IH. intros I. apply N. now right.
Qed.
Definition absent (c : ascii) (t : text) : bool := negb (existsb (Ascii.eqb c) t).
Lemma absent_spec c t : absent c t = true -> ~ In c t.
Proof.
  unfold absent. intros H I. apply negb_true_iff in H.
  assert (existsb (Ascii.eqb c) t = true) by (apply existsb_exists; exists c; split; [exact I|apply Ascii.eqb_refl]). congruence.
Qed.
Lemma plain_line s : one_line (summary s) -> one_line (center (word (result_outcome s)) ++ L ": " ++ summary s).
Proof.
  intros N I. apply in_app_or in I as [I|I].
  - revert I. apply absent_spec. destruct (result_outcome s); reflexivity.
  - apply in_app_or in I as [I|I]; [|exact (N I)]. revert I. apply absent_spec. reflexivity.
Qed.
Lemma plain_read s : read_line (center (word (result_outcome s)) ++ L ": " ++ summary s) = (word (result_outcome s), summary s).
Proof.
  unfold read_line. change (L ": " ++ summary s) with (":"%char :: " "%char :: summary s).
  rewrite before_app, after_app; [..|apply absent_spec; destruct (result_outcome s); reflexivity|
    apply absent_spec; destruct (result_outcome s); reflexivity].
  cbn [tl]. f_equal. destruct (result_outcome s); reflexivity.
Qed.

(** ** C110 *)

(** Without colours a report read line by line gives the jobs that have a result, in the order of the run list, each with
    the word for its outcome and its summary, and nothing else *)
Theorem C110_read_back : forall l, (forall s, In s l -> one_line (summary s)) ->
  map read_line (lines (fst (dump false l))) = map (fun s => (word (result_outcome s), summary s)) (with_result l).
Proof.
  induction l as [|s l IH]; intros N; [reflexivity|]. cbn [dump with_result filter].
  specialize (IH (fun x I => N x (or_intror I))). destruct (dump false l) as [t p]. cbn [fst] in IH.
  destruct (hollow s); cbn [negb fst]; [exact IH|].
  unfold plain_entry, lines. rewrite app_assoc, app_assoc, <- app_assoc. change ([nl] ++ t) with ("010"%char :: t).
  rewrite lines_one.
  - cbn [map app]. rewrite <- app_assoc, plain_read. f_equal. exact IH.
  - rewrite <- app_assoc. apply plain_line, N. now left.
Qed.
(** The words of outcomes differ, so the report tells the outcomes *)
Theorem C110_outcomes l l' : (forall s, In s l -> one_line (summary s)) -> (forall s, In s l' -> one_line (summary s)) ->
  fst (dump false l) = fst (dump false l') ->
  map (fun s => (result_outcome s, summary s)) (with_result l) = map (fun s => (result_outcome s, summary s)) (with_result l').
Proof.
  intros N N' E. pose proof (C110_read_back l N) as A. rewrite E, (C110_read_back l' N') in A. clear E N N'.
  revert A. generalize (with_result l), (with_result l'). clear.
  induction l as [|a l IH]; intros [|b l']; cbn; try discriminate; [reflexivity|]. intros E. injection E as W S E.
  f_equal; [|now apply IH]. f_equal; [|now symmetry].
  destruct (result_outcome a), (result_outcome b); try reflexivity; vm_compute in W; discriminate.
Qed.
(** With colours there is likewise one line for each job that has a result, in order, ending in its summary; other lines are
    histories, of jobs with more than one result *)
Theorem C110_coloured : forall l, (forall s, In s l -> one_line (summary s)) ->
  map after_colon (filter (fun t => negb (is_history t)) (lines (fst (dump true l)))) = map summary (with_result l) /\
  length (filter is_history (lines (fst (dump true l)))) =
    length (filter (fun s => Nat.ltb 1 (length (history s))) (with_result l)).
Proof.
  assert (CW : forall o, one_line (custom true (word o) (color_ansi o))) by (intros o; apply absent_spec; destruct o; reflexivity).
  assert (CO : forall h, one_line (commas (map (fun o => custom true (word o) (color_ansi o)) h))).
  { induction h as [|o h IH]; [intros []|]. cbn [map commas]. destruct (map _ h) eqn:E; [apply CW|].
    intros I. apply in_app_or in I as [I|I]; [exact (CW _ I)|]. apply in_app_or in I as [I|I]; [|exact (IH I)].
    revert I. apply absent_spec. reflexivity. }
  induction l as [|s l IH]; intros N; [split; reflexivity|]. cbn [dump with_result filter].
  specialize (IH (fun x I => N x (or_intror I))). destruct (dump true l) as [t p]. cbn [fst] in IH.
  destruct (hollow s); cbn [negb fst]; [exact IH|].
  set (main := L " " ++ custom true (sigil (result_outcome s)) (color_ansi (result_outcome s)) ++ L ": " ++ summary s).
  assert (M1 : one_line main).
  { unfold main. intros I. do 2 rewrite app_assoc in I. apply in_app_or in I as [I|I].
    - revert I. apply absent_spec. destruct (result_outcome s); reflexivity.
    - exact (N s (or_introl eq_refl) I). }
  assert (M2 : is_history main = false) by (unfold main; destruct (result_outcome s); reflexivity).
  assert (M3 : after_colon main = summary s) by (unfold main; destruct (result_outcome s); reflexivity).
  assert (E : coloured_entry s ++ t = main ++ "010"%char ::
    ((if Nat.ltb 1 (length (history s))
     then (L "  history: " ++ commas (map (fun o => custom true (word o) (color_ansi o)) (history s))) ++ ["010"%char] else []) ++ t)).
  { unfold coloured_entry, main, nl. destruct (Nat.ltb 1 (length (history s))); repeat rewrite <- app_assoc; reflexivity. }
  rewrite E. unfold lines. rewrite lines_one by exact M1. cbn [app filter map]. rewrite M2. cbn [negb map]. rewrite M3.
  destruct (Nat.ltb 1 (length (history s))).
  - rewrite <- app_assoc. cbn [app]. set (hist := L "  history: " ++ _).
    assert (H1 : one_line hist).
    { unfold hist. intros I. apply in_app_or in I as [I|I]; [|exact (CO _ I)]. revert I. apply absent_spec. reflexivity. }
    assert (H2 : is_history hist = true) by reflexivity.
    rewrite lines_one by exact H1. cbn [app filter map]. rewrite H2. cbn [negb length]. destruct IH as [A B].
    split; [now f_equal|now f_equal].
  - cbn [app]. destruct IH as [A B]. split; [now f_equal|exact B].
Qed.
(** Without colours the stream never holds a history: those of the jobs that have a result and any earlier one are printed
    on standard output *)
Theorem C110_histories_elsewhere l :
  fst (dump false l) = fst (dump false (map (fun s => mk_state (summary s) (hollow s) (result_outcome s) []) l)) /\
  snd (dump false l) = filter (fun h => negb (Nat.eqb (length h) 0)) (map history (with_result l)) /\
  snd (dump true l) = [].
Proof.
  induction l as [|s l [A [B C]]]; [repeat split|]. cbn [dump map with_result filter hollow].
  destruct (dump false l) as [t p], (dump true l) as [t1 p1], (dump false (map _ l)) as [t2 p2]. cbn [fst snd] in *. subst t2 p1.
  destruct (hollow s); cbn [negb fst snd map filter]; [now repeat split|].
  split; [reflexivity|]. split; [|reflexivity]. rewrite B. unfold with_result. now destruct (history s).
Qed.
(** Refuted: that the coloured report tells the outcomes (skipped and not supported look the same), and
    that a summary of several lines leaves the report clear *)
Theorem C110_coloured_outcomes_refuted :
  exists s s', result_outcome s <> result_outcome s' /\ hollow s = false /\ hollow s' = false /\
    fst (dump true [s]) = fst (dump true [s']).
Proof.
  exists (mk_state (L "disk") false Skip []), (mk_state (L "disk") false Not_supported []).
  split; [discriminate|]. repeat split.
Qed.
Theorem C110_lines_refuted :
  exists l l', length (with_result l) <> length (with_result l') /\ fst (dump false l) = fst (dump false l').
Proof.
  exists [mk_state (L "disk" ++ ["010"%char] ++ L "  job passed   : net") false Fail []],
         [mk_state (L "disk") false Fail []; mk_state (L "net") false Pass []].
  split; [discriminate|reflexivity].
Qed.
Print Assumptions C110_read_back.
Print Assumptions C110_outcomes.
Print Assumptions C110_coloured.
Print Assumptions C110_histories_elsewhere.
Print Assumptions C110_coloured_outcomes_refuted.
Print Assumptions C110_lines_refuted.
Definition session := [mk_state (L "disk: read") false Fail [Crash; Fail]; mk_state (L "net") true None_ []; mk_state (L "cpu") false Pass [Pass]].
Example C110_case :
  (forall s, In s session -> one_line (summary s)) /\
  string_of_list_ascii (fst (dump false session)) = ("  job failed   : disk: read
  job passed   : cpu
")%string /\ snd (dump false session) = [[Crash; Fail]; [Pass]] /\
  length (lines (fst (dump true session))) = 3.
Proof.
  split; [|repeat split]. intros s I. apply absent_spec. destruct I as [<-|[<-|[<-|[]]]]; reflexivity.
Qed.
