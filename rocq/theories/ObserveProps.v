(** C68: what a resource job prints is what requirements see *)
From Coq Require Import String Ascii List Bool Arith Lia ZArith.
From Verif Require Import ScanModel Rfc822Model Rfc822Spec Rfc822Proofs Rfc822Props IniModel JsonModel IologModel IologProps
  ResourceModel ResourceSpec ResourceProps ExportModel RunnerModel ObserveModel ObserveSpec.
From Verif Require ExtcmdModel ExtcmdSpec ExtcmdProofs ExtcmdProps Utf8Model Utf8Spec Utf8Proofs Utf8Props TemplateModel TemplateProps.
Import ListNotations.
Local Open Scope nat_scope.
Local Open Scope list_scope.

(** ** The parser as a generator *)
Lemma gen_some_ok lines : forall n s rs, gen n lines s = inl rs <-> gen_some n lines s = (rs, None).
Proof.
  induction lines as [|l ls IH]; intros n s rs; cbn [gen gen_some]; [split; congruence|].
  destruct (step n l s) as [[s' y]|e]; [|split; discriminate].
  destruct (gen (S n) ls s') as [r1|e1] eqn:E.
  - apply IH in E. rewrite E. split; congruence.
  - destruct (gen_some (S n) ls s') as [r2 [e2|]] eqn:E2; [split; discriminate|]. apply IH in E2. congruence.
Qed.
Lemma gen_some_error lines : forall n s rs e, gen_some n lines s = (rs, Some e) -> gen n lines s = inr e.
Proof.
  induction lines as [|l ls IH]; intros n s rs e; cbn [gen gen_some]; [discriminate|].
  destruct (step n l s) as [[s' y]|e1]; [|congruence].
  destruct (gen_some (S n) ls s') as [r2 e2] eqn:E2. intros H. assert (e2 = Some e) by congruence. subst e2. now rewrite (IH _ _ _ _ E2).
Qed.
Lemma gen_some_meaning lines : forall n s, inv n s -> no_comments lines ->
  map r_data (fst (gen_some n lines s)) =
  match split_blank lines with
  | [] => []
  | b :: bs => match accepts s b with Some d => out d ++ good_prefix (map parse_block (filter nonempty bs)) | None => [] end
  end.
Proof.
  induction lines as [|l ls IH]; intros n s I NC.
  - cbn [gen_some split_blank]. rewrite (accepts_nil n) by exact I. unfold out, pend. simpl.
    destruct (r_data (s_rec (commit s))) eqn:E; simpl; rewrite ?E; reflexivity.
  - assert (Hc : comment l = false) by (apply NC; left; auto).
    assert (NC' : no_comments ls) by (intros x Hx; apply NC; right; auto).
    cbn [gen_some split_blank]. destruct (blank l) eqn:Hb.
    + rewrite step_cases, Hc, Hb by exact I.
      specialize (IH (S n) new_state (inv_new _) NC').
      assert (E : map r_data (fst (gen_some (S n) ls new_state)) = good_prefix (map parse_block (filter nonempty (split_blank ls)))).
      { rewrite IH. destruct (split_blank ls) as [|b bs] eqn:Es; [reflexivity|].
        rewrite accepts_new. cbn [filter]. destruct b as [|x b]; [reflexivity|].
        cbn [nonempty map good_prefix]. pose proof (parse_block_out (x :: b)) as P.
        destruct (parse_block (x :: b)) as [d|]; [|reflexivity]. unfold out. now rewrite P by discriminate. }
      rewrite (accepts_nil n) by exact I. rewrite <- E.
      destruct (gen_some (S n) ls new_state) as [rs e]. cbn [fst]. unfold out. destruct (nonempty (pend s)); reflexivity.
    + destruct (split_blank ls) as [|b bs] eqn:Es; [destruct (split_blank_ne ls Es)|].
      rewrite (accepts_cons n l b s I Hc Hb).
      destruct (step n l s) as [[s' y]|e] eqn:St; [|reflexivity].
      assert (y = None).
      { rewrite step_cases, Hc, Hb in St by exact I. destruct (continues l).
        - destruct (s_key s); congruence.
        - destruct (split_colon l) as [[? ?]|]; [|discriminate]. destruct in_dec; congruence. }
      subst y. specialize (IH (S n) s' (step_inv _ _ _ _ _ I St) NC'). destruct (gen_some (S n) ls s') as [rs e]. cbn [fst] in *. exact IH.
Qed.
Lemma gen_some_comments lines : forall n m s t, inv n s -> inv m t -> sim s t ->
  map r_data (fst (gen_some n lines s)) = map r_data (fst (gen_some m (filter (fun l => negb (comment l)) lines) t)).
Proof.
  induction lines as [|l ls IH]; intros n m s t I J SM.
  - simpl. pose proof (sim_data _ _ (sim_commit _ _ SM)) as E. rewrite E.
    destruct (r_data (s_rec (commit t))) eqn:E'; simpl; congruence.
  - cbn [filter]. destruct (comment l) eqn:Hc; cbn [negb].
    + cbn [gen_some]. rewrite step_cases, Hc by exact I. rewrite <- (IH (S n) m s t); auto; [|apply inv_S, I].
      destruct (gen_some (S n) ls s); reflexivity.
    + cbn [gen_some]. pose proof (step_sim n m l s t I J SM) as SO.
      destruct (step n l s) as [[s' y]|e] eqn:E1, (step m l t) as [[t' z]|e'] eqn:E2; simpl in SO; try contradiction; auto.
      destruct SO as [S' Ey].
      pose proof (IH (S n) (S m) s' t' (step_inv _ _ _ _ _ I E1) (step_inv _ _ _ _ _ J E2) S') as IHs.
      destruct (gen_some (S n) ls s'), (gen_some (S m) (filter (fun l => negb (comment l)) ls) t'); cbn [fst] in *.
      destruct y, z; simpl in *; try discriminate Ey; congruence.
Qed.
Lemma generator lines : exists rs e, gen_some 1 lines new_state = (rs, e) /\ map r_data rs = believed lines /\ (e = None \/ exists k p, e = Some (Rfc822Model.SyntaxErr k p)).
Proof.
  destruct (gen_some 1 lines new_state) as [rs e] eqn:E. exists rs, e. split; [reflexivity|]. split.
  - pose proof (gen_some_comments lines 1 1 new_state new_state (inv_new _) (inv_new _)) as C. rewrite E in C. cbn [fst] in C. rewrite C by (constructor; auto).
    rewrite gen_some_meaning; [|apply inv_new|intros l H; apply filter_In in H as [_ H]; now apply negb_true_iff in H].
    unfold believed, blocks. destruct (split_blank _) as [|b bs] eqn:Es; [destruct (split_blank_ne _ Es)|].
    rewrite accepts_new. destruct b as [|x b]; [reflexivity|]. cbn [filter nonempty map good_prefix]. pose proof (parse_block_out (x :: b)) as P.
    destruct (parse_block (x :: b)); [|reflexivity]. unfold out. now rewrite P by discriminate.
  - destruct e as [e|]; [|now left]. right. apply gen_some_error in E. apply gen_error in E as (i & p & -> & _); [|apply inv_new]. now exists (1 + i), p.
Qed.

(** ** What is stored *)

(** The records up to the first bad one, and never an exception; one empty record if
    there is none *)
Theorem C68_stored decode id log m : exists l, store decode false id log m = Some (tset id l m) /\
  l <> [] /\ (believed (line_gen decode log) = [] -> l = [[]]) /\ (believed (line_gen decode log) <> [] -> l = believed (line_gen decode log)).
Proof.
  unfold store, parsed. destruct (generator (line_gen decode log)) as (rs & e & -> & B & E).
  exists (match believed (line_gen decode log) with [] => [[]] | x => x end).
  split; [destruct E as [->|(k & p & ->)]; rewrite B; now destruct (believed _)|]. destruct (believed (line_gen decode log)); repeat split; congruence.
Qed.
Print Assumptions C68_stored.

(** Only the standard output matters: not what is on the other stream, not when *)
Theorem C68_standard_output_only decode none id log log' m :
  map io_data (filter is_stdout log) = map io_data (filter is_stdout log') -> store decode none id log m = store decode none id log' m.
Proof. intros E. unfold store, parsed, line_gen. now rewrite E. Qed.
Print Assumptions C68_standard_output_only.

(** A log that was written to disk and read again gives the same *)
Theorem C68_after_reading decode none id log m : Forall storable log ->
  store decode none id (fst (read_log (write_log log))) m = store decode none id log m.
Proof. intros S. now rewrite C25_round_trip. Qed.
Print Assumptions C68_after_reading.

(** Other jobs do not change resources, nor do those that did not run; the last run counts *)
Theorem C68_not_run decode plugin none id log m : plugin <> T "resource" \/ none = true -> observe decode plugin none id log m = Some m.
Proof.
  intros H. unfold observe, store. destruct (text_eqb plugin (T "resource")) eqn:E; [|reflexivity]. apply text_eqb_eq in E. destruct H as [H| ->]; [congruence|reflexivity].
Qed.
Print Assumptions C68_not_run.
Lemma tset_twice {A} k (v w : A) d : tset k w (tset k v d) = tset k w d.
Proof.
  induction d as [|[k' x] d IH]; cbn [tset]; [now rewrite text_eqb_refl|]. destruct (text_eqb k k') eqn:E; cbn [tset]; rewrite E; congruence.
Qed.
Theorem C68_last_run_counts decode id log log' m m1 m2 :
  observe decode (T "resource") false id log m = Some m1 -> observe decode (T "resource") false id log' m1 = Some m2 ->
  observe decode (T "resource") false id log' m = Some m2 /\ forall id', id' <> id -> tget id' m2 = tget id' m.
Proof.
  unfold observe. rewrite text_eqb_refl. intros A B. destruct (C68_stored decode id log m) as (l & E & _). destruct (C68_stored decode id log' m1) as (l' & E' & F).
  assert (m1 = tset id l m) by congruence. assert (m2 = tset id l' m1) by congruence. subst m1 m2. rewrite tset_twice.
  assert (G : store decode false id log' m = Some (tset id l' m)).
  { revert E'. unfold store. destruct (parsed decode log') as [k|]; [|discriminate]. intros H. rewrite tset_twice in H. assert (K : tset id (match k with [] => [[]] | _ => k end) (tset id l m) = tset id l' (tset id l m)) by (rewrite tset_twice; congruence).
    rewrite !tset_twice in K. congruence. }
  split; [exact G|]. intros id' N. clear -N. induction m as [|[k x] m IH]; cbn [tset tget].
  - destruct (text_eqb id' id) eqn:E; [apply text_eqb_eq in E; congruence|reflexivity].
  - destruct (text_eqb id k) eqn:E; cbn [tget].
    + apply text_eqb_eq in E. subst k. destruct (text_eqb id' id) eqn:F; [apply text_eqb_eq in F; congruence|reflexivity].
    + now rewrite IH.
Qed.
Print Assumptions C68_last_run_counts.

(** ** What was printed *)
Lemma split_blank_app l1 b l2 : blank b = true -> split_blank (l1 ++ b :: l2) = split_blank l1 ++ split_blank l2.
Proof.
  intros B. induction l1 as [|l l1 IH]; cbn [app split_blank]; [now rewrite B|]. destruct (blank l); [now rewrite IH|].
  rewrite IH. destruct (split_blank l1) eqn:E; [destruct (split_blank_ne _ E)|reflexivity].
Qed.
Lemma good_prefix_app {A} (l1 l2 : list (option A)) xs : Rfc822Spec.sequence l1 = Some xs -> good_prefix (l1 ++ l2) = xs ++ good_prefix l2.
Proof.
  revert xs. induction l1 as [|[x|] l1 IH]; intros xs; cbn; [intros [= <-]; reflexivity| |discriminate].
  destruct (Rfc822Spec.sequence l1) as [ys|]; [|discriminate]. intros [= <-]. cbn. now rewrite (IH ys).
Qed.
Lemma believed_app l1 b l2 ds : blank b = true -> meaning l1 = Some ds -> believed (l1 ++ b :: l2) = ds ++ believed l2.
Proof.
  intros B M. unfold believed. rewrite filter_app. cbn [filter]. rewrite (blank_not_comment b B). cbn [negb]. unfold blocks. rewrite split_blank_app by exact B.
  rewrite filter_app, map_app. now apply good_prefix_app.
Qed.
(** A text that is well formed is believed as a whole *)
Theorem C68_well_formed lines ds : meaning lines = Some ds -> believed lines = ds.
Proof. intros M. unfold believed. rewrite <- (app_nil_r (map _ _)). rewrite (good_prefix_app _ [] ds M). apply app_nil_r. Qed.
Print Assumptions C68_well_formed.
(** Records that are printed as they should be are believed, whatever comes after them *)
Theorem C68_printed_records ds rest : Forall good_record ds ->
  believed (stream_lines (concat (map (fun d => dump (as_values d)) ds) ++ rest)) = ds ++ believed (stream_lines rest).
Proof.
  intros G. induction G as [|d ds G _ IH]; [reflexivity|]. cbn [map concat]. rewrite <- app_assoc.
  pose proof (good_record_parts d G) as (D & ND & GK & O & R). rewrite Rfc822Dump.dump_stream by exact GK.
  pose proof (C21_round_trip d G) as (r & L & E). unfold load_stream in L. rewrite dump_stream_end in L by exact GK.
  assert (M : meaning (Rfc822Dump.dump_lines d) = Some [d]).
  { rewrite load_concat in L by reflexivity. destruct (load (Rfc822Dump.dump_lines d)) as [rs|] eqn:K; [|discriminate L]. pose proof (load_meaning (Rfc822Dump.dump_lines d)) as M. rewrite K in M. cbn [fields_of] in M. rewrite <- M.
    cbn in L. injection L as L. rewrite app_nil_r in L. subst rs. cbn [map]. now rewrite E. }
  rewrite (believed_app _ [NL] _ [d] eq_refl M), IH. reflexivity.
Qed.
Print Assumptions C68_printed_records.

Lemma lines_of_stream t l : ExtcmdSpec.lines_of t l -> l = stream_lines t.
Proof.
  intros L. induction L as [|l N D|l t ls D L IH]; [reflexivity| |].
  - rewrite <- (app_nil_r l) at 2. symmetry. unfold stream_lines.
    assert (G : forall a r, ~ In ScanModel.NL r -> a ++ r <> [] -> stream_lines_aux (rev a) (r ++ []) = [a ++ r]).
    { intros a r. revert a. induction r as [|c r IH]; intros a I E; cbn.
      - rewrite app_nil_r in *. destruct (rev a) eqn:X; [apply (f_equal (@rev _)) in X; rewrite rev_involutive in X; now destruct E|]. rewrite <- X, rev_involutive. reflexivity.
      - destruct (Ascii.eqb c NL) eqn:X; [apply Ascii.eqb_eq in X; subst; destruct I; now left|]. rewrite <- (rev_unit a c).
        rewrite (IH (a ++ [c])); [now rewrite <- app_assoc|intros K; apply I; now right|]. rewrite <- app_assoc. cbn. now destruct a. }
    exact (G [] l D N).
  - rewrite IH. symmetry. exact (stream_lines_cons l t D).
Qed.
Lemma on_lines_stdout delay l : map io_data (filter is_stdout (on_lines delay l)) = ExtcmdSpec.data_of ExtcmdModel.Out l.
Proof.
  induction l as [|e l IH]; [reflexivity|]. destruct e as [|x d| |c|c]; cbn [on_lines]; try exact IH. cbn [filter]. unfold ExtcmdSpec.data_of in *. cbn [flat_map]. destruct x.
  - change (is_stdout _) with true. cbn [map io_data]. rewrite IH. reflexivity.
  - change (is_stdout _) with false. cbn [ExtcmdModel.stream_eqb app]. exact IH.
Qed.
Lemma stream_lines_in t l c : In l (stream_lines t) -> In c l -> In c t.
Proof.
  unfold stream_lines. assert (G : forall t acc, In l (stream_lines_aux acc t) -> In c l -> In c acc \/ In c t).
  { clear t. induction t as [|x t IH]; intros acc; cbn.
    - destruct acc; [intros []|]. intros [<-|[]] I. left. now apply in_rev.
    - destruct (Ascii.eqb x NL).
      + intros [<-|I] J; [|destruct (IH [] I J) as [[]|K]; auto]. change (rev acc ++ [x]) with (rev acc ++ [x]) in J. apply in_app_or in J as [J|[J|[]]]; [left; now apply in_rev|auto].
      + intros I J. destruct (IH (x :: acc) I J) as [[K|K]|K]; auto. }
  intros I J. destruct (G t [] I J) as [[]|K]. exact K.
Qed.

Section Run.
  Variable decode : bytes -> text.
  Hypothesis DECODE : utf8_like decode.
  (** Whatever the threads and the processes do, and when: when the command has ended,
      the records that it printed are the resource *)
  Theorem C68_run fails s rc delay id m : ExtcmdProps.never_fails fails -> ExtcmdModel.reachable false fails s -> ExtcmdModel.s_main s = ExtcmdModel.Returned rc ->
    ascii_text (ExtcmdModel.s_written s ExtcmdModel.Out) ->
    exists l, observe decode (T "resource") false id (log_of false delay (ExtcmdModel.s_events s)) m = Some (tset id l m) /\ l <> [] /\
      forall d, In d l <-> (In d (believed (stream_lines (ExtcmdModel.s_written s ExtcmdModel.Out))) \/ (d = [] /\ believed (stream_lines (ExtcmdModel.s_written s ExtcmdModel.Out)) = [])).
  Proof.
    intros NF R M A. destruct (ExtcmdProps.C26_everything_is_delivered false fails s rc NF R M) as (_ & mid & EV & _ & X). destruct (X ExtcmdModel.Out) as (_ & C). cbn [ExtcmdSpec.cut] in C. apply lines_of_stream in C.
    assert (L : line_gen decode (log_of false delay (ExtcmdModel.s_events s)) = stream_lines (ExtcmdModel.s_written s ExtcmdModel.Out)).
    { unfold line_gen, log_of. rewrite on_lines_stdout, EV. unfold ExtcmdSpec.data_of in *. cbn [flat_map app]. rewrite flat_map_app.
      replace (flat_map _ [ExtcmdSpec.final_event rc]) with (@nil ExtcmdModel.bytes); [|unfold ExtcmdSpec.final_event; destruct (rc <? 0)%Z; reflexivity].
      rewrite app_nil_r, C. rewrite <- (map_id (stream_lines _)) at 2. apply map_ext_in. intros l I. apply DECODE. intros c J. apply A. exact (stream_lines_in _ _ _ I J). }
    destruct (C68_stored decode id (log_of false delay (ExtcmdModel.s_events s)) m) as (l & E & N & B1 & B2). rewrite L in B1, B2.
    exists l. unfold observe. rewrite text_eqb_refl. split; [exact E|]. split; [exact N|]. intros d.
    destruct (believed (stream_lines (ExtcmdModel.s_written s ExtcmdModel.Out))) as [|x y]; [rewrite B1 by reflexivity; cbn; intuition|rewrite B2 by discriminate; cbn; intuition discriminate].
  Qed.
End Run.
Print Assumptions C68_run.

(** ** Requirements *)
Definition resource_name (ns : option string) (r : string) : string := match ns with None => r | Some n => n ++ "::" ++ r end.
Section Requirements.
  Variable own : string -> option pyvalue.
  Variable other : string -> pyvalue -> pyvalue -> option pyvalue.
  Variable function : string -> list pyvalue -> option pyvalue.
  Hypothesis OWN : pythonic own.
  Notation met := (met own other function).
  Lemma lookup_map m id : lookup pyvalue (as_rmap m) id = option_map (map Res) (tget (T id) m).
  Proof.
    induction m as [|[k l] m IH]; [reflexivity|]. cbn [as_rmap map lookup fst snd tget]. fold (as_rmap m). rewrite IH.
    destruct (text_eqb (T id) k) eqn:E.
    - apply text_eqb_eq in E. subst k. unfold T. rewrite string_of_list_ascii_of_string, String.eqb_refl. reflexivity.
    - destruct (String.eqb (string_of_list_ascii k) id) eqn:F; [|reflexivity]. apply String.eqb_eq in F. subst id. unfold T in E. rewrite list_ascii_of_string_of_list_ascii in E. now rewrite text_eqb_refl in E.
  Qed.
  Lemma T_inj a b : T a = T b -> a = b.
  Proof. intros H. apply (f_equal string_of_list_ascii) in H. unfold T in H. now rewrite !string_of_list_ascii_of_string in H. Qed.
  Lemma field_value d a : ordinary a -> attribute own (Res d) a = option_map Text (tget (T a) d).
  Proof. intros O. cbn [attribute]. destruct (String.eqb a "_data") eqn:E; [reflexivity|]. apply String.eqb_neq in E. now rewrite (OWN a O E). Qed.
  (** One expression about one resource *)
  Lemma one_resource ns r body es m l : ns <> Some ""%string -> contains "::" r = false ->
    make_program ns [] [Source [Node Expr [body]] false] = inl es -> analyze (Source [Node Expr [body]] false) = inl [r] ->
    tget (T (resource_name ns r)) m = Some l ->
    (met m es = Holds <-> exists d v, In d l /\ eval pyvalue truth constant (attribute own) (compare other) sequence function (fun _ => None) [(r, Res d)] body = Some v /\ truth v = true).
  Proof.
    intros NS C MP AN G. cbn [make_program] in MP. unfold make_expression in MP. rewrite AN in MP. cbn [map imported] in MP.
    assert (Q : qualified ns r = resource_name ns r).
    { unfold qualified, resource_name. destruct ns as [n|]; [|reflexivity]. rewrite C. destruct (String.eqb n "") eqn:E; [apply String.eqb_eq in E; congruence|reflexivity]. }
    rewrite Q in MP. injection MP as <-. unfold met. rewrite C24_holds by (repeat constructor). split.
    - intros F. inversion_clear F as [|? ? S _]. destruct S as (rs & b & v & F2 & B & EV & TR). cbn in B. injection B as <-. cbn [e_ids] in F2.
      destruct rs as [|x rs]; [inversion F2|]. assert (F4 : (exists l, lookup pyvalue (as_rmap m) (resource_name ns r) = Some l /\ In x l) /\ rs = []) by (inversion F2 as [|? ? ? ? X F3]; subst; split; [exact X|now inversion F3]). clear F2. destruct F4 as [(l' & L & I) ->]. rewrite lookup_map, G in L. cbn in L. injection L as <-. apply in_map_iff in I as (d & <- & I).
      exists d, v. split; [exact I|]. split; [exact EV|exact TR].
    - intros (d & v & I & EV & TR). constructor; [|constructor]. exists [Res d], body, v. split; [|split; [reflexivity|split; [exact EV|exact TR]]].
      constructor; [|constructor]. exists (map Res l). split; [now rewrite lookup_map, G|now apply in_map].
  Qed.
  Theorem C68_equals ns r a v es m l : ns <> Some ""%string -> contains "::" r = false -> ordinary a ->
    make_program ns [] [equals r a v] = inl es -> tget (T (resource_name ns r)) m = Some l ->
    (met m es = Holds <-> exists d, In d l /\ tget (T a) d = Some (T v)).
  Proof.
    intros NS C O MP G. unfold equals in *. rewrite (one_resource ns r _ es m l NS C MP eq_refl G).
    assert (E : forall d, eval pyvalue truth constant (attribute own) (compare other) sequence function (fun _ => None) [(r, Res d)] (Node Compare [field_of r a; Node (Cmpop "Eq") []; Node (Str v) []])
      = match tget (T a) d with Some x => Some (Truth (text_eqb x (T v))) | None => None end).
    { intros d. cbn -[attribute compare tget T text_eqb truth]. rewrite String.eqb_refl, field_value by exact O. destruct (tget (T a) d) as [x|]; [|reflexivity]. cbn [option_map].
      change (compare other "Eq" (Text x) (Text (T v))) with (Some (Truth (text_eqb x (T v)))). cbn [truth]. destruct (text_eqb x (T v)); reflexivity. }
    split.
    - intros (d & w & I & EV & TR). exists d. split; [exact I|]. rewrite E in EV. destruct (tget (T a) d) as [x|]; [|discriminate]. injection EV as <-. cbn in TR. apply text_eqb_eq in TR. now subst.
    - intros (d & I & X). exists d, (Truth true). split; [exact I|]. rewrite E, X, text_eqb_refl. split; reflexivity.
  Qed.
  Theorem C68_differs ns r a v es m l : ns <> Some ""%string -> contains "::" r = false -> ordinary a ->
    make_program ns [] [differs r a v] = inl es -> tget (T (resource_name ns r)) m = Some l ->
    (met m es = Holds <-> exists d x, In d l /\ tget (T a) d = Some x /\ x <> T v).
  Proof.
    intros NS C O MP G. unfold differs in *. rewrite (one_resource ns r _ es m l NS C MP eq_refl G).
    assert (E : forall d, eval pyvalue truth constant (attribute own) (compare other) sequence function (fun _ => None) [(r, Res d)] (Node Compare [field_of r a; Node (Cmpop "NotEq") []; Node (Str v) []])
      = match tget (T a) d with Some x => Some (Truth (negb (text_eqb x (T v)))) | None => None end).
    { intros d. cbn -[attribute compare tget T text_eqb truth]. rewrite String.eqb_refl, field_value by exact O. destruct (tget (T a) d) as [x|]; [|reflexivity]. cbn [option_map].
      change (compare other "NotEq" (Text x) (Text (T v))) with (Some (Truth (negb (text_eqb x (T v))))). cbn [truth]. destruct (negb (text_eqb x (T v))); reflexivity. }
    split.
    - intros (d & w & I & EV & TR). rewrite E in EV. destruct (tget (T a) d) as [x|] eqn:X; [|discriminate]. injection EV as <-. cbn in TR. exists d, x. split; [exact I|]. split; [exact X|]. intros ->. now rewrite text_eqb_refl in TR.
    - intros (d & x & I & X & N). exists d, (Truth true). split; [exact I|]. rewrite E, X. destruct (text_eqb x (T v)) eqn:K; [apply text_eqb_eq in K; congruence|]. split; reflexivity.
  Qed.
  Theorem C68_one_of ns r a vs es m l : ns <> Some ""%string -> contains "::" r = false -> ordinary a ->
    make_program ns [] [one_of r a vs] = inl es -> tget (T (resource_name ns r)) m = Some l ->
    (met m es = Holds <-> exists d v, In d l /\ In v vs /\ tget (T a) d = Some (T v)).
  Proof.
    intros NS C O MP G. unfold one_of in *.
    assert (AN : analyze (one_of r a vs) = inl [r]).
    { unfold analyze, one_of. assert (V : visit (Node Tuple (map (fun v => Node (Str v) []) vs ++ [Node Load []])) [r] = inl [r]).
      { cbn [visit allowed]. clear. induction vs as [|v vs IH]; [reflexivity|]. exact IH. }
      cbn -[visit]. change (visit (Node Module [Node Expr [Node Compare [field_of r a; Node (Cmpop "In") []; Node Tuple (map (fun v => Node (Str v) []) vs ++ [Node Load []])]]]) []) with
        (match (match (match visit (Node Tuple (map (fun v => Node (Str v) []) vs ++ [Node Load []])) [r] with inl s => inl s | inr p => inr p end) with inl s => inl s | inr p => inr p end) with inl s => inl s | inr p => inr p end : list string + problem).
      rewrite V. reflexivity. }
    rewrite (one_resource ns r _ es m l NS C MP AN G).
    set (items := map (fun v => Text (T v)) vs).
    assert (S : eval pyvalue truth constant (attribute own) (compare other) sequence function (fun _ => None) [(r, Res [])] (Node Tuple (map (fun v => Node (Str v) []) vs ++ [Node Load []])) = Some (Items items) /\
      forall d, eval pyvalue truth constant (attribute own) (compare other) sequence function (fun _ => None) [(r, Res d)] (Node Tuple (map (fun v => Node (Str v) []) vs ++ [Node Load []])) = Some (Items items)).
    { assert (H : forall d, eval pyvalue truth constant (attribute own) (compare other) sequence function (fun _ => None) [(r, Res d)] (Node Tuple (map (fun v => Node (Str v) []) vs ++ [Node Load []])) = Some (Items items)); [|split; auto].
      intros d. cbn [eval].
      match goal with |- match ?go _ with _ => _ end = _ => assert (K : go (map (fun v => Node (Str v) []) vs ++ [Node Load []]) = Some (items ++ [Context])) end.
      { unfold items. clear. induction vs as [|v vs IH]; [reflexivity|]. cbn [map app]. cbn [eval constant]. cbn in IH. rewrite IH. reflexivity. }
      rewrite K. unfold sequence. rewrite filter_app. cbn [filter]. rewrite app_nil_r. f_equal. f_equal. unfold items. clear. induction vs as [|v vs IH]; [reflexivity|]. cbn [map filter]. now rewrite IH. }
    destruct S as [_ S].
    assert (SI : forallb simple items = true) by (unfold items; clear; induction vs; auto).
    assert (E : forall d, eval pyvalue truth constant (attribute own) (compare other) sequence function (fun _ => None) [(r, Res d)] (Node Compare [field_of r a; Node (Cmpop "In") []; Node Tuple (map (fun v => Node (Str v) []) vs ++ [Node Load []])])
      = match tget (T a) d with Some x => Some (Truth (existsb (same (Text x)) items)) | None => None end).
    { intros d. specialize (S d). revert S. generalize (Node Tuple (map (fun v => Node (Str v) []) vs ++ [Node Load []])) as tp. intros tp S.
      cbn -[attribute compare truth tget]. rewrite String.eqb_refl.
      rewrite field_value by exact O. destruct (tget (T a) d) as [x|]; [|reflexivity]. cbn [option_map]. rewrite S. unfold compare. cbn [String.eqb Ascii.eqb Bool.eqb andb simple]. rewrite SI. cbn. destruct (existsb _ items); reflexivity. }
    assert (IN : forall x, existsb (same (Text x)) items = true <-> exists v, In v vs /\ x = T v).
    { intros x. rewrite existsb_exists. unfold items. split.
      - intros (y & I & B). apply in_map_iff in I as (v & <- & I). cbn in B. apply text_eqb_eq in B. now exists v.
      - intros (v & I & ->). exists (Text (T v)). split; [apply in_map_iff; now exists v|]. cbn. apply text_eqb_refl. }
    split.
    - intros (d & w & I & EV & TR). rewrite E in EV. destruct (tget (T a) d) as [x|] eqn:X; [|discriminate]. injection EV as <-. cbn in TR. apply IN in TR as (v & J & ->). exists d, v. auto.
    - intros (d & v & I & J & X). exists d, (Truth true). split; [exact I|]. rewrite E, X. rewrite (proj2 (IN (T v))) by now exists v. split; reflexivity.
  Qed.
  (** When a resource job has run, no requirement on it is undecidable *)
  Theorem C68_never_undecidable decode id log m m' es e x : observe decode (T "resource") false (T id) log m = Some m' ->
    met m' es = Cannot e x -> x <> id.
  Proof.
    intros OB CA ->. unfold observe in OB. rewrite text_eqb_refl in OB. destruct (C68_stored decode (T id) log m) as (l & ST & _). assert (m' = tset (T id) l m) by congruence. subst m'.
    unfold met in CA. apply C24_cannot in CA as (es1 & es2 & l1 & l2 & _ & _ & _ & L & _). rewrite lookup_map in L.
    assert (G : tget (T id) (tset (T id) l m) = Some l).
    { clear. induction m as [|[k v] m IH]; cbn [tset tget]; [now rewrite text_eqb_refl|]. destruct (text_eqb (T id) k) eqn:E; cbn [tget]; rewrite E; auto. }
    rewrite G in L. discriminate.
  Qed.
End Requirements.
Print Assumptions C68_equals.
Print Assumptions C68_differs.
Print Assumptions C68_one_of.
Print Assumptions C68_never_undecidable.

(** ** From the command to the requirement *)
Section Whole.
  Variable decode : bytes -> text.
  Hypothesis DECODE : utf8_like decode.
  Variable own : string -> option pyvalue.
  Variable other : string -> pyvalue -> pyvalue -> option pyvalue.
  Variable function : string -> list pyvalue -> option pyvalue.
  Hypothesis OWN : pythonic own.
  (** Whatever the schedule: [r.a == 'v'] is met when, and only when, the command printed
      a record that says so *)
  Theorem C68_requirement fails s rc delay m ns r a v es : ExtcmdProps.never_fails fails -> ExtcmdModel.reachable false fails s -> ExtcmdModel.s_main s = ExtcmdModel.Returned rc ->
    ascii_text (ExtcmdModel.s_written s ExtcmdModel.Out) ->
    ns <> Some ""%string -> contains "::" r = false -> ordinary a -> make_program ns [] [equals r a v] = inl es ->
    exists m', observe decode (T "resource") false (T (resource_name ns r)) (log_of false delay (ExtcmdModel.s_events s)) m = Some m' /\
      (met own other function m' es = Holds <-> exists d, In d (believed (stream_lines (ExtcmdModel.s_written s ExtcmdModel.Out))) /\ tget (T a) d = Some (T v)).
  Proof.
    intros NF R M A NS C O MP. destruct (C68_run decode DECODE fails s rc delay (T (resource_name ns r)) m NF R M A) as (l & OB & _ & B).
    eexists. split; [exact OB|].
    assert (G : tget (T (resource_name ns r)) (tset (T (resource_name ns r)) l m) = Some l).
    { clear. induction m as [|[k w] m IH]; cbn [tset tget]; [now rewrite text_eqb_refl|]. destruct (text_eqb (T (resource_name ns r)) k) eqn:E; cbn [tget]; rewrite E; auto. }
    rewrite (C68_equals own other function OWN ns r a v es _ l NS C O MP G). split; intros (d & I & X); exists d; (split; [|exact X]).
    - apply B in I as [I|[-> _]]; [exact I|discriminate X].
    - apply B. now left.
  Qed.
End Whole.
Print Assumptions C68_requirement.

(** The decoder of python is such a decoder *)
Definition utf8_line (newer : bool) (s : bytes) : text :=
  match Utf8Model.decode newer false true s with (Some t, _) => map Ascii.ascii_of_N t | (None, _) => [] end.
Theorem C68_utf8 newer : utf8_like (utf8_line newer).
Proof.
  intros t A. unfold utf8_line, Utf8Model.decode.
  assert (E : forall hold n, length t <= n -> Utf8Model.decode_loop false hold n t = (Some (map Ascii.N_of_ascii t), [])).
  { intros hold. induction t as [|c t IH]; intros n L; [destruct n; reflexivity|]. destruct n as [|n]; [cbn in L; lia|]. cbn [Utf8Model.decode_loop].
    assert (H : Utf8Model.next (c :: t) = Utf8Model.HChar (Ascii.N_of_ascii c) 1).
    { unfold Utf8Model.next. assert (X : (Ascii.N_of_ascii c <? 128)%N = true); [|cbv zeta; now rewrite X].
      apply N.ltb_lt. pose proof (A c (or_introl eq_refl)) as B. unfold nat_of_ascii in B. lia. }
    rewrite H. cbn [skipn]. rewrite IH; [reflexivity|intros x I; apply A; now right|cbn in L; lia]. }
  rewrite E by lia. rewrite map_map. rewrite <- (map_id t) at 2. apply map_ext. intros c. apply ascii_N_embedding.
Qed.
Print Assumptions C68_utf8.

(** ** What is lost *)
Definition text_lines (l : list string) : list text := map (fun s => T s ++ [NL]) l.
Definition printed (l : list string) : list ExtcmdModel.event := ExtcmdModel.Begin :: map (fun t => ExtcmdModel.Data ExtcmdModel.Out t) (text_lines l) ++ [ExtcmdModel.Ended 0].
Definition seconds (n : nat) : json := JNull.
(** Records after a line that is not one *)
Theorem C68_all_records_refuted : exists lines d l,
  In (Some d) (map parse_block (blocks (filter (fun l => negb (comment l)) (text_lines lines)))) /\ d <> [] /\
  observe (utf8_line true) (T "resource") false (T "cpu") (log_of false seconds (printed lines)) [] = Some [(T "cpu", l)] /\ ~ In d l.
Proof.
  exists ["name: a"; ""; "warning"; ""; "name: b"]%string, [(T "name", T "b")], [[(T "name", T "a")]].
  split; [vm_compute; auto|]. split; [discriminate|]. split; [vm_compute; reflexivity|]. intros [H|[]]. discriminate H.
Qed.
Print Assumptions C68_all_records_refuted.
(** Everything, when the job has the flag use-chunked-io *)
Theorem C68_chunked_refuted decode delay events id m : observe decode (T "resource") false id (log_of true delay events) m = Some (tset id [[]] m).
Proof. reflexivity. Qed.
Print Assumptions C68_chunked_refuted.
(** When nothing is printed there is one resource without fields, and a template without
    a filter makes a unit from it *)
Theorem C68_nothing_printed_refuted : exists l u,
  observe (utf8_line true) (T "resource") false (T "ns::cpu") (log_of false seconds (printed [])) [] = Some [(T "ns::cpu", l)] /\
  TemplateModel.resource_id (fun s => s) TemplateProps.ex_imports (TemplateProps.ex_template "" "" "true") = inr (Some "ns::cpu"%string) /\
  TemplateProps.ex_all (TemplateProps.ex_template "" "" "true") (map (map (fun kv => (string_of_list_ascii (fst kv), string_of_list_ascii (snd kv)))) l) = inr [u].
Proof. exists [[]]. eexists. split; [vm_compute; reflexivity|]. split; [vm_compute; reflexivity|vm_compute; reflexivity]. Qed.
Print Assumptions C68_nothing_printed_refuted.

(** ** A case *)
Definition own_none : string -> option pyvalue := fun _ => None.
Example C68_case : exists m es es', observe (utf8_line true) (T "resource") false (T "ns::cpu")
    (log_of false seconds (printed ["name: a"; "arch: x86"; "# a comment"; ""; ""; "name: b"; "flags:"; " f"; " g"])) [] = Some m /\
  m = [(T "ns::cpu", [[(T "name", T "a"); (T "arch", T "x86")]; [(T "name", T "b"); (T "flags", T "f" ++ [NL] ++ T "g")]])] /\
  pythonic own_none /\ ordinary "name" /\ make_program (Some "ns"%string) [] [equals "cpu" "name" "b"] = inl es /\
  met own_none (fun _ _ _ => None) (fun _ _ => None) m es = Holds /\
  make_program (Some "ns"%string) [] [equals "cpu" "name" "c"] = inl es' /\ met own_none (fun _ _ _ => None) (fun _ _ => None) m es' <> Holds.
Proof.
  eexists _, _, _. split; [vm_compute; reflexivity|]. split; [reflexivity|]. split; [intros a _ _; reflexivity|]. split; [reflexivity|].
  split; [reflexivity|]. split; [vm_compute; reflexivity|]. split; [reflexivity|vm_compute; discriminate].
Qed.
(** A run of a command that printed one line on each stream *)
Example C68_case_run : exists fails s, ExtcmdProps.never_fails fails /\ ExtcmdModel.reachable false fails s /\ ExtcmdModel.s_main s = ExtcmdModel.Returned (-9)%Z /\
  ascii_text (ExtcmdModel.s_written s ExtcmdModel.Out) /\ ExtcmdModel.s_written s ExtcmdModel.Out <> [].
Proof.
  destruct ExtcmdProps.C26_case_run as (s & NF & R & M & _ & EV). exists ExtcmdProps.kind, s. split; [exact NF|]. split; [exact R|]. split; [exact M|].
  destruct (ExtcmdProps.C26_everything_is_delivered false _ s _ NF R M) as (_ & mid & E & _ & X). destruct (X ExtcmdModel.Out) as (_ & C). cbn [ExtcmdSpec.cut] in C.
  assert (CC : forall t l, ExtcmdSpec.lines_of t l -> concat l = t).
  { clear. intros t l L. induction L as [|l N D|l t ls D L IH]; [reflexivity|apply app_nil_r|]. cbn [concat]. rewrite IH, <- app_assoc. reflexivity. }
  apply CC in C. rewrite EV in E. destruct mid as [|e1 mid]; [discriminate|]. destruct mid as [|e2 mid]; [discriminate|]. destruct mid as [|e3 mid]; [discriminate|]. destruct mid as [|e4 mid]; [|destruct mid; discriminate].
  injection E as <- <- <-. rewrite <- C. split; [|discriminate]. intros c I. cbn in I. destruct I as [<-|[<-|[]]]; cbn; lia.
Qed.
