(** * C75: what the listeners of a command are told *)
From Coq Require Import String Ascii Decimal DecimalString List Bool Arith NArith ZArith Lia.
From Verif Require Import ScanModel Rfc822Model JsonModel IologModel IniModel Utf8Spec Utf8Model Utf8Proofs Utf8Props SheetModel SheetSpec SheetProofs RepoModel
  DelegateModel DelegateSpec.
Import ListNotations.
Local Open Scope nat_scope.
Local Open Scope list_scope.

Lemma delegate_ind' (P : delegate -> Prop) : (forall i has, P (Own i has)) -> (forall l, Forall P l -> P (Chain l)) -> (forall f d, P d -> P (Transform f d)) -> forall d, P d.
Proof.
  intros A B C. fix IH 1. intros [i has|l|f d]; [apply A| |apply C, IH]. apply B. induction l; constructor; [apply IH|assumption].
Qed.
Lemma notify_chain fails d l e : notify fails (Chain (d :: l)) e =
  let x := notify fails d e in if snd x then let y := notify fails (Chain l) e in (fst x ++ fst y, snd y) else x.
Proof. reflexivity. Qed.
Lemma telling_app fails e a la : telling fails e a la true -> forall b lb ok, telling fails e b lb ok -> telling fails e (a ++ b) (la ++ lb) ok.
Proof.
  intros H. remember true as t eqn:E. induction H; intros b lb ok' H'; try discriminate; cbn [app].
  - assumption.
  - eapply t_told; eauto.
  - eapply t_lacks; eauto.
  - eapply t_dropped; eauto.
Qed.
Lemma telling_stop fails e a la : telling fails e a la false -> forall b, telling fails e (a ++ b) la false.
Proof.
  intros H. remember false as t eqn:E. induction H; intros b; try discriminate; cbn [app].
  - eapply t_told; eauto.
  - eapply t_fails; eauto.
  - eapply t_lacks; eauto.
  - eapply t_dropped; eauto.
  - now apply t_raised.
Qed.
Definition through (f : callback) (m : member) : member := (fst m, f :: snd m).
Lemma telling_through fails f e e' : (forall fs x, becomes fs e' x -> becomes (f :: fs) e x) ->
  forall ms l ok, telling fails e' ms l ok -> telling fails e (map (through f) ms) l ok.
Proof.
  intros B ms l ok H. induction H; cbn [map through fst snd].
  - constructor.
  - eapply t_told; eauto.
  - eapply t_fails; eauto.
  - eapply t_lacks; eauto.
  - eapply t_dropped; eauto.
  - apply t_raised. auto.
Qed.
Lemma telling_none fails f ms : telling fails Interrupt (map (through f) ms) [] true.
Proof.
  induction ms as [|[[i has] fs] ms IH]; cbn [map through fst snd]; [constructor|]. apply t_dropped; [|assumption]. apply b_no_interrupt. discriminate.
Qed.
Lemma members_some d ms : inhabited d -> members d ms -> ms <> [].
Proof.
  revert ms. induction d as [i has|l IH|f d IH] using delegate_ind'; intros ms I M; inversion M; subst; try discriminate.
  - inversion I; subst. now contradiction H0.
  - inversion I as [|? N F|]; subst. inversion F; subst. inversion IH; subst. intros E. apply app_eq_nil in E as [E _]. subst. now apply (H5 [] H3 H0).
  - inversion I; subst. intros E. apply map_eq_nil in E. subst. now apply (IH [] H0).
Qed.
Lemma telling_notify fails d : forall e ms, inhabited d -> members d ms -> telling fails e ms (fst (notify fails d e)) (snd (notify fails d e)).
Proof.
  induction d as [i has|l IH|f d IH] using delegate_ind'; intros e ms IN M.
  - inversion M; subst. cbn [notify]. assert (BE : becomes [] e (Told e)) by (destruct e; constructor; try constructor; reflexivity).
    destruct (has (kind_of e)) eqn:H; cbn [fst snd].
    + destruct (fails i e) eqn:F; cbn [negb]; [now apply (t_fails fails e i has [] e)|]. apply (t_told fails e i has [] e); try assumption. constructor.
    + apply (t_lacks fails e i has [] e); try assumption. constructor.
  - assert (IN' : Forall inhabited l) by (inversion IN; assumption). clear IN. revert ms M. induction l as [|d l IHl]; intros ms M; inversion M; subst.
    + constructor.
    + inversion IH; subst. inversion IN'; subst. rewrite notify_chain. cbv zeta. pose proof (H2 e a H5 H1) as A. pose proof (IHl H4 H6 b H3) as B.
      destruct (snd (notify fails d e)) eqn:S; cbn [fst snd]; [now apply telling_app|]. rewrite S. now apply telling_stop.
  - inversion M; subst. inversion IN; subst. change (fun m : nat * (kind -> bool) * list callback => (fst m, f :: snd m)) with (through f) in *.
    assert (NE : l <> []) by (now apply (members_some d)). 
    assert (RAISE : forall e, (forall fs, becomes (f :: fs) e Raised) -> telling fails e (map (through f) l) [] false).
    { intros e0 R. destruct l as [|[[i has] fs] l]; [contradiction|]. cbn [map through fst snd]. apply t_raised. apply R. }
    cbn [notify]. destruct e as [|s p|s p|c|c|]; try (apply telling_none); try (eapply telling_through; [|now apply IH]; intros fs x Hx; inversion Hx; subst; now constructor).
    + destruct (f s p) as [q|] eqn:E.
      * eapply telling_through; [|now apply IH]. intros fs x Hx. inversion Hx; subst; constructor; eapply c_next; eassumption.
      * apply RAISE. intros fs. constructor. now apply c_raise.
    + destruct (f s p) as [q|] eqn:E.
      * eapply telling_through; [|now apply IH]. intros fs x Hx. inversion Hx; subst; constructor; eapply c_next; eassumption.
      * apply RAISE. intros fs. constructor. now apply c_raise.
Qed.
Lemma carried_fun s fs p r : carried s fs p r -> forall r', carried s fs p r' -> r = r'.
Proof. induction 1; intros r' H'; inversion H'; subst; try congruence; try reflexivity. apply IHcarried. congruence. Qed.
Lemma becomes_fun fs e x y : becomes fs e x -> becomes fs e y -> x = y.
Proof.
  intros A B. inversion A; subst; inversion B; subst; try congruence; try reflexivity;
    match goal with H : carried _ _ _ _, H' : carried _ _ _ _ |- _ => pose proof (carried_fun _ _ _ _ H _ H') as E; try discriminate E; injection E as ->; reflexivity end.
Qed.
Lemma telling_fun fails e ms l ok : telling fails e ms l ok -> forall l' ok', telling fails e ms l' ok' -> l = l' /\ ok = ok'.
Proof.
  induction 1; intros l' ok' H'; inversion H'; subst;
    try match goal with A : becomes ?fs e ?x, B : becomes ?fs e ?y |- _ => pose proof (becomes_fun _ _ _ _ A B) as E; try discriminate E; try (injection E as E; subst) end;
    try congruence; try (now split); try (match goal with IH : forall l' ok', _ -> _, B : telling _ _ ?r _ _ |- _ => destruct (IH _ _ B) as [-> ->]; now split end).
Qed.

(** A notification of a composition of delegates: each delegate is told once, from left
    to right, with the data changed by the callbacks on its way, if it has the method;
    until one raises an exception, or a callback does. *)
Theorem C75_who_is_told fails d e ms l ok : inhabited d -> members d ms ->
  (notify fails d e = (l, ok) <-> telling fails e ms l ok).
Proof.
  intros I M. pose proof (telling_notify fails d e ms I M) as T. split.
  - intros H. now rewrite H in T.
  - intros T'. destruct (telling_fun _ _ _ _ _ T _ _ T') as [<- <-]. now destruct (notify fails d e).
Qed.
Print Assumptions C75_who_is_told.
Theorem C75_members_exist d : exists ms, members d ms.
Proof.
  induction d as [i has|l IH|f d [ms IH]] using delegate_ind'; [eexists; constructor| |eexists; constructor; eassumption].
  induction IH as [|d l [a A] F [b B]]; [eexists; constructor|]. eexists. constructor; eassumption.
Qed.
Print Assumptions C75_members_exist.

(** Without exceptions, every delegate is told everything it has a method for, once and in
    order, whatever else is in the composition. *)
Lemma told_to_other fails e ms l ok i : telling fails e ms l ok -> ~ In i (map (fun m => fst (fst m)) ms) -> told_to i l = [].
Proof.
  unfold told_to. induction 1; cbn [map fst snd In]; intros N; try reflexivity; try (apply IHtelling; tauto).
  - cbn [filter fst]. destruct (Nat.eqb_spec i0 i); [exfalso; apply N; left; congruence|]. apply IHtelling. tauto.
  - cbn [filter fst]. destruct (Nat.eqb_spec i0 i); [exfalso; apply N; left; congruence|reflexivity].
Qed.
Theorem C75_everyone_is_told fails d e ms i has fs : inhabited d -> members d ms -> NoDup (map (fun m => fst (fst m)) ms) -> In (i, has, fs) ms ->
  snd (notify fails d e) = true ->
  (forall e', becomes fs e (Told e') -> has (kind_of e') = true -> told_to i (fst (notify fails d e)) = [e']) /\
  ((forall e', becomes fs e (Told e') -> has (kind_of e') = false) -> told_to i (fst (notify fails d e)) = []) /\
  ~ becomes fs e Raised.
Proof.
  intros I M N IN OK. pose proof (telling_notify fails d e ms I M) as T. rewrite OK in T. revert T. generalize (fst (notify fails d e)). clear I M OK. intros l T.
  remember true as t eqn:E. induction T as [|j hs gs e' r l ok B H F T IH|j hs gs e' r B H F|j hs gs e' r l ok B H T IH|j hs gs r l ok B T IH|j hs gs r B]; try discriminate.
  - destruct IN.
  - cbn [map fst] in N. inversion N as [|? ? N1 N2]; subst. destruct IN as [IN|IN].
    + injection IN as -> -> ->. assert (Z : told_to i ((i, e') :: l) = [e']) by (unfold told_to; cbn [filter fst]; rewrite Nat.eqb_refl; cbn [map snd]; f_equal; now apply (told_to_other _ _ _ _ _ _ T)).
      rewrite Z. split; [|split].
      * intros e2 B2 _. pose proof (becomes_fun _ _ _ _ B B2). congruence.
      * intros Q. rewrite (Q _ B) in H. discriminate.
      * intros B2. pose proof (becomes_fun _ _ _ _ B B2). discriminate.
    + assert (J : j <> i) by (intros ->; apply N1; apply in_map_iff; exists (i, has, fs); now split).
      assert (Z : told_to i ((j, e') :: l) = told_to i l) by (unfold told_to; cbn [filter fst]; destruct (Nat.eqb_spec j i); [contradiction|reflexivity]).
      rewrite Z. now apply IH.
  - cbn [map fst] in N. inversion N as [|? ? N1 N2]; subst. destruct IN as [IN|IN]; [|now apply IH]. injection IN as -> -> ->.
    rewrite (told_to_other _ _ _ _ _ i T N1). split; [|split].
    + intros e2 B2 H2. pose proof (becomes_fun _ _ _ _ B B2). congruence.
    + reflexivity.
    + intros B2. pose proof (becomes_fun _ _ _ _ B B2). discriminate.
  - cbn [map fst] in N. inversion N as [|? ? N1 N2]; subst. destruct IN as [IN|IN]; [|now apply IH]. injection IN as -> -> ->.
    rewrite (told_to_other _ _ _ _ _ i T N1). split; [|split].
    + intros e2 B2 H2. pose proof (becomes_fun _ _ _ _ B B2). discriminate.
    + reflexivity.
    + intros B2. pose proof (becomes_fun _ _ _ _ B B2). discriminate.
Qed.
Print Assumptions C75_everyone_is_told.

(** Output that is decoded and encoded again arrives unchanged, and it does so exactly
    when it is UTF-8. *)
Lemma scalar_bool t : forallb (fun c => (c <? 55296)%N || (57343 <? c)%N && (c <? 1114112)%N) t = true <-> Forall scalar t.
Proof.
  rewrite forallb_forall, Forall_forall. unfold scalar. split; intros H c I; specialize (H c I).
  - apply orb_true_iff in H as [H|H]; [left; now apply N.ltb_lt|]. apply andb_true_iff in H as [H1 H2]. right. split; now apply N.ltb_lt.
  - apply orb_true_iff. destruct H as [H|[H1 H2]]; [left; now apply N.ltb_lt|]. right. apply andb_true_iff. split; now apply N.ltb_lt.
Qed.
Theorem C75_decoded_and_encoded s b : 
  (is_text b <-> carried s [decode_callback; encode_callback] (B b) (Some (B b))) /\
  (forall t, Forall scalar t -> b = utf8_text t -> carried s [decode_callback] (B b) (Some (U t))) /\
  (~ is_text b <-> carried s [decode_callback] (B b) None).
Proof.
  assert (D : forall t, Forall scalar t -> b = utf8_text t -> decode_callback s (B b) = Some (U t)).
  { intros t F E. unfold decode_callback. assert (X : fst (decode true true true b) = Some t) by (apply strict_decode; now split). now rewrite X. }
  split; [|split].
  - split.
    + intros (t & F & E). eapply c_next; [exact (D t F E)|]. eapply c_next; [|constructor]. cbn. apply scalar_bool in F. now rewrite F, E.
    + intros C. inversion C as [|f fs p q r X Y|]; subst. unfold decode_callback in X. destruct (fst (decode true true true b)) as [t|] eqn:E; [|discriminate].
      apply strict_decode in E as [F ->]. now exists t.
  - intros t F E. eapply c_next; [exact (D t F E)|]. constructor.
  - split.
    + intros N. apply c_raise. unfold decode_callback. destruct (fst (decode true true true b)) as [t|] eqn:E; [|reflexivity]. apply strict_decode in E as [F ->]. exfalso. apply N. now exists t.
    + intros C (t & F & E). inversion C as [|f fs p q r X Y|f fs p X]; subst; [inversion Y|]. rewrite (D t F eq_refl) in X. discriminate.
Qed.
Print Assumptions C75_decoded_and_encoded.

(** ** Files *)
Lemma write_lines l : forall w o r, output_of Out l o -> output_of Err l r ->
  write_all w l = mk_writer (w_stdout w ++ o) (w_stderr w ++ r) (w_open w).
Proof.
  induction l as [|e l IH]; intros w o r A B.
  - inversion A; subst. inversion B; subst. cbn. rewrite !app_nil_r. now destruct w.
  - change (write_all w (e :: l)) with (write_all (write w e) l). inversion A; subst; inversion B; subst; try congruence; rewrite (IH _ _ _ H1 H2) || (rewrite (IH _ _ _ H2 H3)) || idtac.
    all: try match goal with |- _ = _ => cbn [write w_stdout w_stderr w_open]; rewrite <- ?app_assoc; try reflexivity end.
    all: try (destruct s'; try congruence; erewrite IH by eassumption; cbn [write w_stdout w_stderr w_open]; rewrite <- ?app_assoc; reflexivity).
    all: try (erewrite IH by eassumption; cbn [write w_stdout w_stderr w_open]; rewrite <- ?app_assoc; reflexivity).
Qed.
(** When the command has ended, each file holds the output on its stream, and nothing of
    commands before it. *)
Theorem C75_files w l last o r : output_of Out l o -> output_of Err l r -> (exists c, last = End_ c \/ last = Abnormal c) ->
  let w' := write_all w (Begin :: l ++ [last]) in w_stdout w' = o /\ w_stderr w' = r /\ w_open w' = false.
Proof.
  intros A B (c & L). cbv zeta. change (write_all w (Begin :: l ++ [last])) with (write_all (write w Begin) (l ++ [last])).
  unfold write_all. rewrite fold_left_app. fold (write_all (write w Begin) l). rewrite (write_lines l _ o r A B). cbn. destruct L as [-> | ->]; now repeat split.
Qed.
Print Assumptions C75_files.

(** ** Printed lines *)
Lemma print_abort prompt l : forall p, pr_abort p = true -> fold_left (print prompt) l p = p.
Proof. induction l as [|x l IH]; intros p A; [reflexivity|]. cbn [fold_left]. unfold print at 2. rewrite A. now apply IH. Qed.
Lemma occ_app s a b : occurrences s (a ++ b) = occurrences s a + occurrences s b.
Proof. unfold occurrences. now rewrite filter_app, app_length. Qed.
Lemma print_spec prompt l : forall done p, pr_abort p = false -> pr_out p = occurrences Out done -> pr_err p = occurrences Err done ->
  exists k us, k <= length l /\ pr_lines (fold_left (print prompt) l p) = pr_lines p ++ us /\ length us = k /\
    (forall a x b, l = a ++ x :: b -> length a < k -> exists u, nth_error us (length a) = Some u /\ looks prompt (done ++ a) x u) /\
    (k = length l \/ exists a x b, l = a ++ x :: b /\ length a = k /\ ~ is_text (snd x)).
Proof.
  induction l as [|x l IH]; intros done p A O R.
  - exists 0, []. cbn. rewrite app_nil_r. repeat split; auto. intros a x b E. destruct a; discriminate.
  - cbn [fold_left]. unfold print at 2. rewrite A. destruct (fst (decode true true true (snd x))) as [t|] eqn:D.
    + apply strict_decode in D as [F E]. match goal with |- context [fold_left (print prompt) l ?q] => set (p' := q) end.
      destruct (IH (done ++ [x]) p') as (k & us & K & L & N & G & Q); [reflexivity| | |].
      { cbn [p' pr_out]. rewrite occ_app, O. destruct x as [[|] b]; cbn; lia. }
      { cbn [p' pr_err]. rewrite occ_app, R. destruct x as [[|] b]; cbn; lia. }
      set (u := shown prompt (fst x) (S match fst x with Out => pr_out p | Err => pr_err p end) (urstrip t)).
      exists (S k), (u :: us). split; [cbn; lia|]. split; [rewrite L; cbn [p' pr_lines]; rewrite <- app_assoc; reflexivity|]. split; [cbn; lia|]. split.
      * intros a y b E' LA. destruct a as [|z a]; cbn in E'; injection E' as <- E'.
        -- exists u. split; [reflexivity|]. rewrite app_nil_r. exists t, (urstrip t). split; [assumption|]. split; [assumption|]. split; [apply urstrip_trimmed|].
           unfold u, shown, ascii_ustr. destruct (fst x); [rewrite O|rewrite R]; rewrite ?map_app, <- ?app_assoc; reflexivity.
        -- cbn [length] in LA. destruct (G a y b E') as (v & V1 & V2); [lia|]. exists v. split; [exact V1|]. now rewrite <- app_assoc in V2.
      * destruct Q as [Q|(a & y & b & E' & LA & NT)]; [left; cbn; lia|]. right. exists (x :: a), y, b. split; [cbn; now rewrite E'|]. split; [cbn; lia|assumption].
    + rewrite strict_none in D. rewrite print_abort by reflexivity. exists 0, []. split; [lia|]. split; [cbn; now rewrite app_nil_r|]. split; [reflexivity|]. split; [lia|].
      right. exists [], x, l. split; [reflexivity|]. split; [reflexivity|]. intros (t & F & E). now apply (D t).
Qed.
(** The printer shows the lines before the first that is not UTF-8, all of them and
    nothing after it, each with the name of its stream and its number in it. *)
Theorem C75_printed prompt l : exists k, k <= length l /\ length (print_all prompt l) = k /\
  (forall a x b, l = a ++ x :: b -> length a < k -> exists u, nth_error (print_all prompt l) (length a) = Some u /\ looks prompt a x u) /\
  (k = length l \/ exists a x b, l = a ++ x :: b /\ length a = k /\ ~ is_text (snd x)).
Proof.
  destruct (print_spec prompt l [] (mk_printer 0 0 false []) eq_refl eq_refl eq_refl) as (k & us & K & L & N & G & Q).
  exists k. unfold print_all. rewrite L. cbn [pr_lines app]. split; [assumption|]. split; [assumption|]. split; assumption.
Qed.
Print Assumptions C75_printed.
Theorem C75_numbers n : length (five n) >= 5 /\ exists z, five n = repeat "0"%char z ++ decimal n /\ (5 < length (five n) -> z = 0).
Proof.
  unfold five. cbv zeta. split; [rewrite app_length, repeat_length; lia|]. eexists. split; [reflexivity|]. rewrite app_length, repeat_length. lia.
Qed.
Print Assumptions C75_numbers.

(** ** A concrete case *)
Definition every (k : kind) : bool := true.
Definition ex_tree := Chain [Own 1 every; Transform decode_callback (Chain [Own 2 (fun k => match k with KLine => true | _ => false end); Transform encode_callback (Own 3 every)])].
Definition no_failures (i : nat) (e : event) := false.
Example C75_case_tree : inhabited ex_tree /\ exists ms, members ex_tree ms /\ map (fun m => fst (fst m)) ms = [1; 2; 3] /\ NoDup (map (fun m => fst (fst m)) ms).
Proof.
  split; [unfold ex_tree; repeat (constructor; try discriminate)|]. eexists. split; [repeat econstructor|]. split; [reflexivity|]. cbn. repeat constructor; cbn; intuition discriminate.
Qed.
Example C75_case_line : notify no_failures ex_tree (Line Out (B (T "abc"))) =
  ([(1, Line Out (B (T "abc"))); (2, Line Out (U [97; 98; 99]%N)); (3, Line Out (B (T "abc")))], true).
Proof. vm_compute. reflexivity. Qed.
Example C75_case_begin : notify no_failures ex_tree Begin = ([(1, Begin); (3, Begin)], true).
Proof. reflexivity. Qed.
Example C75_case_output : output_of Out [Line Out (B (T "a")); Line Err (B (T "b")); Interrupt; Line Out (B (T "c"))] (T "ac") /\
  output_of Err [Line Out (B (T "a")); Line Err (B (T "b")); Interrupt; Line Out (B (T "c"))] (T "b").
Proof.
  split.
  - apply (o_line Out (T "a")). apply o_other; [discriminate|]. apply o_interrupt. apply (o_line Out (T "c") [] []). constructor.
  - apply o_other; [discriminate|]. apply (o_line Err (T "b") _ []). apply o_interrupt. apply o_other; [discriminate|]. constructor.
Qed.
Example C75_case_printed : print_all (ascii_ustr (T "j")) [(Out, T "x"); (Err, T "y"); (Out, T "z ")] =
  map ascii_ustr [T "(job j, <stdout:00001>) x"; T "(job j, <stderr:00001>) y"; T "(job j, <stdout:00002>) z"].
Proof. vm_compute. reflexivity. Qed.

(** ** What does not hold *)

(** A delegate behind a Transform is not told about interrupts. *)
Theorem C75_everyone_is_interrupted_refuted fails f i : notify fails (Transform f (Own i every)) Interrupt = ([], true).
Proof. reflexivity. Qed.
Print Assumptions C75_everyone_is_interrupted_refuted.
(** A delegate that raises an exception, and output that cannot be decoded, keep the
    delegates after it from being told. *)
Theorem C75_delegates_are_independent_refuted s : 
  (exists fails, forall e, notify fails (Chain [Own 1 every; Own 2 every]) e = ([(1, e)], false)) /\
  (exists b, notify no_failures (Chain [Transform decode_callback (Own 1 every); Own 2 every]) (Line s (B b)) = ([], false)).
Proof.
  split; [exists (fun i _ => Nat.eqb i 1); intros e; destruct e; reflexivity|]. exists [ascii_of_nat 255]. destruct s; vm_compute; reflexivity.
Qed.
Print Assumptions C75_delegates_are_independent_refuted.
(** The files of commands with chunked output are empty. *)
Theorem C75_chunks_are_written_refuted w s b : w_stdout (write_all w [Begin; Chunk s (B b); End_ 0%Z]) = [] /\ w_stderr (write_all w [Begin; Chunk s (B b); End_ 0%Z]) = [].
Proof. split; reflexivity. Qed.
Print Assumptions C75_chunks_are_written_refuted.
(** After one line that is not UTF-8 nothing more is printed, of either stream. *)
Theorem C75_every_line_is_printed_refuted prompt x l : ~ is_text (snd x) -> print_all prompt (x :: l) = [].
Proof.
  intros N. unfold print_all. cbn [fold_left]. unfold print at 2. cbn [pr_abort]. destruct (fst (decode true true true (snd x))) as [t|] eqn:D.
  - apply strict_decode in D as [F E]. exfalso. apply N. now exists t.
  - now rewrite print_abort.
Qed.
Print Assumptions C75_every_line_is_printed_refuted.
