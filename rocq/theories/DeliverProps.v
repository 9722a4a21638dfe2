(** C71: exported results arrive complete, or the failure is visible. *)
From Coq Require Import String Ascii List Bool Arith NArith Lia.
From Verif Require Import ScanModel Rfc822Model JsonModel IologModel IniModel ExportModel Rfc822Proofs IniProofs
  Utf8Model Utf8Spec Utf8Proofs Utf8Props DeliverModel DeliverSpec DeliverProofs.
Import ListNotations.
Local Open Scope nat_scope.
Local Open Scope list_scope.

(** ** Standard output *)

(** Results that are text are printed to standard output exactly when no character lies
    across a multiple of the size of the copying buffer; when one does, the command ends
    with a decoding error and what was printed is the beginning of the results. *)
Theorem C71_printed n t : 0 < n -> Forall scalar t ->
  let r := save_results n (Stdout true) (utf8_text t) in
  (snd r = Done <-> cut_between_characters n t) /\
  (snd r = Done -> shown (fst r) = header ++ t) /\
  (snd r <> Done -> snd r = Raised UnicodeDecodeErr /\ exists a b, t = a ++ b /\ shown (fst r) = header ++ a).
Proof.
  intros N F. cbv zeta. cbn [save_results]. set (l := reads_of (Some n) (utf8_text t)).
  change (snd (before (just (Printed header)) (copy_text true l))) with (snd (copy_text true l)).
  change (shown (fst (before (just (Printed header)) (copy_text true l)))) with (header ++ shown (fst (copy_text true l))).
  assert (C : concat l = utf8_text t) by (apply reads_of_concat; intros E; injection E as ->; lia).
  destruct (copy_text_shown l) as (r & Fs & Es & Ds). rewrite C in Es.
  destruct (utf8_text_prefix _ t r F Fs) as (t2 & Et & Er); [now symmetry|].
  split; [|split].
  - rewrite copy_text_done. apply pieces_cut; auto.
  - intros D. rewrite (Ds D) in Er. f_equal.
    assert (t2 = []). { pose proof (utf8_text_length t2) as L. rewrite <- Er in L. destruct t2; [reflexivity|cbn in L; lia]. }
    subst t2. rewrite app_nil_r in Et. now symmetry.
  - intros D. split; [destruct (copy_text_outcome true l); [contradiction|assumption]|]. exists (shown (fst (copy_text true l))), t2. now split.
Qed.
Print Assumptions C71_printed.

(** ASCII always is printed. *)
Theorem C71_ascii_is_printed n t : 0 < n -> Forall (fun c => (c < 128)%N) t ->
  let r := save_results n (Stdout true) (utf8_text t) in snd r = Done /\ shown (fst r) = header ++ t.
Proof.
  intros N F. cbv zeta. assert (S : Forall scalar t) by (eapply Forall_impl; [|exact F]; intros c L; left; cbn in L; lia).
  destruct (C71_printed n t N S) as (A & B & _). assert (D : snd (save_results n (Stdout true) (utf8_text t)) = Done).
  { apply A. intros k K. assert (L : forall u, Forall (fun c => (c < 128)%N) u -> length (utf8_text u) = length u).
    { induction 1 as [|c u Hc Hu IH]; [reflexivity|]. unfold utf8_text in *. cbn [map concat]. rewrite app_length, IH.
      unfold utf8. rewrite (proj2 (N.ltb_lt c 128) Hc). reflexivity. }
    exists (firstn (k * n) t), (skipn (k * n) t). split; [symmetry; apply firstn_skipn|]. rewrite L in K by assumption.
    rewrite L; [now apply firstn_length_le|]. apply Forall_forall. intros c I. rewrite Forall_forall in F. apply F.
    rewrite <- (firstn_skipn (k * n) t). apply in_or_app. now left. }
  split; [assumption|]. now apply B.
Qed.
Print Assumptions C71_ascii_is_printed.

(** Results that are not UTF-8 are never reported as printed. *)
Theorem C71_not_text n s : 0 < n -> (forall t, Forall scalar t -> utf8_text t <> s) ->
  snd (save_results n (Stdout true) s) = Raised UnicodeDecodeErr.
Proof.
  intros N H. cbn [save_results]. set (l := reads_of (Some n) s).
  change (snd (copy_text true l) = Raised UnicodeDecodeErr).
  destruct (copy_text_outcome true l) as [D|D]; [|assumption]. exfalso.
  destruct (copy_text_shown l) as (r & Fs & Es & Ds). rewrite (Ds D), app_nil_r in Es. apply (H _ Fs). rewrite <- Es.
  apply reads_of_concat. intros E. injection E as ->. lia.
Qed.
Print Assumptions C71_not_text.

(** Refuted: results that are text always are printed.  For every buffer size there is a
    text that is not. *)
Theorem C71_every_text_is_printed_refuted n : 0 < n -> exists t, Forall scalar t /\
  snd (save_results n (Stdout true) (utf8_text t)) = Raised UnicodeDecodeErr.
Proof.
  intros N. set (t := repeat 97%N (n - 1) ++ [233%N]). assert (F : Forall scalar t).
  { apply Forall_app. split; [|constructor; [left; lia|constructor]]. apply Forall_forall. intros c I. apply repeat_spec in I as ->. left. lia. }
  exists t. split; [assumption|]. destruct (C71_printed n t N F) as (A & _ & C). apply C. rewrite A. intros Cut.
  assert (L : forall m, length (utf8_text (repeat 97%N m)) = m).
  { induction m as [|m IH]; [reflexivity|]. cbn [repeat]. unfold utf8_text in *. cbn [map concat]. rewrite app_length, IH. reflexivity. }
  assert (Lt : length (utf8_text t) = n + 1).
  { unfold t. rewrite utf8_text_app, app_length, L. change (length (utf8_text [233%N])) with 2. lia. }
  destruct (Cut 1) as (a & b & E & La); [lia|]. destruct b as [|x b].
  - rewrite app_nil_r in E. subst a. lia.
  - assert (exists m, a = repeat 97%N m /\ m <= n - 1) as (m & -> & Hm); [|rewrite L in La; lia].
    unfold t in E. clear - E. revert a E. induction (n - 1) as [|k IH]; intros a E.
    + destruct a as [|c [|d a]]; [exists 0; now split|discriminate..].
    + destruct a as [|c a]; [exists 0; split; [reflexivity|lia]|]. cbn [repeat app] in E. injection E as <- E.
      destruct (IH a E) as (m & -> & Hm). exists (S m). split; [reflexivity|lia].
Qed.
Print Assumptions C71_every_text_is_printed_refuted.

(** On a standard output that is not UTF-8 the ASCII characters are printed, the others
    are left out, and nothing is raised. *)
Theorem C71_other_encoding n t : 0 < n -> Forall scalar t ->
  let r := save_results n (Stdout false) (utf8_text t) in
  snd r = Done /\ shown (fst r) = header ++ filter (fun c => N.ltb c 128) t.
Proof.
  intros N F. cbv zeta. cbn [save_results]. set (l := reads_of (Some n) (utf8_text t)).
  change (snd (copy_text false l) = Done /\ header ++ shown (fst (copy_text false l)) = header ++ filter (fun c => N.ltb c 128) t).
  rewrite shown_other. split; [rewrite copy_other; reflexivity|]. f_equal.
  assert (C : concat l = utf8_text t) by (apply reads_of_concat; intros E; injection E as ->; lia). rewrite C. now apply ascii_part.
Qed.
Print Assumptions C71_other_encoding.

(** ** Transports *)

Lemma utf8_text_nil t : utf8_text t = [] -> t = [].
Proof. pose proof (utf8_text_length t) as L. intros E. rewrite E in L. destruct t; [reflexivity|cbn in L; lia]. Qed.

(** The stream transport prints everything or, when the data are not text, nothing. *)
Theorem C71_stream_transport s :
  (forall t, Forall scalar t -> utf8_text t = s -> stream_send (Stream s) = (match t with [] => [] | _ => [Printed t] end, Done)) /\
  ((forall t, Forall scalar t -> utf8_text t <> s) -> stream_send (Stream s) = ([], Raised UnicodeDecodeErr)).
Proof.
  cbn [stream_send reads_of]. split.
  - intros t F <-. destruct t as [|c t]; [reflexivity|].
    destruct (utf8_text (c :: t)) as [|x s] eqn:E; [apply utf8_text_nil in E; discriminate|]. cbn [copy_text].
    rewrite (proj2 (translated_some (x :: s) (c :: t))) by (split; auto). reflexivity.
  - intros H. destruct s as [|x s]; [exfalso; apply (H [] (Forall_nil _)); reflexivity|]. cbn [copy_text].
    now rewrite (proj2 (translated_none _) H).
Qed.
Print Assumptions C71_stream_transport.

(** The file transport: everything is in the file afterwards and nothing else, or OSError
    is raised. *)
Theorem C71_file_transport n p opens room s : 0 < n ->
  let r := send n (ToFile p opens room) (Stream s) in
  (snd r = Done <-> opens = true /\ (forall k, room = Some k -> length s <= k)) /\
  (snd r <> Done -> snd r = Raised OSErr) /\
  (snd r = Done -> forall c c', holds p (fst r) c c' <-> c' = s).
Proof.
  intros N. cbv zeta. cbn [send]. unfold file_send. destruct opens; cbn [negb].
  2: { cbn. split; [split; [discriminate|now intros []]|]. split; [reflexivity|discriminate]. }
  set (l := reads_of (Some n) s). assert (C : concat l = s) by (apply reads_of_concat; intros E; injection E as ->; lia).
  change (snd (before (just (Emptied p)) (copy_file p room l))) with (snd (copy_file p room l)).
  change (fst (before (just (Emptied p)) (copy_file p room l))) with (Emptied p :: fst (copy_file p room l)).
  rewrite copy_file_outcome, C. split; [|split].
  - destruct room as [k|]; [|split; [intros _; split; [reflexivity|discriminate]|reflexivity]].
    destruct (Nat.leb_spec (length s) k) as [L|L]; split; try discriminate.
    + intros _. split; [reflexivity|]. intros k' E. now injection E as <-.
    + reflexivity.
    + intros [_ H]. specialize (H k eq_refl). lia.
  - destruct room as [k|]; [|congruence]. destruct (length s <=? k); congruence.
  - intros D c c'. assert (H : holds p (Emptied p :: fst (copy_file p room l)) c s).
    { apply holds_emptied. pose proof (copy_file_holds p room l []) as H. cbn [app] in H. rewrite C in H.
      destruct room as [k|]; [|assumption]. destruct (Nat.leb_spec (length s) k); [|discriminate]. now rewrite firstn_all2 in H. }
    split; [intros H'; eapply holds_fun; eassumption|]. now intros ->.
Qed.
Print Assumptions C71_file_transport.

(** Whenever it stops: nothing happened yet, or the file holds a beginning of the data. *)
Theorem C71_file_stopped n p opens room s l c c' : 0 < n ->
  stopped (fst (send n (ToFile p opens room) (Stream s))) l -> holds p l c c' ->
  (l = [] /\ c' = c) \/ (exists b, s = c' ++ b).
Proof.
  intros N. cbn [send]. unfold file_send. destruct opens; cbn [negb].
  2: { cbn [fst failing]. intros S H. left. remember [] as x eqn:E in S. destruct S as [a b|a q u v b].
       - apply app_eq_nil in E as [-> _]. split; [reflexivity|]. now apply holds_nil_inv in H.
       - destruct a; discriminate. }
  set (w := reads_of (Some n) s). assert (C : concat w = s) by (apply reads_of_concat; intros E; injection E as ->; lia). clearbody w.
  change (fst (before (just (Emptied p)) (copy_file p room w))) with (Emptied p :: fst (copy_file p room w)).
  intros S H. remember (Emptied p :: fst (copy_file p room w)) as x eqn:E in S.
  assert (P : l = [] \/ exists l', l = Emptied p :: l' /\ stopped (fst (copy_file p room w)) l').
  { destruct S as [a b|a q u v b].
    - destruct a as [|e a]; [now left|]. right. cbn [app] in E. injection E as -> E. exists a. split; [reflexivity|]. rewrite <- E. constructor.
    - right. destruct a as [|e a]; [discriminate|]. cbn [app] in E. injection E as -> E. exists (a ++ [Appended q u]). split; [reflexivity|].
      rewrite <- E. constructor. }
  destruct P as [->|(l' & -> & S')].
  - left. split; [reflexivity|]. now apply holds_nil_inv in H.
  - right. assert (H' : holds p l' [] c').
    { inversion H; subst; [assumption|]. congruence. }
    destruct (holds_appends p _ (copy_file_events p room w) [] _ (copy_file_holds p room w []) l' S' c' H') as (u & v & Eu & Ev).
    cbn [app] in Ev. rewrite C in Ev. destruct room as [k|].
    + exists (v ++ skipn k s). rewrite app_assoc, <- Ev. symmetry. apply firstn_skipn.
    + now exists v.
Qed.
Print Assumptions C71_file_stopped.

(** Refuted: a file that was there before is kept until the new one is complete.  With any
    data and any old content there is a point where the file is empty, and a full disk
    leaves only a part. *)
Theorem C71_old_file_kept_refuted n p room s c :
  (exists l, stopped (fst (send n (ToFile p true room) (Stream s))) l /\ holds p l c []) /\
  (0 < n -> forall k, k < length s ->
     let r := send n (ToFile p true (Some k)) (Stream s) in snd r = Raised OSErr /\ holds p (fst r) c (firstn k s)).
Proof.
  split.
  - exists [Emptied p]. split; [apply (stopped_between [Emptied p] (fst (copy_file p room (reads_of (Some n) s))))|].
    apply holds_emptied. constructor.
  - intros N k L. cbv zeta. cbn [send file_send negb]. set (w := reads_of (Some n) s).
    assert (C : concat w = s) by (apply reads_of_concat; intros E; injection E as ->; lia).
    change (snd (before (just (Emptied p)) (copy_file p (Some k) w))) with (snd (copy_file p (Some k) w)).
    rewrite copy_file_outcome, C. split; [destruct (Nat.leb_spec (length s) k); [lia|reflexivity]|].
    apply holds_emptied. pose proof (copy_file_holds p (Some k) w []) as H. cbn [app] in H. now rewrite C in H.
Qed.
Print Assumptions C71_old_file_kept_refuted.

(** The OAuth transport: a normal return means that the data were posted and that the
    server answered with a status that is not an error; with credentials that are empty
    or complete. *)
Definition complete_credentials (creds : list (text * text)) : Prop :=
  creds = [] \/ forall k, In k [T "consumer_key"; T "consumer_secret"; T "token_key"; T "token_secret"] -> In k (map fst creds).
Lemma has_key_in d k : has_key d k = true <-> In k (map fst d).
Proof.
  unfold has_key. rewrite existsb_exists, in_map_iff. split.
  - intros ([a b] & I & E). apply text_eqb_eq in E. cbn in E. subst. now exists (k, b).
  - intros ([a b] & E & I). cbn in E. subst. exists (k, b). split; [assumption|]. now apply text_eqb_eq.
Qed.
Lemma credentials_spec creds :
  match creds with [] => true | _ => forallb (has_key creds) oauth_keys end = true <-> complete_credentials creds.
Proof.
  unfold complete_credentials. destruct creds as [|x creds]; [split; auto|]. rewrite forallb_forall. split.
  - intros H. right. intros k I. apply has_key_in. now apply H.
  - intros [H|H] k I; [discriminate|]. apply has_key_in. now apply H.
Qed.
Theorem C71_upload n url creds r d :
  let a := send n (OAuth url creds r) d in
  (snd a = Done <-> complete_credentials creds /\ exists st, r = Status st /\ ~ (400 <= st < 600)%N) /\
  (snd a = Raised TransportErr <-> complete_credentials creds /\
     (In r [Timeout; InvalidSchema; NoConnection] \/ exists st, r = Status st /\ (400 <= st < 600)%N)) /\
  (~ complete_credentials creds -> a = ([], Raised KeyErr)) /\
  (complete_credentials creds -> fst a = [Posted url (content d)]).
Proof.
  cbv zeta. cbn [send]. unfold oauth_send. pose proof (credentials_spec creds) as C.
  destruct (match creds with [] => true | _ => forallb (has_key creds) oauth_keys end) eqn:E; cbn [negb].
  - assert (K : complete_credentials creds) by now apply C.
    assert (St : forall st, status_raises st = true <-> (400 <= st < 600)%N).
    { intros st. unfold status_raises. rewrite andb_true_iff, N.leb_le, N.ltb_lt. reflexivity. }
    assert (NS : forall x (Q : N -> Prop), (forall st, x <> Status st) -> ~ exists st, x = Status st /\ Q st) by (intros x Q H (st & X & _); now apply (H st)).
    assert (N1 := fun x H => NS x (fun st => ~ (400 <= st < 600)%N) H). assert (N2 := fun x H => NS x (fun st => (400 <= st < 600)%N) H).
    split; [|split; [|split; [intros X; contradiction|intros _; destruct r as [| | | | |st]; try reflexivity; cbn; destruct (status_raises st); reflexivity]]].
    + destruct r as [| | | | |st]; cbn; try (split; [discriminate|intros [_ X]; exfalso; now apply N1 in X]).
      destruct (status_raises st) eqn:R; cbn.
      * apply St in R. split; [discriminate|]. intros (_ & st' & X & Y). injection X as <-. contradiction.
      * split; [|reflexivity]. intros _. split; [assumption|]. exists st. split; [reflexivity|]. rewrite <- St. congruence.
    + destruct r as [| | | | |st]; cbn; try (split; [intros _; tauto|reflexivity]);
        try (split; [discriminate|intros [_ [X|X]]; exfalso; [intuition discriminate|now apply N2 in X]]).
      destruct (status_raises st) eqn:R; cbn.
      * split; [|reflexivity]. intros _. split; [assumption|]. right. exists st. split; [reflexivity|]. now apply St.
      * split; [discriminate|]. intros (_ & [X|(st' & X & Y)]); exfalso; [intuition discriminate|]. injection X as <-. apply St in Y. congruence.
  - assert (K : ~ complete_credentials creds) by (rewrite <- C; discriminate). cbn.
    repeat split; try discriminate; try tauto.
Qed.
Print Assumptions C71_upload.

(** Refuted: every failure of a transport is a TransportError; and a normal return means a
    status of 2xx. *)
Theorem C71_transport_errors_refuted n url d :
  (exists r, snd (send n (OAuth url [] r) d) = Raised RequestErr) /\
  (exists r, snd (send n (OAuth url [] r) d) = Raised AttributeErr) /\
  (exists creds r, snd (send n (OAuth url creds r) d) = Raised KeyErr) /\
  (exists st, ~ (200 <= st < 300)%N /\ snd (send n (OAuth url [] (Status st)) d) = Done).
Proof.
  repeat split.
  - now exists OtherError.
  - now exists NoResponse.
  - exists [(T "token_key", T "x")], Timeout. reflexivity.
  - exists 304%N. split; [lia|reflexivity].
Qed.
Print Assumptions C71_transport_errors_refuted.

(** With a stream, a transport that returns normally has delivered all of it. *)
Definition delivered (t : transport) (l : list event) (s : bytes) : Prop :=
  match t with
  | OAuth url _ _ => l = [Posted url s]
  | ToStream => exists u, Forall scalar u /\ utf8_text u = s /\ shown l = u
  | ToFile p _ _ => forall c c', holds p l c c' <-> c' = s
  end.
Theorem C71_sent_means_delivered n t s : 0 < n ->
  snd (send n t (Stream s)) = Done -> delivered t (fst (send n t (Stream s))) s.
Proof.
  intros N D. destruct t as [url creds r| |p opens room].
  - destruct (C71_upload n url creds r (Stream s)) as (A & _ & _ & B). apply A in D as [K _]. exact (B K).
  - cbn [send] in *. destruct (C71_stream_transport s) as [A B]. destruct (translated true s) as [u|] eqn:E.
    + apply translated_some in E as [F E]. exists u. split; [assumption|]. split; [assumption|]. rewrite (A u F E). cbn [fst].
      destruct u as [|c u]; [reflexivity|]. unfold shown. cbn [map concat]. apply app_nil_r.
    + rewrite (B (proj1 (translated_none s) E)) in D. discriminate.
  - destruct (C71_file_transport n p opens room s N) as (_ & _ & C). exact (C D).
Qed.
Print Assumptions C71_sent_means_delivered.

(** Refuted: bytes can be given instead of a stream.  Neither of the other two transports
    takes them, and the file transport empties the file first. *)
Theorem C71_bytes_refuted n s :
  send n ToStream (Bytes s) = ([], Raised AttributeErr) /\
  forall p room c, send n (ToFile p true room) (Bytes s) = ([Emptied p], Raised AttributeErr) /\
    holds p (fst (send n (ToFile p true room) (Bytes s))) c [].
Proof. split; [reflexivity|]. intros p room c. split; [reflexivity|]. cbn. apply holds_emptied. constructor. Qed.
Print Assumptions C71_bytes_refuted.

(** ** Being marked as submitted *)
Definition no_marks (l : list event) : Prop := ~ In Marked l /\ ~ In Saved l /\ ~ In Reported l.
Lemma copy_text_marks same l : no_marks (fst (copy_text same l)).
Proof.
  unfold no_marks. induction l as [|s l IH]; cbn [copy_text]; [cbn; tauto|]. destruct (translated same s); [|cbn; tauto].
  cbn. intuition discriminate.
Qed.
Lemma copy_file_marks p room l : no_marks (fst (copy_file p room l)).
Proof. repeat split; intros I; apply copy_file_events in I as [s E]; discriminate. Qed.
Lemma send_marks n t d : no_marks (fst (send n t d)).
Proof.
  destruct t as [url creds r| |p opens room]; cbn [send].
  - unfold oauth_send. destruct (negb _); [cbn; unfold no_marks; cbn; tauto|].
    destruct r as [| | | | |st]; try destruct (status_raises st) eqn:E; unfold no_marks; cbn; rewrite ?E; cbn; intuition discriminate.
  - destruct d; [unfold no_marks; cbn; tauto|]. apply copy_text_marks.
  - unfold file_send. destruct (negb opens); [unfold no_marks; cbn; tauto|]. destruct d; [unfold no_marks; cbn; intuition discriminate|].
    pose proof (copy_file_marks p room (reads_of (Some n) s)) as (A & B & C). unfold no_marks. cbn. intuition discriminate.
Qed.

(** The assistant marks a session as submitted exactly when the transport returned
    normally (and it was not marked before). *)
Theorem C71_marked_when_sent n t marked s :
  In Marked (fst (export_to_transport n t marked s)) <-> marked = false /\ snd (send n t (Stream s)) = Done.
Proof.
  unfold export_to_transport, before. destruct (send_marks n t (Stream s)) as (A & _ & _).
  destruct (snd (send n t (Stream s))) eqn:E.
  - cbn [fst]. rewrite in_app_iff. destruct marked; cbn; [intuition discriminate|]. intuition.
  - cbn [fst]. intuition discriminate.
Qed.
Print Assumptions C71_marked_when_sent.

(** Whenever it stops, a session marked as submitted, in memory or on disk, was sent
    completely before. *)
Theorem C71_marked_after_sending n t marked s l : 0 < n ->
  stopped (fst (export_to_transport n t marked s)) l -> In Marked l \/ In Saved l ->
  In Marked l /\ exists l', l = fst (send n t (Stream s)) ++ l' /\ delivered t (fst (send n t (Stream s))) s.
Proof.
  intros N S M. unfold export_to_transport, before in S. destruct (send_marks n t (Stream s)) as (A & B & _).
  pose proof (C71_sent_means_delivered n t s N) as D. set (ev := fst (send n t (Stream s))) in *. clearbody ev.
  assert (P : forall l1 l2, In Marked l1 \/ In Saved l1 -> ev ++ [Marked; Saved] = l1 ++ l2 -> In Marked l1 /\ exists l', l1 = ev ++ l').
  { clear - A B. intros l1 l2 M E. assert (Q : exists w, (ev = l1 ++ w) \/ (l1 = ev ++ w /\ [Marked; Saved] = w ++ l2)).
    { clear M A B. revert l1 E. induction ev as [|e ev IH]; intros l1 E; [exists l1; right; now split|].
      destruct l1 as [|e' l1]; [exists (e :: ev); now left|]. cbn [app] in E. injection E as <- E. destruct (IH l1 E) as (w & [->|[-> W]]).
      - exists w. now left.
      - exists w. right. now split. }
    destruct Q as (w & [->|[-> W]]).
    - exfalso. rewrite in_app_iff in A, B. tauto.
    - split; [|now exists w]. apply in_or_app. right. destruct w as [|x w].
      + exfalso. rewrite app_nil_r in M. tauto.
      + injection W as <- _. now left. }
  destruct (snd (send n t (Stream s))) eqn:E.
  - cbn [fst] in S. destruct marked; cbn [mark fst] in S.
    + exfalso. rewrite app_nil_r in S. destruct S as [a b|a q u v b].
      * rewrite in_app_iff in A, B. tauto.
      * rewrite !in_app_iff in M. rewrite in_app_iff in A, B. cbn in M.
        destruct M as [[M|[M|[]]]|[M|[M|[]]]]; discriminate || tauto.
    + remember (ev ++ [Marked; Saved]) as x eqn:Ex in S. destruct S as [a b|a q u v b].
      * destruct (P a b M (eq_sym Ex)) as [Ma (l' & ->)]. split; [assumption|]. exists l'. split; [reflexivity|auto].
      * assert (Ma : In Marked a \/ In Saved a) by (rewrite !in_app_iff in M; cbn in M; intuition discriminate).
        destruct (P a _ Ma (eq_sym Ex)) as [Ma' (l' & ->)]. split; [apply in_or_app; now left|]. exists (l' ++ [Appended q u]).
        split; [symmetry; apply app_assoc|auto].
  - exfalso. cbn [fst] in S. destruct S as [a b|a q u v b].
    + rewrite in_app_iff in A, B. tauto.
    + rewrite !in_app_iff in M. rewrite in_app_iff in A, B. cbn in M.
        destruct M as [[M|[M|[]]]|[M|[M|[]]]]; discriminate || tauto.
Qed.
Print Assumptions C71_marked_after_sending.

(** plainbox run marks the session also when nothing was sent: exactly when the results
    were saved or printed, and the transport - if there is one - returned normally or
    raised TransportError. *)
Lemma save_marks n o s : no_marks (fst (save_results n o s)).
Proof.
  destruct o as [same|p room]; cbn [save_results]; [|apply copy_file_marks].
  pose proof (copy_text_marks same (reads_of (Some n) s)) as (A & B & C). unfold no_marks. cbn. intuition discriminate.
Qed.
Theorem C71_run_marks n o t s :
  In Marked (fst (end_of_run n o t s)) <->
  snd (save_results n o s) = Done /\
  (t = None \/ exists t', t = Some t' /\ (snd (send n t' (Bytes s)) = Done \/ snd (send n t' (Bytes s)) = Raised TransportErr)).
Proof.
  unfold end_of_run, export_and_send. destruct (save_marks n o s) as (A & _ & _).
  destruct (save_results n o s) as [ev [|e]]; cbn [fst snd] in A; unfold before; cbn [fst snd].
  2: { split; [intros I; contradiction|now intros []]. }
  destruct t as [t'|]; cbn [fst snd].
  - destruct (send_marks n t' (Bytes s)) as (B & _ & _). destruct (send n t' (Bytes s)) as [ev' [|e]] eqn:E; cbn [fst snd] in *.
    + split; [|intros _; rewrite !in_app_iff; right; now left]. intros _. split; [reflexivity|]. right. exists t'. rewrite E. now split; [|left].
    + destruct e; cbn [fst snd];
        try (split; [intros I; exfalso; apply in_app_iff in I; tauto|intros [_ [X|(t & X & Y)]]; [discriminate|]; injection X as <-; rewrite E in Y; cbn in Y; intuition discriminate]).
      split; [|intros _; rewrite !in_app_iff; right; now left]. intros _. split; [reflexivity|]. right. exists t'. rewrite E. now split; [|right].
  - split; [|intros _; rewrite !in_app_iff; right; now left]. intros _. split; [reflexivity|now left].
Qed.
Print Assumptions C71_run_marks.

(** Refuted: a session that plainbox run marks as submitted has been submitted.  Any
    failed upload is printed and the session is marked and saved, and the run ends well. *)
Theorem C71_marked_means_submitted_refuted n o url r s :
  snd (save_results n o s) = Done ->
  In r [Timeout; InvalidSchema; NoConnection] \/ (exists st, r = Status st /\ (400 <= st < 600)%N) ->
  end_of_run n o (Some (OAuth url [] r)) s =
  (fst (save_results n o s) ++ [Posted url s; Reported; Marked; Saved], Done).
Proof.
  intros D R. unfold end_of_run, export_and_send. destruct (save_results n o s) as [ev oc]. cbn in D. subst oc.
  destruct (C71_upload n url [] r (Bytes s)) as (_ & A & _ & B).
  assert (K : complete_credentials []) by now left.
  assert (E : send n (OAuth url [] r) (Bytes s) = ([Posted url s], Raised TransportErr)).
  { rewrite (surjective_pairing (send n (OAuth url [] r) (Bytes s))). f_equal; [now apply B|]. apply A. now split. }
  rewrite E. unfold before. cbn [fst snd]. rewrite <- app_assoc. reflexivity.
Qed.
Print Assumptions C71_marked_means_submitted_refuted.

(** Refuted: plainbox run can send to a file or a stream.  The run ends with
    AttributeError, and the file is empty. *)
Theorem C71_run_to_file_refuted n o p room s c : snd (save_results n o s) = Done ->
  snd (end_of_run n o (Some ToStream) s) = Raised AttributeErr /\
  snd (end_of_run n o (Some (ToFile p true room)) s) = Raised AttributeErr /\
  exists l, fst (end_of_run n o (Some (ToFile p true room)) s) = l ++ [Emptied p] /\
    forall c', holds p l c c' -> holds p (l ++ [Emptied p]) c [].
Proof.
  intros D. unfold end_of_run, export_and_send. destruct (save_results n o s) as [ev oc]. cbn in D. subst oc.
  split; [reflexivity|]. split; [reflexivity|]. exists ev. split; [reflexivity|]. intros c' H.
  eapply holds_app; [eassumption|]. apply holds_emptied. constructor.
Qed.
Print Assumptions C71_run_to_file_refuted.

(** ** The output file of plainbox run *)

(** When the run got to its end without a transport and did not fail, the file holds the
    results. *)
Theorem C71_output_file n p room s c : 0 < n ->
  let r := whole_run n (OutFile p room) None s true in
  (snd r = Done <-> forall k, room = Some k -> length s <= k) /\
  (snd r = Done -> holds p (fst r) c s) /\
  (In Marked (fst r) <-> snd r = Done).
Proof.
  intros N. cbv zeta. unfold whole_run, end_of_run, export_and_send. cbn [save_results].
  set (w := reads_of (Some n) s). assert (C : concat w = s) by (apply reads_of_concat; intros E; injection E as ->; lia).
  pose proof (copy_file_holds p room w []) as H. pose proof (copy_file_outcome p room w) as O. pose proof (copy_file_marks p room w) as (M & _ & _).
  rewrite C in H, O. cbn [app] in H. destruct (copy_file p room w) as [ev oc]. cbn [fst snd] in *. subst oc.
  assert (K : match room with Some k => if length s <=? k then Done else Raised OSErr | None => Done end = Done <-> forall k, room = Some k -> length s <= k).
  { destruct room as [k|]; [|split; [discriminate|reflexivity]]. destruct (Nat.leb_spec (length s) k) as [L|L]; split; try discriminate.
    - intros _ k' E. now injection E as <-.
    - reflexivity.
    - intros X. specialize (X k eq_refl). lia. }
  unfold before. cbn [fst snd just].
  destruct (match room with Some k => if length s <=? k then Done else Raised OSErr | None => Done end) eqn:E; cbn [fst snd].
  - split; [exact K|]. split.
    + intros _. apply holds_emptied. rewrite app_nil_r. eapply holds_app.
      * assert (X : (match room with Some k => firstn k s | None => s end) = s).
        { destruct room as [k|]; [|reflexivity]. apply firstn_all2. exact (proj1 K eq_refl k eq_refl). }
        rewrite X in H. exact H.
      * apply holds_other; [discriminate|discriminate|]. apply holds_other; [discriminate|discriminate|]. constructor.
    + split; [reflexivity|]. intros _. rewrite !in_app_iff. right. right. now left.
  - split; [exact K|]. split; [discriminate|]. split; [|discriminate]. cbn. intros [X|X]; [discriminate|]. contradiction.
Qed.
Print Assumptions C71_output_file.

(** Refuted: the output file is left alone until there are results.  A run that does not
    get to its end has emptied it. *)
Theorem C71_output_file_kept_refuted n p room t s c : holds p (fst (whole_run n (OutFile p room) t s false)) c [].
Proof. cbn. apply holds_emptied. constructor. Qed.
Print Assumptions C71_output_file_kept_refuted.

(** ** Exporting to a file or a stream of the application *)
Theorem C71_export_to_file p opens room l :
  let r := export_to_file p opens room l in
  (snd r = Done <-> opens = true /\ forall k, room = Some k -> length (concat l) <= k) /\
  (snd r <> Done -> snd r = Raised OSErr) /\
  (snd r = Done -> forall c c', holds p (fst r) c c' <-> c' = concat l) /\
  ~ In Marked (fst r).
Proof.
  cbv zeta. unfold export_to_file. destruct opens.
  2: { cbn. split; [split; [discriminate|now intros []]|]. split; [reflexivity|]. split; [discriminate|tauto]. }
  change (snd (before (just (Emptied p)) (copy_file p room l))) with (snd (copy_file p room l)).
  change (fst (before (just (Emptied p)) (copy_file p room l))) with (Emptied p :: fst (copy_file p room l)).
  rewrite copy_file_outcome. split; [|split; [|split]].
  - destruct room as [k|]; [|split; [intros _; split; [reflexivity|discriminate]|reflexivity]].
    destruct (Nat.leb_spec (length (concat l)) k) as [L|L]; split; try discriminate.
    + intros _. split; [reflexivity|]. intros k' E. now injection E as <-.
    + reflexivity.
    + intros [_ H]. specialize (H k eq_refl). lia.
  - destruct room as [k|]; [|congruence]. destruct (length (concat l) <=? k); congruence.
  - intros D c c'. assert (H : holds p (Emptied p :: fst (copy_file p room l)) c (concat l)).
    { apply holds_emptied. pose proof (copy_file_holds p room l []) as H. cbn [app] in H.
      destruct room as [k|]; [|assumption]. destruct (Nat.leb_spec (length (concat l)) k); [|discriminate]. now rewrite firstn_all2 in H. }
    split; [intros H'; eapply holds_fun; eassumption|]. now intros ->.
  - intros [E|I]; [discriminate|]. apply (proj1 (copy_file_marks p room l)). exact I.
Qed.
Print Assumptions C71_export_to_file.
Theorem C71_export_to_stream p room marked l c :
  let r := export_to_stream p room marked l in
  (snd r = Done <-> forall k, room = Some k -> length (concat l) <= k) /\
  (snd r = Done -> holds p (fst r) c (c ++ concat l)) /\
  (In Marked (fst r) <-> marked = false /\ snd r = Done).
Proof.
  cbv zeta. unfold export_to_stream. pose proof (copy_file_holds p room l c) as H. pose proof (copy_file_outcome p room l) as O.
  pose proof (copy_file_marks p room l) as (M & _ & _). destruct (copy_file p room l) as [ev oc]. cbn [fst snd] in *. subst oc.
  assert (K : match room with Some k => if length (concat l) <=? k then Done else Raised OSErr | None => Done end = Done <-> forall k, room = Some k -> length (concat l) <= k).
  { destruct room as [k|]; [|split; [discriminate|reflexivity]]. destruct (Nat.leb_spec (length (concat l)) k) as [L|L]; split; try discriminate.
    - intros _ k' E. now injection E as <-.
    - reflexivity.
    - intros X. specialize (X k eq_refl). lia. }
  unfold before. cbn [fst snd].
  destruct (match room with Some k => if length (concat l) <=? k then Done else Raised OSErr | None => Done end) eqn:E; cbn [fst snd].
  - assert (X : (match room with Some k => firstn k (concat l) | None => concat l end) = concat l).
    { destruct room as [k|]; [|reflexivity]. apply firstn_all2. exact (proj1 K eq_refl k eq_refl). }
    rewrite X in H. destruct marked; cbn [mark fst snd].
    + split; [exact K|]. rewrite app_nil_r. split; [auto|]. split; [intros I; contradiction|intros [Y _]; discriminate].
    + split; [exact K|]. split.
      * intros _. eapply holds_app; [exact H|]. apply holds_other; [discriminate|discriminate|]. apply holds_other; [discriminate|discriminate|]. constructor.
      * split; [now intros _|]. intros _. apply in_or_app. right. now left.
  - split; [exact K|]. split; [discriminate|]. split; [intros I; contradiction|now intros []].
Qed.
Print Assumptions C71_export_to_stream.

(** ** Options of a transport *)

(** An option string is accepted exactly when it is empty or a list of key=value, and the
    last value of a key counts. *)
Theorem C71_options s : s <> [] ->
  ((exists d, parse_options (Some s) = Some d) <-> exists l, means_options s l) /\
  (forall l d, means_options s l -> parse_options (Some s) = Some d ->
     NoDup (map fst d) /\ forall k v, In (k, v) d <-> last_value l k v).
Proof.
  intros N. destruct s as [|c0 s0]; [congruence|]. set (s := c0 :: s0) in *. clearbody s. clear c0 s0.
  destruct (split_comma_spec s) as [J F].
  assert (P : forall l, means_options s l -> split_comma s = map pair_text l).
  { intros l (Nl & Cl & ->). apply split_comma_joined; [now destruct l|]. apply Forall_forall. intros p I. apply in_map_iff in I as (kv & <- & I).
    rewrite Forall_forall in Cl. destruct (Cl kv I) as (A & B & C). unfold pair_text. rewrite in_app_iff. cbn. intuition discriminate. }
  assert (Ex : forall l, means_options s l -> existsb (Ascii.eqb "="%char) s = true).
  { intros l (Nl & Cl & ->). apply existsb_exists. exists "="%char. split; [|apply Ascii.eqb_refl].
    destruct l as [|[k v] l]; [congruence|]. cbn [map]. destruct (map pair_text l); cbn [joined]; unfold pair_text; cbn [fst snd].
    - apply in_or_app. right. now left.
    - apply in_or_app. left. apply in_or_app. right. now left. }
  assert (G : forall l, means_options s l -> exists d, parse_options (Some s) = Some d /\ NoDup (map fst d) /\ forall k v, In (k, v) d <-> last_value l k v).
  { intros l M. pose proof (P l M) as E. pose proof (Ex l M) as X. destruct M as (Nl & Cl & Ms).
    destruct (put_all_pairs l Cl [] (NoDup_nil _)) as (d & Ed & Nd & Id). exists d. split.
    - destruct s as [|c s]; [congruence|]. cbn [parse_options]. rewrite X, E, Ed. destruct d; [|reflexivity].
      exfalso. destruct l as [|kv l]; [congruence|]. cbn [map put_all] in Ed. destruct (split_once (pair_text kv)) as [[k v]|]; [|discriminate].
      apply put_all_not_nil in Ed; [contradiction|discriminate].
    - split; [assumption|]. intros k v. rewrite Id. cbn. tauto. }
  split.
  - split.
    + intros (d & E). destruct s as [|c s]; [congruence|]. cbn [parse_options] in E.
      destruct (existsb (Ascii.eqb "="%char) (c :: s)); [|discriminate].
      destruct (put_all [] (split_comma (c :: s))) as [d'|] eqn:Q; [|discriminate].
      destruct (put_all_accepts _ F _ _ Q) as (l & Fl & El). exists l. split; [|split; [assumption|now rewrite <- El]].
      intros ->. cbn [map] in El. now apply split_comma_not_nil in El.
    + intros (l & M). destruct (G l M) as (d & E & _). now exists d.
  - intros l d M E. destruct (G l M) as (d' & E' & Nd & Id). rewrite E in E'. injection E' as <-. now split.
Qed.
Print Assumptions C71_options.
Theorem C71_no_options : parse_options None = Some [] /\ parse_options (Some []) = Some [].
Proof. now split. Qed.

(** ** Cases *)
Example C71_case_options :
  parse_options (Some (T "secure_id=a1=b,x=,secure_id=2")) = Some [(T "secure_id", T "2"); (T "x", T "")] /\
  parse_options (Some (T "a=1,b")) = None /\ parse_options (Some (T "abc")) = None /\ parse_options (Some (T "a=1,")) = None.
Proof. repeat split; vm_compute; reflexivity. Qed.
Example C71_case_printed : let t := map N_of_ascii (T "ab") ++ [233%N; 8364%N] in
  save_results 4 (Stdout true) (utf8_text t) = ([Printed header; Printed [97%N; 98%N; 233%N]; Printed [8364%N]], Done) /\
  cut_between_characters 4 t.
Proof.
  cbv zeta. split; [vm_compute; reflexivity|]. 
  assert (F : Forall scalar (map N_of_ascii (T "ab") ++ [233%N; 8364%N])) by (repeat constructor).
  apply (proj1 (C71_printed 4 _ ltac:(lia) F)). vm_compute. reflexivity.
Qed.
Example C71_case_transport :
  export_to_transport 2 (OAuth (T "http://x") [] (Status 200)) false (T "abc") = ([Posted (T "http://x") (T "abc"); Marked; Saved], Done) /\
  export_to_transport 2 (ToFile (T "f") true (Some 2)) false (T "abc") = ([Emptied (T "f"); Appended (T "f") (T "ab"); Appended (T "f") []], Raised OSErr) /\
  export_to_transport 2 (ToFile (T "f") true None) true (T "abc") = ([Emptied (T "f"); Appended (T "f") (T "ab"); Appended (T "f") (T "c")], Done).
Proof. repeat split; vm_compute; reflexivity. Qed.
