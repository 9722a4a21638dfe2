(** * C78: messages arrive whole, in order, or not at all *)
From Coq Require Import String Ascii List Bool Arith NArith ZArith Lia Permutation.
From Verif Require Import ScanModel IologModel IniModel BrineModel BrineSpec BrineProofs BrineLoad BrineProps ChannelModel ChannelSpec.
Import ListNotations.
Local Open Scope nat_scope.
Local Open Scope list_scope.

(** ** Streams *)
Section S.
  Variable limit : nat.
  Variable patient : bool.
  Hypothesis limit_ok : 0 < limit.

  (** A read returns exactly the bytes asked for, the next ones, however they come in,
      and leaves the others. *)
  Theorem C78_read es count src d rest es' : read_stream limit patient es count src = Got d rest es' ->
    src = d ++ rest /\ length d = count.
  Proof.
    revert count src d rest es'. induction es as [|e es IH]; intros count src d rest es'; destruct count as [|c];
      cbn [read_stream]; try (intros H; injection H as <- <- <-; now split); try discriminate.
    destruct e as [n| | | |]; try discriminate.
    - set (k := Nat.min (Nat.min limit (S c)) (Nat.min (S n) (length src))). cbv zeta. destruct k as [|k'] eqn:K; [discriminate|].
      rewrite <- K. destruct (read_stream limit patient es (S c - k) (skipn k src)) as [d1 r1 e1| |] eqn:R; try discriminate.
      intros H. injection H as <- <- <-. apply IH in R as [R L]. split.
      + rewrite <- app_assoc, <- R. symmetry. apply firstn_skipn.
      + rewrite app_length, firstn_length, L. lia.
    - destruct patient; [apply IH|discriminate].
    - destruct patient; [apply IH|discriminate].
  Qed.
  (** Only a connection that broke makes it fail. *)
  Theorem C78_read_fails es count src : read_stream limit patient es count src = Eof -> ~ unbroken patient es.
  Proof.
    revert count src. induction es as [|e es IH]; intros count src; destruct count as [|c]; cbn [read_stream]; try discriminate.
    destruct e as [n| | | |].
    - cbv zeta. destruct (Nat.min (Nat.min limit (S c)) (Nat.min (S n) (length src))); [discriminate|].
      destruct (read_stream limit patient es _ _) eqn:R; try discriminate. intros _ U. apply (IH _ _ R). intros e I. apply U. now right.
    - intros _ U. apply (U Closed). now left.
    - destruct patient eqn:P; intros R U; [|discriminate (U Timeout (or_introl eq_refl))]. apply (IH _ _ R). intros e I. apply U. now right.
    - destruct patient eqn:P; intros R U; [|discriminate (U Again (or_introl eq_refl))]. apply (IH _ _ R). intros e I. apply U. now right.
    - intros _ U. apply (U Failed). now left.
  Qed.
  (** It does return when the bytes are there and go on coming. *)
  Theorem C78_read_ends es count src : unbroken patient es -> count <= length src -> count <= arrivals es ->
    exists d rest es', read_stream limit patient es count src = Got d rest es' /\
      unbroken patient es' /\ arrivals es <= arrivals es' + count.
  Proof.
    revert count src. induction es as [|e es IH]; intros count src U L A; destruct count as [|c]; cbn [read_stream];
      try (do 3 eexists; split; [reflexivity|]; split; [exact U|lia]).
    - cbn in A. lia.
    - assert (U' : unbroken patient es) by (intros x I; apply U; now right).
      destruct e as [n| | | |].
      + cbv zeta. set (k := Nat.min (Nat.min limit (S c)) (Nat.min (S n) (length src))).
        assert (1 <= k <= S c) by lia. assert (k <= length src) by lia. destruct k as [|k'] eqn:K; [lia|]. rewrite <- K in *.
        unfold arrivals in A. cbn in A. fold (arrivals es) in A.
        destruct (IH (S c - k) (skipn k src)) as (d & r & e' & E & V & B); [exact U'|rewrite skipn_length; lia|lia|].
        rewrite E. do 3 eexists. split; [reflexivity|]. split; [exact V|]. unfold arrivals at 1. cbn. fold (arrivals es). lia.
      + destruct (U Closed (or_introl eq_refl)).
      + pose proof (U Timeout (or_introl eq_refl)) as Pt. cbn in Pt. destruct (IH (S c) src U' L A) as (d & r & e' & E & V & B).
        exists d, r, e'. split; [rewrite <- E; now rewrite Pt|]. now split.
      + pose proof (U Again (or_introl eq_refl)) as Pt. cbn in Pt. destruct (IH (S c) src U' L A) as (d & r & e' & E & V & B).
        exists d, r, e'. split; [rewrite <- E; now rewrite Pt|]. now split.
      + destruct (U Failed (or_introl eq_refl)).
  Qed.

  (** A write hands over the beginning of the data, and all of it when it returns,
      whatever the pieces that were taken. *)
  Theorem C78_write es data out r : write_stream limit es data = (out, r) ->
    starts_with data out /\ (forall es', r = Put es' -> out = data) /\ (r = Put_eof -> ~ accepting es).
  Proof.
    revert data out r. induction es as [|e es IH]; intros data out r; destruct data as [|c data]; cbn [write_stream].
    - intros H. injection H as <- <-. split; [now exists []|]. split; [reflexivity|discriminate].
    - intros H. injection H as <- <-. split; [now exists (c :: data)|]. split; discriminate.
    - intros H. injection H as <- <-. split; [now exists []|]. split; [reflexivity|discriminate].
    - destruct e as [n|].
      + cbv zeta. set (k := Nat.min (S n) (length (firstn limit (c :: data)))).
        destruct (write_stream limit es (skipn k (c :: data))) as [out1 r1] eqn:W. intros H. injection H as <- <-.
        apply IH in W as ((t & S1) & A & B).
        assert (K : firstn k (firstn limit (c :: data)) = firstn k (c :: data)).
        { rewrite firstn_firstn. f_equal. unfold k. rewrite firstn_length. lia. }
        rewrite K. split; [|split].
        * exists t. rewrite <- app_assoc, <- S1. symmetry. apply firstn_skipn.
        * intros es' E. rewrite (A es' E). apply firstn_skipn.
        * intros E I. apply (B E). intros J. apply I. now right.
      + intros H. injection H as <- <-. split; [now exists (c :: data)|]. split; [discriminate|]. intros _ I. apply I. now left.
  Qed.
  Theorem C78_write_ends es data : accepting es -> length data <= length es ->
    exists es', write_stream limit es data = (data, Put es') /\ accepting es' /\ length es <= length es' + length data.
  Proof.
    revert data. induction es as [|e es IH]; intros data A L.
    - destruct data; [|cbn in L; lia]. exists []. split; [reflexivity|]. split; [exact A|cbn; lia].
    - destruct data as [|c data]; [exists (e :: es); split; [reflexivity|]; split; [exact A|cbn; lia]|].
      destruct e as [n|]; [|exfalso; apply A; now left]. cbn [write_stream]. cbv zeta.
      set (k := Nat.min (S n) (length (firstn limit (c :: data)))).
      assert (1 <= k) by (unfold k; rewrite firstn_length; cbn [length]; lia).
      assert (k <= length (c :: data)) by (unfold k; rewrite firstn_length; lia).
      destruct (IH (skipn k (c :: data))) as (e' & E & B & M).
      { intros I. apply A. now right. } { rewrite skipn_length. cbn [length] in *. lia. }
      exists e'. rewrite E. assert (K : firstn k (firstn limit (c :: data)) = firstn k (c :: data)).
      { rewrite firstn_firstn. f_equal. unfold k. rewrite firstn_length. lia. }
      rewrite K, firstn_skipn. split; [reflexivity|]. split; [exact B|]. rewrite skipn_length in M. cbn [length] in *. lia.
  Qed.
End S.

(** ** Messages *)
Lemma app_split {A} (a b c d : list A) : a ++ b = c ++ d -> length a = length c -> a = c /\ b = d.
Proof.
  revert c. induction a as [|x a IH]; intros [|y c] H L; cbn in *; try lia; [now split|].
  injection H as -> H. destruct (IH c H) as [-> ->]; [lia|now split].
Qed.
Section M.
  Variable limit limit' : nat.
  Variable patient : bool.
  Variable deflate : bytes -> bytes.
  Variable inflate : bytes -> option bytes.
  Hypothesis limit_ok : 0 < limit.
  Hypothesis limit_ok' : 0 < limit'.
  (** zlib gives back what it was given *)
  Hypothesis zlib : forall d, inflate (deflate d) = Some d.
  Notation frame := (frame deflate).
  Notation recv := (recv inflate limit patient).
  Notation recv_all := (recv_all inflate).
  Notation send_all := (send_all deflate limit').

  Lemma frame_shape compress m f : frame compress m = Ok f -> exists (z : bool) d,
    f = pack 4 (N.of_nat (length d)) ++ [byte (if z then 1 else 0)%N] ++ d ++ [FLUSHER] /\
    (N.of_nat (length d) < 256 ^ N.of_nat 4)%N /\ (if z then inflate d else Some d) = Some m.
  Proof.
    unfold ChannelModel.frame. cbv zeta. set (z := compress && _). intros H. apply packs in H as [L H].
    exists z, (if z then deflate m else m). split; [inversion H; reflexivity|]. split; [exact L|]. destruct z; [apply zlib|reflexivity].
  Qed.
  Lemma recv_frame compress m f tail src F es : frame compress m = Ok f -> src ++ tail = f ++ F ->
    match recv es src with
    | Received d rest _ => d = m /\ rest ++ tail = F
    | No_inflate => False
    | _ => True
    end.
  Proof.
    intros H E. apply frame_shape in H as (z & d & -> & L & I). unfold ChannelModel.recv.
    destruct (read_stream limit patient es 5 src) as [h r1 e1| |] eqn:R1; [|exact Logic.I|exact Logic.I].
    apply C78_read in R1 as [-> L1]; [|exact limit_ok].
    assert (G : h = pack 4 (N.of_nat (length d)) ++ [byte (if z then 1 else 0)%N] /\ r1 ++ tail = d ++ [FLUSHER] ++ F).
    { apply app_split; [|rewrite app_length, pack_length; cbn; lia]. rewrite <- !app_assoc in *. exact E. }
    destruct G as [-> G].
    rewrite firstn_app, skipn_app, pack_length, Nat.sub_diag. rewrite firstn_all2, skipn_all2 by (rewrite pack_length; lia).
    cbn [firstn skipn app]. rewrite app_nil_r, unpack_pack by exact L. cbv zeta. rewrite Nat2N.id.
    destruct (read_stream limit patient e1 (length d + 1) r1) as [b r2 e2| |] eqn:R2; [|exact Logic.I|exact Logic.I].
    apply C78_read in R2 as [-> L2]; [|exact limit_ok].
    assert (K : b = d ++ [FLUSHER] /\ r2 ++ tail = F).
    { apply app_split; [|rewrite app_length; cbn; lia]. rewrite <- !app_assoc in *. exact G. }
    destruct K as [-> K]. rewrite removelast_last.
    destruct z; cbn in *; [rewrite I|injection I as <-]; now split.
  Qed.
  (** What is received next of a frame and anything behind it is the message. *)
  Theorem C78_receive compress m f es src : frame compress m = Ok f ->
    match recv es (f ++ src) with
    | Received d rest _ => d = m /\ rest = src
    | No_inflate => False
    | Recv_eof => ~ unbroken patient es
    | Recv_blocked => True
    end.
  Proof.
    intros H. pose proof (recv_frame compress m f [] (f ++ src) src es H (app_nil_r _)) as R.
    unfold ChannelModel.recv in *. destruct (read_stream limit patient es 5 (f ++ src)) as [h r1 e1| |] eqn:R1; [| |exact I].
    - cbv zeta in *. destruct (read_stream limit patient e1 _ r1) as [b r2 e2| |] eqn:R2; [| |exact I].
      + destruct (negb _); [destruct (inflate (removelast b))|]; try exact R; destruct R as [-> R]; rewrite app_nil_r in R; now split.
      + intros U. apply (C78_read_fails limit patient e1 _ _ R2). clear R R2. intros e I.
        assert (S : forall es count s d rest es', read_stream limit patient es count s = Got d rest es' -> incl es' es).
        { clear. induction es as [|e es IH]; intros [|c] s d rest es'; cbn [read_stream]; try (intros H; injection H as <- <- <-; apply incl_refl); try discriminate.
          destruct e as [n| | | |]; try discriminate.
          - cbv zeta. destruct (Nat.min _ _); [discriminate|]. destruct (read_stream limit patient es _ _) eqn:R; try discriminate.
            intros H. injection H as <- <- <-. apply incl_tl. eapply IH; eauto.
          - destruct patient; [|discriminate]. intros H. apply incl_tl. eapply IH; eauto.
          - destruct patient; [|discriminate]. intros H. apply incl_tl. eapply IH; eauto. }
        apply U. eapply S; eauto.
    - now apply (C78_read_fails limit patient es _ _ R1).
  Qed.

  Lemma send_all_shape compress msgs : forall ws, exists t F l, send_all compress ws msgs ++ t = concat F /\
    Forall2 (fun m f => frame compress m = Ok f) l F /\ starts_with msgs l.
  Proof.
    induction msgs as [|m msgs IH]; intros ws; cbn [ChannelModel.send_all].
    - exists [], [], []. split; [reflexivity|]. split; [constructor|now exists []].
    - destruct (frame compress m) as [f|e|] eqn:Ef.
      + destruct (write_stream limit' ws f) as [out r] eqn:W. apply C78_write in W as ((t & S1) & A & _); [|exact limit_ok'].
        assert (stop : exists t F l, out ++ t = concat F /\ Forall2 (fun m f => frame compress m = Ok f) l F /\ starts_with (m :: msgs) l).
        { exists t, [f], [m]. split; [cbn; now rewrite app_nil_r|]. split; [now repeat constructor|now exists msgs]. }
        destruct r as [ws'| |]; try exact stop.
        rewrite (A ws' eq_refl) in *. destruct (IH ws') as (t' & F & l & E & G & (r & ->)).
        exists t', (f :: F), (m :: l). split; [cbn; now rewrite <- app_assoc, E|]. split; [now constructor|now exists r].
      + exists [], [], []. split; [reflexivity|]. split; [constructor|now exists (m :: msgs)].
      + exists [], [], []. split; [reflexivity|]. split; [constructor|now exists (m :: msgs)].
  Qed.
  (** *** Both ends
      Whatever the pieces in which bytes are taken and handed over, wherever the
      connection breaks on either side: what is received are the messages that were
      sent, the first ones, each of them whole, and none other. *)
  Theorem C78_messages compress msgs ws rs fuel l r :
    recv_all fuel limit patient rs (send_all compress ws msgs) = (l, r) -> starts_with msgs l /\ r <> No_inflate.
  Proof.
    destruct (send_all_shape compress msgs ws) as (t & F & k & E & G & (x & ->)). revert E.
    generalize (send_all compress ws (k ++ x)) as src. intros src. revert rs fuel l r src.
    induction G as [|m f k F Ef G IH]; intros rs fuel l r src E; destruct fuel as [|fuel]; cbn [ChannelModel.recv_all];
      try (intros H; injection H as <- <-; split; [eexists; reflexivity|discriminate]).
    - cbn in E. apply app_eq_nil in E as [-> _]. unfold ChannelModel.recv.
      assert (N : forall es, match read_stream limit patient es 5 [] with Got _ _ _ => False | _ => True end).
      { intros es. destruct (read_stream limit patient es 5 []) as [d rest es'| |] eqn:R; [|exact I|exact I].
        apply C78_read in R as [R L]; [|exact limit_ok]. symmetry in R. apply app_eq_nil in R as [-> _]. discriminate. }
      specialize (N rs). destruct (read_stream limit patient rs 5 []); [destruct N| |];
        intros H; injection H as <- <-; split; [now exists ([] ++ x)|discriminate|now exists ([] ++ x)|discriminate].
    - cbn in E. pose proof (recv_frame compress m f t src (concat F) rs Ef E) as R.
      destruct (recv rs src) as [d rest es'| | |]; try (intros H; injection H as <- <-; split; [now eexists|discriminate]); [|destruct R].
      destruct R as [-> R]. destruct (recv_all fuel limit patient es' rest) as [l' r'] eqn:Q. intros H. injection H as <- <-.
      apply (IH es' fuel l' r' rest R) in Q as [(y & Y) Q]. split; [|exact Q]. exists y. cbn. now rewrite Y.
  Qed.
  (** *** And all of them, when nothing breaks *)
  Theorem C78_all_messages compress msgs ws rs : Forall (fun m => exists f, frame compress m = Ok f) msgs ->
    accepting ws -> unbroken patient rs ->
    (forall F, Forall2 (fun m f => frame compress m = Ok f) msgs F -> length (concat F) <= length ws /\ length (concat F) <= arrivals rs) ->
    forall fuel, length msgs <= fuel -> exists r, recv_all fuel limit patient rs (send_all compress ws msgs) = (msgs, r).
  Proof.
    intros A W U B. 
    assert (FF : exists F, Forall2 (fun m f => frame compress m = Ok f) msgs F).
    { clear - A. induction A as [|m msgs (f & E) A (F & IH)]; [exists []; constructor|exists (f :: F); now constructor]. }
    destruct FF as (F & G). destruct (B F G) as [B1 B2]. clear B A.
    assert (S : send_all compress ws msgs = concat F).
    { clear B2 U rs. revert ws W B1. induction G as [|m f msgs F E G IH]; intros ws W B1; [reflexivity|].
      cbn [ChannelModel.send_all concat] in *. rewrite app_length in B1. rewrite E.
      destruct (C78_write_ends limit' limit_ok' ws f W) as (ws' & Ew & W' & L); [lia|]. rewrite Ew. f_equal. apply IH; [exact W'|lia]. }
    rewrite S. clear S W B1 ws. revert rs U B2. induction G as [|m f msgs F E G IH]; intros rs U B2 fuel L.
    - destruct fuel as [|fuel]; [eexists; reflexivity|]. cbn [ChannelModel.recv_all concat]. unfold ChannelModel.recv.
      destruct (read_stream limit patient rs 5 []) as [d rest es'| |] eqn:R; [|eexists; reflexivity|eexists; reflexivity].
      apply C78_read in R as [R K]; [|exact limit_ok]. symmetry in R. apply app_eq_nil in R as [-> _]. discriminate.
    - destruct fuel as [|fuel]; [cbn in L; lia|]. cbn [length] in L. cbn [ChannelModel.recv_all concat] in *. rewrite app_length in B2.
      pose proof (recv_frame compress m f [] (f ++ concat F) (concat F) rs E (app_nil_r _)) as R.
      assert (Q : exists d rest es', recv rs (f ++ concat F) = Received d rest es' /\ unbroken patient es' /\ arrivals rs <= arrivals es' + length f).
      { apply frame_shape in E as (z & d & -> & Ld & Ez). unfold ChannelModel.recv in *.
        set (h := pack 4 (N.of_nat (length d)) ++ [byte (if z then 1 else 0)%N]).
        assert (EQ : (pack 4 (N.of_nat (length d)) ++ [byte (if z then 1 else 0)%N] ++ d ++ [FLUSHER]) ++ concat F = h ++ (d ++ [FLUSHER]) ++ concat F).
        { unfold h. now rewrite <- !app_assoc. }
        assert (LH : length h = 5) by (unfold h; rewrite app_length, pack_length; reflexivity).
        assert (LF : length (pack 4 (N.of_nat (length d)) ++ [byte (if z then 1 else 0)%N] ++ d ++ [FLUSHER]) = 5 + (length d + 1)).
        { rewrite !app_length, pack_length. cbn. lia. }
        rewrite LF in B2. rewrite LF. rewrite EQ in *. clear EQ.
        destruct (C78_read_ends limit patient limit_ok rs 5 (h ++ (d ++ [FLUSHER]) ++ concat F)) as (h' & r1 & e1 & R1 & U1 & A1);
          [exact U|rewrite app_length; lia|lia|].
        rewrite R1 in *. apply C78_read in R1 as [R1 L1]; [|exact limit_ok]. symmetry in R1. apply app_split in R1 as [-> ->]; [|lia].
        cbv zeta in *. unfold h in R |- *. rewrite firstn_app, skipn_app, pack_length, Nat.sub_diag in *.
        rewrite firstn_all2, skipn_all2 in * by (rewrite pack_length; lia). cbn [firstn skipn app] in *.
        rewrite app_nil_r, unpack_pack in * by exact Ld. rewrite Nat2N.id in *.
        destruct (C78_read_ends limit patient limit_ok e1 (length d + 1) ((d ++ [FLUSHER]) ++ concat F)) as (b & r2 & e2 & R2 & U2 & A2);
          [exact U1|rewrite !app_length; cbn; lia|lia|].
        rewrite R2 in *. apply C78_read in R2 as [R2 L2]; [|exact limit_ok]. symmetry in R2. apply app_split in R2 as [-> ->]; [|rewrite app_length; cbn; lia].
        rewrite removelast_last in *. destruct z; cbn in *; [rewrite Ez in *|]; (do 3 eexists; split; [reflexivity|]; split; [exact U2|lia]). }
      destruct Q as (d & rest & es' & Er & U' & A'). rewrite Er in *. destruct R as [-> R]. rewrite app_nil_r in R. subst rest.
      destruct (IH es' U') with (fuel := fuel) as (r & I); [lia|lia|]. rewrite I. eauto.
  Qed.
End M.
Print Assumptions C78_read.
Print Assumptions C78_read_fails.
Print Assumptions C78_read_ends.
Print Assumptions C78_write.
Print Assumptions C78_write_ends.
Print Assumptions C78_receive.
Print Assumptions C78_messages.
Print Assumptions C78_all_messages.

(** What is sent: the length, whether it is compressed, the data and a newline; up to
    3000 bytes, or without compression, the data are sent as they are. *)
Theorem C78_frame deflate compress m : (compress = false \/ (N.of_nat (length m) <= 3000)%N) -> (N.of_nat (length m) < 4294967296)%N ->
  frame deflate compress m = Ok (pack 4 (N.of_nat (length m)) ++ ["000"%char] ++ m ++ ["010"%char]).
Proof.
  intros C L. unfold frame. assert (E : compress && (3000 <? N.of_nat (length m))%N = false).
  { destruct C as [-> |C]; [reflexivity|]. destruct compress; [|reflexivity]. cbn. now apply N.ltb_ge. }
  rewrite E. cbv zeta. apply packs. split; [exact L|reflexivity].
Qed.
(** Through pipes a call that was interrupted counts as the end. *)
Theorem C78_pipe_waits_refuted :
  ~ (forall es, (forall e, In e es -> e <> Closed /\ e <> Failed) -> forall count src, pipe_read es count src <> Eof).
Proof.
  intros H. apply (H [Again]) with (count := 1) (src := T "x"); [|reflexivity].
  intros e [<- |[]]. split; discriminate.
Qed.
Theorem C78_socket_waits es : (forall e, In e es -> e <> Closed /\ e <> Failed) -> forall count src, socket_read es count src <> Eof.
Proof.
  intros H count src E. apply C78_read_fails in E. apply E. intros e I. destruct (H e I). destruct e; congruence || exact Logic.I || reflexivity.
Qed.
Print Assumptions C78_frame.
Print Assumptions C78_pipe_waits_refuted.
Print Assumptions C78_socket_waits.

(** *** Values, over a channel *)
Theorem C78_values same_element order slices_hash to_integer limit limit' patient deflate inflate compress vs ds ws rs fuel l r :
  (forall l, Permutation (order l) l) ->
  (forall a a' b b', same a a' -> same b b' -> same_element a b = same_element a' b') ->
  0 < limit -> 0 < limit' -> (forall d, inflate (deflate d) = Some d) ->
  Forall (proper same_element slices_hash) vs -> Forall2 (fun v d => dump v = Ok d) vs ds ->
  recv_all inflate fuel limit patient rs (send_all deflate limit' compress ws ds) = (l, r) ->
  exists vs' , starts_with vs vs' /\
    Forall2 (fun v d => exists w, load same_element order slices_hash to_integer d = Ok w /\ same v w) vs' l.
Proof.
  intros O R L L' Z P D E. apply C78_messages in E as [(x & E) _]; try assumption. subst ds.
  revert vs P D. induction l as [|d l IH]; intros vs P D.
  - exists []. split; [now exists vs|constructor].
  - cbn in D. inversion D as [|v ? vs1 ? Dv D1]; subst. inversion P as [|? ? Pv P1]; subst.
    destruct (IH vs1 P1 D1) as (vs' & (y & ->) & F).
    destruct (C77_round_trip same_element order slices_hash to_integer O R v d Pv Dv) as [(w & S & W) _].
    exists (v :: vs'). split; [now exists y|]. constructor; [eauto|exact F].
Qed.
Print Assumptions C78_values.

(** ** A case *)
Definition X_deflate (d : bytes) : bytes := "z"%char :: d.
Definition X_inflate (d : bytes) : option bytes := match d with "z"%char :: d => Some d | _ => None end.
Definition X_msgs := [T "hello"; []; repeat "a"%char 20; repeat "b"%char 20].
Definition X_ws := repeat (Taken 6) 200.
Definition X_rs := Timeout :: flat_map (fun n => [Data n; Again]) (repeat 3 40 ++ repeat 0 80).
Example C78_case_all : exists r, recv_all X_inflate 10 (N.to_nat 8000) true X_rs (send_all X_deflate (N.to_nat 8000) true X_ws X_msgs) = (X_msgs, r).
Proof. vm_compute. eexists. reflexivity. Qed.
Example C78_case_broken : exists r, recv_all X_inflate 10 (N.to_nat 8000) true X_rs
  (send_all X_deflate (N.to_nat 8000) true (repeat (Taken 6) 7 ++ [Refused]) X_msgs) = ([T "hello"; []; repeat "a"%char 20], r).
Proof. vm_compute. eexists. reflexivity. Qed.
Example C78_case_hypotheses : (forall d, X_inflate (X_deflate d) = Some d) /\ accepting X_ws /\ unbroken true X_rs /\
  Forall (fun m => exists f, frame X_deflate true m = Ok f) X_msgs.
Proof.
  split; [reflexivity|]. split; [|split].
  - intros I. apply repeat_spec in I. discriminate.
  - unfold X_rs. intros e [<- |I]; [reflexivity|]. apply in_flat_map in I as (n & _ & [<- |[<- |[]]]); reflexivity || exact Logic.I.
  - repeat constructor; eexists; vm_compute; reflexivity.
Qed.
