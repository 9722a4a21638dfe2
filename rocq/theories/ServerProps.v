(** * Theorems about the server with a thread for each client (C108) *)
From Coq Require Import List Bool Arith Lia.
From Verif Require Import ServerModel.
Import ListNotations.

(** ** Specification *)

(** The socket the accepting thread has in hand *)
Definition in_hand (a : accepting) (k : nat) : Prop :=
  match a with Waiting => False | Got x => k = x | Checked x => k = x | Listed x => k = x end.
(** The accepting thread has seen that the server is active and has not yet handed the socket on *)
Definition halfway (a : accepting) : Prop := match a with Checked _ => True | Listed _ => True | _ => False end.

(** ** Lemmas *)
Lemma gone_in k x l : In x (gone k l) <-> x <> k /\ In x l.
Proof.
  unfold gone. rewrite filter_In, negb_true_iff, Nat.eqb_neq. split; intros [A B]; split; auto.
Qed.
Lemma stage_ended k x l : stage_of x (ended k l) = if Nat.eqb x k then None else stage_of x l.
Proof.
  unfold ended. induction l as [|[y s] l IH]; cbn; [now destruct (Nat.eqb x k)|].
  destruct (Nat.eqb_spec k y) as [->|N]; cbn [negb].
  - rewrite IH. now destruct (Nat.eqb x y).
  - cbn. rewrite IH. destruct (Nat.eqb_spec x k) as [->|M]; [|reflexivity].
    destruct (Nat.eqb_spec k y); [contradiction|reflexivity].
Qed.
Lemma snoc_run au ar : forall l e s, run au ar (l ++ [e]) s = match run au ar l s with Some s1 => step au ar e s1 | None => None end.
Proof. induction l as [|x l IH]; intros e s; cbn; [now destruct (step au ar e s)|]. destruct (step au ar x s); auto. Qed.
Lemma app_run au ar : forall l m s, run au ar (l ++ m) s = match run au ar l s with Some s1 => run au ar m s1 | None => None end.
Proof. induction l as [|x l IH]; intros m s; cbn; [reflexivity|]. destruct (step au ar x s); auto. Qed.
Ltac eqbs := repeat match goal with
  | H : context [Nat.eqb ?a ?b] |- _ => destruct (Nat.eqb_spec a b); [subst|]
  | |- context [Nat.eqb ?a ?b] => destruct (Nat.eqb_spec a b); [subst|] end.

(** ** C108 *)

(** Only authenticated clients are served, once each; and one that was turned away is never served *)
Record inv_auth (l : list event) (s : server) : Prop := {
  a_served : forall k, In k (served s) -> In (Auth k true) l /\ ~ In (Auth k false) l;
  a_arriving : forall k ok, stage_of k (threads s) = Some Arriving -> ~ In (Auth k ok) l;
  a_hand : forall k ok, in_hand (acc s) k -> ~ In (Auth k ok) l;
  a_next : forall k ok, next s <= k -> ~ In (Auth k ok) l /\ stage_of k (threads s) = None /\ ~ in_hand (acc s) k;
  a_apart : forall k, in_hand (acc s) k -> stage_of k (threads s) = None;
  a_once : NoDup (served s) }.
Lemma not_snoc (k : nat) (ok : bool) l e : ~ In (Auth k ok) l -> e <> Auth k ok -> ~ In (Auth k ok) (l ++ [e]).
Proof. intros A B H. apply in_app_iff in H. destruct H as [H|[H|[]]]; [contradiction|congruence]. Qed.
Lemma auth_inv ar l : forall s, run true ar l started = Some s -> inv_auth l s.
Proof.
  induction l as [|e l IH] using rev_ind; intros s E.
  { cbn in E. injection E as <-. split; cbn; try easy; try constructor; auto. }
  rewrite snoc_run in E. destruct (run true ar l started) as [s1|]; [|discriminate].
  destruct (IH s1 eq_refl) as [S A H N P O]. clear IH. destruct s1 as [a n ac cs ts op sv un cc ph]. cbn in *.
  assert (FR : forall e', (forall k ok, e' <> Auth k ok) -> forall s', served s' = sv ->
    (forall k, stage_of k (threads s') = Some Arriving -> stage_of k ts = Some Arriving \/ in_hand ac k) ->
    (forall k, in_hand (acc s') k -> in_hand ac k \/ k = n /\ n < next s') -> n <= next s' ->
    (forall k, n < k -> stage_of k ts = None -> stage_of k (threads s') = None) ->
    (next s' = n -> forall k, n <= k -> stage_of k ts = None -> ~ in_hand ac k -> stage_of k (threads s') = None) ->
    (forall k, in_hand (acc s') k -> stage_of k (threads s') = None) -> inv_auth (l ++ [e']) s').
  { intros e' NE s' SV TH HA LE T1 T2 AP. split.
    - rewrite SV. intros k I. destruct (S k I). split; [apply in_app_iff; auto|apply not_snoc; auto].
    - intros k ok X. apply not_snoc; [|auto]. destruct (TH k X) as [Y|Y]; [now apply A|now apply H].
    - intros k ok X. apply not_snoc; [|auto]. destruct (HA k X) as [Y|[-> _]]; [now apply H|now apply N].
    - intros k ok X. destruct (N k ok) as [N1 [N2 N3]]; [lia|]. split; [now apply not_snoc|]. split.
      + destruct (Nat.eq_dec (next s') n) as [E1|E1]; [apply T2; auto; lia|apply T1; auto; lia].
      + intros Y. destruct (HA k Y) as [Z|[-> Z]]; [contradiction|lia].
    - exact AP.
    - now rewrite SV. }
  destruct e as [| | | |k ok|k|k| | | |]; cbn in E.
  - destruct ac; try discriminate. destruct ph; try discriminate; injection E as <-; (apply FR; cbn; auto; try discriminate; try lia);
      intros k ->; now apply (N n true).
  - destruct ac as [|k| |]; try discriminate. destruct a; injection E as <-; (apply FR; cbn in *; auto; try discriminate; tauto).
  - destruct ac as [| |k|]; try discriminate. injection E as <-. apply FR; cbn in *; auto; discriminate.
  - destruct ac as [| | |k]; try discriminate. injection E as <-. apply FR; cbn in *; auto; try discriminate; try tauto.
    + intros j. eqbs; auto.
    + intros j L Q. eqbs; [|exact Q]. exfalso. destruct (N k true) as [_ [_ X]]; [lia|]. now apply X.
    + intros _ j L Q X. eqbs; [contradiction|exact Q].
  - destruct (stage_of k ts) as [[| |]|] eqn:T; try discriminate.
    assert (HK : ~ in_hand ac k) by (intros X; apply P in X; congruence).
    assert (LK : k < n). { destruct (le_lt_dec n k) as [L|L]; [|exact L]. destruct (N k true L) as [_ [X _]]. congruence. }
    assert (NK : forall b, ~ In (Auth k b) l) by (intros b; now apply A).
    assert (NS : ~ In k sv) by (intros X; destruct (S k X) as [Y _]; exact (NK true Y)).
    assert (OT : forall j b, j <> k -> ~ In (Auth j b) l -> ~ In (Auth j b) (l ++ [Auth k ok])).
    { intros j b D X. apply not_snoc; [exact X|congruence]. }
    destruct ok; cbn in E; injection E as <-; split; cbn.
    + intros j [<-|I].
      * split; [apply in_app_iff; right; now left|]. apply not_snoc; [apply NK|discriminate].
      * destruct (S j I). assert (j <> k) by (intros ->; contradiction). split; [apply in_app_iff; auto|now apply OT].
    + intros j b. rewrite stage_ended. eqbs; [discriminate|]. intros X. apply OT; auto.
    + intros j b X. apply OT; [intros ->; contradiction|now apply H].
    + intros j b L. destruct (N j b L) as [N1 [N2 N3]]. assert (j <> k) by lia. split; [now apply OT|]. rewrite stage_ended.
      eqbs; [lia|]. auto.
    + intros j X. rewrite stage_ended. eqbs; [contradiction|]. now apply P.
    + now constructor.
    + intros j I. destruct (S j I). assert (j <> k) by (intros ->; contradiction). split; [apply in_app_iff; auto|now apply OT].
    + intros j b. rewrite stage_ended. eqbs; [discriminate|]. intros X. apply OT; auto.
    + intros j b X. apply OT; [intros ->; contradiction|now apply H].
    + intros j b L. destruct (N j b L) as [N1 [N2 N3]]. assert (j <> k) by lia. split; [now apply OT|]. rewrite stage_ended.
      eqbs; [lia|]. auto.
    + intros j X. rewrite stage_ended. eqbs; [contradiction|]. now apply P.
    + exact O.
  - destruct (stage_of k ts) as [[| |]|] eqn:T; try discriminate. injection E as <-.
    apply FR; cbn; auto; try discriminate; intros; rewrite ?stage_ended in *; eqbs; auto; try congruence;
      match goal with X : in_hand _ _ |- _ => apply P in X; congruence end.
  - destruct (stage_of k ts) as [[| |]|] eqn:T; try discriminate. injection E as <-.
    apply FR; cbn; auto; try discriminate; intros; rewrite ?stage_ended in *; eqbs; auto; try congruence.
  - destruct ph; injection E as <-; apply FR; cbn; auto; discriminate.
  - destruct ph; try discriminate; injection E as <-; apply FR; cbn; auto; discriminate.
  - destruct ph as [| |[|j r]|]; try discriminate; injection E as <-; apply FR; cbn; auto; discriminate.
  - destruct ph as [| |[|j r]|]; try discriminate; injection E as <-; apply FR; cbn; auto; discriminate.
Qed.
Theorem C108_only_authenticated auto_register l s k : run true auto_register l started = Some s ->
  In k (served s) -> In (Auth k true) l /\ ~ In (Auth k false) l.
Proof. intros E. apply (auth_inv _ _ _ E). Qed.
Theorem C108_served_once auto_register l s : run true auto_register l started = Some s -> NoDup (served s).
Proof. intros E. apply (auth_inv _ _ _ E). Qed.

(** No socket is forgotten: one that is open is in the hands of the accepting thread or has a thread that will close it *)
Theorem C108_no_socket_leaks au ar l : forall s, run au ar l started = Some s ->
  forall k, In k (open s) -> in_hand (acc s) k \/ stage_of k (threads s) <> None.
Proof.
  induction l as [|e l IH] using rev_ind; intros s E.
  { cbn in E. injection E as <-. intros k []. }
  rewrite snoc_run in E. destruct (run au ar l started) as [s1|]; [|discriminate]. specialize (IH s1 eq_refl).
  destruct s1 as [a n ac cs ts op sv un cc ph]. cbn in IH.
  destruct e as [| | | |k ok|k|k| | | |]; cbn in E.
  - destruct ac; try discriminate. destruct ph; try discriminate; injection E as <-; cbn; intros k [->|I]; auto;
      destruct (IH k I) as [[]|X]; auto.
  - destruct ac as [|k| |]; try discriminate. destruct a; injection E as <-; cbn; intros j I; [now apply IH|].
    apply gone_in in I. destruct (IH j (proj2 I)) as [X|X]; [cbn in X; tauto|auto].
  - destruct ac as [| |k|]; try discriminate. injection E as <-. exact IH.
  - destruct ac as [| | |k]; try discriminate. injection E as <-. cbn. intros j I. right. eqbs; [discriminate|].
    destruct (IH j I) as [X|X]; [cbn in X; congruence|exact X].
  - destruct (stage_of k ts) as [[| |]|] eqn:T; try discriminate.
    destruct (ok || negb au); injection E as <-; cbn; intros j I; (destruct (IH j I) as [X|X]; [now left|right]);
      rewrite stage_ended; eqbs; auto; discriminate.
  - destruct (stage_of k ts) as [[| |]|] eqn:T; try discriminate. injection E as <-. cbn. intros j I.
    destruct (IH j I) as [X|X]; [now left|right]. rewrite stage_ended. eqbs; auto; discriminate.
  - destruct (stage_of k ts) as [[| |]|] eqn:T; try discriminate. injection E as <-. cbn. intros j I.
    apply gone_in in I. destruct I as [D I]. destruct (IH j I) as [X|X]; [now left|right]. rewrite stage_ended. eqbs; auto; contradiction.
  - destruct ph; injection E as <-; exact IH.
  - destruct ph; try discriminate; injection E as <-; exact IH.
  - destruct ph as [| |[|j r]|]; try discriminate; injection E as <-; cbn. intros i I. apply gone_in in I. now apply IH.
  - destruct ph as [| |[|j r]|]; try discriminate; injection E as <-; exact IH.
Qed.
(** However often it is closed, a server is taken off the registry once, if it was registered at all *)
Theorem C108_unregistered_once au ar l : forall s, run au ar l started = Some s ->
  close_calls s = length (filter (fun e => match e with Close => true | _ => false end) l) /\
  unregistered s = (if ar then if Nat.ltb 0 (close_calls s) then 1 else 0 else 0).
Proof.
  assert (K : forall l s, run au ar l started = Some s ->
    close_calls s = length (filter (fun e => match e with Close => true | _ => false end) l) /\
    (phase s = NotClosed <-> close_calls s = 0) /\
    unregistered s = (if ar then if Nat.ltb 0 (close_calls s) then 1 else 0 else 0)).
  { clear l. intros l. induction l as [|e l IH] using rev_ind; intros s E.
    { cbn in E. injection E as <-. cbn. destruct ar; tauto. }
    rewrite snoc_run in E. destruct (run au ar l started) as [s1|]; [|discriminate]. destruct (IH s1 eq_refl) as [A [B C]].
    rewrite filter_app, app_length. destruct s1 as [a n ac cs ts op sv un cc ph]. cbn [close_calls phase unregistered] in A, B, C.
    destruct e as [| | | |k ok|k|k| | | |]; cbn in E; cbn [filter length]; rewrite ?Nat.add_0_r.
    - destruct ac; try discriminate. destruct ph; try discriminate; injection E as <-; auto.
    - destruct ac; try discriminate. destruct a; injection E as <-; auto.
    - destruct ac; try discriminate. injection E as <-; auto.
    - destruct ac; try discriminate. injection E as <-; auto.
    - destruct (stage_of k ts) as [[| |]|]; try discriminate. destruct (ok || negb au); injection E as <-; auto.
    - destruct (stage_of k ts) as [[| |]|]; try discriminate. injection E as <-; auto.
    - destruct (stage_of k ts) as [[| |]|]; try discriminate. injection E as <-; auto.
    - assert (D : phase s <> NotClosed /\ close_calls s = S cc /\ unregistered s = if ar then 1 else 0).
      { destruct ph; injection E as <-; cbn; (split; [discriminate|]); (split; [reflexivity|]).
        - assert (Z : cc = 0) by (apply B; reflexivity). rewrite Z in C. cbn in C. rewrite C. now destruct ar.
        - destruct cc; [assert (Flagged = NotClosed) by (apply B; reflexivity); discriminate|]. exact C.
        - destruct cc; [assert (Looping rest = NotClosed) by (apply B; reflexivity); discriminate|]. exact C.
        - destruct cc; [assert (Finished = NotClosed) by (apply B; reflexivity); discriminate|]. exact C. }
      destruct D as [D1 [D2 D3]]. rewrite D2, D3. split; [lia|]. split; [split; [contradiction|discriminate]|]. reflexivity.
    - destruct ph; try discriminate. injection E as <-. cbn in *. split; [exact A|]. split; [|exact C]. rewrite <- B. split; discriminate.
    - destruct ph as [| |[|j r]|]; try discriminate. injection E as <-. cbn in *. split; [exact A|]. split; [|exact C].
      rewrite <- B. split; discriminate.
    - destruct ph as [| |[|j r]|]; try discriminate. injection E as <-. cbn in *. split; [exact A|]. split; [|exact C].
      rewrite <- B. split; discriminate. }
  intros s E. destruct (K l s E) as [A [_ C]]. auto.
Qed.
(** When closing is done every socket is closed, but for one that is about to be dropped unserved; provided that no client
    was halfway in when closing began *)
Definition unlisted (a : accepting) (k : nat) : Prop := match a with Got x => k = x | Checked x => k = x | _ => False end.
Definition inv_open (s : server) : Prop :=
  match phase s with
  | NotClosed => active s = true /\ forall k, In k (open s) -> unlisted (acc s) k \/ In k (clients s)
  | Flagged => active s = false /\ ~ halfway (acc s) /\ forall k, In k (open s) -> unlisted (acc s) k \/ In k (clients s)
  | Looping r => active s = false /\ ~ halfway (acc s) /\ forall k, In k (open s) -> unlisted (acc s) k \/ In k r
  | Finished => active s = false /\ ~ halfway (acc s) /\ forall k, In k (open s) -> unlisted (acc s) k
  end.
Lemma open_step au ar e s s' : inv_open s -> (e = Close -> phase s = NotClosed -> ~ halfway (acc s)) ->
  step au ar e s = Some s' -> inv_open s'.
Proof.
  intros I H E. destruct s as [a n ac cs ts op sv un cc ph]. cbn in H. unfold inv_open in *. cbn in I.
  destruct e as [| | | |k ok|k|k| | | |]; cbn in E.
  - destruct ac; try discriminate. destruct ph as [| |r|]; try discriminate; injection E as <-; cbn in *.
    + destruct I as [A I]. split; [exact A|]. intros k [->|J]; auto. destruct (I k J); auto; contradiction.
    + destruct I as [A [_ I]]. split; [exact A|]. split; [tauto|]. intros k [->|J]; auto. destruct (I k J); auto; contradiction.
  - destruct ac as [|k| |]; try discriminate. destruct a; injection E as <-; cbn in *.
    + destruct ph as [| |r|]; try exact I; destruct I as [A _]; discriminate.
    + assert (J : forall j (P : Prop), In j (gone k op) -> (In j op -> j = k \/ P) -> P).
      { intros j P G W. apply gone_in in G. destruct (W (proj2 G)); tauto. }
      destruct ph as [| |r|]; destruct I as [A I]; [discriminate| | |]; destruct I as [_ I]; (split; [exact A|split; [tauto|]]); intros j G.
      * right. apply (J j _ G). apply I.
      * right. apply (J j _ G). apply I.
      * apply (J j _ G). intros O. left. now apply I.
  - destruct ac as [| |k|]; try discriminate. injection E as <-. cbn in *.
    destruct ph as [| |r|]; [|tauto..]. destruct I as [A I]. split; [exact A|]. intros j G. destruct (I j G); auto.
  - destruct ac as [| | |k]; try discriminate. injection E as <-. cbn in *.
    destruct ph as [| |r|]; [|tauto..]. destruct I as [A I]. split; [exact A|]. intros j G. right.
    destruct (I j G) as [[]|X]; exact X.
  - destruct (stage_of k ts) as [[| |]|]; try discriminate. destruct (ok || negb au); injection E as <-; exact I.
  - destruct (stage_of k ts) as [[| |]|]; try discriminate. injection E as <-; exact I.
  - destruct (stage_of k ts) as [[| |]|]; try discriminate. injection E as <-. cbn in *.
    destruct ph as [| |r|].
    + destruct I as [A I]. split; [exact A|]. intros j G. apply gone_in in G. destruct (I j (proj2 G)); auto.
      right. apply gone_in. tauto.
    + destruct I as [A [B I]]. split; [exact A|]. split; [exact B|]. intros j G. apply gone_in in G. destruct (I j (proj2 G)); auto.
      right. apply gone_in. tauto.
    + destruct I as [A [B I]]. split; [exact A|]. split; [exact B|]. intros j G. apply gone_in in G. now apply I.
    + destruct I as [A [B I]]. split; [exact A|]. split; [exact B|]. intros j G. apply gone_in in G. now apply I.
  - destruct ph as [| |r|]; injection E as <-; cbn in *; try exact I. destruct I as [A I]. split; [reflexivity|].
    split; [now apply H|exact I].
  - destruct ph as [| |r|]; try discriminate. injection E as <-. exact I.
  - destruct ph as [| |[|k r]|]; try discriminate. injection E as <-. cbn in *. destruct I as [A [B I]]. split; [exact A|].
    split; [exact B|]. intros j G. apply gone_in in G. destruct (I j (proj2 G)) as [X|[->|X]]; auto. tauto.
  - destruct ph as [| |[|k r]|]; try discriminate. injection E as <-. cbn in *. destruct I as [A [B I]]. split; [exact A|].
    split; [exact B|]. intros j G. destruct (I j G) as [X|[]]. exact X.
Qed.
Theorem C108_closing_closes_all au ar before after s1 s k :
  run au ar before started = Some s1 -> ~ In Close before -> ~ halfway (acc s1) ->
  run au ar (Close :: after) s1 = Some s -> phase s = Finished ->
  In k (open s) -> acc s = Got k.
Proof.
  intros R NC HW R2 PH O.
  assert (P0 : forall l s0 s', inv_open s0 -> phase s0 = NotClosed -> ~ In Close l -> run au ar l s0 = Some s' ->
    inv_open s' /\ phase s' = NotClosed).
  { induction l as [|e l IH]; intros s0 s' I Q NI E; cbn in E; [injection E as <-; auto|].
    destruct (step au ar e s0) as [s2|] eqn:E2; [|discriminate]. apply (IH s2 s'); [| | |exact E].
    - apply (open_step au ar e s0); auto. intros ->. destruct NI. now left.
    - clear -Q NI E2. destruct s0 as [a n ac cs ts op sv un cc ph]. cbn in Q. subst ph.
      destruct e as [| | | |j ok|j|j| | | |]; cbn in E2; try (destruct NI; now left); try discriminate;
        try (destruct ac; try discriminate); try (destruct (stage_of j ts) as [[| |]|]; try discriminate);
        try (destruct a); try (destruct (ok || negb au)); now injection E2 as <-.
    - intros X. apply NI. now right. }
  destruct (P0 before started s1) as [I1 Q1]; auto.
  { split; [reflexivity|]. intros j []. }
  assert (P1 : forall l s0 s', inv_open s0 -> phase s0 <> NotClosed -> run au ar l s0 = Some s' -> inv_open s').
  { induction l as [|e l IH]; intros s0 s' I Q E; cbn in E; [now injection E as <-|].
    destruct (step au ar e s0) as [s2|] eqn:E2; [|discriminate]. apply (IH s2 s'); [| |exact E].
    - apply (open_step au ar e s0); auto; intros _ Z; contradiction.
    - clear -Q E2. destruct s0 as [a n ac cs ts op sv un cc ph]. cbn in Q.
      destruct e as [| | | |j ok|j|j| | | |]; cbn in E2;
        try (destruct ac; try discriminate); try (destruct (stage_of j ts) as [[| |]|]; try discriminate);
        try (destruct a); try (destruct (ok || negb au)); destruct ph as [| |[|i r]|]; try discriminate;
        try (injection E2 as <-; cbn; congruence). }
  cbn [run] in R2. destruct (step au ar Close s1) as [s2|] eqn:E2; [|discriminate].
  assert (I2 : inv_open s2) by (apply (open_step au ar Close s1); auto).
  assert (Q2 : phase s2 <> NotClosed).
  { destruct s1 as [a n ac cs ts op sv un cc ph]. cbn in Q1. subst ph. cbn in E2. injection E2 as <-. discriminate. }
  pose proof (P1 after s2 s I2 Q2 R2) as I. unfold inv_open in I. rewrite PH in I. destruct I as [_ [HW' I]].
  specialize (I k O). destruct (acc s); cbn in *; try tauto. now subst.
Qed.
(** Refuted: the same when a client was halfway in. The server is closed, the client's socket stays open and it is served *)
Definition late := [Arrives; Look; Close; Copy; List_; Clear; Spawn; Auth 0 true].
Theorem C108_closing_closes_all_refuted :
  exists s, run true true late started = Some s /\ phase s = Finished /\ acc s = Waiting /\
    open s = [0] /\ served s = [0] /\ clients s = [].
Proof. eexists. repeat split. Qed.
Print Assumptions C108_only_authenticated.
Print Assumptions C108_served_once.
Print Assumptions C108_no_socket_leaks.
Print Assumptions C108_unregistered_once.
Print Assumptions C108_closing_closes_all.
Print Assumptions C108_closing_closes_all_refuted.
(** Two clients, one of them turned away; a third arrives while the server is being closed, twice *)
Definition visits := [Arrives; Look; List_; Spawn; Arrives; Auth 0 true; Look; List_; Spawn; Auth 1 false; Final 1].
Definition ends := [Arrives; Close; Copy; CloseOne; Clear].
Example C108_case :
  match run true true visits started with
  | Some s1 => ~ In Close visits /\ ~ halfway (acc s1) /\ open s1 = [0] /\ served s1 = [0] /\ threads s1 = [(0, Serving)] /\
      match run true true (Close :: ends) s1 with
      | Some s => phase s = Finished /\ open s = [2] /\ acc s = Got 2 /\ unregistered s = 1 /\ close_calls s = 2 /\
                  option_map open (run true true [Look; Leaves 0; Final 0] s) = Some []
      | None => False
      end
  | None => False
  end.
Proof.
  vm_compute. repeat split; auto. intros H. repeat (destruct H as [H|H]; [discriminate|]). exact H.
Qed.
