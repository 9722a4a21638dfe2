(** * C96: colours change how texts look and nothing else *)
From Coq Require Import String Ascii List Bool Arith Lia.
From Verif Require Import ScanModel Rfc822Model Rfc822Proofs ColorModel.
Import ListNotations.
Local Open Scope list_scope.

(** What a terminal shows: everything but the sequences from an escape to the letter that ends it *)
Fixpoint visible (inside : bool) (t : text) : text :=
  match t with
  | [] => []
  | c :: r =>
      if inside then visible (negb (Ascii.eqb c "m"%char)) r
      else if Ascii.eqb c "027"%char then visible true r
      else c :: visible false r
  end.
(** What holds for the text that follows: the numbers of the sequences seen last, none after a reset *)
Definition reset : text := "027"%char :: L "[0m".
Definition plain (t : text) : Prop := ~ In "027"%char t.
(** The colours that there are *)
Definition colors : list text := map L ["BLACK"; "RED"; "GREEN"; "YELLOW"; "BLUE"; "MAGENTA"; "CYAN"; "WHITE"; "RESET"]%string.

Lemma visible_plain t r : plain t -> visible false (t ++ r) = t ++ visible false r.
Proof.
  induction t as [|c t IH]; intros P; [reflexivity|]. cbn [app visible]. destruct (Ascii.eqb_spec c "027"%char) as [->|N]; [destruct P; now left|]. rewrite IH; [reflexivity|]. intros I. apply P. now right.
Qed.
Definition sequence (c : text) : Prop := forall r, visible false (c ++ r) = visible false r.
Lemma named_spec n l c : named n l = Some c -> In (n, c) l.
Proof. induction l as [|[k d] l IH]; cbn [named]; [discriminate|]. destruct (text_eqb k n) eqn:E; [apply text_eqb_eq in E as ->; intros [= ->]; now left|right; now apply IH]. Qed.
Lemma foreground_sequence n c : In (n, c) foreground -> sequence c /\ In n colors.
Proof. intros I. cbn in I. repeat (destruct I as [[= <- <-]|I]; [split; [intros r; reflexivity|cbn; tauto]|]). destruct I. Qed.
Lemma foreground_known n : In n colors <-> exists c, named n foreground = Some c.
Proof.
  split; [|intros (c & N); apply named_spec in N; now apply foreground_sequence in N]. intros I. cbn in I. repeat (destruct I as [<-|I]; [eexists; reflexivity|]). destruct I.
Qed.

(** A text in a colour: there is one exactly for the names that there are, in capitals or not, whether
    colours are used or not; without them it is the text itself; with them the text is what is seen, and the end is
    a reset, so that nothing that follows is changed *)
Theorem C96_colored on t name bright :
  ((exists x, colored on t name bright = Some x) <-> In (upper name) colors) /\
  forall x, colored on t name bright = Some x ->
    (on = false -> x = t) /\
    (plain t -> forall r, visible false (x ++ r) = t ++ visible false r) /\
    (on = true -> exists y, x = y ++ t ++ reset).
Proof.
  assert (K : forall c, named (upper name) foreground = Some c -> colored on t name bright = Some ((if on then c else []) ++ (if bright then if on then code "1" else [] else []) ++ t ++ if on then code "0" else [])).
  { intros c C. unfold colored, f, attr. rewrite C. destruct on; reflexivity. }
  assert (N : named (upper name) foreground = None -> colored on t name bright = None) by (intros C; unfold colored, f, attr; now rewrite C).
  split.
  - rewrite foreground_known. destruct (named (upper name) foreground) as [c|]; [rewrite (K c eq_refl); split; eauto|]. rewrite N by reflexivity. split; intros (x & X); discriminate.
  - intros x X. destruct (named (upper name) foreground) as [c|] eqn:C; [|rewrite N in X by reflexivity; discriminate]. rewrite (K c eq_refl) in X. assert (E : x = (if on then c else []) ++ (if bright then if on then code "1" else [] else []) ++ t ++ if on then code "0" else []) by congruence. clear X K N. subst x.
    apply named_spec, foreground_sequence in C as [S _]. destruct on.
    + split; [discriminate|]. split.
      * intros P r. rewrite <- !app_assoc, S. assert (Q : forall z, visible false ((if bright then code "1" else []) ++ z) = visible false z) by (intros z; now destruct bright). rewrite Q, visible_plain by exact P. reflexivity.
      * intros _. exists (c ++ if bright then code "1" else []). now rewrite <- !app_assoc.
    + split; [intros _; destruct bright; cbn; apply app_nil_r|]. split; [|discriminate]. intros P r. destruct bright; cbn [app]; rewrite app_nil_r; now apply visible_plain.
Qed.
Print Assumptions C96_colored.
(** Different colours look different *)
Theorem C96_different n1 n2 c : f true n1 = Some c -> f true n2 = Some c -> upper n1 = upper n2.
Proof.
  unfold f, attr. intros A B. destruct (named (upper n1) foreground) as [x|] eqn:X; [|discriminate]. destruct (named (upper n2) foreground) as [y|] eqn:Y; [|discriminate].
  assert (x = y) by congruence. subst y. apply named_spec in X, Y. generalize dependent (upper n1). generalize dependent (upper n2). intros u2 Y u1 X. clear - X Y.
  cbn in X, Y. repeat (destruct X as [X|X]; [injection X as <- <-; repeat (destruct Y as [Y|Y]; [first [discriminate Y | now injection Y as <-]|]); destruct Y|]). destruct X.
Qed.
Print Assumptions C96_different.
(** As background, yellow is blue *)
Theorem C96_background_refuted : b true (L "yellow") = b true (L "blue") /\ b true (L "yellow") <> None.
Proof. split; [reflexivity|discriminate]. Qed.
Print Assumptions C96_background_refuted.

(** A header is 80 wide, or as wide as it has to be, with the text in the middle *)
Theorem C96_header t name bright fill x : header false t name bright fill = Some x ->
  length x = Nat.max 80 (length t + 4) /\
  exists l r, x = repeat fill l ++ L "[ " ++ t ++ L " ]" ++ repeat fill r /\ l <= r /\ r <= l + 1.
Proof.
  unfold header. intros H. apply C96_colored in H as (E & _). specialize (E eq_refl). subst x. unfold center80. set (m := L "[ " ++ t ++ L " ]"). assert (LM : length m = length t + 4) by (unfold m; rewrite !app_length; cbn; lia).
  set (pad := 80 - length m). pose proof (Nat.div2_odd pad) as D. assert (LE : Nat.div2 pad <= pad - Nat.div2 pad /\ pad - Nat.div2 pad <= Nat.div2 pad + 1 /\ Nat.div2 pad <= pad) by (destruct (Nat.odd pad); cbn [Nat.b2n] in D; lia).
  split; [rewrite !app_length, !repeat_length; lia|]. exists (Nat.div2 pad), (pad - Nat.div2 pad). split; [unfold m; now rewrite <- !app_assoc|]. lia.
Qed.
Print Assumptions C96_header.

(** An outcome: its words are what is seen, nothing else without colours, and what follows is not
    changed *)
Theorem C96_outcome on label o r : plain label ->
  visible false (result on label o ++ r) = label ++ visible false r /\ (on = false -> result on label o = label) /\ (on = true -> exists y, result on label o = y ++ label ++ reset).
Proof.
  intros P. unfold result, custom. destruct on; cbn [attr].
  - assert (S : sequence (color_ansi o)) by (intros z; now destruct o). change (match attr true styles (L "RESET_ALL") with Some r0 => r0 | None => [] end) with reset.
    split; [rewrite <- !app_assoc, S, visible_plain by exact P; reflexivity|]. split; [discriminate|]. intros _. now exists (color_ansi o).
  - change (match attr false styles (L "RESET_ALL") with Some r0 => r0 | None => [] end) with (@nil ascii). rewrite app_nil_r. cbn [app]. split; [now apply visible_plain|]. split; [reflexivity|discriminate].
Qed.
Print Assumptions C96_outcome.
(** A pass looks like no other outcome, and a failure only like what is not implemented *)
Theorem C96_outcomes_told_apart : (forall o, color_ansi o = color_ansi Pass -> o = Pass) /\
  (forall o, color_ansi o = color_ansi Fail -> o = Fail \/ o = Not_implemented) /\ (forall o, color_ansi o = color_ansi Crash -> o = Crash).
Proof. split; [|split]; intros o E; destruct o; auto; discriminate E. Qed.
Print Assumptions C96_outcomes_told_apart.
(** Colours are used if asked for, and else exactly on a terminal *)
Theorem C96_enabled color tty : enabled color tty = true <-> color = Some true \/ (color = None /\ tty = true).
Proof. destruct color as [[]|], tty; cbn; intuition discriminate. Qed.
Print Assumptions C96_enabled.

(** ** Cases *)

Example C96_case_colored : colored true (L "hi") (L "Red") true = Some (code "31" ++ code "1" ++ L "hi" ++ code "0") /\ colored false (L "hi") (L "red") true = Some (L "hi") /\
  colored false (L "hi") (L "pink") true = None /\ plain (L "hi") /\ visible false (code "31" ++ L "hi") = L "hi".
Proof. repeat split; try reflexivity. intros [H|[H|[]]]; discriminate. Qed.
Example C96_case_header : header false (L "Run") (L "white") true "="%char = Some (L "====================================[ Run ]=====================================").
Proof. reflexivity. Qed.
