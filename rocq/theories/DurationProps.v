(** Theorems about written durations (property C35). *)
From Coq Require Import Ascii String List Bool NArith ZArith QArith Lia.
From Verif Require Import DurationModel.
Import ListNotations.
Open Scope char_scope.
Open Scope list_scope.

(** * Specification *)

(** A decimal digit, 0 to 9, and its character. *)
Definition digit_char (d : N) : ascii := ascii_of_N (48 + d).
Definition digits_ok (ds : list N) : Prop := ds <> [] /\ Forall (fun d => d < 10)%N ds.

(** The number written by a list of digits. *)
Definition number (ds : list N) : N := fold_left (fun a d => a * 10 + d)%N ds 0%N.

(** An optional "<digits><unit>". *)
Definition part (u : ascii) (o : option (list N)) : list ascii :=
  match o with None => [] | Some ds => map digit_char ds ++ [u] end.
Definition part_ok (o : option (list N)) : Prop :=
  match o with None => True | Some ds => digits_ok ds end.
Definition amount (o : option (list N)) : N :=
  match o with None => 0 | Some ds => number ds end.

(** Blanks and colons. *)
Definition blank (l : list ascii) : Prop := Forall (fun c => c = " " \/ c = ":") l.

(** [written v h m s]: the text [v] writes the duration [h] hours, [m] minutes
    and [s] seconds. *)
Definition written (v : list ascii) (h m s : option (list N)) : Prop :=
  part_ok h /\ part_ok m /\ part_ok s /\
  exists b1 b2, blank b1 /\ blank b2 /\
    v = part "h" h ++ b1 ++ part "m" m ++ b2 ++ part "s" s.

(** * Proofs *)

Lemma digit_value_char d : (d < 10)%N -> digit_value (digit_char d) = Some d.
Proof.
  intros H. unfold digit_value, digit_char. rewrite N_ascii_embedding by lia.
  replace (N.leb 48 (48 + d)) with true by (symmetry; apply N.leb_le; lia).
  replace (N.leb (48 + d) 57) with true by (symmetry; apply N.leb_le; lia).
  cbn [andb]. f_equal. lia.
Qed.

Lemma digit_value_inv c d : digit_value c = Some d -> (d < 10)%N /\ c = digit_char d.
Proof.
  unfold digit_value, digit_char. destruct (N.leb 48 (N_of_ascii c)) eqn:E1; [|discriminate].
  destruct (N.leb (N_of_ascii c) 57) eqn:E2; [|discriminate]. cbn [andb]. intros H.
  injection H as H. apply N.leb_le in E1, E2. split; [lia|].
  rewrite <- (ascii_N_embedding c) at 1. f_equal. lia.
Qed.

(** [nodigit s]: [s] does not start with a digit. *)
Definition nodigit (s : list ascii) : Prop :=
  match s with [] => True | c :: _ => digit_value c = None end.

Lemma take_digits_app ds : forall acc s, Forall (fun d => d < 10)%N ds -> nodigit s ->
  take_digits acc (map digit_char ds ++ s) =
  (fold_left (fun a d => a * 10 + d)%N ds acc, List.length ds, s).
Proof.
  induction ds as [|d ds IH]; intros acc s Hd Hs.
  - simpl. destruct s as [|c s]; auto. simpl in *. now rewrite Hs.
  - inversion Hd; subst. cbn [map app take_digits fold_left List.length].
    rewrite digit_value_char by auto. now rewrite IH.
Qed.

Lemma take_digits_inv s : forall acc v n r, take_digits acc s = (v, n, r) ->
  exists ds, Forall (fun d => d < 10)%N ds /\ s = map digit_char ds ++ r /\ List.length ds = n /\
    v = fold_left (fun a d => a * 10 + d)%N ds acc /\ nodigit r.
Proof.
  induction s as [|c s IH]; intros acc v n r H.
  - simpl in H. injection H as <- <- <-. exists []. simpl. auto.
  - cbn [take_digits] in H. destruct (digit_value c) as [d|] eqn:E.
    + destruct (take_digits (acc * 10 + d) s) as [[v' n'] r'] eqn:E2. injection H as <- <- <-.
      apply IH in E2. destruct E2 as (ds & H1 & -> & <- & -> & H5).
      apply digit_value_inv in E. destruct E as [Hd ->].
      exists (d :: ds). simpl. auto.
    + injection H as <- <- <-. exists []. simpl. auto.
Qed.

Lemma take_group_some u ds s : digits_ok ds -> digit_value u = None ->
  take_group u (part u (Some ds) ++ s) = (number ds, s).
Proof.
  intros [Hne Hd] Hu. unfold take_group, part. rewrite <- app_assoc.
  rewrite take_digits_app; auto. destruct ds as [|d ds]; [congruence|].
  cbn [List.length app]. rewrite Ascii.eqb_refl. reflexivity.
Qed.

(** [misses u s]: no number followed by [u] starts [s]. *)
Definition misses (u : ascii) (s : list ascii) : Prop :=
  forall ds r, digits_ok ds -> s <> part u (Some ds) ++ r.

Lemma take_group_none u s : misses u s -> take_group u s = (0%N, s).
Proof.
  intros H. unfold take_group. destruct (take_digits 0 s) as [[v n] r] eqn:E.
  apply take_digits_inv in E. destruct E as (ds & H1 & -> & <- & -> & H5).
  destruct ds as [|d ds]; auto. cbn [List.length]. destruct r as [|c r]; auto.
  destruct (Ascii.eqb_spec c u) as [->|]; auto. exfalso.
  apply (H (d :: ds) r); [split; [congruence|auto]|]. unfold part. rewrite <- app_assoc. reflexivity.
Qed.

Lemma take_group_inv u s v r : take_group u s = (v, r) ->
  exists o, part_ok o /\ s = part u o ++ r /\ v = amount o.
Proof.
  unfold take_group. destruct (take_digits 0 s) as [[v' n] r'] eqn:E.
  apply take_digits_inv in E. destruct E as (ds & H1 & -> & <- & -> & H5).
  destruct ds as [|d ds]; cbn [List.length].
  { intros [= <- <-]. exists None. simpl. auto. }
  destruct r' as [|c r'].
  { intros [= <- <-]. exists None. simpl. auto. }
  destruct (Ascii.eqb_spec c u) as [->|].
  - intros [= <- <-]. exists (Some (d :: ds)).
    split; [split; [congruence|auto]|]. split; [|reflexivity].
    unfold part. rewrite <- app_assoc. reflexivity.
  - intros [= <- <-]. exists None. simpl. auto.
Qed.

Lemma take_blanks_app b s : blank b ->
  (match s with [] => True | c :: _ => c <> " " /\ c <> ":" end) ->
  take_blanks (b ++ s) = s.
Proof.
  intros Hb Hs. induction Hb as [|c b Hc Hb IH]; simpl.
  - destruct s as [|c s]; auto. simpl. destruct Hs as [H1 H2].
    apply Ascii.eqb_neq in H1, H2. now rewrite H1, H2.
  - destruct Hc as [-> | ->]; simpl; exact IH.
Qed.

Lemma take_blanks_inv s : exists b, blank b /\ s = b ++ take_blanks s.
Proof.
  induction s as [|c s [b [Hb Hs]]]; simpl; [exists []; split; [constructor|auto]|].
  destruct (Ascii.eqb_spec c " ") as [->|]; [|destruct (Ascii.eqb_spec c ":") as [->|]]; simpl.
  - exists (" " :: b). split; [constructor; auto|]. simpl. now rewrite <- Hs.
  - exists (":" :: b). split; [constructor; auto|]. simpl. now rewrite <- Hs.
  - exists []. split; [constructor|auto].
Qed.

(** The first character that is not a digit. *)
Fixpoint after_digits (s : list ascii) : option ascii :=
  match s with
  | [] => None
  | c :: r => match digit_value c with Some _ => after_digits r | None => Some c end
  end.

Lemma after_digits_app ds s : Forall (fun d => d < 10)%N ds ->
  after_digits (map digit_char ds ++ s) = after_digits s.
Proof.
  intros H. induction H as [|d ds Hd _ IH]; auto. cbn [map app after_digits].
  now rewrite digit_value_char.
Qed.

Lemma misses_after u s : digit_value u = None -> after_digits s <> Some u -> misses u s.
Proof.
  intros Hu H ds r [_ Hd] ->. apply H. unfold part. rewrite <- app_assoc, after_digits_app by auto.
  simpl. now rewrite Hu.
Qed.

Lemma after_part u o s : digit_value u = None -> part_ok o ->
  after_digits (part u o ++ s) = match o with None => after_digits s | Some _ => Some u end.
Proof.
  intros Hu Ho. destruct o as [ds|]; auto. destruct Ho as [_ Hd]. unfold part.
  rewrite <- app_assoc, after_digits_app by auto. simpl. now rewrite Hu.
Qed.

Lemma after_blank b s : blank b ->
  after_digits (b ++ s) = match b with [] => after_digits s | c :: _ => Some c end.
Proof.
  intros Hb. destruct Hb as [|c b Hc Hb]; auto. simpl. destruct Hc as [-> | ->]; reflexivity.
Qed.

Lemma part_head u o s : part_ok o ->
  match part u o ++ s with
  | [] => True
  | c :: _ => (exists d, (d < 10)%N /\ c = digit_char d) \/
              (o = None /\ match s with x :: _ => c = x | [] => False end)
  end.
Proof.
  destruct o as [ds|]; simpl.
  - intros [Hne Hd]. destruct ds as [|d ds]; [congruence|]. simpl. inversion Hd; subst. eauto.
  - destruct s; auto.
Qed.

Lemma digit_not_blank d : (d < 10)%N -> digit_char d <> " " /\ digit_char d <> ":".
Proof.
  intros H. pose proof (digit_value_char d H) as G. split; intros E; rewrite E in G; discriminate.
Qed.

Lemma take_blanks_fix s : take_blanks (take_blanks s) = take_blanks s.
Proof.
  induction s as [|c s IH]; auto. simpl. destruct (Ascii.eqb c " " || Ascii.eqb c ":")%bool eqn:E; auto.
  simpl. now rewrite E.
Qed.

Lemma match_written_nl nl h m s v : (nl = [] \/ nl = ["010"]) -> written v h m s ->
  match_duration (v ++ nl) = Some (amount h * 3600 + amount m * 60 + amount s)%N.
Proof.
  intros Hnl (Hh & Hm & Hs & b1 & b2 & Hb1 & Hb2 & ->). unfold match_duration.
  rewrite <- !app_assoc.
  assert (Hnl2 : after_digits nl = None \/ after_digits nl = Some "010")
    by (destruct Hnl as [-> | ->]; auto).
  assert (Astail : after_digits (part "s" s ++ nl) = None \/
     after_digits (part "s" s ++ nl) = Some "s" \/ after_digits (part "s" s ++ nl) = Some "010").
  { rewrite after_part by auto. destruct s; auto. destruct Hnl2; auto. }
  assert (G3 : take_group "s" (part "s" s ++ nl) = (amount s, nl)).
  { destruct s as [ds|]; [now apply take_group_some|]. simpl. apply take_group_none.
    apply misses_after; auto. destruct Hnl as [-> | ->]; simpl; congruence. }
  assert (B3 : forall b, blank b -> take_blanks (b ++ part "s" s ++ nl) = part "s" s ++ nl).
  { intros b Hb. apply take_blanks_app; auto. pose proof (part_head "s" s nl Hs) as P.
    destruct (part "s" s ++ nl); auto. destruct P as [(d & Hd & ->)|[_ P]].
    - now apply digit_not_blank.
    - destruct Hnl as [-> | ->]; [contradiction|]. subst a. split; discriminate. }
  assert (End : forall v3, (let (seconds, s0) := take_group "s" (part "s" s ++ nl) in
     match s0 with
     | [] => Some (seconds + v3)%N
     | [c] => if Ascii.eqb c "010" then Some (seconds + v3)%N else None
     | _ => None end) = Some (amount s + v3)%N).
  { intros v3. rewrite G3. destruct Hnl as [-> | ->]; reflexivity. }
  assert (G1 : take_group "h" (part "h" h ++ b1 ++ part "m" m ++ b2 ++ part "s" s ++ nl) =
     (amount h, b1 ++ part "m" m ++ b2 ++ part "s" s ++ nl)).
  { destruct h as [ds|]; [now apply take_group_some|]. apply take_group_none.
    apply misses_after; auto. simpl. rewrite after_blank by auto.
    destruct Hb1 as [|c b1 [-> | ->] _]; try discriminate.
    rewrite after_part by auto. destruct m; [discriminate|].
    rewrite after_blank by auto. destruct Hb2 as [|c b2 [-> | ->] _]; try discriminate.
    destruct Astail as [-> |[-> | ->]]; discriminate. }
  rewrite G1. cbn [fst snd].
  destruct m as [dm|].
  - assert (B1 : take_blanks (b1 ++ part "m" (Some dm) ++ b2 ++ part "s" s ++ nl) =
        part "m" (Some dm) ++ b2 ++ part "s" s ++ nl).
    { apply take_blanks_app; auto. pose proof (part_head "m" (Some dm) (b2 ++ part "s" s ++ nl) Hm) as P.
      destruct (part "m" (Some dm) ++ b2 ++ part "s" s ++ nl); auto.
      destruct P as [(d & Hd & ->)|[P _]]; [now apply digit_not_blank|discriminate]. }
    rewrite B1, take_group_some by auto. rewrite (B3 b2 Hb2), G3.
    cbn [amount]. destruct Hnl as [-> | ->]; simpl; f_equal; lia.
  - cbn [part app]. rewrite (app_assoc b1 b2).
    assert (Hb : blank (b1 ++ b2)) by (now apply Forall_app).
    rewrite (B3 _ Hb).
    rewrite (take_group_none "m").
    + rewrite (B3 [] (Forall_nil _) : take_blanks (part "s" s ++ nl) = _), G3.
      cbn [amount]. destruct Hnl as [-> | ->]; simpl; f_equal; lia.
    + apply misses_after; auto. destruct Astail as [-> |[-> | ->]]; discriminate.
Qed.

Lemma match_inv v n : match_duration v = Some n ->
  exists w nl h m s, v = w ++ nl /\ (nl = [] \/ nl = ["010"]) /\ written w h m s /\
    n = (amount h * 3600 + amount m * 60 + amount s)%N.
Proof.
  unfold match_duration.
  destruct (take_group "h" v) as [vh r1] eqn:E1. apply take_group_inv in E1.
  destruct E1 as (h & Hh & -> & ->).
  destruct (take_blanks_inv r1) as (b1 & Hb1 & Hr1).
  destruct (take_group "m" (take_blanks r1)) as [vm r2] eqn:E2. apply take_group_inv in E2.
  destruct E2 as (m & Hm & Hr2 & ->).
  destruct (take_blanks_inv r2) as (b2 & Hb2 & Hr3).
  destruct (take_group "s" (take_blanks r2)) as [vs r3] eqn:E3. apply take_group_inv in E3.
  destruct E3 as (s & Hs & Hr4 & ->).
  intros H.
  assert (Hn : (r3 = [] \/ r3 = ["010"]) /\
     n = (amount h * 3600 + amount m * 60 + amount s)%N).
  { destruct r3 as [|c [|]]; [| |discriminate].
    - injection H as <-. split; auto. lia.
    - destruct (Ascii.eqb_spec c "010") as [->|]; [|discriminate]. injection H as <-.
      split; auto. lia. }
  destruct Hn as [Hnl ->].
  exists (part "h" h ++ b1 ++ part "m" m ++ b2 ++ part "s" s), r3, h, m, s.
  split; [|split; [auto|split; auto]].
  - rewrite <- !app_assoc. f_equal. rewrite Hr1. f_equal. rewrite Hr2. f_equal.
    rewrite Hr3. f_equal. exact Hr4.
  - repeat split; auto. exists b1, b2. auto.
Qed.

(** * Theorems *)

(** A written duration is worth 3600 seconds per hour, 60 per minute and 1 per
    second, whatever parts are present and however they are separated. *)
Theorem C35_written_durations :
  forall py_float v h m s, written v h m s ->
    estimated_duration py_float (Some v) =
    Some (inject_Z (Z.of_N (amount h * 3600 + amount m * 60 + amount s))).
Proof.
  intros f v h m s H. unfold estimated_duration.
  pose proof (match_written_nl [] h m s v (or_introl eq_refl) H) as G.
  rewrite app_nil_r in G. now rewrite G.
Qed.
Print Assumptions C35_written_durations.

(** Nothing else is read as hours, minutes and seconds: any other text (up to a
    final newline) is handed to float(), so that a text that is no number either
    means an unknown duration. *)
Theorem C35_other_texts :
  forall py_float v,
    (forall h m s, ~ written v h m s) ->
    (forall w h m s, v = w ++ ["010"] -> ~ written w h m s) ->
    estimated_duration py_float (Some v) = py_float v.
Proof.
  intros f v H1 H2. unfold estimated_duration. destruct (match_duration v) as [n|] eqn:E; auto.
  apply match_inv in E. destruct E as (w & nl & h & m & s & -> & [-> | ->] & Hw & _).
  - rewrite app_nil_r in H1. now elim (H1 h m s).
  - now elim (H2 w h m s eq_refl).
Qed.
Print Assumptions C35_other_texts.

(** The reading is unambiguous: a text writes one duration only. *)
Theorem C35_unambiguous :
  forall v h m s h' m' s', written v h m s -> written v h' m' s' ->
    (amount h * 3600 + amount m * 60 + amount s = amount h' * 3600 + amount m' * 60 + amount s')%N.
Proof.
  intros v h m s h' m' s' H H'.
  pose proof (match_written_nl [] _ _ _ _ (or_introl eq_refl) H) as G.
  pose proof (match_written_nl [] _ _ _ _ (or_introl eq_refl) H') as G'.
  congruence.
Qed.
Print Assumptions C35_unambiguous.

Example C35_case :
  written (list_ascii_of_string "1h: 30m 05s") (Some [1%N]) (Some [3%N; 0%N]) (Some [0%N; 5%N]) /\
  estimated_duration (fun _ => None) (Some (list_ascii_of_string "1h: 30m 05s")) = Some (inject_Z 5405).
Proof.
  assert (D : forall d, (d <? 10)%N = true -> (d < 10)%N) by (intros d; apply N.ltb_lt).
  split; [|vm_compute; reflexivity].
  split; [|split; [|split]].
  - split; [discriminate|]. repeat (constructor; [now apply D|]). constructor.
  - split; [discriminate|]. repeat (constructor; [now apply D|]). constructor.
  - split; [discriminate|]. repeat (constructor; [now apply D|]). constructor.
  - exists [":"; " "], [" "]. split; [|split; [|reflexivity]]; unfold blank; repeat (constructor; [auto|]); constructor.
Qed.

(** A text without any part at all, even the empty one, is a known duration of
    zero seconds. *)
Example C35_blank_is_zero : estimated_duration (fun _ => None) (Some [":"; " "]) = Some (inject_Z 0).
Proof. reflexivity. Qed.
