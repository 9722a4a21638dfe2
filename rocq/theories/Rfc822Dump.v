(** Dumping and loading again. *)
From Coq Require Import Ascii List Bool Arith Lia.
From Verif Require Import ScanModel Rfc822Model Rfc822Spec Rfc822Proofs.
Import ListNotations.
Open Scope list_scope.

Definition values (v : text) : list text :=
  match last (split_nl v) [] with [] => removelast (split_nl v) | _ => split_nl v end.
Definition has_nl (v : text) : bool := existsb (Ascii.eqb NL) v.
Lemma has_nl_true v : has_nl v = true <-> In NL v.
Proof.
  unfold has_nl. rewrite existsb_exists. split.
  - intros [x [H E]]. apply Ascii.eqb_eq in E. subst. exact H.
  - intros H. exists NL. split; auto.
Qed.
Lemma has_nl_false v : has_nl v = false <-> ~ In NL v.
Proof. rewrite <- has_nl_true. destruct (has_nl v); split; congruence. Qed.

(** The lines of a field. *)
Definition field_lines (k v : text) : list text :=
  if has_nl v then (k ++ [COLON; NL]) :: map dump_line (values v)
  else [k ++ [COLON; SP] ++ v ++ [NL]].

Lemma dump_field_lines k v : dump_field k (VText v) = concat (field_lines k v).
Proof.
  unfold dump_field, field_lines. fold (has_nl v). destruct (has_nl v).
  - simpl. unfold dump_part. rewrite <- app_assoc. reflexivity.
  - simpl. rewrite app_nil_r. reflexivity.
Qed.

Lemma values_in v l : In l (values v) -> In l (split_nl v).
Proof.
  unfold values. destruct (last (split_nl v) []); auto.
  destruct (split_nl v) as [|x r] eqn:E; [auto|]. intros H.
  rewrite (app_removelast_last [] (l := x :: r)) by discriminate. apply in_or_app. left. exact H.
Qed.

Definition enc (l : text) : text :=
  match l with [] => [DOT] | _ => if text_eqb l [DOT] then [DOT; DOT] else l end.
Lemma dump_line_enc l : dump_line l = SP :: enc l ++ [NL].
Proof. destruct l; [reflexivity|]. unfold dump_line, enc. destruct (text_eqb _ _); reflexivity. Qed.
Lemma enc_no_nl l : ~ In NL l -> ~ In NL (enc l).
Proof.
  destruct l as [|c l]; simpl; [intros _ [H|[]]; discriminate H|]. intros H.
  destruct (text_eqb _ _); auto. intros [K|[K|[]]]; discriminate K.
Qed.

Lemma field_lines_whole k v l : ~ In NL k -> In l (field_lines k v) ->
  exists l0, l = l0 ++ [NL] /\ ~ In NL l0.
Proof.
  intros Hk. unfold field_lines. destruct (has_nl v) eqn:E.
  - intros [<-|H].
    + exists (k ++ [COLON]). rewrite <- app_assoc. split; auto. intros K. apply in_app_or in K as [K|K]; auto.
      destruct K as [K|[]]. discriminate K.
    + apply in_map_iff in H as [x [<- Hx]]. exists (SP :: enc x). rewrite dump_line_enc. split; auto.
      intros [K|K]; [discriminate K|]. revert K. apply enc_no_nl, (split_nl_no_nl v), values_in, Hx.
  - apply has_nl_false in E. intros [<-|[]]. exists (k ++ [COLON; SP] ++ v). split.
    + rewrite <- !app_assoc. reflexivity.
    + intros K. apply in_app_or in K as [K|[K|[K|K]]]; auto; discriminate K.
Qed.

Definition dump_lines (d : list (text * text)) : list text :=
  flat_map (fun kv => field_lines (fst kv) (snd kv)) d.

Lemma dump_text d : dump (as_values d) = concat (dump_lines d) ++ [NL].
Proof.
  unfold dump, as_values, dump_lines. f_equal. induction d as [|[k v] d IH]; auto.
  cbn [map concat flat_map fst snd]. rewrite concat_app, <- IH, dump_field_lines. reflexivity.
Qed.

Lemma dump_stream d t : Forall (fun kv => good_key (fst kv)) d ->
  stream_lines (dump (as_values d) ++ t) = dump_lines d ++ [NL] :: stream_lines t.
Proof.
  intros H. rewrite dump_text, <- app_assoc. rewrite stream_lines_concat.
  - reflexivity.
  - intros l Hl. apply in_flat_map in Hl as [[k v] [H1 H2]].
    rewrite Forall_forall in H. destruct (H _ H1) as [_ [_ [Hk _]]]. simpl in *.
    eapply field_lines_whole; eauto.
Qed.

(** ** One field *)

Lemma split_colon_key k r : ~ In COLON k -> split_colon (k ++ COLON :: r) = Some (k, r).
Proof.
  induction k as [|c k IH]; intros H; [reflexivity|].
  simpl. destruct (Ascii.eqb c COLON) eqn:E.
  - apply Ascii.eqb_eq in E. subst. destruct H. left; auto.
  - rewrite IH; auto. intros K. apply H. right; auto.
Qed.
Lemma key_not_continues k r : good_key k -> continues (k ++ COLON :: r) = false.
Proof.
  intros [H1 [H2 _]]. apply stripped_head in H1. destruct k as [|c k]; [reflexivity|].
  unfold continues. cbn [app starts_with]. destruct (Ascii.eqb_spec SP c) as [E|E]; auto. subst. discriminate H1.
Qed.
Lemma key_not_comment k r : good_key k -> comment (k ++ COLON :: r) = false.
Proof. intros [_ [_ [_ H]]]. destruct k as [|c k]; auto. Qed.
Lemma key_not_blank k r : blank (k ++ COLON :: r) = false.
Proof. rewrite blank_app. simpl. apply andb_false_r. Qed.

Lemma count_nl_app a b : count_nl (a ++ b) = count_nl a + count_nl b.
Proof. apply count_occ_app. Qed.
Lemma count_nl_none t : ~ In NL t <-> count_nl t = 0.
Proof. unfold count_nl. apply (count_occ_not_In ascii_dec). Qed.

(** What the loader makes of a value. *)
Definition raw_lines (v : text) : text := concat (map (fun l => enc l ++ [NL]) (values v)).
Definition reread (v : text) : text := if has_nl v then normalize (raw_lines v) else strip v.

Definition ok_value (v : text) : Prop :=
  In NL v -> forall l, In l (values v) -> l = [] \/ blank l = false.

Lemma group_conts ls r fs : group r = Some ([], fs) ->
  group (map dump_line ls ++ r) = Some (map (fun l => enc l ++ [NL]) ls, fs).
Proof.
  intros H. induction ls as [|l ls IH]; [exact H|]. cbn [map app group]. rewrite IH.
  rewrite dump_line_enc. reflexivity.
Qed.
Lemma group_field k v r fs : good_key k -> group r = Some ([], fs) ->
  group (field_lines k v ++ r) = Some ([], (k, reread v) :: fs).
Proof.
  intros G H. pose proof G as [G1 [G2 _]]. unfold field_lines, reread. destruct (has_nl v) eqn:E.
  - cbn [app group]. rewrite (group_conts _ r fs H). rewrite key_not_continues, split_colon_key; auto.
    rewrite G1. unfold raw_value. simpl. reflexivity.
  - apply has_nl_false in E. cbn [app group]. rewrite H.
    change (k ++ COLON :: SP :: v ++ [NL]) with (k ++ COLON :: (SP :: v ++ [NL])).
    rewrite key_not_continues, split_colon_key; auto. rewrite G1. do 4 f_equal.
    unfold raw_value. cbn [concat]. rewrite app_nil_r.
    assert (Es : strip (SP :: v ++ [NL]) = strip v).
    { change (SP :: v ++ [NL]) with ((SP :: v) ++ [NL]). rewrite strip_app_r by reflexivity. apply (strip_app_l [SP] v). reflexivity. }
    destruct (blank (SP :: v ++ [NL])) eqn:Eb.
    { apply strip_nil in Eb. rewrite <- Es, Eb. reflexivity. }
    unfold normalize. replace (Nat.ltb 1 (count_nl (lstrip (SP :: v ++ [NL])))) with false.
    + rewrite strip_lstrip. exact Es.
    + symmetry. apply Nat.ltb_ge. destruct (lstrip_split (SP :: v ++ [NL])) as [w [_ Ew]].
      pose proof (f_equal count_nl Ew) as C. rewrite count_nl_app in C.
      change (SP :: v ++ [NL]) with ([SP] ++ v ++ [NL]) in C at 1. rewrite !count_nl_app in C.
      apply count_nl_none in E. rewrite E in C. cbn in C. cbn. lia.
Qed.
Lemma group_dump d : Forall (fun kv => good_key (fst kv)) d ->
  group (dump_lines d) = Some ([], map (fun kv => (fst kv, reread (snd kv))) d).
Proof.
  induction d as [|[k v] d IH]; intros H; [reflexivity|]. inversion_clear H as [|? ? H1 H2].
  cbn [dump_lines flat_map map fst snd]. apply group_field; auto.
Qed.

Lemma enc_blank l : blank (enc l) = true -> l <> [] /\ blank l = true.
Proof.
  destruct l as [|c l]; [discriminate|]. unfold enc. destruct (text_eqb _ _); [discriminate|].
  intros H. split; [discriminate|exact H].
Qed.
Lemma field_lines_nonblank k v l : good_key k -> ok_value v -> In l (field_lines k v) -> blank l = false.
Proof.
  intros G O. unfold field_lines. destruct (has_nl v) eqn:E.
  - apply has_nl_true in E. intros [<-|H]; [apply key_not_blank|].
    apply in_map_iff in H as [x [<- Hx]]. rewrite dump_line_enc.
    destruct (blank (SP :: enc x ++ [NL])) eqn:B; auto. exfalso.
    change (SP :: enc x ++ [NL]) with ([SP] ++ enc x ++ [NL]) in B. rewrite !blank_app in B.
    apply andb_true_iff in B as [_ B]. apply andb_true_iff in B as [B _].
    apply enc_blank in B as [B1 B2]. destruct (O E x Hx); congruence.
  - intros [<-|[]]. apply key_not_blank.
Qed.
Lemma field_lines_nocomment k v l : good_key k -> In l (field_lines k v) -> comment l = false.
Proof.
  intros G. unfold field_lines. destruct (has_nl v).
  - intros [<-|H]; [apply key_not_comment, G|].
    apply in_map_iff in H as [x [<- Hx]]. rewrite dump_line_enc. reflexivity.
  - intros [<-|[]]. apply key_not_comment, G.
Qed.
Lemma filter_all {A} (f : A -> bool) l : (forall x, In x l -> f x = true) -> filter f l = l.
Proof.
  induction l as [|a l IH]; auto. intros H. simpl. rewrite H by (left; auto). f_equal.
  apply IH. intros x Hx. apply H. right; auto.
Qed.
Lemma split_blank_none ls : (forall l, In l ls -> blank l = false) -> split_blank ls = [ls].
Proof.
  induction ls as [|l ls IH]; auto. intros H. simpl. rewrite H by (left; auto). rewrite IH; auto.
  intros x Hx. apply H. right; auto.
Qed.
Lemma split_blank_app a b r : blank b = true -> split_blank (a ++ b :: r) = split_blank a ++ split_blank r.
Proof.
  intros H. induction a as [|l a IH].
  - simpl. rewrite H. reflexivity.
  - simpl. destruct (blank l); simpl; rewrite IH; [reflexivity|].
    destruct (split_blank a) eqn:E; [destruct (split_blank_ne _ E)|]. reflexivity.
Qed.
Lemma blocks_app a b r : blank b = true -> blocks (a ++ b :: r) = blocks a ++ blocks r.
Proof. intros H. unfold blocks. rewrite split_blank_app by exact H. apply filter_app. Qed.

Lemma nocomments_dump d : Forall (fun kv => good_key (fst kv)) d ->
  filter (fun l => negb (comment l)) (dump_lines d) = dump_lines d.
Proof.
  intros H. apply filter_all. intros l Hl. apply in_flat_map in Hl as [[k v] [H1 H2]].
  rewrite Forall_forall in H. apply negb_true_iff. apply (field_lines_nocomment k v l); auto. apply (H _ H1).
Qed.

Lemma meaning_dump d : d <> [] -> NoDup (map fst d) -> Forall (fun kv => good_key (fst kv)) d ->
  Forall (fun kv => ok_value (snd kv)) d ->
  meaning (dump_lines d ++ [[NL]]) = Some [map (fun kv => (fst kv, reread (snd kv))) d].
Proof.
  intros D ND G O. unfold meaning. rewrite filter_app, nocomments_dump by exact G. cbn [filter].
  change (negb (comment [NL])) with true. cbn [filter].
  rewrite blocks_app by reflexivity. unfold blocks at 1.
  rewrite split_blank_none.
  2:{ intros l Hl. apply in_flat_map in Hl as [[k v] [H1 H2]].
      rewrite Forall_forall in G, O. apply (field_lines_nonblank k v l); auto.
      - apply (G _ H1).
      - apply (O _ H1). }
  assert (N : nonempty (dump_lines d) = true).
  { destruct d as [|[k v] d]; [contradiction|]. cbn [dump_lines flat_map fst snd].
    unfold field_lines. destruct (has_nl v); reflexivity. }
  cbn [filter]. rewrite N. cbn [app blocks split_blank filter nonempty map sequence].
  unfold parse_block. rewrite group_dump by exact G.
  rewrite map_map. cbn [fst]. rewrite (proj2 (nodupb_true _)) by exact ND. reflexivity.
Qed.

(** A blank line in a value breaks the record. *)
Lemma sequence_none {A} (l : list (option A)) : In None l -> sequence l = None.
Proof.
  induction l as [|[a|] l IH]; simpl; auto; [intros []|]. intros [H|H]; [discriminate H|].
  rewrite IH; auto.
Qed.
Lemma stray_block c b : continues c = true -> parse_block (c :: b) = None.
Proof.
  intros H. unfold parse_block. cbn [group]. destruct (group b) as [[? ?]|]; [|reflexivity].
  rewrite H. reflexivity.
Qed.
Lemma stray_meaning a b c r :
  blank b = true -> comment c = false -> blank c = false -> continues c = true ->
  meaning (a ++ b :: c :: r) = None.
Proof.
  intros Hb Hc Hbc Hcc. unfold meaning. rewrite filter_app. cbn [filter].
  rewrite (blank_not_comment b Hb). cbn [negb]. rewrite Hc. cbn [negb].
  rewrite blocks_app by exact Hb. rewrite map_app. apply sequence_none. apply in_or_app. right.
  unfold blocks. cbn [split_blank]. rewrite Hbc.
  destruct (split_blank (filter _ r)) as [|x xs]; cbn [filter nonempty map]; left; apply stray_block, Hcc.
Qed.

Lemma join_cons l ls : ls <> [] -> join_nl (l :: ls) = l ++ NL :: join_nl ls.
Proof. destruct ls; [contradiction|reflexivity]. Qed.
Lemma stripped_values v : strip v = v -> In NL v -> values v = split_nl v /\
  exists first mid lst, split_nl v = first :: mid ++ [lst] /\ blank lst = false /\
    match first with c :: _ => isspace c = false | [] => False end.
Proof.
  intros S H.
  assert (L : 2 <= length (split_nl v)).
  { rewrite split_nl_length. assert (count_nl v <> 0); [|lia]. rewrite <- count_nl_none. auto. }
  destruct (split_nl v) as [|first r] eqn:E; [simpl in L; lia|].
  destruct r as [|x r] using rev_ind; [simpl in L; lia|]. clear IHr.
  assert (J : v = first ++ NL :: join_nl (r ++ [x])).
  { rewrite <- (join_split v) at 1. rewrite E. simpl. destruct (r ++ [x]) eqn:E'; [|reflexivity].
    destruct r; discriminate E'. }
  assert (F : match first with c :: _ => isspace c = false | [] => False end).
  { pose proof (stripped_head v S) as Hh. rewrite J in Hh. destruct first; [discriminate Hh|exact Hh]. }
  assert (B : blank x = false).
  { destruct (blank x) eqn:B; auto. exfalso.
    assert (exists p, v = p ++ NL :: x) as [p Ep].
    { rewrite J. clear. revert first. induction r as [|y r IH]; intros f.
      - exists f. reflexivity.
      - destruct (IH y) as [p Ep]. exists (f ++ NL :: p). cbn [app].
        rewrite join_cons by (destruct r; discriminate). rewrite Ep, <- app_assoc. reflexivity. }
    apply stripped_rstrip in S. rewrite Ep in S. rewrite rstrip_app_blank in S by (simpl; exact B).
    destruct (rstrip_split p) as [w [_ Ew]].
    assert (length p = length (rstrip p) + length w) by (rewrite Ew at 1; apply app_length).
    rewrite S, app_length in H0. simpl in H0. lia. }
  split; [|exists first, r, x; auto].
  unfold values. rewrite E. change (first :: r ++ [x]) with ((first :: r) ++ [x]).
  rewrite last_last. destruct x; [discriminate B|reflexivity].
Qed.

Lemma blank_dump_line l : blank l = true -> l <> [] -> blank (dump_line l) = true.
Proof.
  intros B N. unfold dump_line. destruct l as [|c l]; [contradiction|].
  assert (text_eqb (c :: l) [DOT] = false) as ->.
  { apply not_true_iff_false. rewrite text_eqb_eq. intros K. rewrite K in B. discriminate B. }
  change (SP :: (c :: l) ++ [NL]) with ([SP] ++ (c :: l) ++ [NL]). rewrite !blank_app, B. reflexivity.
Qed.
Lemma nonblank_dump_line l : blank l = false -> blank (dump_line l) = false.
Proof.
  intros B. rewrite dump_line_enc. change (SP :: enc l ++ [NL]) with ([SP] ++ enc l ++ [NL]).
  rewrite !blank_app. destruct (blank (enc l)) eqn:E; [|reflexivity]. apply enc_blank in E. destruct E. congruence.
Qed.

(** After a blank line, the next line of the value that is not blank is stray. *)
Lemma break_in_lines ls lst : (exists l, In l ls /\ blank l = true /\ l <> []) -> blank lst = false ->
  exists a b c r, map dump_line (ls ++ [lst]) = a ++ b :: c :: r /\
    blank b = true /\ comment c = false /\ blank c = false /\ continues c = true.
Proof.
  intros Hex HL. induction ls as [|x ls IH]; [destruct Hex as [l [[] _]]|].
  destruct (existsb (fun y => (blank y && nonempty y)%bool) ls) eqn:E.
  - apply existsb_exists in E as [y [Hy Ey]]. apply andb_true_iff in Ey as [E1 E2].
    destruct IH as [a [b [c [r [E' HH]]]]].
    { exists y. destruct y; [discriminate E2|]. repeat split; auto. discriminate. }
    exists (dump_line x :: a), b, c, r. split; [|exact HH]. simpl. rewrite E'. reflexivity.
  - destruct Hex as [l [Hl [B N]]]. destruct Hl as [->|Hl].
    2:{ exfalso. apply not_true_iff_false in E. apply E. apply existsb_exists. exists l. split; auto.
        rewrite B. destruct l; [contradiction|reflexivity]. }
    cbn [app map]. assert (M : exists c r, map dump_line (ls ++ [lst]) = c :: r /\ blank c = false /\ continues c = true).
    { destruct ls as [|y ls].
      - exists (dump_line lst), []. split; [reflexivity|]. split; [apply nonblank_dump_line, HL|].
        rewrite dump_line_enc. reflexivity.
      - exists (dump_line y), (map dump_line (ls ++ [lst])). split; [reflexivity|]. split.
        + destruct (blank y) eqn:By; [|apply nonblank_dump_line, By].
          destruct y as [|cc y]; [reflexivity|]. exfalso. simpl in E. simpl in By. rewrite By in E. discriminate E.
        + rewrite dump_line_enc. reflexivity. }
    destruct M as [c [r [M1 [M2 M3]]]]. exists [], (dump_line l), c, r. cbn [app].
    rewrite M1. split; [reflexivity|]. split; [apply blank_dump_line; auto|]. split; [|auto].
    destruct c as [|cc c]; [reflexivity|]. unfold comment, continues, starts_with in *.
    apply Ascii.eqb_eq in M3. subst. reflexivity.
Qed.

Lemma broken_meaning d : Forall (fun kv => good_key (fst kv)) d ->
  (exists k v, In (k, v) d /\ strip v = v /\ ~ ok_value v) ->
  meaning (dump_lines d ++ [[NL]]) = None.
Proof.
  intros G [k [v [Hin [S NO]]]].
  assert (E : exists a b c r, dump_lines d = a ++ b :: c :: r /\
    blank b = true /\ comment c = false /\ blank c = false /\ continues c = true).
  { clear G. induction d as [|[k' v'] d IH]; [destruct Hin|].
    cbn [dump_lines flat_map fst snd]. fold (dump_lines d). destruct Hin as [E|Hin].
    - injection E as -> ->. unfold field_lines. destruct (has_nl v) eqn:Hn.
      2:{ exfalso. apply NO. intros H. apply has_nl_false in Hn. contradiction. }
      apply has_nl_true in Hn. destruct (stripped_values v S Hn) as [E1 [f [mid [lst [E2 [HL Hf]]]]]].
      rewrite E1, E2. change (f :: mid ++ [lst]) with ((f :: mid) ++ [lst]).
      destruct (break_in_lines (f :: mid) lst) as [a [b [c [r [E3 HH]]]]]; auto.
      { destruct (existsb (fun y => (blank y && nonempty y)%bool) (f :: mid)) eqn:E.
        - apply existsb_exists in E as [y [Hy Ey]]. apply andb_true_iff in Ey as [Ey1 Ey2].
          exists y. destruct y; [discriminate Ey2|]. repeat split; auto. discriminate.
        - exfalso. apply NO. intros _ l Hl. rewrite E1, E2 in Hl.
          change (f :: mid ++ [lst]) with ((f :: mid) ++ [lst]) in Hl.
          apply in_app_or in Hl as [Hl|[<-|[]]]; auto.
          destruct (blank l) eqn:B; auto. left. destruct l as [|x l]; auto. exfalso.
          apply not_true_iff_false in E. apply E. apply existsb_exists. exists (x :: l). rewrite B. auto. }
      exists ((k ++ [COLON; NL]) :: a), b, c, (r ++ dump_lines d).
      rewrite E3. cbn [app]. rewrite <- app_assoc. split; [reflexivity|exact HH].
    - destruct (IH Hin) as [a [b [c [r [E HH]]]]]. exists (field_lines k' v' ++ a), b, c, r.
      rewrite E, <- app_assoc. split; auto. }
  destruct E as [a [b [c [r [E [H1 [H2 [H3 H4]]]]]]]].
  rewrite E, <- app_assoc. cbn [app]. apply stray_meaning; auto.
Qed.

(** ** Which values survive *)
Definition clean (l : text) : text := if forallb isblank l then [] else l.
Definition fline (l : text) : text := clean (undot (enc l)).

Lemma isblank_isspace c : isblank c = true -> isspace c = true.
Proof.
  unfold isblank. intros H. apply orb_true_iff in H as [H|H]; apply Ascii.eqb_eq in H; subst; reflexivity.
Qed.
Lemma isblank_blank l : forallb isblank l = true -> blank l = true.
Proof.
  unfold blank. rewrite !forallb_forall. intros H x Hx. apply isblank_isspace, H, Hx.
Qed.
Lemma undot_dot w : blank w = true -> undot (w ++ [DOT]) = w.
Proof.
  intros H. unfold undot. rewrite rev_app_distr. cbn [rev app]. rewrite Ascii.eqb_refl. cbn [andb].
  fold (blank (rev w)). rewrite blank_rev, H. apply rev_involutive.
Qed.
Lemma undot_other l : ~ dot_line l -> undot l = l.
Proof.
  intros H. unfold undot. destruct (rev l) as [|c r] eqn:E; auto.
  destruct (Ascii.eqb c DOT) eqn:Ec; auto. apply Ascii.eqb_eq in Ec. subst. cbn [andb].
  destruct (forallb isspace r) eqn:B; auto. exfalso. apply H. exists (rev r). rewrite blank_rev. split; auto.
  rewrite <- (rev_involutive l), E. reflexivity.
Qed.
Lemma dot_line_one : dot_line [DOT].
Proof. exists []. auto. Qed.
Lemma fline_good l : (l = [] \/ blank l = false) -> ~ dot_line l -> fline l = l.
Proof.
  intros [->|B] D; [reflexivity|]. unfold fline.
  assert (enc l = l) as ->.
  { unfold enc. destruct l; [discriminate B|]. destruct (text_eqb (a :: l) [DOT]) eqn:E; auto.
    apply text_eqb_eq in E. destruct D. rewrite E. apply dot_line_one. }
  rewrite undot_other; auto. unfold clean. destruct (forallb isblank l) eqn:E; auto.
  apply isblank_blank in E. congruence.
Qed.
Lemma fline_bad l a b : dot_line l -> blank a = true -> blank b = true -> fline l <> a ++ l ++ b.
Proof.
  intros [w [Hw ->]] Ha Hb H. destruct w as [|c w].
  - change (fline ([] ++ [DOT])) with [DOT; DOT] in H. destruct a as [|x a].
    + destruct b as [|y b]; simpl in H; [discriminate H|]. injection H as <- H. subst. discriminate Hb.
    + simpl in H. injection H as <- H. discriminate Ha.
  - assert (E : enc ((c :: w) ++ [DOT]) = (c :: w) ++ [DOT]).
    { unfold enc. cbn [app]. destruct (text_eqb _ _) eqn:E; auto. apply text_eqb_eq in E.
      destruct w; discriminate E. }
    unfold fline in H. rewrite E, undot_dot in H by exact Hw.
    assert (L : length (clean (c :: w)) <= length (c :: w)).
    { unfold clean. destruct (forallb isblank (c :: w)); simpl; lia. }
    rewrite H in L. rewrite !app_length in L. simpl in L. lia.
Qed.
Lemma fline_no_nl l : ~ In NL l -> ~ In NL (fline l).
Proof.
  intros H. apply enc_no_nl in H. unfold fline. revert H. generalize (enc l). intros t H.
  assert (~ In NL (undot t)).
  { unfold undot. destruct (rev t) eqn:E; auto. destruct (_ && _)%bool; auto. intros K. apply H.
    apply in_rev. rewrite E. right. apply in_rev. exact K. }
  unfold clean. destruct (forallb isblank (undot t)); auto.
Qed.

Lemma raw_lines_join ls : concat (map (fun l => enc l ++ [NL]) ls) = join_nl (map enc ls ++ [[]]).
Proof.
  induction ls as [|l ls IH]; auto. cbn [map concat app]. rewrite IH.
  rewrite join_cons by (destruct (map enc ls); discriminate). rewrite <- app_assoc. reflexivity.
Qed.
Lemma split_raw_lines ls : (forall l, In l ls -> ~ In NL l) ->
  split_nl (concat (map (fun l => enc l ++ [NL]) ls)) = map enc ls ++ [[]].
Proof.
  intros H. rewrite raw_lines_join. apply split_join.
  - destruct (map enc ls); discriminate.
  - intros l Hl. apply in_app_or in Hl as [Hl|[<-|[]]]; auto. apply in_map_iff in Hl as [x [<- Hx]].
    apply enc_no_nl, H, Hx.
Qed.
Lemma common_nil m : common_prefix m [] = [].
Proof. destruct m; reflexivity. Qed.
Lemma margin_nil ls : fold_left (fun m l =>
    match l with
    | [] => m
    | _ => match m with None => Some (leading l) | Some m => Some (common_prefix m (leading l)) end
    end) ls (Some []) = Some [].
Proof. induction ls as [|l ls IH]; auto. simpl. destruct l; auto. Qed.
Lemma dedent_margin_nil l ls :
  match l with c :: _ => isspace c = false | [] => False end ->
  dedent_lines (l :: ls) = map clean (l :: ls).
Proof.
  intros H. destruct l as [|c l]; [contradiction|]. unfold dedent_lines.
  fold clean. change (map (fun l : list ascii => if forallb isblank l then [] else l) ((c :: l) :: ls))
    with (map clean ((c :: l) :: ls)).
  assert (B : isblank c = false).
  { destruct (isblank c) eqn:E; auto. apply isblank_isspace in E. congruence. }
  assert (M : margin (map clean ((c :: l) :: ls)) = Some []).
  { assert (Cl : clean (c :: l) = c :: l) by (unfold clean; cbn [forallb]; rewrite B; reflexivity).
    unfold margin. cbn [map]. rewrite Cl. cbn [fold_left leading]. rewrite B. apply margin_nil. }
  rewrite M. reflexivity.
Qed.
Lemma join_snoc_nil (ls : list text) : ls <> [] -> join_nl (ls ++ [[] : text]) = join_nl ls ++ [NL].
Proof.
  induction ls as [|l ls IH]; [contradiction|]. intros _. destruct ls as [|l' ls]; [reflexivity|].
  specialize (IH ltac:(discriminate)).
  rewrite (join_cons l (l' :: ls)) by discriminate. rewrite <- app_assoc. cbn [app]. rewrite <- IH.
  apply (join_cons l ((l' :: ls) ++ [[]])). discriminate.
Qed.

Lemma first_fline f : match f with c :: _ => isspace c = false | [] => False end ->
  match undot (enc f) with c :: _ => isspace c = false | [] => False end.
Proof.
  intros H. destruct f as [|c f]; [contradiction|].
  unfold enc. destruct (text_eqb (c :: f) [DOT]) eqn:E; [reflexivity|].
  rewrite undot_other; [exact H|]. intros [w [Hw K]]. destruct w as [|x w].
  - rewrite K in E. discriminate E.
  - simpl in K. injection K as -> _. simpl in Hw. rewrite H in Hw. discriminate Hw.
Qed.

Lemma reread_lines v : strip v = v -> In NL v ->
  reread v = strip (join_nl (map fline (split_nl v))).
Proof.
  intros S H. destruct (stripped_values v S H) as [E1 [f [mid [lst [E2 [HL Hf]]]]]].
  assert (NN : forall l, In l (split_nl v) -> ~ In NL l) by (intros l; apply split_nl_no_nl).
  unfold reread. rewrite (proj2 (has_nl_true v) H). unfold raw_lines. rewrite E1.
  set (raw := concat (map (fun l => enc l ++ [NL]) (split_nl v))).
  assert (Sp : split_nl raw = map enc (split_nl v) ++ [[]]) by (apply split_raw_lines, NN).
  unfold normalize.
  assert (C : Nat.ltb 1 (count_nl raw) = true).
  { apply Nat.ltb_lt. pose proof (split_nl_length raw) as L. rewrite Sp, app_length, map_length in L.
    rewrite E2 in L. simpl in L. rewrite app_length in L. simpl in L. lia. }
  rewrite C, Sp, map_app, map_map. cbn [map]. change (undot []) with (@nil ascii).
  rewrite E2. cbn [map app].
  rewrite dedent_margin_nil by (apply first_fline, Hf).
  change (undot (enc f) :: map (fun x : text => undot (enc x)) (mid ++ [lst]) ++ [[]])
    with (map (fun x : text => undot (enc x)) (f :: mid ++ [lst]) ++ [[]]).
  rewrite map_app, map_map. cbn [map]. change (clean []) with (@nil ascii).
  change (clean (undot (enc f)) :: map (fun x : text => clean (undot (enc x))) (mid ++ [lst]))
    with (map fline (f :: mid ++ [lst])).
  rewrite join_snoc_nil by discriminate. apply strip_app_r. reflexivity.
Qed.

Lemma split_app_l a t : ~ In NL a ->
  Forall2 (fun x l => exists a', blank a = true -> blank a' = true /\ x = a' ++ l) (split_nl (a ++ t)) (split_nl t).
Proof.
  intros H. destruct (split_nl t) as [|l ls] eqn:E; [destruct (split_nl_ne _ E)|].
  assert (split_nl (a ++ t) = (a ++ l) :: ls) as ->.
  { induction a as [|c a IH]; [exact E|]. simpl. destruct (Ascii.eqb c NL) eqn:Ec.
    - apply Ascii.eqb_eq in Ec. subst. destruct H. left; auto.
    - rewrite IH; auto. intros K. apply H. right; auto. }
  constructor.
  - exists a. auto.
  - clear. induction ls; constructor; auto. exists []. auto.
Qed.
Lemma split_app_r t b : ~ In NL b ->
  Forall2 (fun x l => exists b', blank b = true -> blank b' = true /\ x = l ++ b') (split_nl (t ++ b)) (split_nl t).
Proof.
  intros H. induction t as [|c t IH].
  - simpl. rewrite split_nl_line by exact H. constructor; [|constructor]. exists b. auto.
  - simpl. destruct (Ascii.eqb c NL).
    + constructor; auto. exists []. auto.
    + inversion IH as [|x l xs ls H1 H2 E1 E2]; subst.
      * destruct (split_nl_ne t). auto.
      * constructor; auto. destruct H1 as [b' H1]. exists b'. intros K. destruct (H1 K) as [K1 K2].
        split; auto. rewrite K2. reflexivity.
Qed.

Lemma reread_good v : good_value v -> reread v = v.
Proof.
  intros [S G]. destruct (has_nl v) eqn:E.
  - apply has_nl_true in E. rewrite reread_lines by auto.
    assert (map fline (split_nl v) = split_nl v) as ->.
    { rewrite <- (map_id (split_nl v)) at 2. apply map_ext_in. intros l Hl. destruct (G E l Hl).
      apply fline_good; auto. }
    rewrite join_split. exact S.
  - unfold reread. rewrite E. exact S.
Qed.

Lemma good_reread v : strip v = v -> ok_value v -> reread v = v -> good_value v.
Proof.
  intros S O R. split; auto. intros H l Hl.
  destruct (stripped_values v S H) as [E1 _].
  split; [apply O; auto; rewrite E1; exact Hl|]. intros D.
  rewrite reread_lines in R by auto.
  set (X := join_nl (map fline (split_nl v))) in *.
  destruct (strip_split X) as [a [b [Ha [Hb EX]]]]. rewrite R in EX.
  assert (Sx : split_nl X = map fline (split_nl v)).
  { apply split_join.
    - pose proof (split_nl_ne v). destruct (split_nl v); [contradiction|discriminate].
    - intros x Hx. apply in_map_iff in Hx as [y [<- Hy]]. eapply fline_no_nl, split_nl_no_nl; eauto. }
  assert (C : count_nl X = count_nl v).
  { pose proof (split_nl_length X) as L. pose proof (split_nl_length v) as L'. rewrite Sx, map_length in L. lia. }
  rewrite EX, !count_nl_app in C.
  assert (Na : ~ In NL a) by (apply count_nl_none; lia).
  assert (Nb : ~ In NL b) by (apply count_nl_none; lia).
  pose proof (split_app_l a (v ++ b) Na) as F1. pose proof (split_app_r v b Nb) as F2.
  rewrite <- EX, Sx in F1.
  assert (F : Forall2 (fun x l => exists a' b', blank a' = true /\ blank b' = true /\ x = a' ++ l ++ b')
                      (map fline (split_nl v)) (split_nl v)).
  { clear -F1 F2 Ha Hb. revert F1 F2. generalize (map fline (split_nl v)). generalize (split_nl v). generalize (split_nl (v ++ b)).
    intros ys zs xs F1. revert zs. induction F1 as [|x y xs ys H1 _ IH]; intros zs F2; inversion F2 as [|y' z ys' zs' H2 H3]; subst; constructor; auto.
    destruct H1 as [a' H1], H2 as [b' H2]. destruct (H1 Ha) as [A1 A2], (H2 Hb) as [B1 B2]. subst.
    exists a', b'. auto. }
  clear -F Hl D. revert F Hl. generalize (split_nl v). induction l0 as [|y ls IH]; intros F Hl; [destruct Hl|].
  inversion F as [|? ? ? ? H1 H2]; subst. destruct Hl as [->|Hl]; [|auto].
  destruct H1 as [a' [b' [A [B E]]]]. apply (fline_bad l a' b'); auto.
Qed.

Lemma good_ok v : good_value v -> ok_value v.
Proof.
  intros [S G] H l Hl. apply (G H). apply values_in, Hl.
Qed.
