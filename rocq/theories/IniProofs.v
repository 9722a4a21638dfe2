(** Facts about INI files: expansion, writing and reading back, merging. *)
From Coq Require Import String Ascii List Bool Arith Lia Permutation.
From Verif Require Import ScanModel Rfc822Model Rfc822Spec Rfc822Proofs IniModel ConfigModel ConfigSpec.
Import ListNotations.
Local Open Scope nat_scope.
Local Open Scope list_scope.

(** ** Dictionaries *)

Lemma text_eqb_neq a b : text_eqb a b = false <-> a <> b.
Proof.
  split.
  - intros H E. subst. rewrite text_eqb_refl in H. discriminate.
  - intros H. destruct (text_eqb a b) eqn:E; auto. apply text_eqb_eq in E. contradiction.
Qed.

Lemma tget_tset {A} k k' (v : A) d : tget k (tset k' v d) = if text_eqb k k' then Some v else tget k d.
Proof.
  induction d as [|[a w] d IH]; cbn [tset].
  - cbn [tget]. reflexivity.
  - destruct (text_eqb k' a) eqn:E; cbn [tget].
    + apply text_eqb_eq in E. subst a. destruct (text_eqb k k'); reflexivity.
    + destruct (text_eqb k a) eqn:E2.
      * destruct (text_eqb k k') eqn:E3; auto. apply text_eqb_eq in E2, E3. subst.
        rewrite text_eqb_refl in E. discriminate.
      * exact IH.
Qed.

Lemma tset_same {A} k (v : A) d : tget k d = Some v -> tset k v d = d.
Proof.
  induction d as [|[a w] d IH]; cbn [tget tset]; [discriminate|].
  destruct (text_eqb k a); [intros [= ->]; reflexivity|]. intros H. now rewrite IH.
Qed.

Lemma tset_tset {A} k (v w : A) d : tset k v (tset k w d) = tset k v d.
Proof.
  induction d as [|[a x] d IH]; cbn [tset].
  - rewrite text_eqb_refl. reflexivity.
  - destruct (text_eqb k a) eqn:E; cbn [tset]; rewrite E; [reflexivity|]. now rewrite IH.
Qed.

Lemma tget_In {A} k (v : A) d : tget k d = Some v -> In (k, v) d.
Proof.
  induction d as [|[a w] d IH]; cbn [tget]; [discriminate|].
  destruct (text_eqb k a) eqn:E; [|right; auto]. apply text_eqb_eq in E. subst. intros [= ->]. now left.
Qed.

Lemma In_tget {A} k (v : A) d : NoDup (map fst d) -> In (k, v) d -> tget k d = Some v.
Proof.
  induction d as [|[a w] d IH]; cbn [tget map fst]; intros N H; [destruct H|]; destruct H as [H|H]; inversion N; subst.
  - injection H as -> ->. now rewrite text_eqb_refl.
  - destruct (text_eqb k a) eqn:E; auto. apply text_eqb_eq in E. subst.
    exfalso. apply H2. change a with (fst (a, v)). now apply in_map.
Qed.

Lemma tget_perm {A} k (d d' : list (text * A)) : NoDup (map fst d) -> Permutation d d' -> tget k d = tget k d'.
Proof.
  intros N P. assert (N' : NoDup (map fst d')) by (eapply Permutation_NoDup; [apply Permutation_map, P|exact N]).
  destruct (tget k d) as [v|] eqn:E.
  - symmetry. apply In_tget; auto. apply (Permutation_in _ P). now apply tget_In.
  - symmetry. apply tget_none. apply tget_none in E. intros H. apply E.
    apply (Permutation_in (l := map fst d')); auto. apply Permutation_map. now apply Permutation_sym.
Qed.

Lemma map_fst_tset {A} k (v : A) d :
  map fst (tset k v d) = if tmem k (map fst d) then map fst d else map fst d ++ [k].
Proof.
  induction d as [|[a w] d IH]; [reflexivity|]. cbn [tset map fst tmem existsb].
  destruct (text_eqb k a) eqn:E; [reflexivity|]. cbn [map fst]. rewrite IH. unfold tmem. cbn [orb].
  destruct (existsb (text_eqb k) (map fst d)); reflexivity.
Qed.

Lemma tmem_In k l : tmem k l = true <-> In k l.
Proof.
  unfold tmem. rewrite existsb_exists. split.
  - intros (x & H & E). apply text_eqb_eq in E. now subst.
  - intros H. exists k. split; auto. apply text_eqb_refl.
Qed.

Lemma NoDup_tset {A} k (v : A) d : NoDup (map fst d) -> NoDup (map fst (tset k v d)).
Proof.
  intros N. rewrite map_fst_tset. destruct (tmem k (map fst d)) eqn:E; auto.
  rewrite <- (rev_involutive (map fst d ++ [k])). apply NoDup_rev. rewrite rev_app_distr. cbn [rev app].
  apply NoDup_cons; [|now apply NoDup_rev]. rewrite <- in_rev. intros H. apply tmem_In in H. congruence.
Qed.

Lemma is_default_true s : is_default s = true <-> s = DEFAULT.
Proof. apply text_eqb_eq. Qed.

(** ** Expansion *)

Lemma in_pct t : existsb (Ascii.eqb PCT) t = true <-> In PCT t.
Proof.
  rewrite existsb_exists. split.
  - intros (x & H & E). apply Ascii.eqb_eq in E. now subst.
  - intros H. exists PCT. split; [exact H|reflexivity].
Qed.

Lemma interpolate_S d map t :
  interpolate (S d) map t = some_from (interpolate d map) map MText t.
Proof. reflexivity. Qed.

(** What the rest of the text must be, in each state. *)
Definition rest_expands (m : text -> option (option text)) (n : nat) (md : imode) (t u : text) : Prop :=
  match md with
  | MText => expands m n t u
  | MPercent => expands m n (PCT :: t) u
  | MKey acc => ~ In ")"%char acc -> expands m n (T "%(" ++ rev acc ++ t) u
  | MClose k => k <> [] -> ~ In ")"%char k -> expands m n (T "%(" ++ k ++ T ")" ++ t) u
  end.

Lemma some_expands m n : forall t md u,
  (forall w v, interpolate n m w = inl v -> exists n', n = S n' /\ expands m n' w v) ->
  some_from (interpolate n m) m md t = inl u -> rest_expands m n md t u.
Proof.
  intros t md u HN. revert md u. induction t as [|c t IH]; intros md u H; cbn [some_from] in H.
  - destruct md; try discriminate. injection H as <-. constructor.
  - destruct md as [| |acc|k].
    + destruct (Ascii.eqb_spec c PCT) as [->|D].
      * now apply IH in H.
      * destruct (some_from (interpolate n m) m MText t) as [x|] eqn:E; [|discriminate]. injection H as <-.
        apply IH in E. now constructor.
    + destruct (Ascii.eqb_spec c PCT) as [->|D].
      * destruct (some_from (interpolate n m) m MText t) as [x|] eqn:E; [|discriminate]. injection H as <-.
        apply IH in E. now constructor.
      * destruct (Ascii.eqb_spec c "("%char) as [->|D2]; [|discriminate].
        apply IH in H. cbn [rest_expands rev app] in *. apply H. intros [].
    + destruct (Ascii.eqb_spec c ")"%char) as [->|D].
      * destruct acc as [|a acc]; [discriminate|]. apply IH in H. cbn [rest_expands] in *. intros Hn.
        apply H.
        -- intros E. apply (f_equal (@length _)) in E. rewrite rev_length in E. discriminate.
        -- now rewrite <- in_rev.
      * apply IH in H. cbn [rest_expands] in *. intros Hn. cbn [rev] in H. rewrite <- app_assoc in H.
        apply H. intros [E|Hi]; [now apply D|auto].
    + destruct (Ascii.eqb_spec c "s"%char) as [->|D]; [|discriminate].
      destruct (m k) as [[w|]|] eqn:Ek; try discriminate.
      destruct (existsb (Ascii.eqb PCT) w) eqn:Ew.
      * destruct (interpolate n m w) as [v|] eqn:Ei; [|discriminate].
        destruct (some_from (interpolate n m) m MText t) as [y|] eqn:E; [|discriminate]. injection H as <-.
        apply IH in E. cbn [rest_expands] in *. intros K1 K2.
        destruct (HN w v Ei) as (n' & -> & X).
        apply (ex_nested m n' k w v t y); auto. now apply in_pct.
      * destruct (some_from (interpolate n m) m MText t) as [y|] eqn:E; [|discriminate]. injection H as <-.
        apply IH in E. cbn [rest_expands] in *. intros K1 K2.
        apply (ex_plain m n k w t y); auto. intros Hw. apply in_pct in Hw. congruence.
Qed.

Lemma interpolate_expands m n t u : interpolate (S n) m t = inl u -> expands m n t u.
Proof.
  revert t u. induction n as [|n IH]; intros t u H; rewrite interpolate_S in H;
    apply (some_expands m _ t MText u) in H; auto.
  - intros w v E. discriminate.
  - intros w v E. exists n. auto.
Qed.

Lemma some_key nested m k acc t : ~ In ")"%char k ->
  some_from nested m (MKey acc) (k ++ t) = some_from nested m (MKey (rev k ++ acc)) t.
Proof.
  revert acc. induction k as [|c k IH]; intros acc H; [reflexivity|].
  cbn [app some_from]. destruct (Ascii.eqb_spec c ")"%char) as [->|D]; [exfalso; apply H; now left|].
  rewrite IH by (intros Hi; apply H; now right). cbn [rev]. now rewrite <- app_assoc.
Qed.

Lemma some_reference nested m k w t : k <> [] -> ~ In ")"%char k -> m k = Some (Some w) ->
  some_from nested m MText (T "%(" ++ k ++ T ")s" ++ t) =
  match (if existsb (Ascii.eqb PCT) w then nested w else inl w) with
  | inr e => inr e
  | inl x => match some_from nested m MText t with inl y => inl (x ++ y) | inr e => inr e end
  end.
Proof.
  intros K1 K2 Hm.
  assert (E1 : some_from nested m MText (T "%(" ++ k ++ T ")s" ++ t) =
               some_from nested m (MKey []) (k ++ T ")s" ++ t)) by reflexivity.
  rewrite E1, some_key by exact K2. rewrite app_nil_r.
  destruct (rev k) as [|a r] eqn:Er.
  { exfalso. apply K1. rewrite <- (rev_involutive k), Er. reflexivity. }
  assert (E2 : some_from nested m (MKey (a :: r)) (T ")s" ++ t) =
               some_from nested m (MClose (rev (a :: r))) (T "s" ++ t)) by reflexivity.
  rewrite E2, <- Er, rev_involutive. cbn [T list_ascii_of_string app some_from].
  rewrite Hm. reflexivity.
Qed.

Lemma expands_interpolate m n t u : expands m n t u -> interpolate (S n) m t = inl u.
Proof.
  intros H. rewrite interpolate_S.
  induction H as [k0|k0 c t u D H IH|k0 t u H IH|k0 k w t u K1 K2 Hm Hw H IH|k0 k w v t u K1 K2 Hm Hw H1 IH1 H IH].
  - reflexivity.
  - cbn [some_from]. destruct (Ascii.eqb_spec c PCT); [contradiction|]. now rewrite IH.
  - cbn [some_from]. change (Ascii.eqb PCT PCT) with true. cbn iota. now rewrite IH.
  - rewrite (some_reference _ _ _ _ _ K1 K2 Hm).
    destruct (existsb (Ascii.eqb PCT) w) eqn:Ew; [exfalso; apply Hw; now apply in_pct|]. now rewrite IH.
  - rewrite (some_reference _ _ _ _ _ K1 K2 Hm).
    destruct (existsb (Ascii.eqb PCT) w) eqn:Ew; [|apply in_pct in Hw; congruence].
    rewrite interpolate_S, IH1, IH. reflexivity.
Qed.

Lemma interpolate_plain m n t : ~ In PCT t -> interpolate (S n) m t = inl t.
Proof.
  intros H. apply expands_interpolate. induction t as [|c t IH]; constructor.
  - intros ->. apply H. now left.
  - apply IH. intros Hi. apply H. now right.
Qed.

(** ** Reading what was written *)

(** One more option in a parser. *)
Definition put (sect opt : text) (v : option text) (i : ini) : ini :=
  if is_default sect then mk_ini (tset opt v (i_defaults i)) (i_sections i)
  else mk_ini (i_defaults i)
    (tset sect (tset opt v (match tget sect (i_sections i) with Some d => d | None => [] end)) (i_sections i)).

Lemma join_tset k v d : join_options (tset k v d) = tset k (join_value v) (join_options d).
Proof.
  induction d as [|[a w] d IH]; [reflexivity|]. cbn [tset join_options map fst snd].
  destruct (text_eqb k a); [reflexivity|]. cbn [map fst snd]. f_equal. exact IH.
Qed.
Lemma map_tset {A B} (f : A -> B) k v (d : list (text * A)) :
  map (fun kv => (fst kv, f (snd kv))) (tset k v d) = tset k (f v) (map (fun kv => (fst kv, f (snd kv))) d).
Proof.
  induction d as [|[a w] d IH]; [reflexivity|]. cbn [tset map fst snd].
  destruct (text_eqb k a); [reflexivity|]. cbn [map fst snd]. f_equal. exact IH.
Qed.
Lemma tget_map {A B} (f : A -> B) k (d : list (text * A)) :
  tget k (map (fun kv => (fst kv, f (snd kv))) d) = option_map f (tget k d).
Proof.
  induction d as [|[a w] d IH]; [reflexivity|]. cbn [map fst snd tget].
  destruct (text_eqb k a); [reflexivity|exact IH].
Qed.

Lemma joined_set_option sect opt v s :
  joined (set_option sect opt v s) = put sect opt (join_value v) (joined s).
Proof.
  unfold joined, set_option, put, cur_options. cbn [i_defaults i_sections].
  destruct (is_default sect); cbn [r_defs r_sects].
  - now rewrite join_tset.
  - rewrite map_tset, join_tset, tget_map. destruct (tget sect (r_sects s)); reflexivity.
Qed.

Lemma put_put sect opt v w i : put sect opt v (put sect opt w i) = put sect opt v i.
Proof.
  unfold put. destruct (is_default sect); cbn [i_defaults i_sections].
  - now rewrite tset_tset.
  - rewrite tget_tset, text_eqb_refl, !tset_tset. reflexivity.
Qed.

Lemma cur_options_set sect opt v s : r_cur (set_option sect opt v s) = r_cur s /\
  r_opt (set_option sect opt v s) = r_opt s /\ r_indent (set_option sect opt v s) = r_indent s /\
  r_added_s (set_option sect opt v s) = r_added_s s /\ r_added_o (set_option sect opt v s) = r_added_o s /\
  r_bad (set_option sect opt v s) = r_bad s /\
  cur_options (set_option sect opt v s) sect = tset opt v (cur_options s sect).
Proof.
  unfold set_option, cur_options. destruct (is_default sect) eqn:E; cbn; repeat split; auto.
  rewrite tget_tset, text_eqb_refl. reflexivity.
Qed.

(** The lines that are written. *)
Definition nl (l : text) : text := l ++ [NL].
Definition option_lines (kv : text * option text) : list text :=
  match snd kv with
  | None => [fst kv]
  | Some v =>
      match split_nl v with
      | l :: ls => (fst kv ++ T " = " ++ l) :: map (cons TAB) ls
      | [] => []
      end
  end.

Lemma indent_lines_join v :
  match split_nl v with
  | l :: ls => indent_lines v ++ [NL] = nl l ++ concat (map nl (map (cons TAB) ls))
  | [] => False
  end.
Proof.
  induction v as [|c v IH]; cbn [split_nl indent_lines].
  - reflexivity.
  - destruct (Ascii.eqb_spec c NL) as [->|D].
    + destruct (split_nl v) as [|l ls]; [contradiction|].
      change (NL :: TAB :: (indent_lines v ++ [NL]) = NL :: TAB :: (nl l ++ concat (map nl (map (cons TAB) ls)))).
      now rewrite IH.
    + destruct (split_nl v) as [|l ls]; [contradiction|].
      change (c :: (indent_lines v ++ [NL]) = c :: (nl l ++ concat (map nl (map (cons TAB) ls)))).
      now rewrite IH.
Qed.

Lemma write_option_lines kv : write_option kv = concat (map nl (option_lines kv)).
Proof.
  destruct kv as [k [v|]]; unfold write_option, option_lines; cbn [fst snd].
  - pose proof (indent_lines_join v) as H. destruct (split_nl v) as [|l ls]; [contradiction|].
    cbn [map concat]. rewrite <- !app_assoc. rewrite H. unfold nl at 3. unfold nl at 1.
    rewrite <- !app_assoc. reflexivity.
  - cbn. rewrite app_nil_r. reflexivity.
Qed.

Definition section_lines (name : text) (d : tdict (option text)) : list text :=
  (T "[" ++ name ++ T "]") :: flat_map option_lines (sort_items d) ++ [[]].

Lemma concat_flat_map {A} (f : A -> list text) l :
  concat (map nl (flat_map f l)) = flat_map (fun x => concat (map nl (f x))) l.
Proof.
  induction l as [|a l IH]; [reflexivity|]. cbn [flat_map]. now rewrite map_app, concat_app, IH.
Qed.

Lemma write_section_lines name d : write_section name d = concat (map nl (section_lines name d)).
Proof.
  unfold write_section, section_lines. cbn [map concat]. rewrite map_app, concat_app, concat_flat_map.
  rewrite (flat_map_ext _ (fun x => concat (map nl (option_lines x)))) by (intros; apply write_option_lines).
  assert (E : nl (T "[" ++ name ++ T "]") = T "[" ++ name ++ T "]" ++ [NL])
    by (unfold nl; now rewrite <- !app_assoc).
  rewrite E, <- !app_assoc. reflexivity.
Qed.

Definition ini_lines (i : ini) : list text :=
  (match i_defaults i with [] => [] | d => section_lines DEFAULT d end) ++
  flat_map (fun kv => section_lines (fst kv) (snd kv)) (i_sections i).

Lemma write_ini_lines i : write_ini i = concat (map nl (ini_lines i)).
Proof.
  unfold write_ini, ini_lines. rewrite map_app, concat_app, concat_flat_map. f_equal.
  - destruct (i_defaults i); [reflexivity|apply write_section_lines].
  - apply flat_map_ext. intros kv. apply write_section_lines.
Qed.

Lemma In_T_nl s : forallb (fun c => negb (Ascii.eqb c NL)) (T s) = true -> ~ In NL (T s).
Proof.
  intros H Hi. rewrite forallb_forall in H. specialize (H NL Hi). discriminate.
Qed.

Lemma insert_item_perm x l : Permutation (insert_item x l) (x :: l).
Proof.
  induction l as [|y l IH]; [reflexivity|]. cbn [insert_item].
  destruct (text_leb (fst x) (fst y)); [reflexivity|].
  rewrite IH. apply perm_swap.
Qed.
Lemma sort_items_perm d : Permutation (sort_items d) d.
Proof.
  unfold sort_items. induction d as [|x d IH]; [reflexivity|]. cbn [fold_right].
  rewrite insert_item_perm. now constructor.
Qed.

Lemma option_lines_no_nl kv : ~ In NL (fst kv) -> Forall (fun l => ~ In NL l) (option_lines kv).
Proof.
  intros H. destruct kv as [k [v|]]; unfold option_lines; cbn [fst snd] in *.
  - pose proof (split_nl_no_nl v) as S. destruct (split_nl v) as [|l ls]; [constructor|].
    constructor.
    + rewrite !in_app_iff. intros [Hi|[Hi|Hi]]; [auto| |apply (S l); auto; now left].
      revert Hi. now apply In_T_nl.
    + apply Forall_map, Forall_forall. intros x Hx [E|Hi]; [discriminate|]. apply (S x); auto. now right.
  - constructor; auto.
Qed.

(** *** Single lines *)

Lemma strip_nl l : strip (l ++ [NL]) = strip l.
Proof. now apply strip_app_r. Qed.

Lemma is_comment_nl l : is_comment (l ++ [NL]) = is_comment l.
Proof. unfold is_comment. now rewrite strip_nl. Qed.

Lemma indent_of_app l t : blank l = false -> indent_of (l ++ t) = indent_of l.
Proof.
  induction l as [|c l IH]; cbn; [discriminate|]. destruct (isspace c); cbn; auto.
Qed.

Lemma last_bracket_app h : upto_last_bracket (h ++ T "]") = Some h.
Proof. induction h as [|c h IH]; [reflexivity|]. cbn [app upto_last_bracket]. now rewrite IH. Qed.

Lemma split_equals_app k t : ~ In "="%char k -> split_equals (k ++ "="%char :: t) = (k, Some t).
Proof.
  induction k as [|c k IH]; intros H; [reflexivity|]. cbn [app split_equals].
  destruct (Ascii.eqb_spec c "="%char) as [->|D]; [exfalso; apply H; now left|].
  rewrite IH; auto. intros Hi. apply H. now right.
Qed.
Lemma split_equals_none k : ~ In "="%char k -> split_equals k = (k, None).
Proof.
  induction k as [|c k IH]; intros H; [reflexivity|]. cbn [split_equals].
  destruct (Ascii.eqb_spec c "="%char) as [->|D]; [exfalso; apply H; now left|].
  rewrite IH; auto. intros Hi. apply H. now right.
Qed.

(** What a step of reading changes besides the contents. *)
Record at_state (s : rstate) (i : ini) (cur opt : option text) (secs : list text)
    (opts : list (text * text)) : Prop := mk_at {
  as_joined : joined s = i;
  as_cur : r_cur s = cur;
  as_opt : r_opt s = opt;
  as_indent : r_indent s = 0;
  as_secs : r_added_s s = secs;
  as_opts : r_added_o s = opts;
  as_bad : r_bad s = false
}.

Lemma tget_joined_sects s h : tget h (i_sections (joined s)) = option_map join_options (tget h (r_sects s)).
Proof. unfold joined. cbn [i_sections]. apply tget_map. Qed.

(** A section header. *)
Lemma read_header s i cur opt secs opts name : at_state s i cur opt secs opts ->
  section_name name -> (name <> DEFAULT -> tget name (i_sections i) = None) ->
  (tget DEFAULT (i_sections i) = None) ->
  exists s', read_line (nl (T "[" ++ name ++ T "]")) s = inl s' /\
    at_state s' (if is_default name then i else mk_ini (i_defaults i) (i_sections i ++ [(name, [])]))
      (Some name) None (if is_default name then secs else name :: secs) opts.
Proof.
  intros [J C O I SE OP B] [N1 N2] F FD.
  assert (St : strip (nl (T "[" ++ name ++ T "]")) = T "[" ++ name ++ T "]").
  { unfold nl. rewrite strip_nl. apply stripped_intro; [reflexivity|].
    rewrite !rev_app_distr. reflexivity. }
  assert (Cm : is_comment (nl (T "[" ++ name ++ T "]")) = false).
  { unfold is_comment. rewrite St. reflexivity. }
  assert (In0 : indent_of (nl (T "[" ++ name ++ T "]")) = 0) by reflexivity.
  assert (H : section_header (T "[" ++ name ++ T "]") = Some name).
  { cbn [T list_ascii_of_string app section_header]. change (Ascii.eqb "[" "[") with true. cbn iota.
    change ["]"%char] with (T "]"). rewrite last_bracket_app. destruct name; [congruence|reflexivity]. }
  unfold read_line. rewrite Cm, St, In0, I.
  change (0 <? 0) with false. rewrite andb_false_r.
  destruct (T "[" ++ name ++ T "]") as [|a r] eqn:E; [discriminate|]. rewrite <- E in *. clear a r E.
  cbn zeta. rewrite H.
  assert (Fr : tget name (r_sects s) = None).
  { assert (X : tget name (i_sections i) = None).
    { destruct (is_default name) eqn:D; [apply is_default_true in D; now subst|]. apply F. now apply text_eqb_neq. }
    rewrite <- J, tget_joined_sects in X. destruct (tget name (r_sects s)); [discriminate|reflexivity]. }
  rewrite Fr. destruct (is_default name) eqn:D.
  - eexists. split; [reflexivity|]. constructor; auto.
  - eexists. split; [reflexivity|]. constructor; cbn; auto; [|now rewrite SE].
    rewrite <- J. unfold joined. cbn [i_defaults i_sections r_defs r_sects].
    rewrite map_tset. rewrite tset_fresh; [reflexivity|].
    apply tget_none in Fr. rewrite map_map. cbn. exact Fr.
Qed.

(** An empty line. *)
Lemma read_blank s i sect opt secs opts : at_state s i (Some sect) opt secs opts ->
  (forall o, opt = Some o -> exists l, tget o (cur_options s sect) = Some l /\ l <> RLines []) ->
  exists s', read_line (nl []) s = inl s' /\ at_state s' i (Some sect) opt secs opts.
Proof.
  intros H Hl. pose proof H as [J C O I SE OP B].
  unfold read_line. change (is_comment (nl [])) with false. change (strip (nl [])) with (@nil ascii). cbn iota.
  rewrite C, O. destruct opt as [o|]; [|exists s; auto].
  cbn [negb andb]. destruct (truthy (Some o)); [|exists s; auto].
  destruct (Hl o eq_refl) as (l & Hg & Dn). rewrite Hg.
  destruct l as [| |l]; try (exists s; auto; fail).
  eexists. split; [reflexivity|].
  destruct (cur_options_set sect o (RLines (l ++ [[]])) s) as (E1 & E2 & E3 & E4 & E5 & E6 & E7).
  constructor; try congruence.
  rewrite joined_set_option. rewrite <- J.
  assert (V : join_value (RLines (l ++ [[]])) = join_value (RLines l)).
  { cbn [join_value]. f_equal. destruct l as [|a l]; [congruence|].
    assert (Q : forall (l : list text) a, join_nl ((a :: l) ++ [[]]) = join_nl (a :: l) ++ [NL]).
    { clear. induction l as [|b l IH]; intros a; [reflexivity|].
      change ((a :: b :: l) ++ [[]]) with (a :: (b :: l) ++ [[]]).
      cbn [join_nl]. destruct ((b :: l) ++ [[]]) eqn:E; [discriminate|]. rewrite <- E, IH.
      rewrite <- app_assoc. reflexivity. }
    rewrite Q. now apply rstrip_app_blank. }
  rewrite V. unfold put. unfold cur_options in Hg.
  destruct (is_default sect) eqn:D.
  - unfold joined. cbn [i_defaults i_sections]. rewrite <- join_tset, tset_same by exact Hg. reflexivity.
  - unfold joined. cbn [i_defaults i_sections]. rewrite tget_map.
    destruct (tget sect (r_sects s)) as [d|] eqn:Es; [|discriminate Hg]. cbn [option_map].
    rewrite <- join_tset. rewrite (tset_same o _ d) by exact Hg.
    rewrite <- (map_tset join_options), (tset_same sect d) by exact Es. reflexivity.
Qed.

(** The lines of an option. *)
Lemma option_name_head k : option_name k -> exists c r, k = c :: r /\ isspace c = false /\
  c <> "#"%char /\ c <> ";"%char /\ c <> "["%char.
Proof.
  intros (H1 & H2 & _ & _ & H5). destruct k as [|c r]; [congruence|].
  exists c, r. split; auto. split; [apply (stripped_head _ H2)|exact H5].
Qed.

Lemma read_option_line s i sect opt0 secs opts k (v : option text) : at_state s i (Some sect) opt0 secs opts ->
  option_name k -> added (sect, k) opts = false ->
  match v with Some l => strip l = l | None => True end ->
  exists s', read_line (nl (match v with Some l => k ++ T " = " ++ l | None => k end)) s = inl s' /\
    at_state s' (put sect k (option_map rstrip v) i) (Some sect) (Some k) secs ((sect, k) :: opts) /\
    tget k (cur_options s' sect) = Some (match v with Some l => RLines [l] | None => RNone end).
Proof.
  intros [J C O I SE OP B] Hk Ha Hv.
  destruct (option_name_head k Hk) as (c & r & Ek & Ec & D1 & D2 & D3).
  destruct Hk as (K1 & K2 & K3 & K4 & _).
  set (line := match v with Some l => k ++ T " = " ++ l | None => k end).
  assert (Hd : exists r', line = c :: r').
  { unfold line. destruct v; rewrite Ek; cbn; eauto. }
  destruct Hd as (r' & El).
  assert (St : exists r2, strip (nl line) = c :: r2 /\ option_line (strip (nl line)) = (k, v)).
  { unfold nl. rewrite strip_nl. unfold strip. rewrite (lstrip_id line) by (rewrite El; exact Ec).
    destruct (rstrip_head c r' Ec) as (r2 & Er). exists r2. rewrite El. split; auto.
    rewrite <- El. clear - K1 K2 K4 Hv line. subst line. destruct v as [l|].
    - unfold option_line.
      assert (Rk : rstrip (k ++ T " ") = k).
      { rewrite rstrip_app_blank by reflexivity. now apply stripped_rstrip. }
      assert (K4' : ~ In "="%char (k ++ T " ")).
      { rewrite in_app_iff. intros [H|[H|[]]]; [auto|discriminate]. }
      destruct (blank l) eqn:Eb.
      + assert (l = []) as ->.
        { rewrite <- Hv. now apply strip_nil. }
        assert (E : k ++ T " = " ++ [] = ((k ++ T " ") ++ T "=") ++ T " ").
        { rewrite <- !app_assoc. reflexivity. }
        rewrite E, rstrip_app_blank by reflexivity.
        rewrite (rstrip_app (k ++ T " ") (T "=")) by reflexivity. change (rstrip (T "=")) with ["="%char].
        rewrite (split_equals_app _ [] K4'). rewrite Rk. reflexivity.
      + assert (E : k ++ T " = " ++ l = (k ++ T " ") ++ "="%char :: SP :: l).
        { rewrite <- !app_assoc. reflexivity. }
        rewrite E. rewrite rstrip_app by reflexivity.
        change ("="%char :: SP :: l) with (["="%char; SP] ++ l). rewrite rstrip_app by exact Eb.
        rewrite (stripped_rstrip l Hv). cbn [app]. rewrite (split_equals_app _ _ K4'). rewrite Rk.
        cbn [option_map]. f_equal. f_equal. change (SP :: l) with ([SP] ++ l).
        rewrite strip_app_l by reflexivity. exact Hv.
    - unfold option_line. rewrite (stripped_rstrip k K2). rewrite (split_equals_none _ K4).
      rewrite (stripped_rstrip k K2). reflexivity. }
  destruct St as (r2 & St & Ol).
  assert (Cm : is_comment (nl line) = false).
  { unfold is_comment. rewrite St.
    destruct (Ascii.eqb_spec c "#"%char); [contradiction|]. destruct (Ascii.eqb_spec c ";"%char); [contradiction|].
    reflexivity. }
  assert (In0 : indent_of (nl line) = 0).
  { unfold nl. rewrite El. cbn. now rewrite Ec. }
  match goal with |- context [nl ?x] => change x with line end. unfold read_line. rewrite Cm, In0, I. change (0 <? 0) with false. rewrite andb_false_r.
  rewrite Ol. rewrite St. cbn iota. cbn zeta.
  assert (Sh : section_header (c :: r2) = None).
  { cbn [section_header]. destruct (Ascii.eqb_spec c "["%char); [contradiction|reflexivity]. }
  rewrite Sh, C, OP, Ha. eexists. split; [reflexivity|].
  set (s1 := mk_rstate _ _ _ _ _ _ _ _).
  destruct (cur_options_set sect k (match v with Some l => RLines [l] | None => RNone end) s1)
    as (E1 & E2 & E3 & E4 & E5 & E6 & E7).
  split.
  - constructor; rewrite ?E1, ?E2, ?E3, ?E4, ?E5, ?E6; cbn; auto.
    + rewrite joined_set_option. rewrite <- J. destruct v; reflexivity.
    + rewrite B. destruct k; [congruence|reflexivity].
  - rewrite E7, tget_tset, text_eqb_refl. reflexivity.
Qed.

Lemma join_nl_cons a ls : ls <> [] -> join_nl (a :: ls) = a ++ NL :: join_nl ls.
Proof. destruct ls; [congruence|reflexivity]. Qed.

Lemma join_nl_snoc ls l : ls <> [] -> join_nl (ls ++ [l]) = join_nl ls ++ NL :: l.
Proof.
  induction ls as [|a ls IH]; [congruence|]. intros _. destruct ls as [|b ls]; [reflexivity|].
  change ((a :: b :: ls) ++ [l]) with (a :: ((b :: ls) ++ [l])).
  rewrite !join_nl_cons by discriminate. rewrite IH by discriminate. now rewrite <- app_assoc.
Qed.

(** One continuation line. *)
Lemma read_continuation s i sect k secs opts ls l : at_state s i (Some sect) (Some k) secs opts ->
  k <> [] -> tget k (cur_options s sect) = Some (RLines ls) -> ls <> [] -> continuation l ->
  exists s', read_line (nl (TAB :: l)) s = inl s' /\
    at_state s' (put sect k (Some (rstrip (join_nl (ls ++ [l])))) i) (Some sect) (Some k) secs opts /\
    tget k (cur_options s' sect) = Some (RLines (ls ++ [l])).
Proof.
  intros [J C O I SE OP B] K Hg Hn [Hs Hc].
  assert (St : strip (nl (TAB :: l)) = l).
  { unfold nl. rewrite strip_nl. change (TAB :: l) with ([TAB] ++ l). rewrite strip_app_l by reflexivity. exact Hs. }
  assert (Cm : is_comment (nl (TAB :: l)) = false).
  { unfold is_comment. rewrite St. destruct l as [|c l]; [reflexivity|]. destruct Hc as [D1 D2].
    destruct (Ascii.eqb_spec c "#"%char); [contradiction|]. destruct (Ascii.eqb_spec c ";"%char); [contradiction|].
    reflexivity. }
  assert (Tr : truthy (Some k) = true) by (destruct k; [congruence|reflexivity]).
  assert (Fin : read_line (nl (TAB :: l)) s = inl (set_option sect k (RLines (ls ++ [l])) s)).
  { unfold read_line. rewrite Cm, St. destruct l as [|c l].
    - rewrite C, O, Tr, Hg. reflexivity.
    - rewrite I, O, Tr, C.
      assert (Hi : (0 <? indent_of (nl (TAB :: c :: l))) = true) by reflexivity.
      rewrite Hi. cbn [andb]. rewrite Hg. reflexivity. }
  rewrite Fin. eexists. split; [reflexivity|].
  destruct (cur_options_set sect k (RLines (ls ++ [l])) s) as (E1 & E2 & E3 & E4 & E5 & E6 & E7).
  split.
  - constructor; try congruence. rewrite joined_set_option, J. reflexivity.
  - rewrite E7, tget_tset, text_eqb_refl. reflexivity.
Qed.

Lemma read_continuations : forall more s i sect k secs opts ls,
  at_state s (put sect k (Some (rstrip (join_nl ls))) i) (Some sect) (Some k) secs opts ->
  k <> [] -> tget k (cur_options s sect) = Some (RLines ls) -> ls <> [] -> Forall continuation more ->
  forall rest, exists s',
    read_lines (map nl (map (cons TAB) more) ++ rest) s = read_lines rest s' /\
    at_state s' (put sect k (Some (rstrip (join_nl (ls ++ more)))) i) (Some sect) (Some k) secs opts /\
    tget k (cur_options s' sect) = Some (RLines (ls ++ more)).
Proof.
  induction more as [|l more IH]; intros s i sect k secs opts ls H K Hg Hn Hc rest.
  - exists s. rewrite app_nil_r. auto.
  - inversion Hc; subst.
    destruct (read_continuation s _ sect k secs opts ls l H K Hg Hn) as (s1 & E & H1 & G1); auto.
    rewrite put_put in H1.
    destruct (IH s1 i sect k secs opts (ls ++ [l]) H1 K G1) with (rest := rest) as (s2 & E2 & H2' & G2); auto.
    { destruct ls; discriminate. }
    exists s2. cbn [map app read_lines]. rewrite E, E2. rewrite <- app_assoc in H2', G2. auto.
Qed.

(** A text that was written is not changed by joining its lines. *)
Lemma writable_join v : writable v -> rstrip v = v.
Proof.
  unfold writable. pose proof (join_split v) as J. pose proof (split_nl_ne v) as N.
  destruct (split_nl v) as [|l ls]; [contradiction|]. intros (H1 & H2 & H3). rewrite <- J.
  destruct H3 as [->|H3].
  - cbn [join_nl]. now apply stripped_rstrip.
  - destruct ls as [|l2 ls2] using rev_ind; [cbn in H3; congruence|]. clear IHls2.
    rewrite last_last in H3.
    change (l :: ls2 ++ [l2]) with ((l :: ls2) ++ [l2]). rewrite join_nl_snoc by discriminate.
    apply Forall_app in H2. destruct H2 as [_ H2]. inversion H2 as [|? ? [S _] _]; subst.
    assert (Bl : blank l2 = false).
    { destruct (blank l2) eqn:E; auto. apply strip_nil in E. congruence. }
    change (NL :: l2) with ([NL] ++ l2). rewrite app_assoc.
    rewrite rstrip_app by exact Bl. now rewrite (stripped_rstrip l2 S).
Qed.

Lemma read_option : forall s i sect opt0 secs opts kv rest,
  at_state s i (Some sect) opt0 secs opts ->
  option_name (fst kv) -> match snd kv with Some t => writable t | None => True end ->
  added (sect, fst kv) opts = false ->
  exists s', read_lines (map nl (option_lines kv) ++ rest) s = read_lines rest s' /\
    at_state s' (put sect (fst kv) (snd kv) i) (Some sect) (Some (fst kv)) secs ((sect, fst kv) :: opts) /\
    (exists l, tget (fst kv) (cur_options s' sect) = Some l /\ l <> RLines []).
Proof.
  intros s i sect opt0 secs opts [k v] rest H Hk Hv Ha. cbn [fst snd] in *. unfold option_lines. cbn [fst snd].
  destruct v as [v|].
  - pose proof (writable_join v Hv) as W. unfold writable in Hv. pose proof (join_split v) as J.
    destruct (split_nl v) as [|l ls]; [contradiction|]. destruct Hv as (H1 & H2 & _).
    destruct (read_option_line s i sect opt0 secs opts k (Some l) H Hk Ha H1) as (s1 & E1 & A1 & G1).
    destruct (read_continuations ls s1 i sect k secs ((sect, k) :: opts) [l]) with (rest := rest)
      as (s2 & E2 & A2 & G2); auto; try discriminate.
    { apply Hk. }
    exists s2. cbn [map app read_lines]. rewrite E1, E2. split; auto. split.
    + replace (Some v) with (Some (rstrip (join_nl ([l] ++ ls)))); auto. cbn [app]. now rewrite J, W.
    + eexists. split; [exact G2|]. discriminate.
  - destruct (read_option_line s i sect opt0 secs opts k None H Hk Ha I) as (s1 & E1 & A1 & G1).
    exists s1. cbn [map app read_lines]. rewrite E1. split; auto. split; auto.
    eexists. split; [exact G1|]. discriminate.
Qed.

Definition put_all (sect : text) (d : tdict (option text)) (i : ini) : ini :=
  fold_left (fun i kv => put sect (fst kv) (snd kv) i) d i.

Lemma added_In p l : added p l = true <-> In p l.
Proof.
  unfold added. rewrite existsb_exists. split.
  - intros ([a b] & H & E). cbn in E. apply andb_true_iff in E. destruct E as [E1 E2].
    apply text_eqb_eq in E1, E2. destruct p. cbn in *. now subst.
  - intros H. exists p. split; auto. now rewrite !text_eqb_refl.
Qed.

Lemma read_options : forall d s i sect opt0 secs opts rest,
  at_state s i (Some sect) opt0 secs opts ->
  (forall o, opt0 = Some o -> exists l, tget o (cur_options s sect) = Some l /\ l <> RLines []) ->
  NoDup (map fst d) -> (forall k, In k (map fst d) -> ~ In (sect, k) opts) ->
  (forall k v, In (k, v) d -> option_name k /\ match v with Some t => writable t | None => True end) ->
  exists s' opt', read_lines (map nl (flat_map option_lines d) ++ rest) s = read_lines rest s' /\
    at_state s' (put_all sect d i) (Some sect) opt' secs (rev (map (fun kv => (sect, fst kv)) d) ++ opts) /\
    (forall o, opt' = Some o -> exists l, tget o (cur_options s' sect) = Some l /\ l <> RLines []).
Proof.
  induction d as [|[k v] d IH]; intros s i sect opt0 secs opts rest H Ho N Ha Hw.
  - exists s, opt0. auto.
  - cbn [map fst] in N. inversion N as [|? ? N1 N2]; subst. destruct (Hw k v (or_introl eq_refl)) as [Hk Hv].
    destruct (read_option s i sect opt0 secs opts (k, v) (map nl (flat_map option_lines d) ++ rest) H Hk Hv)
      as (s1 & E1 & A1 & G1).
    { cbn [fst]. destruct (added (sect, k) opts) eqn:E; auto. apply added_In in E.
      exfalso. apply (Ha k); auto. now left. }
    destruct (IH s1 _ sect _ secs _ rest A1) as (s2 & o2 & E2 & A2 & G2); auto.
    { intros o [= <-]. exact G1. }
    { intros k' Hk' [E|Hi]; [injection E as ->; contradiction|]. apply (Ha k'); auto. now right. }
    { intros k' v' Hi. apply Hw. now right. }
    exists s2, o2. cbn [flat_map]. rewrite map_app, <- app_assoc, E1, E2. split; auto. split; auto.
    cbn [put_all fold_left map rev fst snd] in *. rewrite <- app_assoc. exact A2.
Qed.

Lemma NoDup_app_head {A} (l1 : list A) a l2 : NoDup (l1 ++ a :: l2) -> ~ In a l1.
Proof. intros N Hi. apply NoDup_remove_2 in N. apply N. apply in_app_iff. now left. Qed.

Lemma tget_app_fresh {A} k (d e : list (text * A)) : ~ In k (map fst d) -> tget k (d ++ e) = tget k e.
Proof.
  induction d as [|[a w] d IH]; intros H; [reflexivity|]. cbn [app tget].
  destruct (text_eqb k a) eqn:E; [apply text_eqb_eq in E; subst; exfalso; apply H; now left|].
  apply IH. intros Hi. apply H. now right.
Qed.
Lemma tset_app_fresh {A} k (v : A) d e : ~ In k (map fst d) -> tset k v (d ++ e) = d ++ tset k v e.
Proof.
  induction d as [|[a w] d IH]; intros H; [reflexivity|]. cbn [app tset].
  destruct (text_eqb k a) eqn:E; [apply text_eqb_eq in E; subst; exfalso; apply H; now left|].
  f_equal. apply IH. intros Hi. apply H. now right.
Qed.

Lemma put_all_section sect : sect <> DEFAULT -> forall d D S e, ~ In sect (map fst S) ->
  NoDup (map fst (e ++ d)) ->
  put_all sect d (mk_ini D (S ++ [(sect, e)])) = mk_ini D (S ++ [(sect, e ++ d)]).
Proof.
  intros Ds. induction d as [|[k v] d IH]; intros D S e Hs N.
  - rewrite app_nil_r. reflexivity.
  - cbn [put_all fold_left fst snd].
    assert (E : put sect k v (mk_ini D (S ++ [(sect, e)])) = mk_ini D (S ++ [(sect, e ++ [(k, v)])])).
    { unfold put. destruct (is_default sect) eqn:Ed; [apply is_default_true in Ed; contradiction|].
      cbn [i_defaults i_sections]. rewrite (tget_app_fresh sect S) by exact Hs. cbn [tget].
      rewrite text_eqb_refl. rewrite (tset_app_fresh sect _ S) by exact Hs. cbn [tset]. rewrite text_eqb_refl.
      rewrite tset_fresh; [reflexivity|]. rewrite map_app in N. cbn [map fst] in N. now apply NoDup_app_head in N. }
    rewrite E. fold (put_all sect d (mk_ini D (S ++ [(sect, e ++ [(k, v)])]))).
    rewrite IH; auto; rewrite <- app_assoc; auto.
Qed.

Lemma put_all_default d : forall e S, NoDup (map fst (e ++ d)) ->
  put_all DEFAULT d (mk_ini e S) = mk_ini (e ++ d) S.
Proof.
  induction d as [|[k v] d IH]; intros e S N.
  - rewrite app_nil_r. reflexivity.
  - cbn [put_all fold_left fst snd]. unfold put at 2. change (is_default DEFAULT) with true. cbn [i_defaults i_sections].
    rewrite tset_fresh by (rewrite map_app in N; cbn [map fst] in N; now apply NoDup_app_head in N).
    fold (put_all DEFAULT d (mk_ini (e ++ [(k, v)]) S)). rewrite IH; rewrite <- app_assoc; auto.
Qed.

(** A section, with its options sorted. *)
Lemma read_section s i cur opt secs opts name d rest : at_state s i cur opt secs opts ->
  section_name name -> (name <> DEFAULT -> tget name (i_sections i) = None) ->
  tget DEFAULT (i_sections i) = None -> writable_options d ->
  (forall k, ~ In (name, k) opts) ->
  exists s' opt' secs' opts',
    read_lines (map nl (section_lines name d) ++ rest) s = read_lines rest s' /\
    at_state s' (put_all name (sort_items d)
                   (if is_default name then i else mk_ini (i_defaults i) (i_sections i ++ [(name, [])])))
      (Some name) opt' secs' opts' /\
    (forall p, In p opts' -> fst p = name \/ In p opts).
Proof.
  intros H Sn F FD [N W] Ho.
  destruct (read_header s i cur opt secs opts name H Sn F FD) as (s1 & E1 & A1).
  unfold section_lines. cbn [map app read_lines]. rewrite E1.
  rewrite map_app, <- app_assoc.
  assert (P : Permutation (sort_items d) d) by apply sort_items_perm.
  destruct (read_options (sort_items d) s1 _ name None _ opts (map nl [[]] ++ rest) A1)
    as (s2 & o2 & E2 & A2 & G2).
  { discriminate. }
  { eapply Permutation_NoDup; [|exact N]. apply Permutation_map. now apply Permutation_sym. }
  { intros k _. apply Ho. }
  { intros k v Hi. apply W. now apply (Permutation_in _ P). }
  rewrite E2. destruct (read_blank s2 _ name o2 _ _ A2 G2) as (s3 & E3 & A3).
  cbn [map app read_lines]. rewrite E3.
  exists s3, o2. do 2 eexists. split; [reflexivity|]. split; [exact A3|].
  intros p Hp. apply in_app_iff in Hp. destruct Hp as [Hp|Hp]; auto.
  apply in_rev in Hp. apply in_map_iff in Hp. destruct Hp as (kv & <- & _). now left.
Qed.

Definition sorted_ini (i : ini) : ini :=
  mk_ini (sort_items (i_defaults i)) (map (fun kv => (fst kv, sort_items (snd kv))) (i_sections i)).

Lemma sorted_keys d : Permutation (map fst (sort_items d)) (map fst d).
Proof. apply Permutation_map, sort_items_perm. Qed.

Lemma read_sections_lines : forall L s D S cur opt secs opts,
  at_state s (mk_ini D S) cur opt secs opts ->
  NoDup (map fst (S ++ L)) -> tget DEFAULT S = None ->
  (forall s d, In (s, d) L -> section_name s /\ s <> DEFAULT /\ writable_options d) ->
  (forall p, In p opts -> fst p = DEFAULT \/ In (fst p) (map fst S)) ->
  exists s' cur' opt' secs' opts',
    read_lines (map nl (flat_map (fun kv => section_lines (fst kv) (snd kv)) L)) s = (s', Fine) /\
    at_state s' (mk_ini D (S ++ map (fun kv => (fst kv, sort_items (snd kv))) L)) cur' opt' secs' opts'.
Proof.
  induction L as [|[n d] L IH]; intros s D S cur opt secs opts H N FD W Ho.
  - exists s, cur, opt, secs, opts. cbn. rewrite (as_bad _ _ _ _ _ _ H), app_nil_r. auto.
  - destruct (W n d (or_introl eq_refl)) as (Sn & Dn & Wd).
    assert (Fn : ~ In n (map fst S)).
    { rewrite map_app in N. cbn [map fst] in N. now apply NoDup_app_head in N. }
    cbn [flat_map fst snd]. rewrite map_app.
    destruct (read_section s (mk_ini D S) cur opt secs opts n d
      (map nl (flat_map (fun kv => section_lines (fst kv) (snd kv)) L)) H Sn)
      as (s1 & o1 & se1 & op1 & E1 & A1 & Q1); auto.
    { intros _. now apply tget_none. }
    { intros k Hk. apply Ho in Hk. cbn in Hk. destruct Hk; auto. }
    rewrite E1. destruct (is_default n) eqn:Ed; [apply is_default_true in Ed; contradiction|].
    cbn [i_defaults i_sections] in A1.
    rewrite put_all_section in A1; auto.
    2:{ cbn [app]. eapply Permutation_NoDup; [apply Permutation_sym, sorted_keys|apply Wd]. }
    cbn [app] in A1.
    destruct (IH s1 D (S ++ [(n, sort_items d)]) (Some n) o1 se1 op1 A1) as (s2 & c2 & o2 & se2 & op2 & E2 & A2).
    { rewrite <- app_assoc. cbn [app]. rewrite map_app in *. exact N. }
    { rewrite tget_app_fresh by (now apply tget_none). cbn [tget].
      destruct (text_eqb DEFAULT n) eqn:E; auto. apply text_eqb_eq in E. congruence. }
    { intros s0 d0 Hi. apply W. now right. }
    { intros p Hp. rewrite map_app, in_app_iff. cbn [map fst In]. destruct (Q1 p Hp) as [E|Hi]; [auto|].
      destruct (Ho p Hi); auto. }
    exists s2, c2, o2, se2, op2. split; auto. rewrite <- app_assoc in A2. exact A2.
Qed.

Lemma ini_lines_no_nl i : writable_ini i -> Forall (fun l => ~ In NL l) (ini_lines i).
Proof.
  intros ([ND WD] & NS & WS).
  assert (Sec : forall n d, section_name n -> (forall k v, In (k, v) d -> ~ In NL k) ->
    Forall (fun l => ~ In NL l) (section_lines n d)).
  { intros n d [_ Hn] Hd. unfold section_lines. constructor.
    - rewrite !in_app_iff. intros [[E|[]]|[Hi|[E|[]]]]; [discriminate|auto|discriminate].
    - apply Forall_app. split; [|constructor; [intros []|constructor]].
      apply Forall_flat_map. apply Forall_forall. intros [k v] Hi. apply option_lines_no_nl.
      apply (Permutation_in _ (sort_items_perm d)) in Hi. cbn. eapply Hd; eauto. }
  unfold ini_lines. apply Forall_app. split.
  - destruct (i_defaults i) as [|p d] eqn:E; [constructor|]. rewrite <- E in *. apply Sec.
    + split; [discriminate|]. now apply In_T_nl.
    + intros k v Hi. apply (WD k v Hi).
  - apply Forall_flat_map. apply Forall_forall. intros [n d] Hi. destruct (WS n d Hi) as (Sn & _ & [_ Wd]).
    apply Sec; auto. intros k v Hk. apply (Wd k v Hk).
Qed.

(** Reading what was written gives the same contents. *)
Lemma read_written i : writable_ini i -> read_text (write_ini i) empty_ini = (sorted_ini i, Fine).
Proof.
  intros W. pose proof (ini_lines_no_nl i W) as NLs. pose proof W as ([ND WD] & NS & WS).
  unfold read_text. rewrite write_ini_lines.
  assert (L : stream_lines (concat (map nl (ini_lines i))) = map nl (ini_lines i)).
  { rewrite <- (app_nil_r (concat _)). rewrite stream_lines_concat; [cbn; now rewrite app_nil_r|].
    intros l Hl. apply in_map_iff in Hl. destruct Hl as (l0 & <- & Hi). exists l0. split; auto.
    rewrite Forall_forall in NLs. auto. }
  rewrite L.
  assert (A0 : at_state (start_reading empty_ini) (mk_ini [] []) None None [] []) by (constructor; reflexivity).
  unfold ini_lines. rewrite map_app.
  assert (Dflt : tget DEFAULT (i_sections i) = None).
  { apply tget_none. intros Hi. apply in_map_iff in Hi. destruct Hi as ([n d] & E & Hi). change (n = DEFAULT) in E. subst n.
    destruct (WS _ _ Hi) as (_ & D & _). congruence. }
  assert (Mid : exists s1 cur opt secs opts,
    at_state s1 (mk_ini (sort_items (i_defaults i)) []) cur opt secs opts /\
    (forall p, In p opts -> fst p = DEFAULT \/ In (fst p) (map fst (@nil (text * tdict (option text))))) /\
    forall rest, read_lines (map nl (match i_defaults i with [] => [] | d => section_lines DEFAULT d end) ++ rest)
      (start_reading empty_ini) = read_lines rest s1).
  { destruct (i_defaults i) as [|p0 d0] eqn:Ed.
    - exists (start_reading empty_ini), None, None, [], []. cbn. auto.
    - rewrite <- Ed in *. clear p0 d0 Ed.
      assert (X : forall rest, exists s' opt' secs' opts',
        read_lines (map nl (section_lines DEFAULT (i_defaults i)) ++ rest) (start_reading empty_ini) =
          read_lines rest s' /\
        at_state s' (mk_ini (sort_items (i_defaults i)) []) (Some DEFAULT) opt' secs' opts' /\
        (forall p, In p opts' -> fst p = DEFAULT \/ In p [])).
      { intros rest.
        destruct (read_section (start_reading empty_ini) (mk_ini [] []) None None [] [] DEFAULT (i_defaults i) rest A0)
          as (s1 & o1 & se1 & op1 & E1 & A1 & Q1).
        - split; [discriminate|]. now apply In_T_nl.
        - congruence.
        - reflexivity.
        - now split.
        - intros k [].
        - exists s1, o1, se1, op1. split; auto. split; auto.
          change (is_default DEFAULT) with true in A1. cbn iota in A1.
          rewrite put_all_default in A1; auto. cbn [app].
          eapply Permutation_NoDup; [apply Permutation_sym, sorted_keys|exact ND]. }
      (* the state does not depend on the rest *)
      assert (Y : exists s' , forall rest,
        read_lines (map nl (section_lines DEFAULT (i_defaults i)) ++ rest) (start_reading empty_ini) =
          read_lines rest s').
      { assert (Z : forall ls s, (exists s', forall rest, read_lines (ls ++ rest) s = read_lines rest s') \/
                                 (exists s' e, e <> Fine /\ forall rest, read_lines (ls ++ rest) s = (s', e))).
        { induction ls as [|l ls IH]; intros s; [left; exists s; reflexivity|]. cbn [app read_lines].
          destruct (read_line l s) as [s'|[|]]; [apply IH| |].
          - right. exists s, ParserError. split; [discriminate|reflexivity].
          - right. exists s, AttrError. split; [discriminate|reflexivity]. }
        destruct (Z (map nl (section_lines DEFAULT (i_defaults i))) (start_reading empty_ini)) as [Y|(s' & e & De & Y)]; auto.
        exfalso. destruct (X []) as (s1 & o1 & se1 & op1 & E1 & A1 & _). rewrite Y in E1. cbn in E1.
        rewrite (as_bad _ _ _ _ _ _ A1) in E1. congruence. }
      destruct Y as (s' & Y). destruct (X []) as (s1 & o1 & se1 & op1 & E1 & A1 & Q1).
      assert (s1 = s') as <-.
      { rewrite Y in E1. cbn in E1. now injection E1. }
      exists s1, (Some DEFAULT), o1, se1, op1. split; [exact A1|split; auto]. }
  destruct Mid as (s1 & cur & opt & secs & opts & A1 & Q1 & R1). rewrite R1.
  destruct (read_sections_lines (i_sections i) s1 (sort_items (i_defaults i)) [] cur opt secs opts A1)
    as (s2 & c2 & o2 & se2 & op2 & E2 & A2); auto.
  rewrite E2. rewrite (as_joined _ _ _ _ _ _ A2). reflexivity.
Qed.
