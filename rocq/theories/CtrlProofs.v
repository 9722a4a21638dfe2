(** * Facts about execution controllers *)

From Coq Require Import String Ascii List Bool ZArith Lia Sorted.
From Verif Require Import Base BaseFacts CtrlModel CtrlSpec.
Import ListNotations.
Local Open Scope string_scope.
Local Open Scope list_scope.

(** ** Sorting by score *)

Section Scores.
  Context {A : Type}.
  Definition score_le (x y : A * Z) : Prop := (snd x <= snd y)%Z.

  Definition top (l : list (A * Z)) : option (A * Z) :=
    match rev l with [] => None | x :: _ => Some x end.

  Lemma top_cons x l : top (x :: l) = match top l with Some y => Some y | None => Some x end.
  Proof. unfold top. simpl. destruct (rev l); reflexivity. Qed.

  Lemma top_In l x : top l = Some x -> In x l.
  Proof.
    unfold top. destruct (rev l) as [|w r] eqn:R; [discriminate|]. intros T. injection T as ->.
    apply in_rev. rewrite R. left. reflexivity.
  Qed.

  Lemma insert_In x y l : In y (insert_score (A := A) x l) <-> y = x \/ In y l.
  Proof.
    induction l as [|z l IH]; cbn [insert_score]; [simpl; intuition|].
    destruct (snd x <=? snd z)%Z; simpl; [intuition|]. rewrite IH. intuition.
  Qed.

  Lemma insert_sorted x l : StronglySorted score_le l -> StronglySorted score_le (insert_score x l).
  Proof.
    induction 1 as [|y l HS IH F]; cbn [insert_score]; [repeat constructor|].
    destruct (Z.leb_spec (snd x) (snd y)) as [L|L].
    - constructor; [constructor; assumption|]. constructor; [exact L|].
      eapply Forall_impl; [|exact F]. unfold score_le. intros z. lia.
    - constructor; [exact IH|]. rewrite Forall_forall in *. intros z Z.
      apply insert_In in Z as [->|Z]; [unfold score_le; lia|auto].
  Qed.
  Lemma sort_sorted l : StronglySorted score_le (sort_scores l).
  Proof. induction l; cbn [sort_scores]; [constructor|apply insert_sorted; assumption]. Qed.

  Lemma top_insert x l : StronglySorted score_le l ->
    top (insert_score x l) =
    match top l with
    | None => Some x
    | Some y => if (snd x <=? snd y)%Z then Some y else Some x
    end.
  Proof.
    induction 1 as [|y l HS IH F]; [reflexivity|]. cbn [insert_score].
    destruct (Z.leb_spec (snd x) (snd y)) as [L|L].
    - rewrite !top_cons. destruct (top l) as [z|] eqn:T.
      + apply top_In in T. rewrite Forall_forall in F. specialize (F z T). unfold score_le in F.
        destruct (Z.leb_spec (snd x) (snd z)); [reflexivity|lia].
      + destruct (Z.leb_spec (snd x) (snd y)); [reflexivity|lia].
    - rewrite !top_cons, IH. destruct (top l) as [z|].
      + destruct (Z.leb_spec (snd x) (snd z)); reflexivity.
      + destruct (Z.leb_spec (snd x) (snd y)); [lia|reflexivity].
  Qed.

  Lemma top_sort (score : A -> Z) l :
    match top (sort_scores (map (fun c => (c, score c)) l)) with
    | None => l = []
    | Some (c, s) => s = score c /\ best score l c
    end.
  Proof.
    induction l as [|x l IH]; [reflexivity|]. cbn [map sort_scores].
    rewrite top_insert by apply sort_sorted.
    destruct (top _) as [[c s]|].
    - destruct IH as (-> & b & a & -> & B1 & B2). cbn [snd].
      destruct (Z.leb_spec (score x) (score c)) as [L|L].
      + split; [reflexivity|]. exists (x :: b), a. split; [reflexivity|]. split; [|exact B2].
        intros d [<-|D]; auto.
      + split; [reflexivity|]. exists [], (b ++ c :: a). split; [reflexivity|].
        split; [intros d []|]. intros d D. apply in_app_iff in D as [D|[<-|D]]; [|exact L|].
        * specialize (B1 d D). lia.
        * specialize (B2 d D). lia.
    - subst l. split; [reflexivity|]. exists [], []. repeat split; intros d [].
  Qed.

  Lemma best_unique (score : A -> Z) l c d : best score l c -> best score l d -> c = d.
  Proof.
    intros (b & a & E & B1 & B2) (b' & a' & E' & B1' & B2').
    subst l. revert b' E' B1'. induction b as [|x b IH]; intros b' E B1'.
    - destruct b' as [|y b']; cbn in E; injection E as <- E; [reflexivity|]. exfalso.
      assert (D : In d a) by (rewrite E; apply in_app_iff; right; left; reflexivity).
      specialize (B2 d D). assert (score c <= score d)%Z by (apply B1'; left; reflexivity). lia.
    - destruct b' as [|y b']; cbn in E; injection E as <- E.
      + exfalso. assert (D : In c a') by (rewrite <- E; apply in_app_iff; right; left; reflexivity).
        specialize (B2' c D). assert (score x <= score c)%Z by (apply B1; left; reflexivity). lia.
      + apply (IH (fun z Z => B1 z (or_intror Z)) b' E (fun z Z => B1' z (or_intror Z))).
  Qed.

  Lemma best_In (score : A -> Z) l c : best score l c -> In c l.
  Proof. intros (b & a & -> & _). apply in_app_iff. right. left. reflexivity. Qed.
  Lemma best_max (score : A -> Z) l c d : best score l c -> In d l -> (score d <= score c)%Z.
  Proof.
    intros (b & a & -> & B1 & B2) D. apply in_app_iff in D as [D|[<-|D]]; [auto|lia|].
    specialize (B2 d D). lia.
  Qed.
End Scores.

(** ** Paths *)

Lemma split_join s : join_path (split_path s) = s.
Proof.
  induction s as [|c s IH]; [reflexivity|]. cbn [split_path].
  destruct (Ascii.eqb_spec c ":") as [->|N].
  - destruct (split_path s) as [|x l] eqn:E; [destruct s as [|d s]; cbn in E; [discriminate|]|].
    + destruct (Ascii.eqb d ":"); [discriminate|]. destruct (split_path s); discriminate.
    + cbn [join_path] in *. rewrite IH. reflexivity.
  - destruct (split_path s) as [|x l] eqn:E.
    + cbn in IH. subst s. reflexivity.
    + destruct l as [|y l]; cbn [join_path] in *; rewrite <- IH; reflexivity.
Qed.

Lemma split_not_nil s : split_path s <> [].
Proof.
  destruct s as [|c s]; cbn; [discriminate|]. destruct (Ascii.eqb c ":"); [discriminate|].
  destruct (split_path s); discriminate.
Qed.

Lemma join_prefix x s : join_path (x :: split_path s) = String.append x (String ":" s).
Proof.
  rewrite <- (split_join s) at 2. destruct (split_path s) as [|y l] eqn:E; [|reflexivity].
  destruct (split_not_nil s E).
Qed.

(** ** Dictionaries *)

Lemma dget_set_opt k k2 v d :
  dget k2 (set_opt k v d) =
  match v with Some w => if String.eqb k2 k then Some w else dget k2 d | None => dget k2 d end.
Proof. destruct v; [apply dget_dset|reflexivity]. Qed.

Lemma NoDup_set_opt k v d : NoDup (dkeys d) -> NoDup (dkeys (set_opt k v d)).
Proof. destruct v; [apply NoDup_dset|auto]. Qed.

Lemma del_keys ks : forall (e : dict string), NoDup (dkeys e) ->
  let r := fold_left (fun e k => if String.prefix "LC_" k then ddel k e else e) ks e in
  NoDup (dkeys r) /\
  forall k, dget k r = if String.prefix "LC_" k && smem k ks then None else dget k e.
Proof.
  induction ks as [|x ks IH]; intros e N r.
  - subst r. cbn. split; [exact N|]. intros k. rewrite andb_false_r. reflexivity.
  - cbn [fold_left] in r. destruct (String.prefix "LC_" x) eqn:P.
    + destruct (IH (ddel x e) (NoDup_ddel _ _ N)) as [N' G]. split; [exact N'|].
      intros k. subst r. rewrite G. cbn [smem].
      destruct (String.eqb_spec k x) as [->|D].
      * rewrite P. rewrite (dget_ddel_same x e N). destruct (true && smem x ks); reflexivity.
      * rewrite dget_ddel_other by exact D. reflexivity.
    + destruct (IH e N) as [N' G]. split; [exact N'|]. intros k. subst r. rewrite G. cbn [smem].
      destruct (String.eqb_spec k x) as [->|D]; [|reflexivity]. rewrite P. reflexivity.
Qed.

Lemma dget_del_lc k e : NoDup (dkeys e) ->
  dget k (del_lc e) = if String.prefix "LC_" k then None else dget k e.
Proof.
  intros N. unfold del_lc. destruct (del_keys (dkeys e) e N) as [_ G]. rewrite G.
  destruct (String.prefix "LC_" k); [|reflexivity]. cbn [andb].
  destruct (smem k (dkeys e)) eqn:M; [reflexivity|].
  apply smem_false, dget_None in M. exact M.
Qed.
Lemma NoDup_del_lc e : NoDup (dkeys e) -> NoDup (dkeys (del_lc e)).
Proof. intros N. apply (del_keys (dkeys e) e N). Qed.

Lemma dget_add_config c : forall e k,
  dget k (add_config c e) = match dget k e with Some v => Some v | None => dget k c end.
Proof.
  unfold add_config. induction c as [|[x v] c IH]; intros e k.
  - cbn. destruct (dget k e); reflexivity.
  - cbn [fold_left fst snd]. rewrite IH. cbn [dget].
    destruct (dmem x e) eqn:M.
    + destruct (dget k e) eqn:G; [reflexivity|]. destruct (String.eqb_spec k x) as [->|D]; [|reflexivity].
      unfold dmem in M. rewrite G in M. discriminate.
    + rewrite dget_dset. destruct (String.eqb_spec k x) as [->|D]; [|reflexivity].
      unfold dmem in M. destruct (dget x e); [discriminate|reflexivity].
Qed.
Lemma NoDup_add_config c : forall e, NoDup (dkeys e) -> NoDup (dkeys (add_config c e)).
Proof.
  unfold add_config. induction c as [|[x v] c IH]; intros e N; [exact N|]. cbn [fold_left fst snd].
  apply IH. destruct (dmem x e); [exact N|]. apply NoDup_dset, N.
Qed.

(** ** The environment, variable by variable *)

Definition neutralb (j : cjob) : bool := negb (has_flag "preserve-locale" j).
Lemma neutral_iff j : neutralb j = true <-> neutral j.
Proof.
  unfold neutralb, neutral, has_flag. rewrite negb_true_iff. apply smem_false.
Qed.
Definition localeb (k : string) : bool := String.eqb k "LANGUAGE" || String.prefix "LC_" k.
Lemma locale_iff k : localeb k = true <-> locale_variable k.
Proof.
  unfold localeb, locale_variable. rewrite orb_true_iff, String.eqb_eq. reflexivity.
Qed.

(** What plainbox assigns, as a function. *)
Definition pick (k name : string) (v : option string) (rest : option string) : option string :=
  match v with Some w => if String.eqb k name then Some w else rest | None => rest end.
Definition assign (m : machine) (j : cjob) (session_dir nest_dir k : string) : option string :=
  let p := cj_provider j in
  pick k "CHECKBOX_SHARE" (p_checkbox_share p) (
  pick k "PLAINBOX_PROVIDER_UNITS" (p_units_dir p) (
  pick k "PLAINBOX_PROVIDER_DATA" (p_data_dir p) (
  pick k "CHECKBOX_DATA" (Some (checkbox_data session_dir)) (
  pick k "PLAINBOX_SESSION_SHARE" (Some (checkbox_data session_dir)) (
  pick k "PATH" (Some (prefixed nest_dir (dget "PATH" (m_environ m)))) (
  pick k "PYTHONPATH"
    (match p_extra_pythonpath p with
     | None | Some "" => None
     | Some x => Some (prefixed x (dget "PYTHONPATH" (m_environ m)))
     end) (
  if neutralb j then pick k "LANG" (Some "C.UTF-8") None
  else
    pick k "PLAINBOX_PROVIDER_LOCALE_DIR" (p_locale_dir p) (
    pick k "TEXTDOMAINDIR" (p_locale_dir p) (
    pick k "PLAINBOX_PROVIDER_GETTEXT_DOMAIN" (p_gettext_domain p) (
    pick k "TEXTDOMAIN" (p_gettext_domain p) None)))))))))).

Lemma pick_or k name v rest other :
  match pick k name v rest with Some w => Some w | None => other end =
  pick k name v (match rest with Some w => Some w | None => other end).
Proof. unfold pick. destruct v; [destruct (String.eqb k name)|]; reflexivity. Qed.

Lemma environment_value m j config session_dir nest_dir k : NoDup (dkeys (m_environ m)) ->
  dget k (execution_environment m j config session_dir nest_dir) =
  match assign m j session_dir nest_dir k with
  | Some v => Some v
  | None =>
      match (if neutralb j && localeb k then None else dget k (m_environ m)) with
      | Some v => Some v
      | None => configured config k
      end
  end /\
  NoDup (dkeys (execution_environment m j config session_dir nest_dir)).
Proof.
  intros N. unfold execution_environment. cbv zeta. fold (neutralb j).
  match goal with |- context [if neutralb j then ?a else ?b] => set (e1 := if neutralb j then a else b) end.
  assert (E1 : NoDup (dkeys e1) /\ forall k, dget k e1 =
    match (if neutralb j then pick k "LANG" (Some "C.UTF-8") None
           else pick k "PLAINBOX_PROVIDER_LOCALE_DIR" (p_locale_dir (cj_provider j)) (
                pick k "TEXTDOMAINDIR" (p_locale_dir (cj_provider j)) (
                pick k "PLAINBOX_PROVIDER_GETTEXT_DOMAIN" (p_gettext_domain (cj_provider j)) (
                pick k "TEXTDOMAIN" (p_gettext_domain (cj_provider j)) None)))) with
    | Some v => Some v
    | None => if neutralb j && localeb k then None else dget k (m_environ m)
    end).
  { clear k. subst e1. destruct (neutralb j).
    - assert (N1 : NoDup (dkeys (dset "LANG" "C.UTF-8" (m_environ m)))) by (apply NoDup_dset, N).
      set (e := dset "LANG" "C.UTF-8" (m_environ m)) in *.
      assert (E : NoDup (dkeys (if dmem "LANGUAGE" e then ddel "LANGUAGE" e else e)) /\
        forall k, dget k (if dmem "LANGUAGE" e then ddel "LANGUAGE" e else e) =
          if String.eqb k "LANGUAGE" then None else dget k e).
      { destruct (dmem "LANGUAGE" e) eqn:M.
        - split; [apply NoDup_ddel, N1|]. intros k. destruct (String.eqb_spec k "LANGUAGE") as [->|D].
          + apply dget_ddel_same, N1.
          + apply dget_ddel_other, D.
        - split; [exact N1|]. intros k. destruct (String.eqb_spec k "LANGUAGE") as [->|D]; [|reflexivity].
          unfold dmem in M. destruct (dget "LANGUAGE" e); [discriminate|reflexivity]. }
      destruct E as [N2 E]. split; [apply NoDup_del_lc, N2|]. intros k.
      rewrite dget_del_lc by exact N2. rewrite E. subst e. rewrite dget_dset. unfold localeb, pick.
      cbn [andb]. destruct (String.eqb_spec k "LANG") as [->|D]; [reflexivity|].
      destruct (String.eqb k "LANGUAGE"), (String.prefix "LC_" k); reflexivity.
    - split; [repeat apply NoDup_set_opt; exact N|]. intros k.
      rewrite !dget_set_opt. cbn [andb]. rewrite !pick_or. reflexivity. }
  destruct E1 as [N1 E1]. clearbody e1.
  match goal with |- context [match p_extra_pythonpath ?p with _ => _ end] => idtac end.
  set (e2 := match p_extra_pythonpath (cj_provider j) with
    | None | Some "" => e1
    | Some x => dset "PYTHONPATH" (join_path (x :: split_path (getd "PYTHONPATH" e1))) e1 end).
  assert (E2 : NoDup (dkeys e2) /\ forall k, dget k e2 =
    pick k "PYTHONPATH"
    (match p_extra_pythonpath (cj_provider j) with
     | None | Some "" => None
     | Some x => Some (prefixed x (dget "PYTHONPATH" (m_environ m)))
     end) (dget k e1)).
  { clear k. subst e2. destruct (p_extra_pythonpath (cj_provider j)) as [[|c x]|]; try (split; [exact N1|reflexivity]).
    split; [apply NoDup_dset, N1|]. intros k. rewrite dget_dset. unfold pick.
    destruct (String.eqb k "PYTHONPATH"); [|reflexivity]. rewrite join_prefix.
    unfold prefixed, getd. rewrite E1. 
    destruct (neutralb j), (p_locale_dir (cj_provider j)), (p_gettext_domain (cj_provider j)); reflexivity. }
  destruct E2 as [N2 E2]. clearbody e2.
  assert (PP : getd "PATH" e2 = match dget "PATH" (m_environ m) with Some v => v | None => "" end).
  { unfold getd. rewrite E2. 
    replace (pick "PATH" "PYTHONPATH" _ (dget "PATH" e1)) with (dget "PATH" e1)
      by (unfold pick; destruct (match p_extra_pythonpath (cj_provider j) with None | Some "" => _ | _ => _ end); reflexivity).
    rewrite E1. destruct (neutralb j), (p_locale_dir (cj_provider j)), (p_gettext_domain (cj_provider j)); reflexivity. }
  rewrite join_prefix, PP.
  match goal with |- context [set_opt "CHECKBOX_SHARE" ?v ?d] => set (e3 := set_opt "CHECKBOX_SHARE" v d) end.
  assert (N3 : NoDup (dkeys e3)).
  { subst e3. repeat apply NoDup_set_opt. repeat apply NoDup_dset. exact N2. }
  split.
  - assert (E3 : dget k e3 = match assign m j session_dir nest_dir k with
      | Some v => Some v
      | None => if neutralb j && localeb k then None else dget k (m_environ m) end).
    { subst e3. rewrite !dget_set_opt, !dget_dset, E2, E1. unfold assign.
      rewrite !pick_or. fold (prefixed nest_dir (dget "PATH" (m_environ m))).
      destruct (neutralb j); reflexivity. }
    destruct config as [c|].
    + rewrite dget_add_config, E3. destruct (assign _ _ _ _ _); reflexivity.
    + rewrite E3. destruct (assign _ _ _ _ _); [reflexivity|].
      destruct (if neutralb j && localeb k then None else dget k (m_environ m)); reflexivity.
  - destruct config; [apply NoDup_add_config|]; exact N3.
Qed.

Lemma pick_some k name v rest w : pick k name v rest = Some w ->
  (v = Some w /\ k = name) \/ (rest = Some w).
Proof.
  unfold pick. destruct v; [|auto]. destruct (String.eqb_spec k name); [|auto].
  intros H. injection H as ->. auto.
Qed.

Lemma assign_assigned m j session_dir nest_dir k v :
  assign m j session_dir nest_dir k = Some v <-> assigned m j session_dir nest_dir k v.
Proof.
  assert (NB' : neutralb j = false <-> ~ neutral j).
  { rewrite <- neutral_iff. destruct (neutralb j); split; congruence. }
  split.
  - unfold assign. intros H.
    apply pick_some in H as [[H ->]|H]; [apply a_legacy; assumption|].
    apply pick_some in H as [[H ->]|H]; [apply a_units; assumption|].
    apply pick_some in H as [[H ->]|H]; [apply a_data; assumption|].
    apply pick_some in H as [[H ->]|H]; [injection H as <-; apply a_share; simpl; auto|].
    apply pick_some in H as [[H ->]|H]; [injection H as <-; apply a_share; simpl; auto|].
    apply pick_some in H as [[H ->]|H]; [injection H as <-; apply a_path|].
    apply pick_some in H as [[H ->]|H].
    { destruct (p_extra_pythonpath (cj_provider j)) as [[|c x]|] eqn:E; try discriminate.
      injection H as <-. eapply a_pythonpath; [exact E|discriminate]. }
    destruct (neutralb j) eqn:E.
    + apply pick_some in H as [[H ->]|H]; [|discriminate]. injection H as <-.
      apply a_lang, neutral_iff, E.
    + assert (E' : ~ neutral j) by (apply NB'; reflexivity).
      apply pick_some in H as [[H ->]|H]; [eapply a_locale_dir; [assumption|eassumption|simpl; auto]|].
      apply pick_some in H as [[H ->]|H]; [eapply a_locale_dir; [assumption|eassumption|simpl; auto]|].
      apply pick_some in H as [[H ->]|H]; [eapply a_domain; [assumption|eassumption|simpl; auto]|].
      apply pick_some in H as [[H ->]|H]; [eapply a_domain; [assumption|eassumption|simpl; auto]|].
      discriminate.
  - intros H. unfold assign.
    assert (PO : forall k n v r, String.eqb k n = false -> pick k n v r = r).
    { intros k0 n v0 r E. unfold pick. rewrite E. destruct v0; reflexivity. }
    assert (PS : forall n v r, pick n n (Some v) r = Some v).
    { intros n v0 r. unfold pick. rewrite String.eqb_refl. reflexivity. }
    destruct H as [H|k v H P I|k v H P I|x P X| |k I|v P|v P|v P];
      try (apply neutral_iff in H; rewrite H); try (apply NB' in H; rewrite H);
      try (rewrite P);
      try (destruct I as [<-|[<-|[]]]);
      repeat (rewrite PO by reflexivity);
      try (destruct x; [congruence|]); rewrite PS; reflexivity.
Qed.
