(** Theorems about the trusted launcher (properties C38 and C48). *)
From Coq Require Import String Ascii List Bool ZArith Lia Permutation.
From Verif Require Import Base BaseFacts JobModel SolverModel SessionModel HistoryProofs
  LauncherModel LauncherSpec.
Import ListNotations.
Local Open Scope nat_scope.
Local Open Scope list_scope.

(** ** Lists of jobs *)

Lemma insert_job_In j l x : In x (insert_job j l) <-> x = j \/ In x l.
Proof.
  induction l as [|y l IH]; cbn [insert_job]; [cbn; intuition|].
  destruct (String.leb _ _); cbn [In] in *; [intuition|]. rewrite IH. intuition.
Qed.

Lemma jobs_of_In p j : In j (jobs_of p) <-> In (UJob j) p.
Proof.
  induction p as [|u p IH]; cbn [jobs_of In]; [tauto|].
  destruct u; cbn [unit_job]; [rewrite insert_job_In|..]; rewrite IH; intuition congruence.
Qed.

Lemma all_jobs_In providers j : In j (flat_map jobs_of providers) <-> provided providers j.
Proof.
  rewrite in_flat_map. unfold provided. split; intros (p & H1 & H2); exists p; split; auto; now apply jobs_of_In.
Qed.

Lemma find_job_Some c l j : find_job c l = Some j -> In j l /\ j_sum j = c.
Proof. intros H. apply find_some in H. destruct H as [H E]. apply String.eqb_eq in E. auto. Qed.

Lemma find_job_None c l : find_job c l = None -> forall j, In j l -> j_sum j <> c.
Proof.
  intros H j Hj E. pose proof (find_none _ _ H j Hj) as N. cbn in N.
  apply String.eqb_neq in N. auto.
Qed.

Lemma find_job_known c l j : In j l -> j_sum j = c -> exists j', find_job c l = Some j' /\ In j' l /\ j_sum j' = c.
Proof.
  intros Hj E. destruct (find_job c l) as [j'|] eqn:F.
  - exists j'. split; auto. now apply find_job_Some.
  - exfalso. now apply (find_job_None c l F j).
Qed.

Lemma fold_dset (d : dict string) : forall (e : dict string) k, NoDup (dkeys d) ->
  dget k (fold_left (fun e kv => dset (fst kv) (snd kv) e) d e) =
  match dget k d with Some v => Some v | None => dget k e end.
Proof.
  induction d as [|[k' v'] d IH]; intros e k N; [reflexivity|].
  cbn [dkeys map fst] in N. apply NoDup_cons_iff in N as [N1 N2].
  cbn [fold_left fst snd]. rewrite IH by exact N2. cbn [dget]. rewrite dget_dset.
  destruct (String.eqb_spec k k') as [->|D]; [|reflexivity].
  destruct (dget k' d) eqn:E; [|reflexivity].
  exfalso. apply N1. apply dget_In_keys. eauto.
Qed.

Section Launcher.
  Variable eval_expr : expr -> list (list resource) -> bool.
  Variable shell_of : job -> string.
  Variable command_of : job -> string.
  Variable siblings : job -> list jtree.
  Variable load_records : string -> option (list resource).
  Variable environ : dict string.
  Variable call : list string -> dict string -> option (string * Z).

  Notation launch := (launch eval_expr shell_of command_of siblings load_records environ call).
  Notation main := (main eval_expr shell_of command_of siblings load_records environ call).
  Notation trusted := (trusted shell_of command_of siblings load_records environ call).
  Notation command_event := (command_event shell_of command_of environ).
  Notation generated_by := (generated_by shell_of command_of load_records environ call).
  Notation session_jobs := (session_jobs eval_expr siblings).
  Notation run_generator_job := (run_generator_job shell_of command_of load_records environ call).
  Notation finish := (finish eval_expr shell_of command_of siblings environ call).
  Notation run_shell_from_job := (run_shell_from_job shell_of command_of environ call).

  Lemma modify_overlaid g : (forall d, g = Some d -> NoDup (dkeys d)) ->
    overlaid environ g (modify_environment environ g).
  Proof.
    intros N k. unfold modify_environment. destruct g as [d|]; [|reflexivity].
    apply fold_dset. auto.
  Qed.

  (** ** The jobs of the session *)

  Lemma add_tree_jobs t : forall s x, In x (st_jobs (fst (add_tree eval_expr false t s))) ->
    In x (st_jobs s) \/ comes_with x t.
  Proof.
    induction t as [j cs IH] using jtree_ind'. intros s x.
    assert (Hch : forall cs', incl cs' cs -> forall s, In x (st_jobs (fst (add_children eval_expr false cs' s))) ->
      In x (st_jobs s) \/ comes_with x (JTree j cs)).
    { induction cs' as [|c cs' IHc]; intros Hi s' H; cbn [add_children] in H; [auto|].
      rewrite Forall_forall in IH. specialize (IH c (Hi c (or_introl eq_refl)) s' x).
      destruct (add_tree eval_expr false c s') as [s2 [e|]]; cbn [fst] in *.
      - destruct (IH H); [auto|]. right. apply (cw_child x j cs c); auto. apply Hi. now left.
      - apply IHc in H; [|intros y Hy; apply Hi; now right]. destruct H as [H|H]; [|auto].
        destruct (IH H); [auto|]. right. apply (cw_child x j cs c); auto. apply Hi. now left. }
    rewrite add_tree_eq. unfold add_body. destruct (dget (j_id j) (st_map s)) as [js|].
    - destruct (job_eqb j (js_job js)); [apply Hch, incl_refl|cbn; auto].
    - intros H. apply Hch in H; [|apply incl_refl]. destruct H as [H|H]; [|auto].
      cbn [added st_jobs] in H. apply in_app_iff in H. destruct H as [H|[<-|[]]]; auto.
      right. constructor.
  Qed.

  Lemma add_units_jobs l : forall seen s s' x, add_units eval_expr siblings l seen s = Some s' ->
    In x (st_jobs s') -> In x (st_jobs s) \/ exists i, In (UJob i) l /\ comes_with x (JTree i (siblings i)).
  Proof.
    induction l as [|u l IH]; cbn [add_units]; intros seen s s' x H Hx.
    - injection H as <-. auto.
    - destruct (smem _ _); [discriminate|].
      assert (Hrest : forall s1, add_units eval_expr siblings l (unit_sum u :: seen) s1 = Some s' ->
        In x (st_jobs s1) \/ exists i, In (UJob i) (u :: l) /\ comes_with x (JTree i (siblings i))).
      { intros s1 H1. destruct (IH _ _ _ _ H1 Hx) as [H2|(i & Hi & Hc)]; [auto|].
        right. exists i. cbn. auto. }
      destruct u as [j|t|c]; [|apply Hrest, H|apply Hrest, H].
      destruct (add_tree eval_expr false (JTree j (siblings j)) s) as [s1 [e|]] eqn:E; [discriminate|].
      destruct (Hrest s1 H) as [H1|H1]; [|auto].
      pose proof (add_tree_jobs (JTree j (siblings j)) s x) as A. rewrite E in A. cbn [fst] in A.
      destruct (A H1); [auto|]. right. exists j. cbn. auto.
  Qed.

  Lemma session_jobs_from providers l x : session_jobs providers = Some l -> In x l ->
    exists i, provided providers i /\ comes_with x (JTree i (siblings i)).
  Proof.
    unfold LauncherModel.session_jobs. cbn [init_session dedup_jobs length]. intros H Hx.
    destruct (init_session []) as [s| |] eqn:E; try discriminate.
    injection E as <-.
    destruct (add_units eval_expr siblings (concat providers) [] _) as [s'|] eqn:A; [|discriminate].
    injection H as <-. destruct (add_units_jobs _ _ _ _ _ A Hx) as [[]|(i & Hi & Hc)].
    exists i. split; auto. apply in_concat in Hi. destruct Hi as (p & Hp & Hj). exists p. auto.
  Qed.

  (** The session can be made when the units do not contradict each other. *)
  Section Consistent.
    Variable ok : job -> Prop.
    Hypothesis Hok : forall a b, ok a -> ok b -> j_id a = j_id b -> j_sum a = j_sum b.

    Definition clean (s : state) : Prop :=
      forall k js, dget k (st_map s) = Some js -> ok (js_job js) /\ j_id (js_job js) = k.

    Lemma add_tree_clean t : forall s, clean s -> (forall x, comes_with x t -> ok x) ->
      exists s', add_tree eval_expr false t s = (s', None) /\ clean s' /\
        incl (st_jobs s) (st_jobs s').
    Proof.
      induction t as [j cs IH] using jtree_ind'. intros s C Ht.
      assert (Hch : forall cs', incl cs' cs -> forall s, clean s ->
        exists s', add_children eval_expr false cs' s = (s', None) /\ clean s' /\ incl (st_jobs s) (st_jobs s')).
      { induction cs' as [|c cs' IHc]; intros Hi s' C'; cbn [add_children].
        - exists s'. split; auto. split; auto. apply incl_refl.
        - rewrite Forall_forall in IH. destruct (IH c (Hi c (or_introl eq_refl)) s' C') as (s2 & E & C2 & I2).
          { intros x Hx. apply Ht. apply (cw_child x j cs c); auto. apply Hi. now left. }
          rewrite E. destruct (IHc (fun y Hy => Hi y (or_intror Hy)) s2 C2) as (s3 & E3 & C3 & I3).
          exists s3. split; auto. split; auto. eapply incl_tran; eauto. }
      rewrite add_tree_eq. unfold add_body.
      assert (Hj : ok j) by (apply Ht; constructor).
      destruct (dget (j_id j) (st_map s)) as [js|] eqn:Ek.
      - destruct (C _ _ Ek) as [C1 C2]. unfold job_eqb.
        replace (j_sum j) with (j_sum (js_job js)) by (apply Hok; auto).
        rewrite String.eqb_refl. apply Hch; auto. apply incl_refl.
      - assert (Ca : clean (added j s)).
        { intros k js. cbn [added st_map]. rewrite dget_dset. destruct (String.eqb_spec k (j_id j)) as [->|D].
          - intros [= <-]. cbn. auto.
          - apply C. }
        destruct (Hch cs (incl_refl _) _ Ca) as (s' & E & C' & I').
        exists s'. split; auto. split; auto. intros x Hx. apply I'. cbn [added st_jobs]. apply in_app_iff. auto.
    Qed.

    Lemma add_units_clean l : forall seen s, clean s -> NoDup (map unit_sum l) ->
      (forall u, In u l -> ~ In (unit_sum u) seen) ->
      (forall i x, In (UJob i) l -> comes_with x (JTree i (siblings i)) -> ok x) ->
      exists s', add_units eval_expr siblings l seen s = Some s'.
    Proof.
      induction l as [|u l IH]; intros seen s C N Hs Ht; cbn [add_units]; [eauto|].
      cbn [map] in N. apply NoDup_cons_iff in N as [N1 N2].
      destruct (smem (unit_sum u) seen) eqn:M.
      { exfalso. apply smem_In in M. apply (Hs u (or_introl eq_refl) M). }
      assert (Hseen : forall v, In v l -> ~ In (unit_sum v) (unit_sum u :: seen)).
      { intros v Hv [E|E]; [|now apply (Hs v (or_intror Hv))]. apply N1. rewrite E. now apply in_map. }
      assert (Ht' : forall i x, In (UJob i) l -> comes_with x (JTree i (siblings i)) -> ok x).
      { intros i x Hi. apply Ht. now right. }
      destruct u as [j|t|c]; auto.
      destruct (add_tree_clean (JTree j (siblings j)) s C) as (s1 & E & C1 & _).
      { intros x. apply Ht. now left. }
      rewrite E. auto.
    Qed.
  End Consistent.

  Lemma consistent_session providers : consistent siblings providers ->
    exists l, session_jobs providers = Some l.
  Proof.
    intros [N U]. unfold LauncherModel.session_jobs. cbn [init_session dedup_jobs length].
    destruct (init_session []) as [s| |] eqn:E; try discriminate. injection E as <-.
    destruct (add_units_clean
      (fun j => exists i, provided providers i /\ comes_with j (JTree i (siblings i)))) with
      (l := concat providers) (seen := @nil string)
      (s := mk_state [] [] (map (fun j => (j_id j, new_jstate j)) []) [] [] [] []) as (s' & E').
    - intros a b (i1 & P1 & C1) (i2 & P2 & C2). now apply (U i1 i2).
    - intros k js H. discriminate H.
    - exact N.
    - auto.
    - intros i x Hi Hx. exists i. split; auto. apply in_concat in Hi. destruct Hi as (p & Hp & Hj). exists p. auto.
    - cbn [map] in E'. eexists. cbn [map]. rewrite E'. reflexivity.
  Qed.

  (** ** Running *)

  Lemma instantiate_all_from us g rs : forall l x,
    instantiate_all us g rs = Some l -> In x l ->
    exists t l', In (UTemplate t) us /\ t_resource t = Some (j_id g) /\ t_make t rs = Some l' /\ In x l'.
  Proof.
    induction us as [|u us IH]; cbn [instantiate_all]; intros l x H Hx.
    - injection H as <-. destruct Hx.
    - assert (Hrest : forall l2, instantiate_all us g rs = Some l2 -> In x l2 ->
        exists t l', In (UTemplate t) (u :: us) /\ t_resource t = Some (j_id g) /\ t_make t rs = Some l' /\ In x l').
      { intros l2 H2 Hx2. destruct (IH l2 x H2 Hx2) as (t & l' & Ht & R). exists t, l'. split; [now right|exact R]. }
      destruct u as [j|t|c]; eauto.
      destruct (t_resource t) as [r|] eqn:Er; [|eauto].
      destruct (String.eqb_spec r (j_id g)) as [->|D]; [|eauto].
      destruct (t_make t rs) as [js|] eqn:Em; [|discriminate].
      destruct (instantiate_all us g rs) as [js'|] eqn:Ei; [|discriminate].
      injection H as <-. apply in_app_iff in Hx. destruct Hx as [Hx|Hx]; [|eauto].
      exists t, js. split; [now left|]. auto.
  Qed.

  Lemma instantiate_all_complete us g rs t l' x : In (UTemplate t) us ->
    t_resource t = Some (j_id g) -> t_make t rs = Some l' -> In x l' ->
    (forall u r, In (UTemplate u) us -> t_resource u = Some (j_id g) -> t_make u r <> None) ->
    exists l, instantiate_all us g rs = Some l /\ In x l.
  Proof.
    intros Ht Er Em Hx Hm. revert Ht.
    assert (Hsome : forall us', incl us' us -> exists l, instantiate_all us' g rs = Some l).
    { induction us' as [|u us' IH]; intros Hi; cbn [instantiate_all]; [eauto|].
      destruct IH as (l & E). { intros y Hy. apply Hi. now right. }
      rewrite E. destruct u as [j|u|c]; eauto.
      destruct (t_resource u) as [r|] eqn:Eu; [|eauto].
      destruct (String.eqb_spec r (j_id g)) as [->|D]; [|eauto].
      destruct (t_make u rs) eqn:Eu2; [eauto|]. exfalso.
      apply (Hm u rs); auto. apply Hi. now left. }
    assert (G : forall us', incl us' us -> In (UTemplate t) us' ->
      exists l, instantiate_all us' g rs = Some l /\ In x l).
    { induction us' as [|u us' IH]; intros Hi Ht; [destruct Ht|]. cbn [instantiate_all].
      destruct (Hsome us') as (l2 & E2). { intros y Hy. apply Hi. now right. }
      destruct Ht as [->|Ht].
      - rewrite Er, String.eqb_refl, Em, E2. eexists. split; [reflexivity|]. apply in_app_iff. auto.
      - destruct IH as (l & E & Hl); auto. { intros y Hy. apply Hi. now right. }
        assert (l2 = l) by congruence. subst l2. rewrite E.
        destruct u as [j|u|c]; eauto.
        destruct (t_resource u) as [r|] eqn:Eu; [|eauto].
        destruct (String.eqb_spec r (j_id g)) as [->|D]; [|eauto].
        destruct (t_make u rs) eqn:Eu2.
        + eexists. split; [reflexivity|]. apply in_app_iff. auto.
        + exfalso. apply (Hm u rs); auto. apply Hi. now left. }
    intros Ht. apply G; auto. apply incl_refl.
  Qed.

  Lemma run_event j given : (forall d, given = Some d -> NoDup (dkeys d)) ->
    command_event j given (mk_event j (command_line shell_of command_of j) (modify_environment environ given)).
  Proof. intros N. split; [reflexivity|]. split; [reflexivity|]. now apply modify_overlaid. Qed.

  Definition target_part (providers : list provider) (a : args) (T : list event) (x : lexit) : Prop :=
    (T = [] /\ failure x) \/
    exists j e, T = [e] /\ trusted providers a j /\ a_target a = Some (j_sum j) /\
      command_event j (a_target_env a) e /\
      x = match call (e_argv e) (e_env e) with None => XRaised | Some (_, z) => XCode z end.

  (** Everything that a launch runs: first, if a generator was requested, the
      command of the job of the providers with that checksum; then the command of
      a trusted job with the checksum of the target.  The exit status is that of
      the target or an error. *)
  Theorem C38_what_is_run :
    forall providers a tr x, proper a -> a_warmup a = false -> launch providers a = (tr, x) ->
      exists G T, tr = G ++ T /\
        (G = [] \/
         exists g e, G = [e] /\ provided providers g /\ a_generator a = Some (j_sum g) /\
           command_event g (a_generator_env a) e) /\
        ((T = [] /\ failure x) \/
         exists j e, T = [e] /\ trusted providers a j /\ a_target a = Some (j_sum j) /\
           command_event j (a_target_env a) e /\
           x = match call (e_argv e) (e_env e) with None => XRaised | Some (_, z) => XCode z end).
  Proof.
    intros providers a tr x [P1 P2] W H. unfold LauncherModel.launch in H. rewrite W in H.
    set (jobs := flat_map jobs_of providers) in *.
    assert (Hfin : forall G l, (forall j, In j l -> trusted providers a j) ->
      finish providers a G l = (tr, x) -> exists T, tr = G ++ T /\ target_part providers a T x).
    { intros G l Hl E. unfold LauncherModel.finish in E.
      destruct (session_jobs providers) as [more|] eqn:Es.
      2:{ injection E as <- <-. exists []. rewrite app_nil_r. split; auto. left. cbn. auto. }
      destruct (a_target a) as [t|] eqn:Et.
      2:{ injection E as <- <-. exists []. rewrite app_nil_r. split; auto. left. cbn. auto. }
      unfold LauncherModel.run_shell_from_job in E.
      destruct (find_job t (l ++ more)) as [j|] eqn:Ef.
      2:{ injection E as <- <-. exists []. split; auto. left. cbn. auto. }
      injection E as <- <-. eexists. split; [reflexivity|]. right.
      apply find_job_Some in Ef. destruct Ef as [Hj Hs]. exists j. eexists. split; [reflexivity|].
      split.
      { apply in_app_iff in Hj. destruct Hj as [Hj|Hj]; [auto|].
        destruct (session_jobs_from _ _ _ Es Hj) as (i & Hi & Hc). now apply (tr_sibling _ _ _ _ _ _ _ _ i). }
      split; [congruence|]. split; [now apply run_event|reflexivity]. }
    assert (Hprov : forall j, In j jobs -> trusted providers a j).
    { intros j Hj. apply tr_provided. now apply all_jobs_In. }
    destruct (a_generator a) as [g|] eqn:Eg.
    2:{ destruct (Hfin [] jobs Hprov H) as (T & E & HT). exists [], T. auto. }
    destruct (String.eqb_spec g "") as [->|Dg].
    { destruct (Hfin [] jobs Hprov H) as (T & E & HT). exists [], T. auto. }
    unfold LauncherModel.run_generator_job in H.
    destruct (find_job g jobs) as [gj|] eqn:Ef.
    2:{ injection H as <- <-. exists [], []. cbn. auto. }
    apply find_job_Some in Ef. destruct Ef as [Hgj Hs]. apply all_jobs_In in Hgj.
    set (ev := mk_event gj _ _) in H.
    assert (Hev : command_event gj (a_generator_env a) ev) by (now apply run_event).
    assert (HG : forall T, target_part providers a T x -> tr = [ev] ++ T -> exists G T, tr = G ++ T /\
        (G = [] \/
         exists g0 e, G = [e] /\ provided providers g0 /\ Some g = Some (j_sum g0) /\
           command_event g0 (a_generator_env a) e) /\ target_part providers a T x).
    { intros T HT ->. exists [ev], T. split; auto. split; auto. right. exists gj, ev.
      split; auto. split; auto. split; [congruence|auto]. }
    assert (Hnone : forall y, failure y -> ([ev], y) = (tr, x) -> exists G T, tr = G ++ T /\
        (G = [] \/
         exists g0 e, G = [e] /\ provided providers g0 /\ Some g = Some (j_sum g0) /\
           command_event g0 (a_generator_env a) e) /\ target_part providers a T x).
    { intros y Hy E. injection E as <- <-. apply (HG []); auto. left. auto. }
    assert (Hgo : forall l, (forall j, In j l -> trusted providers a j) -> finish providers a [ev] l = (tr, x) ->
       exists G T, tr = G ++ T /\
        (G = [] \/
         exists g0 e, G = [e] /\ provided providers g0 /\ Some g = Some (j_sum g0) /\
           command_event g0 (a_generator_env a) e) /\ target_part providers a T x).
    { intros l Hl E. destruct (Hfin [ev] l Hl E) as (T & ET & HT). now apply (HG T). }
    destruct (call _ _) as [[out rc]|] eqn:Ec; [|now apply (Hnone XRaised)].
    destruct (Z.eqb_spec rc 0) as [->|Dz]; cbn [negb] in H; [|now apply (Hnone XRaised)].
    destruct (load_records out) as [rs|] eqn:El.
    2:{ rewrite app_nil_r in H. now apply (Hgo jobs). }
    destruct (String.eqb_spec (j_plugin gj) "resource") as [Hp|Hp].
    2:{ rewrite app_nil_r in H. now apply (Hgo jobs). }
    destruct (instantiate_all _ _ _) as [l|] eqn:Ei; [|now apply (Hnone XRaised)].
    apply (Hgo (jobs ++ l)); auto. intros j Hj. apply in_app_iff in Hj. destruct Hj as [Hj|Hj]; [auto|].
    destruct (instantiate_all_from _ _ _ _ _ Ei Hj) as (t & l' & Ht & Hr & Hm & Hin).
    apply in_concat in Ht. destruct Ht as (p & Hpp & Ht).
    apply (tr_generated _ _ _ _ _ _ _ _ gj); auto; [congruence|]. split; auto.
    exists ev, out, rs, p, t, l'. repeat split; auto; apply Hev.
  Qed.

  (** Warming up runs nothing. *)
  Theorem C38_warmup_runs_nothing :
    forall providers a, a_warmup a = true -> launch providers a = ([], XCode 0%Z).
  Proof. intros providers a W. unfold LauncherModel.launch. now rewrite W. Qed.

  (** If no trusted job has the checksum of the target, only the generator can
      have been run and the launcher fails. *)
  Theorem C38_unknown_target :
    forall providers a tr x, proper a -> a_warmup a = false -> launch providers a = (tr, x) ->
      (forall j, trusted providers a j -> a_target a <> Some (j_sum j)) ->
      failure x /\ length tr <= 1 /\
      forall e, In e tr -> provided providers (e_job e) /\ a_generator a = Some (j_sum (e_job e)).
  Proof.
    intros providers a tr x P W H U.
    destruct (C38_what_is_run providers a tr x P W H) as (G & T & -> & HG & HT).
    destruct HT as [[-> Hx]|(j & e & _ & Ht & Es & _)]; [|exfalso; now apply (U j)].
    rewrite app_nil_r. split; auto.
    destruct HG as [->|(g & e & -> & Hg & Eg & Hj & _)]; cbn; (split; [lia|]).
    - tauto.
    - intros e' [<-|[]]. rewrite Hj. auto.
  Qed.

  (** If no job of the providers has the checksum of the generator, nothing is
      run and the launcher fails. *)
  Theorem C38_unknown_generator :
    forall providers a g, a_warmup a = false -> a_generator a = Some g -> g <> ""%string ->
      (forall j, provided providers j -> j_sum j <> g) ->
      launch providers a = ([], XMessage).
  Proof.
    intros providers a g W Eg Dg U. unfold LauncherModel.launch. rewrite W, Eg.
    destruct (String.eqb_spec g "") as [->|_]; [contradiction|].
    unfold LauncherModel.run_generator_job.
    destruct (find_job g (flat_map jobs_of providers)) as [j|] eqn:E; [|reflexivity].
    apply find_job_Some in E. destruct E as [Hj Hs]. exfalso. apply (U j); auto. now apply all_jobs_In.
  Qed.

  (** A job of consistent providers is run when it is asked for, and the exit
      status is its return code. *)
  Theorem C38_known_target :
    forall providers a j, proper a -> consistent siblings providers ->
      a_warmup a = false -> a_generator a = None -> provided providers j ->
      a_target a = Some (j_sum j) ->
      exists j' e, trusted providers a j' /\ j_sum j' = j_sum j /\
        command_event j' (a_target_env a) e /\
        launch providers a =
          ([e], match call (e_argv e) (e_env e) with None => XRaised | Some (_, z) => XCode z end).
  Proof.
    intros providers a j P C W Eg Hj Et.
    destruct (launch providers a) as [tr x] eqn:H.
    destruct (C38_what_is_run providers a tr x P W H) as (G & T & -> & HG & HT).
    destruct HG as [->|(g & e & _ & _ & E & _)]; [|congruence]. cbn [app] in *.
    destruct HT as [[-> Hx]|(j' & e & -> & Ht & Es & He & ->)].
    2:{ exists j', e. split; auto. split; [congruence|auto]. }
    exfalso. unfold LauncherModel.launch in H. rewrite W, Eg in H. unfold LauncherModel.finish in H. rewrite ?Et in H.
    destruct (consistent_session providers C) as (more & Em). rewrite Em in H.
    unfold LauncherModel.run_shell_from_job in H.
    destruct (find_job_known (j_sum j) (flat_map jobs_of providers ++ more) j) as (j' & E & _).
    { apply in_app_iff. left. now apply all_jobs_In. }
    { reflexivity. }
    rewrite E in H. discriminate H.
  Qed.

  (** A job made of the output of the generator is run when it is asked for. *)
  Theorem C38_generated_target :
    forall providers a g j, proper a -> consistent siblings providers ->
      a_warmup a = false -> provided providers g -> a_generator a = Some (j_sum g) ->
      j_sum g <> ""%string ->
      (forall i, provided providers i -> j_sum i = j_sum g -> i = g) ->
      (forall p t rs, In p providers -> In (UTemplate t) p -> t_resource t = Some (j_id g) ->
         t_make t rs <> None) ->
      (forall c e e', (forall k, dget k e = dget k e') -> call c e = call c e') ->
      generated_by providers g (a_generator_env a) j ->
      a_target a = Some (j_sum j) ->
      exists eg j' e, trusted providers a j' /\ j_sum j' = j_sum j /\
        command_event g (a_generator_env a) eg /\
        command_event j' (a_target_env a) e /\
        launch providers a =
          ([eg; e], match call (e_argv e) (e_env e) with None => XRaised | Some (_, z) => XCode z end).
  Proof.
    intros providers a g j P C W Hg Eg Dg Ug Hm Hext Hgen Et.
    destruct (launch providers a) as [tr x] eqn:H.
    destruct Hgen as (Hp & e0 & out & rs & p & t & l & He0 & Hc & Hl & Hpp & Ht & Hr & Hmk & Hin).
    pose proof P as [P1 P2].
    set (ev := mk_event g (command_line shell_of command_of g) (modify_environment environ (a_generator_env a))).
    assert (Hev : command_event g (a_generator_env a) ev) by (now apply run_event).
    assert (Ec : call (e_argv ev) (e_env ev) = Some (out, 0%Z)).
    { rewrite <- Hc. destruct He0 as (_ & -> & O1). destruct Hev as (_ & -> & O2). apply Hext.
      intros k. now rewrite (O1 k), (O2 k). }
    unfold LauncherModel.launch in H. rewrite W, Eg in H. unfold LauncherModel.finish in H. rewrite ?Et in H.
    destruct (String.eqb_spec (j_sum g) "") as [E|_]; [contradiction|].
    unfold LauncherModel.run_generator_job in H.
    destruct (find_job_known (j_sum g) (flat_map jobs_of providers) g) as (g' & E & Hg' & Es).
    { now apply all_jobs_In. } { reflexivity. }
    apply all_jobs_In in Hg'. rewrite (Ug g' Hg' Es) in E. rewrite E in H.
    cbn [e_argv e_env ev] in Ec. rewrite Ec, Hl in H. cbn [Z.eqb negb] in H.
    rewrite Hp in H. cbn [String.eqb Ascii.eqb Bool.eqb] in H.
    destruct (instantiate_all_complete (concat providers) g rs t l j) as (l2 & E2 & Hl2); auto.
    { apply in_concat. exists p. auto. }
    { intros u r Hu. apply in_concat in Hu. destruct Hu as (p' & Hp' & Hu). now apply (Hm p'). }
    replace (String.eqb "resource" "resource") with true in H by reflexivity.
    rewrite E2 in H.
    destruct (consistent_session providers C) as (more & Em). rewrite Em in H.
    unfold LauncherModel.run_shell_from_job in H.
    destruct (find_job_known (j_sum j) ((flat_map jobs_of providers ++ l2) ++ more) j) as (j' & E3 & Hj' & Es').
    { rewrite !in_app_iff. auto. } { reflexivity. }
    rewrite E3 in H. injection H as <- <-.
    exists ev, j'. eexists. split; [|split; [exact Es'|split; [exact Hev|split; [now apply run_event|reflexivity]]]].
    rewrite !in_app_iff in Hj'. destruct Hj' as [[Hj'|Hj']|Hj'].
    - apply tr_provided. now apply all_jobs_In.
    - destruct (instantiate_all_from _ _ _ _ _ E2 Hj') as (t' & l' & Ht' & Hr' & Hm' & Hin').
      apply in_concat in Ht'. destruct Ht' as (p' & Hp' & Ht').
      apply (tr_generated _ _ _ _ _ _ _ _ g); auto. split; auto.
      exists ev, out, rs, p', t', l'. repeat split; auto; apply Hev.
    - destruct (session_jobs_from _ _ _ Em Hj') as (i & Hi & Hcw). now apply (tr_sibling _ _ _ _ _ _ _ _ i).
  Qed.
End Launcher.
Print Assumptions C38_what_is_run.
Print Assumptions C38_warmup_runs_nothing.
Print Assumptions C38_unknown_target.
Print Assumptions C38_unknown_generator.
Print Assumptions C38_known_target.
Print Assumptions C38_generated_target.

(** ** The command line *)

(** Whatever the command line, the checksum of everything that is run is among
    the arguments. *)
Lemma parse_args_from argv : forall l p extra a b,
  parse l p extra a = PArgs b -> incl l argv ->
  proper a -> (forall t, a_target a = Some t -> In t argv) ->
  (forall t, a_generator a = Some t -> In t argv) ->
  proper b /\ (forall t, a_target b = Some t -> In t argv) /\
  (forall t, a_generator b = Some t -> In t argv).
Proof.
  assert (Hup : forall e s d, update_env e s = Some d ->
    (forall x, e = Some x -> NoDup (dkeys x)) -> NoDup (dkeys d)).
  { intros e s d H N. unfold update_env in H. destruct (split_eq s) as [[k v]|]; [|discriminate].
    injection H as <-. apply NoDup_dset. destruct e; [now apply N|constructor]. }
  induction l as [|s l IH]; intros p extra a b H Hi [P1 P2] Ht Hg; cbn [parse] in H.
  - destruct (unsatisfied p); [discriminate|]. destruct (negb _); [discriminate|].
    destruct extra; [discriminate|]. injection H as <-. repeat split; auto.
  - assert (Hil : incl l argv) by (intros y Hy; apply Hi; now right).
    assert (Hs : In s argv) by (apply Hi; now left).
    destruct (classify s) as [o| |]; [| |discriminate].
    + destruct (unsatisfied p); [discriminate|].
      destruct o; try discriminate; try (apply IH in H; auto; split; auto; fail).
      destruct (a_target a) eqn:Et; [discriminate|].
      apply IH in H; cbn [a_target a_generator a_target_env a_generator_env]; auto; try (split; auto); congruence.
    + destruct p.
      * apply IH in H; auto. split; auto.
      * destruct (a_warmup a); [discriminate|].
        apply IH in H; cbn [a_target a_generator a_target_env a_generator_env]; auto; [split; auto|].
        now intros t [= <-].
      * apply IH in H; cbn [a_target a_generator a_target_env a_generator_env]; auto; [split; auto|].
        now intros t [= <-].
      * destruct (update_env (a_target_env a) s) as [d|] eqn:Eu; [|discriminate].
        apply IH in H; cbn [a_target a_generator a_target_env a_generator_env]; auto. split; auto.
        intros d' [= <-]. eauto.
      * destruct (update_env (a_generator_env a) s) as [d|] eqn:Eu; [|discriminate].
        apply IH in H; cbn [a_target a_generator a_target_env a_generator_env]; auto. split; auto.
        intros d' [= <-]. eauto.
Qed.

Theorem C38_only_requested_jobs :
  forall eval_expr shell_of command_of siblings load_records environ call providers argv tr x,
    main eval_expr shell_of command_of siblings load_records environ call providers argv =
      Some (tr, x) ->
    length tr <= 2 /\
    exists a, forall e, In e tr ->
      parse_args argv = PArgs a /\
      trusted shell_of command_of siblings load_records environ call providers a (e_job e) /\
      In (j_sum (e_job e)) argv /\
      e_argv e = [shell_of (e_job e); "-c"%string; command_of (e_job e)].
Proof.
  intros until x. unfold main. destruct (parse_args argv) as [a|c|] eqn:E; [| |discriminate].
  2:{ intros [= <- <-]. split; [cbn; lia|]. exists no_args. intros e []. }
  intros [= H]. pose proof E as E0. unfold parse_args in E.
  apply (parse_args_from argv) in E; [|apply incl_refl|split; discriminate|discriminate|discriminate].
  destruct E as (P & Ht & Hg).
  destruct (a_warmup a) eqn:W.
  { unfold launch in H. rewrite W in H. injection H as <- <-. split; [cbn; lia|]. exists a. intros e []. }
  destruct (C38_what_is_run _ _ _ _ _ _ _ _ _ _ _ P W H) as (G & T & -> & HG & HT).
  assert (G1 : length G <= 1).
  { destruct HG as [->|(? & ? & -> & _)]; cbn; lia. }
  assert (T1 : length T <= 1).
  { destruct HT as [[-> _]|(? & ? & -> & _)]; cbn; lia. }
  split; [rewrite app_length; lia|]. exists a. intros e He. apply in_app_iff in He. destruct He as [He|He].
  - destruct HG as [->|(g & e' & -> & Pg & Eg & Ej & Ea & _)]; [destruct He|]. destruct He as [<-|[]].
    rewrite Ej, Ea. split; auto. split; [now apply tr_provided|]. auto.
  - destruct HT as [[-> _]|(j & e' & -> & Tj & Et & (Ej & Ea & _) & _)]; [destruct He|].
    destruct He as [<-|[]]. rewrite Ej, Ea. auto.
Qed.
Print Assumptions C38_only_requested_jobs.

(** * C48: the controller and the launcher understand each other *)

From Verif Require Import CtrlModel CtrlSpec CtrlProofs CtrlProps.

Lemma split_eq_setting s : split_eq s = split_setting s.
Proof. induction s as [|c s IH]; [reflexivity|]. cbn. now rewrite IH. Qed.

Lemma classify_plain s : String.prefix "-" s = false -> classify s = CArg.
Proof.
  intros H. unfold classify.
  assert (O : option_of s = None).
  { unfold option_of. destruct s as [|c s]; [reflexivity|].
    assert (Hc : Ascii.eqb "-" c = false).
    { cbn [String.prefix] in H. destruct (ascii_dec "-" c) as [<-|D]; [destruct s; discriminate|].
      now apply Ascii.eqb_neq. }
    assert (K : forall r, String.eqb (String c s) (String "-" r) = false).
    { intros r. cbn [String.eqb]. rewrite Ascii.eqb_sym, Hc. reflexivity. }
    cbn [smem existsb]. unfold smem. cbn [existsb]. rewrite !K. reflexivity. }
  rewrite O, H. reflexivity.
Qed.

Lemma classify_setting kv : good_name (fst kv) -> classify (setting kv) = CArg /\
  split_eq (setting kv) = Some kv.
Proof.
  intros (H1 & H2 & H3). split.
  - apply classify_plain. unfold setting. destruct (fst kv) as [|c k]; [congruence|].
    cbn [String.append String.prefix] in *. destruct (ascii_dec "-" c); [|reflexivity].
    destruct k; discriminate.
  - rewrite split_eq_setting. unfold setting. rewrite split_setting_app by exact H2. now destruct kv.
Qed.

Definition put (l : list (string * string)) (e : option (dict string)) : option (dict string) :=
  match l with
  | [] => e
  | _ => Some (fold_left (fun d kv => dset (fst kv) (snd kv) d) l (match e with Some d => d | None => [] end))
  end.

Lemma parse_target_env l : forall rest p extra w t te g ge, unsatisfied p = false ->
  (forall kv, In kv l -> good_name (fst kv)) ->
  exists p', unsatisfied p' = false /\
    parse (flat_map (fun kv => ["-T"; setting kv]%string) l ++ rest) p extra (mk_args w t te g ge) =
    parse rest p' extra (mk_args w t (put l te) g ge).
Proof.
  induction l as [|kv l IH]; intros rest p extra w t te g ge U G; [exists p; auto|].
  cbn [flat_map app]. cbn [parse].
  change (classify "-T") with (COpt OTargetEnv). cbn iota. rewrite U.
  destruct (classify_setting kv (G kv (or_introl eq_refl))) as [C S]. rewrite C.
  unfold update_env. rewrite S. destruct kv as [k v]. cbn [a_target_env a_warmup a_target a_generator a_generator_env].
  destruct (IH rest (WTEnv true) extra w t (Some (dset k v (match te with Some d => d | None => [] end))) g ge)
    as (p' & U' & E); [reflexivity|intros kv' Hk; apply G; now right|].
  exists p'. split; auto. rewrite E. f_equal. f_equal. unfold put. destruct l; reflexivity.
Qed.

Lemma parse_generator_env l : forall rest p extra w t te g ge, unsatisfied p = false ->
  (forall kv, In kv l -> good_name (fst kv)) ->
  exists p', unsatisfied p' = false /\
    parse (flat_map (fun kv => ["-G"; setting kv]%string) l ++ rest) p extra (mk_args w t te g ge) =
    parse rest p' extra (mk_args w t te g (put l ge)).
Proof.
  induction l as [|kv l IH]; intros rest p extra w t te g ge U G; [exists p; auto|].
  cbn [flat_map app]. cbn [parse].
  change (classify "-G") with (COpt OGeneratorEnv). cbn iota. rewrite U.
  destruct (classify_setting kv (G kv (or_introl eq_refl))) as [C S]. rewrite C.
  unfold update_env. rewrite S. destruct kv as [k v]. cbn [a_target_env a_warmup a_target a_generator a_generator_env].
  destruct (IH rest (WGEnv true) extra w t te g (Some (dset k v (match ge with Some d => d | None => [] end))))
    as (p' & U' & E); [reflexivity|intros kv' Hk; apply G; now right|].
  exists p'. split; auto. rewrite E. f_equal. f_equal. unfold put. destruct l; reflexivity.
Qed.

(** Looking up a variable among those given. *)
Definition given (e : option (dict string)) (k : string) : option string :=
  match e with Some d => dget k d | None => None end.

Lemma dget_perm (d d' : dict string) k : Permutation d d' -> NoDup (dkeys d) -> dget k d = dget k d'.
Proof.
  intros P N.
  assert (N' : NoDup (dkeys d')).
  { eapply Permutation_NoDup; [|exact N]. now apply Permutation_map. }
  destruct (dget k d) as [v|] eqn:E.
  - symmetry. apply In_dget; auto. apply (Permutation_in _ P). now apply dget_In.
  - symmetry. apply dget_None. apply dget_None in E. intros H. apply E.
    apply (Permutation_in (l := dkeys d')); auto. apply Permutation_map. now apply Permutation_sym.
Qed.

Lemma given_put l k : NoDup (dkeys l) -> given (put l None) k = dget k l.
Proof.
  intros N. unfold put, given. destruct l as [|kv l]; [reflexivity|].
  rewrite fold_dset by exact N. destruct (dget k (kv :: l)); reflexivity.
Qed.

(** The arguments that the controller gives to pkexec after the name of the
    launcher are parsed by the launcher as: run this job, with exactly the
    variables of its environment that differ, after the generator, with its. *)
Theorem C48_launcher_understands_controller :
  forall m b j via config session_dir nest_dir argv,
    NoDup (dkeys (m_environ m)) ->
    (forall k, In k (dkeys (m_environ m)) -> good_name k) ->
    (forall d k, config = Some d -> In k (dkeys d) -> good_name k) ->
    String.prefix "-" (cj_checksum j) = false ->
    (forall g, via = Some g -> String.prefix "-" (cj_checksum g) = false) ->
    execution_command m (PTL1 b) j via config session_dir nest_dir = Some argv ->
    exists user rest a,
      cj_user j = Some user /\
      argv = ["pkexec"; "--user"; user; "plainbox-trusted-launcher-1"]%string ++ rest /\
      parse_args rest = PArgs a /\
      a_warmup a = false /\
      a_target a = Some (cj_checksum j) /\
      a_generator a = option_map cj_checksum via /\
      (forall k, given (a_target_env a) k =
         dget k (differential_environment m j config session_dir nest_dir)) /\
      (forall k, given (a_generator_env a) k =
         match via with
         | Some g => dget k (differential_environment m g config session_dir nest_dir)
         | None => None
         end).
Proof.
  intros m b j via config sd nd argv N GB GC Cj Cg H.
  cbn [execution_command] in H. destruct (cj_user j) as [user|]; [|discriminate].
  exists user. cbn [app] in H.
  set (delta := fun j => sort_items (differential_environment m j config sd nd)) in *.
  assert (D : forall i, NoDup (dkeys (delta i)) /\ (forall kv, In kv (delta i) -> good_name (fst kv)) /\
    forall k, dget k (delta i) = dget k (differential_environment m i config sd nd)).
  { intros i. unfold delta. pose proof (differential_NoDup m i config sd nd N) as ND.
    pose proof (sort_items_perm (differential_environment m i config sd nd)) as P.
    assert (ND' : NoDup (dkeys (sort_items (differential_environment m i config sd nd)))).
    { eapply Permutation_NoDup; [|exact ND]. apply Permutation_map. now apply Permutation_sym. }
    split; auto. split.
    - intros kv Hk. apply (Permutation_in _ P) in Hk.
      apply (differential_names m i config sd nd N GB GC). unfold dkeys. now apply in_map.
    - intros k. now apply dget_perm. }
  destruct (D j) as (Nj & Gj & Vj).
  assert (Tgt : forall p w g ge, unsatisfied p = false -> w = false ->
    parse ("--target"%string :: cj_checksum j :: flat_map (fun kv => ["-T"; setting kv]%string) (delta j)) p false
      (mk_args w None None g ge) = PArgs (mk_args false (Some (cj_checksum j)) (put (delta j) None) g ge)).
  { intros p w g ge U ->. cbn [parse]. change (classify "--target") with (COpt OTarget). cbn iota.
    rewrite U. rewrite (classify_plain _ Cj). cbn [a_warmup a_target_env a_generator a_generator_env].
    destruct (parse_target_env (delta j) [] WNone false false (Some (cj_checksum j)) None g ge eq_refl Gj)
      as (p' & U' & E). rewrite app_nil_r in E. rewrite E. cbn [parse]. rewrite U'. reflexivity. }
  injection H as <-.
  destruct via as [g|].
  - destruct (D g) as (Ng & Gg & Vg).
    eexists. exists (mk_args false (Some (cj_checksum j)) (put (delta j) None) (Some (cj_checksum g)) (put (delta g) None)).
    split; auto. split; [reflexivity|]. split.
    { unfold parse_args, no_args. cbn [app parse]. change (classify "--generator") with (COpt OGenerator). cbn iota.
      cbn [unsatisfied]. rewrite (classify_plain _ (Cg g eq_refl)).
      cbn [a_warmup a_target a_target_env a_generator a_generator_env].
      destruct (parse_generator_env (delta g)
        ("--target"%string :: cj_checksum j :: flat_map (fun kv => ["-T"; setting kv]%string) (delta j))
        WNone false false None None (Some (cj_checksum g)) None eq_refl Gg) as (p' & U' & E).
      refine (eq_trans E _). now apply Tgt. }
    split; auto. split; auto. split; auto. cbn [a_target_env a_generator_env]. split.
    + intros k. rewrite given_put by exact Nj. apply Vj.
    + intros k. rewrite given_put by exact Ng. apply Vg.
  - eexists. exists (mk_args false (Some (cj_checksum j)) (put (delta j) None) None None).
    split; auto. split; [reflexivity|]. split.
    { unfold parse_args, no_args. cbn [app]. now apply Tgt. }
    split; auto. split; auto. split; auto. cbn [a_target_env a_generator_env]. split.
    + intros k. rewrite given_put by exact Nj. apply Vj.
    + reflexivity.
Qed.
Print Assumptions C48_launcher_understands_controller.

Example c48_case :
  NoDup (dkeys (m_environ user_machine)) /\
  String.prefix "-" (cj_checksum root_job) = false /\
  exists argv, execution_command user_machine (PTL1 true) root_job (Some root_job)
      (Some [("FOO", "a=b c")]%string) "/s" "/n" = Some argv /\
    parse_args (skipn 4 argv) =
      let e := [("CHECKBOX_DATA", "/s/CHECKBOX_DATA"); ("FOO", "a=b c"); ("HOME", "/home/u");
                ("LANG", "C.UTF-8"); ("LANGUAGE", ""); ("LC_ALL", "C.UTF-8"); ("PATH", "/n:/bin");
                ("PLAINBOX_PROVIDER_DATA", "/usr/share/p/data");
                ("PLAINBOX_SESSION_SHARE", "/s/CHECKBOX_DATA")]%string in
      PArgs (mk_args false (Some (cj_checksum root_job)) (Some e) (Some (cj_checksum root_job)) (Some e)).
Proof.
  split; [repeat constructor; simpl; intuition discriminate|]. split; [reflexivity|].
  eexists. split; [vm_compute; reflexivity|]. vm_compute. reflexivity.
Qed.

(** A name that starts with a dash is taken for an option. *)
Theorem C48_dash_refuted :
  exists m j config argv, NoDup (dkeys (m_environ m)) /\
    execution_command m (PTL1 true) j None (Some config) "/s" "/n" = Some argv /\
    (forall a, parse_args (skipn 4 argv) <> PArgs a).
Proof.
  exists user_machine, root_job, [("-w", "x")]%string. eexists.
  split; [repeat constructor; simpl; intuition discriminate|]. split; [vm_compute; reflexivity|].
  intros a H. vm_compute in H. discriminate.
Qed.
Print Assumptions C48_dash_refuted.

(** ** Cases *)

Definition lx_job : job := mk_job "ns::disk" "aa" 1 "shell" [] [] NoProg.
Definition lx_gen : job := mk_job "ns::devices" "bb" 2 "resource" [] [] NoProg.
Definition lx_made (r : resource) : job := mk_job "ns::disk_sda" "cc" 3 "shell" [] [] NoProg.
Definition lx_template : template :=
  mk_template "dd" (Some "ns::devices"%string) (fun rs => Some (map lx_made rs)).
Definition lx_suspended : job := mk_job "ns::after-suspend-disk" "ee" 4 "shell" [] [] NoProg.
Definition lx_siblings (j : job) : list jtree :=
  if String.eqb (j_sum j) "aa" then [JTree lx_suspended []] else [].
Definition lx_providers : list provider := [[UJob lx_job; UOther "ff"]; [UTemplate lx_template; UJob lx_gen]].
Definition lx_main :=
  main (fun _ _ => true) (fun _ => "bash"%string) (fun j => j_id j) lx_siblings
    (fun _ => Some [[("name", "sda")]%string]) [("PATH", "/bin")]%string (fun c _ => if smem "ns::devices"%string c then Some (""%string, 0%Z) else Some (""%string, 3%Z))
    lx_providers.

Example c38_target :
  lx_main ["--target"; "aa"; "-T"; "A=b"]%string =
    Some ([mk_event lx_job ["bash"; "-c"; "ns::disk"]%string [("PATH", "/bin"); ("A", "b")]%string], XCode 3).
Proof. vm_compute. reflexivity. Qed.

Example c38_sibling :
  lx_main ["-t"; "ee"]%string =
    Some ([mk_event lx_suspended ["bash"; "-c"; "ns::after-suspend-disk"]%string [("PATH", "/bin")]%string], XCode 3).
Proof. vm_compute. reflexivity. Qed.

Example c38_generated :
  lx_main ["-g"; "bb"; "-t"; "cc"]%string =
    Some ([mk_event lx_gen ["bash"; "-c"; "ns::devices"]%string [("PATH", "/bin")]%string;
           mk_event (lx_made []) ["bash"; "-c"; "ns::disk_sda"]%string [("PATH", "/bin")]%string], XCode 3).
Proof. vm_compute. reflexivity. Qed.

(** Without its generator the job is not known; unknown checksums run nothing. *)
Example c38_unknown :
  lx_main ["-t"; "cc"]%string = Some ([], XMessage) /\
  lx_main ["-g"; "zz"; "-t"; "aa"]%string = Some ([], XMessage).
Proof. split; vm_compute; reflexivity. Qed.

Example c38_consistent : consistent lx_siblings lx_providers.
Proof.
  assert (Q : forall i j, provided lx_providers i -> comes_with j (JTree i (lx_siblings i)) ->
    j = lx_job \/ j = lx_suspended \/ j = lx_gen).
  { intros i j (p & Hp & Hi) Hc.
    assert (Hi' : i = lx_job \/ i = lx_gen).
    { destruct Hp as [<-|[<-|[]]].
      - destruct Hi as [[= <-]|[H|[]]]; [auto|discriminate].
      - destruct Hi as [H|[[= <-]|[]]]; [discriminate|auto]. }
    destruct Hi' as [-> | ->]; inversion Hc; subst; auto.
    - match goal with H : In _ _ |- _ => destruct H as [<-|[]] end.
      match goal with H : comes_with _ (JTree lx_suspended []) |- _ => inversion H; subst; auto end.
      match goal with H : In _ [] |- _ => destruct H end.
    - match goal with H : In _ _ |- _ => destruct H end. }
  split; [repeat constructor; simpl; intuition discriminate|].
  intros i1 i2 j1 j2 H1 H2 C1 C2 E.
  destruct (Q _ _ H1 C1) as [->|[->| ->]], (Q _ _ H2 C2) as [->|[->| ->]]; try reflexivity; discriminate E.
Qed.

(** The generator is run even though its output does not make the target. *)
Example c38_generator_first :
  lx_main ["-g"; "bb"; "-t"; "zz"]%string =
    Some ([mk_event lx_gen ["bash"; "-c"; "ns::devices"]%string [("PATH", "/bin")]%string], XMessage).
Proof. vm_compute. reflexivity. Qed.
