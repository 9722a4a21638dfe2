(** * C73: a job runs in a directory of its own with the executables of its namespace, and
    nothing is left behind *)
From Coq Require Import String Ascii List Bool Arith ZArith Lia.
From Verif Require Import ScanModel Rfc822Model JsonModel IniModel ChecksumModel CacheModel Rfc822Proofs IniProofs CacheProofs
  NestModel NestSpec NestProofs.
Import ListNotations.
Local Open Scope nat_scope.
Local Open Scope list_scope.

Definition data_effects {V} (e : env V) : list effect := match e_data e with Some None => [MakeData] | _ => [] end.
Definition told_effects {V} (e : env V) (cwd : text) : list effect :=
  match find_leftovers cwd (e_left e) with [] => [] | l => [Leftovers l] end.
Definition told_exn {V} (e : env V) (cwd : text) : option exn :=
  match find_leftovers cwd (e_left e) with [] => None | _ => e_listener e end.
Definition run_res {V} (e : env V) : res V := match e_run e with inl v => Ret (Some v) | inr x => Exn x end.
Definition halts {V} (e : env V) (noreturn : bool) : list effect :=
  match e_run e with inl _ => if noreturn then [Halt] else [] | inr _ => [] end.
Definition prologue {V} (e : env V) (nest cwd : text) (files : list text) : list effect :=
  data_effects e ++ MakeDir nest :: map (fun f => Link f (join nest (basename f))) files ++ [MakeDir cwd].
Definition epilogue {V} (e : env V) (nest cwd : text) (noreturn : bool) : list effect :=
  halts e noreturn ++ told_effects e cwd ++ remove cwd (e_rm_cwd e) ++ remove nest (e_rm_nest e).
Definition cwd_res {V} (e : env V) (cwd : text) : res V :=
  match replaced (replaced (run_res e) (told_exn e cwd)) (e_rm_cwd e) with
  | Exn PermissionErr => match e_run e with inl v => Ret (Some v) | inr _ => Ret None end
  | _ => replaced (replaced (run_res e) (told_exn e cwd)) (e_rm_cwd e)
  end.

Lemma started {V} (e : env V) ns ps files preserve noreturn : gathered ns ps files -> can_start e files ->
  exists nest cwd, e_nest e = inl nest /\ e_cwd e = inl cwd /\
    execute e ns ps preserve noreturn =
      (prologue e nest cwd files ++ Start (if preserve then None else Some cwd) :: epilogue e nest cwd noreturn,
       replaced (cwd_res e cwd) (e_rm_nest e)).
Proof.
  intros G (D & (nest & EN) & NC & (cwd & EC)). apply gathered_fun in G as ->. exists nest, cwd. split; [assumption|]. split; [assumption|].
  apply no_clash_spec in NC. destruct (link_all_spec nest (nest_files ns ps) []) as (A & B & _ & _).
  assert (LN : snd (link_all nest [] (nest_files ns ps)) = None) by (apply A; split; [assumption|intros f _ []]).
  unfold execute, configured_filesystem, temporary_cwd. rewrite EN, EC, LN, (B LN). clear A B LN.
  assert (DX : e_data e = Some None \/ e_data e = None) by (destruct (e_data e) as [[x|]|]; [exfalso; now apply (D x)|now left|now right]).
  unfold prologue, epilogue, told_effects, cwd_res, told_exn, run_res, halts, data_effects.
  destruct DX as [-> | ->]; destruct (find_leftovers cwd (e_left e)); destruct (e_run e); cbn [fst snd app]; rewrite <- ?app_assoc; cbn [app];
    rewrite <- ?app_assoc; cbn [app]; rewrite <- ?app_assoc; reflexivity.
Qed.
Lemma not_started {V} (e : env V) ns ps files preserve noreturn : gathered ns ps files -> ~ can_start e files ->
  (forall x, In x (fst (execute e ns ps preserve noreturn)) -> match x with Start _ | Halt | Leftovers _ => False | _ => True end) /\
  (exists x, snd (execute e ns ps preserve noreturn) = Exn x) /\
  (forall a p b, fst (execute e ns ps preserve noreturn) = a ++ MakeDir p :: b -> e_nest e = inl p /\ (In (RemoveDir p) b \/ e_rm_nest e <> None)).
Proof.
  intros G N. apply gathered_fun in G as ->. unfold execute.
  assert (NIL : forall (x : effect) a p b, [] = a ++ x :: b -> e_nest e = inl p /\ (In (RemoveDir p) b \/ e_rm_nest e <> None)) by (intros x a p b H; now destruct a).
  assert (BODY : (forall x, e_data e <> Some (Some x)) ->
    let b := configured_filesystem e (nest_files ns ps) (fun _ => temporary_cwd e (fun cwd =>
            (Start (if preserve then None else Some cwd) ::
               match e_run e with inl _ => if noreturn then [Halt] else [] | inr _ => [] end,
             match e_run e with inl v => Ret (Some v) | inr x => Exn x end))) in
    (forall x, In x (fst b) -> match x with Start _ | Halt | Leftovers _ => False | _ => True end) /\
    (exists x, snd b = Exn x) /\
    (forall a p r, fst b = a ++ MakeDir p :: r -> e_nest e = inl p /\ (In (RemoveDir p) r \/ e_rm_nest e <> None))).
  { intros D. unfold configured_filesystem. destruct (e_nest e) as [nest|x] eqn:EN.
    2: { cbn. repeat split; [intros x' []|eauto| |]; now destruct a. }
    destruct (link_all_spec nest (nest_files ns ps) []) as (A & B & C & L). 
    assert (REM : forall x, In x (remove nest (e_rm_nest e)) -> x = RemoveDir nest) by (unfold remove; destruct (e_rm_nest e); [intros x []|intros x [<-|[]]; reflexivity]).
    assert (NEST : forall bs : list effect, (forall p, ~ In (MakeDir p) bs) -> forall a p r,
      MakeDir nest :: fst (link_all nest [] (nest_files ns ps)) ++ bs ++ remove nest (e_rm_nest e) = a ++ MakeDir p :: r ->
      @inl text exn nest = inl p /\ (In (RemoveDir p) r \/ e_rm_nest e <> None)).
    { intros bs HB a p r E. destruct a as [|y a]; cbn in E; injection E as E1 E2.
      - split; [congruence|]. subst p. rewrite <- E2. unfold remove. destruct (e_rm_nest e); [right; discriminate|]. left. apply in_or_app. right. apply in_or_app. right. now left.
      - exfalso. assert (I : In (MakeDir p) (fst (link_all nest [] (nest_files ns ps)) ++ bs ++ remove nest (e_rm_nest e))) by (rewrite E2; apply in_or_app; right; now left).
        apply in_app_or in I as [I|I]; [apply L in I as (f & _ & I); discriminate|]. apply in_app_or in I as [I|I]; [now apply (HB p)|]. apply REM in I. discriminate. }
    destruct (snd (link_all nest [] (nest_files ns ps))) as [x|] eqn:LE.
    - cbn [fst snd]. split; [|split].
      + intros y [<-|I]; [exact I|]. apply in_app_or in I as [I|I]; [apply L in I as (f & _ & ->); exact Logic.I|]. apply REM in I as ->. exact Logic.I.
      + unfold replaced. destruct (e_rm_nest e); eauto.
      + exact (NEST [] (fun _ H => H)).
    - unfold temporary_cwd. destruct (e_cwd e) as [cwd|x] eqn:EC.
      + exfalso. apply N. split; [assumption|]. split; [now exists nest|]. split; [|now exists cwd]. apply no_clash_spec. now apply A.
      + assert (X : exists x', match x with PermissionErr => (@nil effect, @Exn V UnboundLocalErr) | _ => ([], Exn x) end = ([], Exn x')) by (destruct x; eauto).
        destruct X as [x' X].
        rewrite X. cbn [fst snd]. split; [|split].
        * intros y [<-|I]; [exact I|]. apply in_app_or in I as [I|I]; [apply L in I as (f & _ & ->); exact Logic.I|]. apply REM in I as ->. exact Logic.I.
        * unfold replaced. destruct (e_rm_nest e); eauto.
        * exact (NEST [] (fun _ H => H)). }
  destruct (e_data e) as [[x|]|] eqn:ED.
  - cbn. repeat split; [intros y []|eauto| |]; now destruct a.
  - destruct BODY as (B1 & B2 & B3); [discriminate|]. cbn [fst snd app]. split; [|split; [exact B2|]].
    + intros y [<-|I]; [exact Logic.I|now apply B1].
    + intros a p r E. destruct a as [|y a]; cbn in E; [discriminate|]. injection E as _ E. now apply (B3 a).
  - destruct BODY as (B1 & B2 & B3); [discriminate|]. cbn [fst snd app]. split; [exact B1|split; [exact B2|exact B3]].
Qed.
Lemma can_start_dec {V} (e : env V) files : can_start e files \/ ~ can_start e files.
Proof.
  unfold can_start. destruct (e_data e) as [[x|]|]; [right; intros (H & _); now apply (H x)| |].
  all: destruct (e_nest e) as [nest|x]; [|right; intros (_ & (n & H) & _); discriminate].
  all: destruct (e_cwd e) as [cwd|x]; [|right; intros (_ & _ & _ & (n & H)); discriminate].
  all: destruct (ListDec.NoDup_dec (list_eq_dec ascii_dec) (map basename files)) as [N|N]; rewrite no_clash_spec.
  all: try (left; repeat split; eauto; discriminate). all: right; now intros (_ & _ & H & _).
Qed.
Lemma split_unique {A} (P : A -> Prop) (l1 l2 a b : list A) x y : l1 ++ x :: l2 = a ++ y :: b -> P y -> (forall z, In z l1 -> ~ P z) -> (forall z, In z l2 -> ~ P z) ->
  l1 = a /\ x = y /\ l2 = b.
Proof.
  revert a. induction l1 as [|z l1 IH]; intros a E Y N1 N2.
  - destruct a as [|w a]; cbn in E; [injection E; auto|]. injection E as -> ->. exfalso. apply (N2 y); [apply in_or_app; right; now left|assumption].
  - destruct a as [|w a]; cbn in E.
    + injection E as -> _. exfalso. apply (N1 y); [now left|assumption].
    + injection E as -> E. destruct (IH a E Y) as (-> & -> & ->); auto. intros v I. apply N1. now right.
Qed.
Definition plain_start (x : effect) : Prop := match x with Start _ => True | _ => False end.
Lemma prologue_in {V} (e : env V) nest cwd files x : In x (prologue e nest cwd files) ->
  x = MakeData \/ x = MakeDir nest \/ x = MakeDir cwd \/ exists f, In f files /\ x = Link f (join nest (basename f)).
Proof.
  unfold prologue, data_effects. rewrite in_app_iff. cbn [In]. rewrite in_app_iff. intros [H|[H|[H|[H|[]]]]].
  - destruct (e_data e) as [[y|]|]; [destruct H| |destruct H]. destruct H as [<-|[]]. now left.
  - right. left. now symmetry.
  - right. right. right. apply in_map_iff in H as (f & <- & I). now exists f.
  - right. right. left. now symmetry.
Qed.
Lemma epilogue_in {V} (e : env V) nest cwd noreturn x : In x (epilogue e nest cwd noreturn) ->
  x = Halt \/ (x = Leftovers (find_leftovers cwd (e_left e)) /\ find_leftovers cwd (e_left e) <> []) \/ (x = RemoveDir cwd /\ e_rm_cwd e = None) \/ (x = RemoveDir nest /\ e_rm_nest e = None).
Proof.
  unfold epilogue, halts, told_effects, remove. rewrite !in_app_iff. intros [H|[H|[H|H]]].
  - destruct (e_run e); [|destruct H]. destruct noreturn; [|destruct H]. destruct H as [<-|[]]. now left.
  - destruct (find_leftovers cwd (e_left e)); [destruct H|]. destruct H as [<-|[]]. right. left. split; [reflexivity|discriminate].
  - destruct (e_rm_cwd e); [destruct H|]. destruct H as [<-|[]]. tauto.
  - destruct (e_rm_nest e); [destruct H|]. destruct H as [<-|[]]. tauto.
Qed.

(** The command is started exactly when the directories can be made and no two
    executables of the namespace have the same name; then it is started once, in an
    empty directory made for it (unless it asked for another one), and what is in the
    directory at the front of its PATH are links to the executables of the providers
    with the job's namespace, all of them, and nothing else. *)
Theorem C73_where_a_job_runs {V} (e : env V) ns ps files preserve noreturn : gathered ns ps files ->
  ((exists c, In (Start c) (fst (execute e ns ps preserve noreturn))) <-> can_start e files) /\
  (forall a c b, fst (execute e ns ps preserve noreturn) = a ++ Start c :: b ->
     exists nest cwd, e_nest e = inl nest /\ e_cwd e = inl cwd /\ c = (if preserve then None else Some cwd) /\
       exists_after a nest /\ exists_after a cwd /\
       (forall target dest, In (Link target dest) (a ++ b) <->
          available ns ps target /\ exists name, named target name /\ dest = nest ++ slash :: name) /\
       (forall target dest, ~ In (Link target dest) b) /\
       (forall c', ~ In (Start c') (a ++ b))).
Proof.
  intros G. destruct (can_start_dec e files) as [CS|CS].
  - destruct (started e ns ps files preserve noreturn G CS) as (nest & cwd & EN & EC & ->). cbn [fst]. split.
    { split; [now intros _|]. intros _. eexists. apply in_or_app. right. now left. }
    intros a c b E. destruct (split_unique plain_start _ _ _ _ _ _ E) as (<- & EQ & <-); [exact I| | |].
    + intros z I. apply prologue_in in I as [->|[->|[->|(f & _ & ->)]]]; intros [].
    + intros z I. apply epilogue_in in I as [->|[[-> _]|[[-> _]|[-> _]]]]; intros [].
    + injection EQ as <-. exists nest, cwd. split; [assumption|]. split; [assumption|]. split; [reflexivity|].
      split; [|split; [|split; [|split]]].
      * unfold prologue. exists (data_effects e), (map (fun f => Link f (join nest (basename f))) files ++ [MakeDir cwd]). split; [reflexivity|].
        rewrite in_app_iff, in_map_iff. intros [(f & H & _)|[H|[]]]; discriminate.
      * unfold prologue. exists (data_effects e ++ MakeDir nest :: map (fun f => Link f (join nest (basename f))) files), [].
        split; [rewrite <- app_assoc; reflexivity|intros []].
      * intros target dest. rewrite in_app_iff. split.
        -- intros [I|I]; [|apply epilogue_in in I as [I|[[I _]|[[I _]|[I _]]]]; discriminate].
           apply prologue_in in I as [I|[I|[I|(f & F & I)]]]; try discriminate. injection I as -> ->. rewrite (gathered_fun _ _ _ G) in F.
           split; [now apply in_nest_files|]. exists (basename f). split; [now apply named_spec|reflexivity].
        -- intros [A (name & N & ->)]. left. apply named_spec in N as ->. apply in_nest_files in A. rewrite <- (gathered_fun _ _ _ G) in A.
           unfold prologue. apply in_or_app. right. right. apply in_or_app. left. apply in_map_iff. now exists target.
      * intros target dest I. apply epilogue_in in I as [I|[[I _]|[[I _]|[I _]]]]; discriminate.
      * intros c' I. apply in_app_or in I as [I|I]; [apply prologue_in in I as [I|[I|[I|(f & _ & I)]]]; discriminate|].
        apply epilogue_in in I as [I|[[I _]|[[I _]|[I _]]]]; discriminate.
  - destruct (not_started e ns ps files preserve noreturn G CS) as (A & _). split.
    + split; [|contradiction]. intros (c & I). now apply A in I.
    + intros a c b E. exfalso. apply (A (Start c)). rewrite E. apply in_or_app. right. now left.
Qed.
Print Assumptions C73_where_a_job_runs.

(** Afterwards, whatever happened, no directory made for the job is left, unless
    removing it failed. *)
Theorem C73_nothing_is_left {V} (e : env V) ns ps preserve noreturn p : (forall q, e_nest e = inl q -> e_cwd e <> inl q) ->
  exists_after (fst (execute e ns ps preserve noreturn)) p ->
  (e_nest e = inl p /\ e_rm_nest e <> None) \/ (e_cwd e = inl p /\ e_rm_cwd e <> None).
Proof.
  intros DI (a & b & E & N). pose proof (nest_files_gathered ns ps) as G. destruct (can_start_dec e (nest_files ns ps)) as [CS|CS].
  - destruct (started e ns ps _ preserve noreturn G CS) as (nest & cwd & EN & EC & X). rewrite X in E. cbn [fst] in E. clear X.
    assert (NE : nest <> cwd) by (intros ->; now apply (DI cwd)).
    assert (I : In (MakeDir p) (a ++ MakeDir p :: b)) by (apply in_or_app; right; now left). rewrite <- E in I.
    assert (PN : p = nest \/ p = cwd).
    { apply in_app_or in I as [I|[I|I]]; [|discriminate|apply epilogue_in in I as [I|[[I _]|[[I _]|[I _]]]]; discriminate].
      apply prologue_in in I as [I|[I|[I|(f & _ & I)]]]; try discriminate; injection I as ->; tauto. }
    unfold prologue in E. destruct PN as [-> | ->].
    + left. split; [assumption|]. intros R. apply N. 
      destruct (split_unique (fun x => x = MakeDir nest) (data_effects e) ((map (fun f => Link f (join nest (basename f))) (nest_files ns ps) ++ [MakeDir cwd]) ++
                  Start (if preserve then None else Some cwd) :: epilogue e nest cwd noreturn) a b (MakeDir nest) (MakeDir nest)) as (_ & _ & <-).
      * rewrite <- E, <- !app_assoc. cbn [app]. now rewrite <- !app_assoc.
      * reflexivity.
      * intros z I'. unfold data_effects in I'. destruct (e_data e) as [[y|]|]; [destruct I'| |destruct I']. destruct I' as [<-|[]]. discriminate.
      * intros z I' ->. rewrite !in_app_iff in I'. cbn [In] in I'. destruct I' as [[I'|[I'|[]]]|[I'|I']].
        -- apply in_map_iff in I' as (f & I' & _). discriminate.
        -- injection I' as I'. congruence.
        -- discriminate.
        -- apply epilogue_in in I' as [I'|[[I' _]|[[I' _]|[I' _]]]]; discriminate.
      * apply in_or_app. right. right. unfold epilogue. rewrite R. cbn [remove]. rewrite !in_app_iff. right. right. right. now left.
    + right. split; [assumption|]. intros R. apply N.
      destruct (split_unique (fun x => x = MakeDir cwd) (data_effects e ++ MakeDir nest :: map (fun f => Link f (join nest (basename f))) (nest_files ns ps))
                  (Start (if preserve then None else Some cwd) :: epilogue e nest cwd noreturn) a b (MakeDir cwd) (MakeDir cwd)) as (_ & _ & <-).
      * rewrite <- E, <- !app_assoc. cbn [app]. now rewrite <- !app_assoc.
      * reflexivity.
      * intros z I' ->. rewrite in_app_iff in I'. cbn [In] in I'. destruct I' as [I'|[I'|I']].
        -- unfold data_effects in I'. destruct (e_data e) as [[y|]|]; [destruct I'| |destruct I']. destruct I' as [I'|[]]. discriminate.
        -- injection I' as I'. congruence.
        -- apply in_map_iff in I' as (f & I' & _). discriminate.
      * intros z [I'|I'] ->; [discriminate|]. apply epilogue_in in I' as [I'|[[I' _]|[[I' _]|[I' _]]]]; discriminate.
      * right. unfold epilogue. rewrite R. cbn [remove]. rewrite !in_app_iff. right. right. left. now left.
  - destruct (not_started e ns ps _ preserve noreturn G CS) as (_ & _ & A). destruct (A a p b E) as [B [C|C]]; [contradiction|]. left. now split.
Qed.
Print Assumptions C73_nothing_is_left.

(** The listeners are told, while the directory is still there, the full paths of all
    files and of all directories that can be listed, each once; and they are told
    nothing when there are none. *)
Lemma told_spec {V} (e : env V) cwd : (find_leftovers cwd (e_left e) <> []) <-> left_something (e_left e).
Proof.
  unfold left_something. split.
  - intros N. destruct (find_leftovers cwd (e_left e)) as [|q r] eqn:E; [contradiction|].
    assert (I : In q (find_leftovers cwd (e_left e))) by (rewrite E; now left). apply walk_in in I as [(H & _)|(rel & m & _ & B & R)]; [discriminate|eauto].
  - intros (rel & m & B & R) E. assert (I : In (join cwd rel) (find_leftovers cwd (e_left e))) by (apply walk_in; right; eauto). rewrite E in I. destruct I.
Qed.
Theorem C73_leftovers {V} (e : env V) ns ps files preserve noreturn : gathered ns ps files ->
  ((exists l, In (Leftovers l) (fst (execute e ns ps preserve noreturn))) <-> can_start e files /\ left_something (e_left e)) /\
  (forall a l b, fst (execute e ns ps preserve noreturn) = a ++ Leftovers l :: b ->
     exists cwd, e_cwd e = inl cwd /\
       exists_after a cwd /\
       (forall q, In q l <-> exists rel n, q = cwd ++ slash :: rel /\ below (e_left e) rel n /\ reported n) /\
       (proper (e_left e) -> NoDup l) /\
       (exists c, In (Start c) a) /\ forall l', ~ In (Leftovers l') b).
Proof.
  intros G. destruct (can_start_dec e files) as [CS|CS].
  - destruct (started e ns ps files preserve noreturn G CS) as (nest & cwd & EN & EC & ->). cbn [fst]. split.
    + split.
      * intros (l & I). split; [assumption|]. apply (told_spec e cwd). apply in_app_or in I as [I|[I|I]]; [apply prologue_in in I as [I|[I|[I|(f & _ & I)]]]; discriminate|discriminate|].
        apply epilogue_in in I as [I|[[_ I]|[[I _]|[I _]]]]; [discriminate|assumption|discriminate|discriminate].
      * intros [_ L]. apply (told_spec e cwd) in L. exists (find_leftovers cwd (e_left e)). apply in_or_app. right. right. unfold epilogue, told_effects.
        rewrite !in_app_iff. right. left. destruct (find_leftovers cwd (e_left e)); [contradiction|now left].
    + intros a l b E. exists cwd. split; [assumption|].
      assert (I : In (Leftovers l) (a ++ Leftovers l :: b)) by (apply in_or_app; right; now left). rewrite <- E in I.
      assert (L : l = find_leftovers cwd (e_left e) /\ l <> []).
      { apply in_app_or in I as [I|[I|I]]; [apply prologue_in in I as [I|[I|[I|(f & _ & I)]]]; discriminate|discriminate|].
        apply epilogue_in in I as [I|[[I N]|[[I _]|[I _]]]]; try discriminate. injection I as ->. now split. }
      destruct L as [L LN].
      assert (TE : told_effects e cwd = [Leftovers l]) by (unfold told_effects; rewrite <- L; destruct l; [contradiction|reflexivity]).
      destruct (split_unique (fun x => match x with Leftovers _ => True | _ => False end)
        (prologue e nest cwd files ++ Start (if preserve then None else Some cwd) :: halts e noreturn) (remove cwd (e_rm_cwd e) ++ remove nest (e_rm_nest e)) a b (Leftovers l) (Leftovers l)) as (<- & _ & <-).
      * rewrite <- E. unfold epilogue. rewrite TE, <- app_assoc. reflexivity.
      * exact Logic.I.
      * intros z Z. apply in_app_or in Z as [Z|[Z|Z]].
        -- apply prologue_in in Z as [->|[->|[->|(f & _ & ->)]]]; intros [].
        -- subst z. intros [].
        -- unfold halts in Z. destruct (e_run e); [|destruct Z]. destruct noreturn; [|destruct Z]. destruct Z as [<-|[]]. intros [].
      * intros z Z. unfold remove in Z. apply in_app_or in Z as [Z|Z]; [destruct (e_rm_cwd e)|destruct (e_rm_nest e)]; [destruct Z| |destruct Z|]; destruct Z as [<-|[]]; intros [].
      * split; [|split; [|split; [|split]]].
        -- unfold prologue. exists (data_effects e ++ MakeDir nest :: map (fun f => Link f (join nest (basename f))) files), (Start (if preserve then None else Some cwd) :: halts e noreturn).
           split; [rewrite <- !app_assoc; cbn [app]; now rewrite <- !app_assoc|]. intros [H|H]; [discriminate|].
           unfold halts in H. destruct (e_run e); [|destruct H]. destruct noreturn; [|destruct H]. destruct H as [H|[]]; discriminate.
        -- intros q. rewrite L. unfold find_leftovers. rewrite walk_in. split; [intros [(H & _)|H]; [discriminate|exact H]|intros H; right; exact H].
        -- intros P. rewrite L. now apply walk_NoDup.
        -- eexists. apply in_or_app. right. now left.
        -- intros l' Z. unfold remove in Z. apply in_app_or in Z as [Z|Z]; [destruct (e_rm_cwd e)|destruct (e_rm_nest e)]; [destruct Z| |destruct Z|]; destruct Z as [Z|[]]; discriminate.
  - destruct (not_started e ns ps files preserve noreturn G CS) as (A & _). split.
    + split; [|intros [H _]; contradiction]. intros (l & I). now apply A in I.
    + intros a l b E. exfalso. apply (A (Leftovers l)). rewrite E. apply in_or_app. right. now left.
Qed.
Print Assumptions C73_leftovers.

Lemma last_of3 x y z r : last_of [x; y; z] r <-> r = match z with Some e => Some e | None => match y with Some e => Some e | None => x end end.
Proof.
  unfold last_of. split.
  - intros [(a & b & e & E & -> & N)|[N ->]].
    + destruct a as [|a1 [|a2 [|a3 a]]]; cbn in E.
      * injection E as -> <-. rewrite (N y), (N z); [reflexivity|right; now left|now left].
      * injection E as _ -> <-. rewrite (N z); [reflexivity|now left].
      * injection E as _ _ -> _. reflexivity.
      * injection E as _ _ _ E. destruct a; discriminate.
    + rewrite (N x), (N y), (N z); [reflexivity| | |]; cbn; tauto.
  - intros ->. destruct z as [z|]; [left; exists [x; y], [], z; repeat split; intros w []|].
    destruct y as [y|]; [left; exists [x], [None], y; repeat split; intros w [<-|[]]; reflexivity|].
    destruct x as [x|]; [left; exists [], [None; None], x; repeat split; intros w [<-|[<-|[]]]; reflexivity|].
    right. split; [|reflexivity]. intros w [<-|[<-|[<-|[]]]]; reflexivity.
Qed.
Lemma told_bool {V} (e : env V) cwd told : (told = true <-> left_something (e_left e)) -> told_exn e cwd = if told then e_listener e else None.
Proof.
  intros H. rewrite <- (told_spec e cwd) in H. unfold told_exn. destruct (find_leftovers cwd (e_left e)), told; try reflexivity; exfalso.
  - now apply (proj1 H).
  - assert (false = true) by now apply H. discriminate.
Qed.
(** The return code: that of the command, also when leaving its directory failed with a
    PermissionError; -1 when running the command failed and the last exception was a
    PermissionError; and there is one in no other case. *)
Theorem C73_return_code (e : env Z) ns ps files preserve noreturn told x c : gathered ns ps files ->
  (told = true <-> left_something (e_left e)) -> last_of (leaving e told) x ->
  (snd (run_command e ns ps preserve noreturn) = inl c <->
   can_start e files /\ e_rm_nest e = None /\
   ((e_run e = inl c /\ (x = None \/ x = Some PermissionErr)) \/
    (exists y, e_run e = inr y /\ x = Some PermissionErr /\ c = (-1)%Z))).
Proof.
  intros G TB L. unfold leaving in L. apply last_of3 in L. unfold run_command. destruct (can_start_dec e files) as [CS|CS].
  - destruct (started e ns ps files preserve noreturn G CS) as (nest & cwd & EN & EC & ->). cbn [snd].
    unfold cwd_res, run_res. rewrite (told_bool e cwd told TB). destruct (e_rm_nest e) as [y|]; cbn [replaced].
    { split; [discriminate|]. now intros (_ & H & _). }
    pose (out := fun r : res Z => match r with Ret (Some c0) => inl c0 | Ret None => inl (-1)%Z | Exn x0 => inr x0 end).
    assert (L1 : forall z v, out (match z with PermissionErr => Ret (Some v) | _ => Exn z end) = inl c <-> v = c /\ z = PermissionErr).
    { intros z v. unfold out. destruct z; split; try discriminate; try (now intros [_ H]); [intros H; injection H as ->; now split|now intros [-> _]]. }
    assert (L2 : forall z, out (match z with PermissionErr => Ret None | _ => Exn z end) = inl c <-> z = PermissionErr /\ c = (-1)%Z).
    { intros z. unfold out. destruct z; split; try discriminate; try (now intros [H _]); [intros H; injection H as <-; now split|now intros [_ ->]]. }
    match goal with |- match ?r with Ret _ => _ | Exn _ => _ end = _ <-> _ => change (out r = inl c <-> can_start e files /\ None = @None exn /\ ((e_run e = inl c /\ (x = None \/ x = Some PermissionErr)) \/ (exists y, e_run e = inr y /\ x = Some PermissionErr /\ c = (-1)%Z))) end.
    assert (VAL : forall v z, e_run e = inl v -> x = Some z -> (v = c /\ z = PermissionErr <-> can_start e files /\ None = @None exn /\ ((e_run e = inl c /\ (x = None \/ x = Some PermissionErr)) \/ (exists y, e_run e = inr y /\ x = Some PermissionErr /\ c = (-1)%Z)))).
    { intros v z -> ->. split.
      - intros [-> ->]. split; [assumption|]. split; [reflexivity|]. left. split; [reflexivity|now right].
      - intros (_ & _ & [[H1 [H2|H2]]|(q & H1 & _)]); [discriminate| |discriminate]. split; congruence. }
    assert (EXC : forall y z, e_run e = inr y -> x = Some z -> (z = PermissionErr /\ c = (-1)%Z <-> can_start e files /\ None = @None exn /\ ((e_run e = inl c /\ (x = None \/ x = Some PermissionErr)) \/ (exists y, e_run e = inr y /\ x = Some PermissionErr /\ c = (-1)%Z)))).
    { intros y z -> ->. split.
      - intros [-> ->]. split; [assumption|]. split; [reflexivity|]. right. exists y. repeat split.
      - intros (_ & _ & [[H1 _]|(q & H1 & H2 & H3)]); [discriminate|]. split; congruence. }
    destruct (e_run e) as [v|y] eqn:ER; cbn [raised_by] in L; destruct (e_rm_cwd e) as [z|]; cbn [replaced].
    + destruct (if told then e_listener e else None); cbn [replaced]; rewrite L1; now apply VAL.
    + destruct (if told then e_listener e else None) as [w|]; cbn [replaced].
      * rewrite L1. now apply VAL.
      * subst x. unfold out. split; [intros H; injection H as ->; split; [assumption|]; split; [reflexivity|]; left; split; [reflexivity|now left]|].
        intros (_ & _ & [[H1 H2]|(q & H1 & _)]); congruence.
    + destruct (if told then e_listener e else None); cbn [replaced]; rewrite L2; now apply (EXC y).
    + destruct (if told then e_listener e else None) as [w|]; cbn [replaced]; rewrite L2; now apply (EXC y).
  - destruct (not_started e ns ps files preserve noreturn G CS) as (_ & (y & ->) & _). cbn. split; [discriminate|]. now intros [H _].
Qed.
Print Assumptions C73_return_code.

(** A QML job never ends exactly when it is started and the question, or what the shell
    writes, does not fit into a pipe. *)
Lemma pipe_writes_spec room : forall l pipe got, length pipe <= room ->
  (pipe_writes room pipe l = Some got <-> length (pipe ++ concat l) <= room /\ got = pipe ++ concat l).
Proof.
  induction l as [|s l IH]; intros pipe got P; cbn [pipe_writes concat].
  - rewrite app_nil_r. split; [intros H; injection H as <-; now split|now intros [_ ->]].
  - destruct (length pipe + length s <=? room) eqn:E.
    + apply Nat.leb_le in E. rewrite IH by (rewrite app_length; lia). now rewrite <- app_assoc.
    + apply Nat.leb_gt in E. split; [discriminate|]. intros [H _]. rewrite !app_length in H. lia.
Qed.
Lemma is_start_can {V} (e : env V) ns ps files preserve noreturn : gathered ns ps files ->
  (existsb is_start (fst (execute e ns ps preserve noreturn)) = true <-> can_start e files).
Proof.
  intros G. destruct (C73_where_a_job_runs e ns ps files preserve noreturn G) as [<- _]. rewrite existsb_exists. split.
  - intros (x & I & S). destruct x; try discriminate. eauto.
  - intros (c & I). exists (Start c). now split.
Qed.
Theorem C73_qml_ends room parse question popen sh e ns ps files noreturn : gathered ns ps files ->
  (run_qml room parse question popen sh e ns ps noreturn = None <->
   can_start e files /\ (room < length question \/ (popen = None /\ room < length (concat (s_writes sh))))).
Proof.
  intros G. unfold run_qml, talk.
  assert (X : (if existsb is_start (fst (execute e ns ps false noreturn)) then None
               else Some (fst (execute e ns ps false noreturn), qml_outcome parse (snd (execute e ns ps false noreturn)))) = None <-> can_start e files).
  { rewrite <- (is_start_can e ns ps files false noreturn G). destruct (existsb _ _); split; congruence. }
  destruct (length question <=? room) eqn:Q.
  - apply Nat.leb_le in Q. destruct popen as [x|].
    + split; [discriminate|]. intros [_ [H|[H _]]]; [lia|discriminate].
    + destruct (pipe_writes room [] (s_writes sh)) as [got|] eqn:W.
      * split; [discriminate|]. apply pipe_writes_spec in W as [W _]; [|cbn; lia]. cbn [app] in W. intros [_ [H|[_ H]]]; lia.
      * cbv zeta. rewrite X. split; [|now intros [H _]]. intros H. split; [assumption|]. right. split; [reflexivity|].
        destruct (le_lt_dec (length (concat (s_writes sh))) room) as [L|L]; [|assumption]. exfalso.
        assert (pipe_writes room [] (s_writes sh) = Some (concat (s_writes sh))) by (apply pipe_writes_spec; [cbn; lia|now split]). congruence.
  - apply Nat.leb_gt in Q. cbv zeta. rewrite X. split; [now split; [assumption|left]|now intros [H _]].
Qed.
Print Assumptions C73_qml_ends.

(** When nothing fails, its outcome is the one in the answer when the shell ended with 0,
    and fail when it did not or the answer is not JSON. *)
Theorem C73_qml_outcome room parse question sh e ns ps files noreturn : gathered ns ps files -> can_start e files ->
  length question <= room -> length (concat (s_writes sh)) <= room ->
  e_listener e = None -> e_rm_cwd e = None -> e_rm_nest e = None ->
  exists tr r, run_qml room parse question None sh e ns ps noreturn = Some (tr, r) /\
    (forall o, parse (concat (s_writes sh)) = Outcome o -> s_code sh = 0%Z -> r = inl (o, 0%Z)) /\
    (parse (concat (s_writes sh)) = NotJson \/ s_code sh <> 0%Z -> r = inl (T "fail", s_code sh)) /\
    (parse (concat (s_writes sh)) = NoOutcome -> s_code sh = 0%Z -> exists x, r = inr x).
Proof.
  intros G CS Q W EL EC EN. unfold run_qml, talk.
  assert (PW : pipe_writes room [] (s_writes sh) = Some (concat (s_writes sh))) by (apply pipe_writes_spec; [cbn; lia|now split]).
  apply Nat.leb_le in Q. rewrite Q, PW. cbv zeta.
  match goal with |- context [with_run e ?w] => set (v := w) end.
  destruct (started (with_run e v) ns ps files false noreturn G CS) as (nest & cwd & _ & _ & ->). cbn [fst snd].
  assert (R : replaced (cwd_res (with_run e v) cwd) (e_rm_nest (with_run e v)) = Ret (Some (s_code sh, concat (s_writes sh)))).
  { unfold cwd_res, told_exn, run_res, with_run. cbn [e_rm_nest e_rm_cwd e_run e_listener e_left v]. rewrite EN, EC, EL. cbn [replaced].
    now destruct (find_leftovers cwd (e_left e)). }
  rewrite R. eexists _, _. split; [reflexivity|]. cbn [qml_outcome]. split; [|split].
  - intros o -> ->. reflexivity.
  - intros [-> |N]; [reflexivity|]. apply Z.eqb_neq in N. rewrite N. now destruct (parse _).
  - intros -> ->. eexists. reflexivity.
Qed.
Print Assumptions C73_qml_outcome.

(** ** A concrete case *)
Definition ex_providers := [mk_provider (T "ns") [T "/p1/bin/a"; T "/p1/bin/b"]; mk_provider (T "other") [T "/p2/bin/a"]; mk_provider (T "ns") [T "/p3/bin/c"]].
Definition ex_tree := Dir true [(T "log", File); (T "d", Dir true [(T "x", File); (T "l", LinkToDir)]); (T "u", Dir false [])].
Definition ex_env : env Z := mk_env (Some None) (inl (T "/tmp/nest-1")) (inl (T "/tmp/cwd-2")) (inl 3%Z) ex_tree None None None.
Example C73_case_run :
  run_command ex_env (T "ns") ex_providers false false =
  ([MakeData; MakeDir (T "/tmp/nest-1");
    Link (T "/p1/bin/a") (T "/tmp/nest-1/a"); Link (T "/p1/bin/b") (T "/tmp/nest-1/b"); Link (T "/p3/bin/c") (T "/tmp/nest-1/c");
    MakeDir (T "/tmp/cwd-2"); Start (Some (T "/tmp/cwd-2"));
    Leftovers [T "/tmp/cwd-2/log"; T "/tmp/cwd-2/d"; T "/tmp/cwd-2/d/x"];
    RemoveDir (T "/tmp/cwd-2"); RemoveDir (T "/tmp/nest-1")], inl 3%Z).
Proof. vm_compute. reflexivity. Qed.
Example C73_case_hypotheses :
  gathered (T "ns") ex_providers [T "/p1/bin/a"; T "/p1/bin/b"; T "/p3/bin/c"] /\
  can_start ex_env [T "/p1/bin/a"; T "/p1/bin/b"; T "/p3/bin/c"] /\ left_something ex_tree /\ proper ex_tree /\
  (forall q, e_nest ex_env = inl q -> e_cwd ex_env <> inl q) /\ last_of (leaving ex_env true) None.
Proof.
  split; [|split; [|split; [|split; [|split]]]].
  - apply (g_same (T "ns") (mk_provider (T "ns") [T "/p1/bin/a"; T "/p1/bin/b"])); [reflexivity|]. apply g_other; [discriminate|].
    apply (g_same (T "ns") (mk_provider (T "ns") [T "/p3/bin/c"])); [reflexivity|]. constructor.
  - unfold can_start. split; [discriminate|]. split; [eexists; reflexivity|]. split; [|eexists; reflexivity]. apply no_clash_spec.
    cbn. repeat constructor; cbn; intuition discriminate.
  - exists (T "log"), File. split; [apply b_here; now left|now left].
  - repeat (constructor; cbn); try discriminate; intuition discriminate.
  - intros q H. injection H as <-. discriminate.
  - apply last_of3. reflexivity.
Qed.

(** ** What does not hold *)

(** Two providers of one namespace may not have executables of the same name: then no
    job of the namespace can be run at all. *)
Theorem C73_a_job_can_always_run_refuted :
  exists ps, run_command ex_env (T "ns") ps false false = ([MakeData; MakeDir (T "/tmp/nest-1"); Link (T "/p1/bin/a") (T "/tmp/nest-1/a"); RemoveDir (T "/tmp/nest-1")], inr FileExistsErr).
Proof. exists [mk_provider (T "ns") [T "/p1/bin/a"]; mk_provider (T "ns") [T "/p3/bin/a"]]. vm_compute. reflexivity. Qed.
Print Assumptions C73_a_job_can_always_run_refuted.

(** Not everything that is left is reported: links to directories and directories that
    cannot be listed are not, nor what is in those. *)
Theorem C73_everything_left_is_reported_refuted :
  exists tree, (exists l, tree = Dir true l /\ length l = 2) /\ forall cwd, find_leftovers cwd tree = [].
Proof. exists (Dir true [(T "l", LinkToDir); (T "u", Dir false [(T "x", File)])]). split; [eexists; now split|reflexivity]. Qed.
Print Assumptions C73_everything_left_is_reported_refuted.

(** An exception while a command runs does not always surface: when its directory then
    cannot be removed, or when it is itself a PermissionError, the result is -1 and the
    exception is gone. *)
Theorem C73_exceptions_surface_refuted :
  exists e, e_run e = inr (OtherErr 7) /\ snd (run_command e (T "ns") ex_providers false false) = inl (-1)%Z.
Proof. exists (mk_env None (inl (T "/n")) (inl (T "/c")) (inr (OtherErr 7)) (Dir true []) None (Some PermissionErr) None). now split. Qed.
Print Assumptions C73_exceptions_surface_refuted.

(** When the directory cannot be made for lack of permission, the exception is not that
    one but an UnboundLocalError of the handler. *)
Theorem C73_permission_error_is_handled_refuted :
  exists e : env Z, e_cwd e = inr PermissionErr /\ snd (run_command e (T "ns") ex_providers false false) = inr UnboundLocalErr.
Proof. exists (mk_env None (inl (T "/n")) (inr PermissionErr) (inl 0%Z) (Dir true []) None None None). now split. Qed.
Print Assumptions C73_permission_error_is_handled_refuted.

(** A QML job whose shell cannot be started for lack of permission ends with a
    TypeError. *)
Theorem C73_qml_permission_refuted :
  exists e, run_qml 4096 (fun _ => NotJson) (T "q") (Some PermissionErr) (mk_shell [] 0) e (T "ns") ex_providers false =
            Some ([MakeDir (T "/n"); Link (T "/p1/bin/a") (T "/n/a"); Link (T "/p1/bin/b") (T "/n/b"); Link (T "/p3/bin/c") (T "/n/c");
                   MakeDir (T "/c"); Start (Some (T "/c")); RemoveDir (T "/c"); RemoveDir (T "/n")], inr TypeErr).
Proof. exists (mk_env None (inl (T "/n")) (inl (T "/c")) (inl (0%Z, [])) (Dir true []) None None None). vm_compute. reflexivity. Qed.
Print Assumptions C73_qml_permission_refuted.

(** A QML job may never end, whatever the size of the pipes. *)
Theorem C73_qml_always_ends_refuted room parse :
  exists question sh e, s_code sh = 0%Z /\ run_qml room parse question None sh e (T "ns") ex_providers false = None.
Proof.
  exists [], (mk_shell [repeat slash (S room)] 0), (mk_env None (inl (T "/n")) (inl (T "/c")) (inl (0%Z, [])) (Dir true []) None None None).
  split; [reflexivity|]. destruct C73_case_hypotheses as (G & (_ & _ & C & _) & _). apply (C73_qml_ends _ _ _ _ _ _ _ _ _ _ G). split.
  - split; [discriminate|]. split; [eexists; reflexivity|]. split; [exact C|eexists; reflexivity].
  - right. split; [reflexivity|]. cbn [s_writes concat]. rewrite app_nil_r, repeat_length. lia.
Qed.
Print Assumptions C73_qml_always_ends_refuted.
