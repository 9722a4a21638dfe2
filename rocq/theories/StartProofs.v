(** * Starting a provider: lemmas *)
From Coq Require Import String Ascii List Bool Arith Lia.
From Verif Require Import ScanModel Rfc822Model Rfc822Spec Rfc822Proofs IniModel IniProofs ConfigModel PluginModel ProviderModel ProvdefModel ProvdefSpec ProvdefProps
  InstallModel InstallSpec InstallProofs StartModel StartSpec.
Import ListNotations.
Local Open Scope nat_scope.
Local Open Scope list_scope.

(** ** Paths *)

Definition dots (l : list text) : list text := filter (fun c => negb (text_eqb c (T "."))) l.
Lemma dots_app a b : dots (a ++ b) = dots a ++ dots b.
Proof. apply filter_app. Qed.
Lemma dots_one c : c <> T "." -> dots [c] = [c].
Proof. intros N. unfold dots. cbn [filter]. destruct (text_eqb c (T ".")) eqn:E; [apply text_eqb_eq in E; congruence|reflexivity]. Qed.
Lemma pjoin_any a b : a <> [] -> component b -> comps (pjoin a b) = comps a ++ [b].
Proof.
  intros A [NE NS]. unfold pjoin. destruct b as [|c b]; [congruence|].
  replace (Ascii.eqb c SLASH) with false by (symmetry; apply Ascii.eqb_neq; intros ->; apply NS; now left). destruct a as [|x a]; [congruence|].
  destruct (ends_slash (x :: a)) eqn:E.
  - apply ends_slash_last in E as (q & E). rewrite E, <- app_assoc. cbn [app]. rewrite !comps_app, (comps_one (c :: b)) by assumption. cbn. now rewrite app_nil_r.
  - change SLASH with SL. now rewrite comps_app, (comps_one (c :: b)) by assumption.
Qed.
Lemma pjoin_relative a b : a <> [] -> is_abs a = false -> component b -> is_abs (pjoin a b) = false /\ pjoin a b <> [].
Proof.
  intros A R [NE NS]. unfold pjoin. destruct b as [|c b]; [congruence|].
  replace (Ascii.eqb c SLASH) with false by (symmetry; apply Ascii.eqb_neq; intros ->; apply NS; now left). destruct a as [|x a]; [congruence|].
  destruct (ends_slash (x :: a)); (split; [exact R|discriminate]).
Qed.
(** A root that is relative, and names in it *)
Definition relative (root : text) : Prop := root <> [] /\ is_abs root = false.
Definition name_in (n : text) : Prop := component n /\ n <> T ".".
Lemma resolve_in cwd root n : relative root -> name_in n -> resolve cwd (pjoin root n) = resolve cwd root ++ [n] /\ relative (pjoin root n).
Proof.
  intros [A R] [C D]. destruct (pjoin_relative root n A R C) as [E F]. split; [|now split].
  unfold resolve. rewrite E, R, (pjoin_any _ _ A C). fold (dots (comps root ++ [n])) (dots (comps root)). rewrite dots_app, (dots_one n D). now rewrite app_assoc.
Qed.

(** ** Texts *)
Lemma format_plain kw t : ~ In "{"%char t -> ~ In "}"%char t -> format kw Outside t = Some t.
Proof.
  induction t as [|c t IH]; intros A B; cbn [format]; [reflexivity|].
  replace (Ascii.eqb c "{") with false by (symmetry; apply Ascii.eqb_neq; intros ->; apply A; now left).
  replace (Ascii.eqb c "}") with false by (symmetry; apply Ascii.eqb_neq; intros ->; apply B; now left).
  rewrite IH; [reflexivity|intros I; apply A; now right|intros I; apply B; now right].
Qed.
Lemma escaped_plain t : ~ In NL t -> escaped t = t.
Proof.
  induction t as [|c t IH]; intros N; cbn [escaped]; [reflexivity|].
  replace (Ascii.eqb c NL) with false by (symmetry; apply Ascii.eqb_neq; intros ->; apply N; now left).
  now rewrite IH by (intros I; apply N; now right).
Qed.

(** ** Runs *)

Lemma final_nil w e : final w ([], e) = w.
Proof. reflexivity. Qed.
Lemma then_call w w1 k : then_ w (call (Some w1)) k = (w1 :: fst (k w1), snd (k w1)).
Proof. reflexivity. Qed.
Lemma then_completed w a k : then_ w (a, Completed) k = (a ++ fst (k (final w (a, Completed))), snd (k (final w (a, Completed)))).
Proof. reflexivity. Qed.
Lemma final_then w r k : snd r = Completed -> final w (then_ w r k) = final (final w r) (k (final w r)).
Proof. intros E. unfold then_. rewrite E. unfold final at 1. cbn [fst]. now rewrite fold_left_app. Qed.
Lemma then_fails w r k : snd r <> Completed -> then_ w r k = r.
Proof. unfold then_. destruct r as [a []]; cbn; congruence. Qed.
Lemma in_then w r k x : In x (fst (then_ w r k)) -> In x (fst r) \/ snd r = Completed /\ In x (fst (k (final w r))).
Proof. unfold then_. destruct (snd r) eqn:E; cbn [fst]; try (intros I; now left). intros I. apply in_app_or in I. tauto. Qed.

(** *** What is there stays *)
Definition kept (w w' : world) : Prop := forall p n, w_fs w p = Some n -> w_fs w' p = Some n.
Lemma kept_refl w : kept w w.
Proof. intros p n E. exact E. Qed.
Lemma kept_trans a b c : kept a b -> kept b c -> kept a c.
Proof. intros A B p n E. apply B, A, E. Qed.
(** Everything that a run goes through keeps what was there *)
Definition careful (w : world) (r : run) : Prop := forall x, In x (fst r) -> kept w x.
Lemma careful_final w r : careful w r -> kept w (final w r).
Proof.
  unfold careful, final. destruct r as [l e]. cbn [fst]. intros H.
  assert (G : forall w1, kept w w1 -> (forall x, In x l -> kept w x) -> kept w (fold_left (fun _ w' => w') l w1)).
  { clear H. induction l as [|y l IH]; intros w1 K H; [exact K|]. cbn [fold_left]. apply IH; [apply H; now left|intros x I; apply H; now right]. }
  apply G; [apply kept_refl|exact H].
Qed.
Lemma careful_then w r k : careful w r -> (snd r = Completed -> careful (final w r) (k (final w r))) -> careful w (then_ w r k).
Proof.
  intros A B x I. apply in_then in I as [I|[E I]]; [now apply A|]. apply kept_trans with (final w r); [now apply careful_final|]. now apply (B E).
Qed.
Lemma careful_nil w e : careful w ([], e).
Proof. intros x []. Qed.
Lemma put_new p n f : f p = None -> forall q m, f q = Some m -> put p n f q = Some m.
Proof.
  intros E q m F. unfold put. destruct (below p q) as [[|]|] eqn:B; try exact F. apply below_spec in B. rewrite app_nil_r in B. congruence.
Qed.
Lemma put_at p n f : put p n f p = n.
Proof. unfold put. now rewrite below_refl. Qed.
Lemma put_other p n f q : q <> p -> put p n f q = f q.
Proof. intros N. unfold put. destruct (below p q) as [[|]|] eqn:B; try reflexivity. apply below_spec in B. rewrite app_nil_r in B. congruence. Qed.
Lemma careful_mkdir cwd t w : careful w (call (mkdir cwd t w)).
Proof.
  unfold mkdir, call. destruct (is_dir _ && negb (exists_ _)) eqn:E; [|apply careful_nil]. apply andb_prop in E as [_ E].
  intros x [<-|[]] q m F. cbn [w_fs]. apply put_new; [|exact F]. destruct (w_fs w (resolve cwd t)); [discriminate|reflexivity].
Qed.

Lemma careful_file cwd kw filename (executable : bool) full_text w : there cwd filename w = false -> careful w
  (then_ w (call (write_to cwd filename [] w)) (fun w1 =>
     match format kw Outside full_text with
     | None => ([], Format_error)
     | Some content =>
         then_ w1 (call (write_to cwd filename content w1)) (fun w2 => if executable then ([chmod cwd filename w2], Completed) else ([], Completed))
     end)).
Proof.
  unfold there. intros X. assert (N : w_fs w (resolve cwd filename) = None) by (destruct (w_fs w (resolve cwd filename)); [discriminate|reflexivity]). clear X.
  set (p := resolve cwd filename) in *.
  assert (W : forall (c : text) (w1 : world), (forall q, q <> p -> w_fs w1 q = w_fs w q) -> careful w (call (write_to cwd filename c w1)) /\
    forall x, In x (fst (call (write_to cwd filename c w1))) -> forall q, q <> p -> w_fs x q = w_fs w q).
  { intros c w1 H. unfold write_to. fold p. unfold write_file. match goal with |- context [if ?b then _ else _] => destruct b end; cbn [call]; [|split; [apply careful_nil|intros x []]].
    assert (Y : forall q, q <> p -> w_fs (mk_world (put p (Some (File c)) (w_fs w1)) (w_exec w1)) q = w_fs w q).
    { intros q D. cbn [w_fs]. rewrite put_other by exact D. now apply H. }
    split.
    - intros x [<-|[]] q m F. rewrite Y; [exact F|congruence].
    - intros x [<-|[]]. exact Y. }
  assert (OUT : forall w1 c, (forall q, q <> p -> w_fs w1 q = w_fs w q) ->
    forall q, q <> p -> w_fs (final w1 (call (write_to cwd filename c w1))) q = w_fs w q).
  { intros w1 c H q D. destruct (W c w1 H) as [_ B]. unfold final. destruct (write_to cwd filename c w1); cbn [call fst fold_left]; [apply B; [now left|exact D]|now apply H]. }
  assert (K : forall x, (forall q, q <> p -> w_fs x q = w_fs w q) -> kept w x) by (intros x H q m F; rewrite H; [exact F|congruence]).
  intros x I. apply K. apply in_then in I as [I|[_ I]]; [now apply (proj2 (W [] w (fun q _ => eq_refl)))|].
  pose proof (OUT w [] (fun q _ => eq_refl)) as O1. set (w1 := final w _) in *. destruct (format kw Outside full_text) as [c|]; [|destruct I].
  apply in_then in I as [I|[_ I]]; [now apply (proj2 (W c w1 O1))|].
  pose proof (OUT w1 c O1) as O2. set (w2 := final w1 _) in *. destruct executable; [|destruct I]. destruct I as [<-|[]]. exact O2.
Qed.
Lemma careful_thing cwd kw root x w : careful w (instantiate cwd kw root x w).
Proof.
  destruct x as [name|name parent executable full_text]; unfold instantiate; (destruct (format kw Outside name) as [n|]; [|apply careful_nil]); cbv zeta.
  - destruct (there _ _ w); [apply careful_nil|apply careful_mkdir].
  - match goal with |- context [there cwd ?t w] => destruct (there cwd t w) eqn:E end; [apply careful_nil|]. now apply careful_file.
Qed.
Lemma careful_all cwd kw root l : forall w, careful w (instantiate_all cwd kw root l w).
Proof. induction l as [|x l IH]; intros w; cbn [instantiate_all]; [apply careful_nil|]. apply careful_then; [apply careful_thing|intros _; apply IH]. Qed.
Lemma careful_skeleton cwd kw root name l w : careful w (instantiate_skeleton cwd kw root name l w).
Proof.
  unfold instantiate_skeleton. apply careful_then; [apply careful_thing|]. intros _. destruct (format kw Outside name); [apply careful_all|apply careful_nil].
Qed.

(** ** Completing *)

Fixpoint in_paths (p : list text) (l : list (list text)) : bool := match l with [] => false | q :: r => if path_eq q p then true else in_paths p r end.
Lemma in_paths_spec p l : in_paths p l = true <-> In p l.
Proof.
  induction l as [|q l IH]; cbn [in_paths In]; [split; [discriminate|tauto]|]. destruct (path_eq q p); [tauto|]. rewrite IH. split; [now right|intros [E|I]; [congruence|exact I]].
Qed.
Definition name_ok (n : text) : bool :=
  match n with [] => false | _ => true end && forallb (fun c => negb (Ascii.eqb c SL)) n && negb (text_eqb n (T ".")) &&
  forallb (fun c => negb (Ascii.eqb c "{") && negb (Ascii.eqb c "}")) n.
Lemma name_ok_spec kw n : name_ok n = true -> name_in n /\ format kw Outside n = Some n.
Proof.
  unfold name_ok. intros H. apply andb_prop in H as [H D]. apply andb_prop in H as [H C]. apply andb_prop in H as [A B]. split.
  - split; [split|].
    + destruct n; [discriminate|congruence].
    + intros I. rewrite forallb_forall in B. specialize (B _ I). now rewrite Ascii.eqb_refl in B.
    + intros ->. discriminate.
  - rewrite forallb_forall in D. apply format_plain; intros I; specialize (D _ I); now rewrite Ascii.eqb_refl, ?andb_false_r in D.
Qed.
(** Where a thing goes, what it is, and whether it can be made after others *)
Definition place_of (x : thing) : list text :=
  match x with Directory n => [n] | FileOf n (Some (c :: p)) _ _ => [c :: p; n] | FileOf n _ _ _ => [n] end.
Definition node_of (kw : list (text * text)) (x : thing) : option node :=
  match x with Directory _ => Some Dir | FileOf _ _ _ t => option_map File (format kw Outside t) end.
Definition ready (done : list (list text * node)) (x : thing) : bool :=
  match listed done (place_of x) with Some _ => false | None => true end && forallb name_ok (place_of x) &&
  match place_of x with [p; n] => match listed done [p] with Some Dir => true | _ => false end | _ => true end.
Fixpoint make (kw : list (text * text)) (done : list (list text * node)) (l : list thing) : option (list (list text * node)) :=
  match l with
  | [] => Some done
  | x :: r => if ready done x then match node_of kw x with Some n => make kw (done ++ [(place_of x, n)]) r | None => None end else None
  end.
Definition executables (l : list thing) : list (list text) := map place_of (filter (fun x => match x with FileOf _ _ e _ => e | _ => false end) l).

Lemma listed_snoc l q n p : listed l q = None -> listed (l ++ [(q, n)]) p = if path_eq q p then Some n else listed l p.
Proof.
  induction l as [|[a m] l IH]; cbn [listed app]; [reflexivity|]. destruct (path_eq a q) as [->|D]; [discriminate|]. intros E.
  destruct (path_eq a p) as [->|D']; [destruct (path_eq q p); [congruence|reflexivity]|]. now apply IH.
Qed.
Lemma removelast_shorter {A} (z : list A) : z <> [] -> removelast z <> z.
Proof.
  destruct z as [|d z]; [congruence|]. intros Z E. pose proof (app_removelast_last d Z) as Q. rewrite E in Q. apply (f_equal (@length A)) in Q. rewrite app_length in Q. cbn [length] in Q. lia.
Qed.
Section Complete.
  Variables (cwd : list text) (kw : list (text * text)) (root : text) (w0 : world).
  Hypothesis R : relative root.
  Let base := resolve cwd root.
  (** After [done], with the executables [ex] *)
  Definition stage (done : list (list text * node)) (ex : list (list text)) (w : world) : Prop :=
    (forall x, w_fs w (base ++ x) = match x with [] => Some Dir | _ => listed done x end) /\
    (forall p, below base p = None -> w_fs w p = w_fs w0 p) /\
    (forall x, w_exec w (base ++ x) = in_paths x ex || w_exec w0 (base ++ x)) /\
    (forall p, below base p = None -> w_exec w p = w_exec w0 p).
  Definition filename_of (x : thing) : text :=
    match x with Directory n => pjoin root n | FileOf n (Some (c :: p)) _ _ => pjoin (pjoin root (c :: p)) n | FileOf n _ _ _ => pjoin root n end.
  Lemma filename_resolves x : forallb name_ok (place_of x) = true -> resolve cwd (filename_of x) = base ++ place_of x.
  Proof.
    intros H. assert (ONE : forall n, name_ok n = true -> resolve cwd (pjoin root n) = base ++ [n]).
    { intros n O. destruct (name_ok_spec kw n O) as [N _]. now destruct (resolve_in cwd root n R N). }
    destruct x as [n|n [[|c p]|] e t]; cbn [place_of forallb filename_of] in *; rewrite andb_true_r in H; try (now apply ONE).
    apply andb_prop in H as [A B]. destruct (name_ok_spec kw _ A) as [N _]. destruct (name_ok_spec kw _ B) as [N' _].
    destruct (resolve_in cwd root (c :: p) R N) as [E R']. destruct (resolve_in cwd _ n R' N') as [E' _]. rewrite E', E. now rewrite <- app_assoc.
  Qed.
  Lemma place_not_nil x : place_of x <> [].
  Proof. destruct x as [n|n [[|c p]|] e t]; discriminate. Qed.
  Lemma format_name x : forallb name_ok (place_of x) = true -> match x with Directory n | FileOf n _ _ _ => format kw Outside n = Some n end.
  Proof.
    destruct x as [n|n [[|c p]|] e t]; cbn [place_of forallb]; rewrite andb_true_r; try (intros H; now apply name_ok_spec).
    intros H. apply andb_prop in H as [_ H]. now apply name_ok_spec.
  Qed.
  Lemma parent_there done ex w x : stage done ex w -> ready done x = true -> is_dir (w_fs w (removelast (base ++ place_of x))) = true.
  Proof.
    intros (S & _) H. unfold ready in H. apply andb_prop in H as [_ P].
    rewrite removelast_app by apply place_not_nil. destruct x as [n|n [[|c p]|] e t]; cbn [place_of removelast] in *; rewrite S; try reflexivity.
    match type of P with match ?z with _ => _ end = _ => change (is_dir z = true); destruct z as [[|]|] end; [reflexivity|discriminate|discriminate].
  Qed.
  Lemma app_same (a b : list text) : base ++ a = base ++ b -> a = b.
  Proof. apply app_inv_head. Qed.
  Lemma stage_put done ex w x n : stage done ex w -> listed done (place_of x) = None ->
    stage (done ++ [(place_of x, n)]) ex (mk_world (put (base ++ place_of x) (Some n) (w_fs w)) (w_exec w)).
  Proof.
    intros (A & B & C & D) N. split; [|split; [|now split]]; cbn [w_fs].
    - intros y. destruct (path_eq (place_of x) y) as [<-|E].
      + rewrite put_at. destruct (place_of x) eqn:P; [now apply place_not_nil in P|]. rewrite <- P. rewrite listed_snoc by (now rewrite P). destruct (path_eq (place_of x) (place_of x)); congruence.
      + rewrite put_other by (intros X; apply app_same in X; congruence). rewrite A. destruct y; [reflexivity|]. rewrite listed_snoc by exact N. destruct (path_eq (place_of x) (t :: y)); [congruence|reflexivity].
    - intros p P. rewrite put_other; [now apply B|]. intros ->. now rewrite below_app in P.
  Qed.
  Lemma stage_exec done ex w x : stage done ex w -> forallb name_ok (place_of x) = true -> stage done (ex ++ [place_of x]) (chmod cwd (filename_of x) w).
  Proof.
    intros (A & B & C & D) O. unfold chmod. rewrite (filename_resolves x O). split; [exact A|]. split; [exact B|]. split; cbn [w_exec].
    - intros y. rewrite below_common, C.
      assert (I : in_paths y (ex ++ [place_of x]) = in_paths y ex || if path_eq (place_of x) y then true else false).
      { clear. induction ex as [|q l IH]; cbn [app in_paths]; [now destruct (path_eq _ _)|]. destruct (path_eq q y); [reflexivity|exact IH]. }
      rewrite I. destruct (path_eq (place_of x) y) as [<-|E]; [now rewrite below_refl, orb_true_r|]. rewrite orb_false_r.
      destruct (below (place_of x) y) as [[|]|] eqn:X; try reflexivity. apply below_spec in X. rewrite app_nil_r in X. congruence.
    - intros p P. destruct (below (base ++ place_of x) p) as [[|]|] eqn:X; try (now apply D). apply below_spec in X. rewrite app_nil_r in X. subst p. now rewrite below_app in P.
  Qed.
  Lemma make_one done ex w x n : stage done ex w -> ready done x = true -> node_of kw x = Some n ->
    exists tr, instantiate cwd kw root x w = (tr, Completed) /\ stage (done ++ [(place_of x, n)]) (ex ++ executables [x]) (final w (tr, Completed)).
  Proof.
    intros S H N. pose proof (parent_there _ _ _ _ S H) as PT. unfold ready in H. apply andb_prop in H as [H _]. apply andb_prop in H as [L O].
    assert (LN : listed done (place_of x) = None) by (destruct (listed done (place_of x)); [discriminate|reflexivity]). clear L.
    pose proof (filename_resolves x O) as FR. pose proof (format_name x O) as FN.
    assert (NOT : w_fs w (base ++ place_of x) = None) by (destruct S as (A & _); rewrite A; destruct (place_of x) eqn:P; [now apply place_not_nil in P|exact LN]).
    destruct x as [d|d parent e t].
    - cbn [node_of] in N. injection N as <-. cbn [filename_of] in FR. unfold instantiate. rewrite FN. cbv zeta. unfold there, mkdir. rewrite FR, NOT. cbn [exists_]. rewrite PT.
      cbn [negb andb call]. eexists. split; [reflexivity|]. unfold final. cbn [fst fold_left]. unfold executables. cbn [filter map]. rewrite app_nil_r. now apply stage_put.
    - cbn [node_of] in N. destruct (format kw Outside t) as [content|] eqn:F; [|discriminate]. cbn [option_map] in N. injection N as <-.
      set (x := FileOf d parent e t) in *. unfold instantiate. unfold x at 1. cbv zeta. rewrite FN. change (match parent with Some (c :: p) => pjoin (pjoin root (c :: p)) d | _ => pjoin root d end) with (filename_of x).
      unfold there. rewrite FR, NOT. cbn [exists_].
      assert (WR : forall c w1, w_fs w1 (removelast (base ++ place_of x)) = w_fs w (removelast (base ++ place_of x)) -> is_dir (w_fs w1 (base ++ place_of x)) = false ->
        write_to cwd (filename_of x) c w1 = Some (mk_world (put (base ++ place_of x) (Some (File c)) (w_fs w1)) (w_exec w1))).
      { intros c w1 E1 E2. unfold write_to, write_file. rewrite FR, E1, PT, E2. cbn [negb andb]. destruct (base ++ place_of x) eqn:Z; [apply app_eq_nil in Z as [_ Z]; now apply place_not_nil in Z|reflexivity]. }
      rewrite (WR [] w eq_refl) by (now rewrite NOT). rewrite then_call. cbv beta. rewrite F.
      set (w1 := mk_world _ _). rewrite (WR content w1).
      2:{ cbn [w1 w_fs]. apply put_other. rewrite removelast_app by apply place_not_nil. intros X. apply app_same in X. revert X.
          now apply (removelast_shorter (place_of x) (place_not_nil x)). }
      2:{ cbn [w1 w_fs]. now rewrite put_at. }
      rewrite then_call. cbv beta.
      set (w2 := mk_world (put (base ++ place_of x) (Some (File content)) (w_fs w1)) (w_exec w1)).
      assert (S2 : stage (done ++ [(place_of x, File content)]) ex w2).
      { pose proof (stage_put done ex w x (File content) S LN) as (A & B & C & D). split; [|split; [|now split]]; unfold w2, w1; cbn [w_fs] in *.
        - intros y. rewrite <- A. destruct (path_eq (base ++ y) (base ++ place_of x)) as [->|Z]; [now rewrite !put_at|now rewrite !put_other by exact Z].
        - intros p P. rewrite <- B by exact P. destruct (path_eq p (base ++ place_of x)) as [->|Z]; [now rewrite !put_at|now rewrite !put_other by exact Z]. }
      destruct e; cbn [fst snd app].
      + eexists. split; [reflexivity|]. unfold final. cbn [fst fold_left]. change (executables [x]) with [place_of x]. now apply stage_exec.
      + eexists. split; [reflexivity|]. unfold final. cbn [fst fold_left]. change (executables [x]) with (@nil (list text)). now rewrite app_nil_r.
  Qed.
  Lemma make_all l : forall done ex w all, stage done ex w -> make kw done l = Some all ->
    exists tr, instantiate_all cwd kw root l w = (tr, Completed) /\ stage all (ex ++ executables l) (final w (tr, Completed)).
  Proof.
    induction l as [|x l IH]; intros done ex w all S M; cbn [make instantiate_all] in *.
    - injection M as <-. exists []. split; [reflexivity|]. unfold executables. cbn [filter map]. rewrite app_nil_r. exact S.
    - destruct (ready done x) eqn:H; [|discriminate]. destruct (node_of kw x) as [n|] eqn:N; [|discriminate].
      destruct (make_one _ _ _ _ _ S H N) as (tr & E & S'). destruct (IH _ _ _ _ S' M) as (tr' & E' & S''). rewrite E. unfold then_. cbn [snd fst]. rewrite E'. cbn [fst snd].
      eexists. split; [reflexivity|]. unfold final in *. cbn [fst] in *. rewrite fold_left_app.
      replace (ex ++ executables (x :: l)) with ((ex ++ executables [x]) ++ executables l); [exact S''|]. rewrite <- app_assoc. f_equal. unfold executables. cbn [filter].
      destruct x as [d|d parent [|] t]; reflexivity.
  Qed.
End Complete.
