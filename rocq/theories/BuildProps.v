(** * C76: building a provider *)
From Coq Require Import String Ascii List Bool Arith ZArith Lia Permutation.
From Verif Require Import ScanModel PathModel IniModel RestartModel ConfigModel ExportModel ResumeSpec ResumeCodec BuildModel BuildSpec.
Import ListNotations.
Local Open Scope nat_scope.
Local Open Scope list_scope.

(** ** Paths *)
Lemma components_at cwd ds : proper ds -> abs_components cwd (at_ ds) = ds.
Proof. intros P. destruct ds as [|d ds]; [reflexivity|]. apply components_abs; [discriminate|exact P]. Qed.
Lemma join_at ds w : proper ds -> component w -> path_join (at_ ds) w = at_ (ds ++ [w]).
Proof.
  intros P (W1 & W2 & W3 & W4). unfold path_join, at_. assert (A : isabs w = false).
  { destruct w as [|c w]; [reflexivity|]. cbn. apply Ascii.eqb_neq. intros ->. apply W2. now left. }
  rewrite A. destruct ds as [|d ds]; [reflexivity|]. destruct (join_last (d :: ds)) as (t & c & E & N); [discriminate|exact P|].
  rewrite join_app by discriminate. rewrite E. change (slash :: t ++ [c]) with ((slash :: t) ++ [c]). rewrite last_last.
  destruct (Ascii.eqb_spec c slash); [contradiction|]. reflexivity.
Qed.
Lemma proper_app a b : proper a -> proper b -> proper (a ++ b).
Proof. intros A B. now apply Forall_app. Qed.
Ltac comp := repeat split; [discriminate| |discriminate|discriminate]; cbn; intuition discriminate.
Lemma c_src : component (T "src"). Proof. comp. Qed.
Lemma c_build : component (T "build"). Proof. comp. Qed.
Lemma c_bin : component (T "bin"). Proof. comp. Qed.
Lemma c_po : component (T "po"). Proof. comp. Qed.
Lemma c_mo : component (T "mo"). Proof. comp. Qed.
Lemma c_lc : component (T "LC_MESSAGES"). Proof. comp. Qed.
Lemma c_makefile : component (T "Makefile"). Proof. comp. Qed.
Lemma c_configure : component (T "configure"). Proof. comp. Qed.
#[local] Hint Resolve c_src c_build c_bin c_po c_mo c_lc c_makefile c_configure proper_app : comps.
Lemma proper1 w : component w -> proper [w].
Proof. intros. now constructor. Qed.
#[local] Hint Resolve proper1 : comps.

Lemma drop_common_split a b : forall u d, drop_common a b = (u, d) -> exists c, a = c ++ u /\ b = c ++ d.
Proof.
  revert b. induction a as [|x a IH]; intros [|y b] u d; cbn; try (intros [= <- <-]; exists []; now split).
  destruct (text_eqb x y) eqn:E; [|intros [= <- <-]; exists []; now split]. apply text_eqb_eq in E as ->. intros H. destruct (IH _ _ _ H) as (c & -> & ->). now exists (y :: c).
Qed.
Lemma drop_common_app c u d : hd_error u <> hd_error d \/ u = [] \/ d = [] -> drop_common (c ++ u) (c ++ d) = (u, d).
Proof.
  intros H. induction c as [|x c IH]; cbn [app drop_common].
  - destruct u as [|x u], d as [|y d]; try reflexivity. cbn. destruct (text_eqb x y) eqn:E; [|reflexivity]. apply text_eqb_eq in E as ->. destruct H as [H|[H|H]]; try discriminate. now contradiction H.
  - now rewrite text_eqb_refl.
Qed.
Lemma norm_ups n rest : forall acc, norm_components acc (repeat dotdot n ++ rest) = norm_components (skipn n acc) rest.
Proof.
  induction n as [|n IH]; intros acc; [reflexivity|]. cbn [repeat app norm_components]. change (text_eqb dotdot [] || text_eqb dotdot dot)%bool with false. change (text_eqb dotdot dotdot) with true. cbn iota. rewrite IH. destruct acc as [|x acc]; [|reflexivity].
  cbn [tl skipn]. now rewrite skipn_nil.
Qed.
Lemma norm_app a b : forall acc, proper a -> norm_components acc (a ++ b) = norm_components (rev a ++ acc) b.
Proof.
  induction a as [|w a IH]; intros acc P; [reflexivity|]. inversion P as [|? ? (W1 & W2 & W3 & W4) P']; subst. cbn [app norm_components]. rewrite !text_eqb_neq by assumption. cbn [orb]. rewrite IH by assumption. cbn [rev]. now rewrite <- app_assoc.
Qed.
Lemma map_const {A B} (x : B) (l : list A) : map (fun _ => x) l = repeat x (length l).
Proof. induction l; cbn; congruence. Qed.
Lemma noslash_dotdot : ~ In slash dotdot.
Proof. cbn. intros [H|[H|[]]]; discriminate. Qed.
Lemma proper_noslash l : proper l -> Forall (fun w => ~ In slash w) l.
Proof. intros P. eapply Forall_impl; [|exact P]. now intros w (_ & K & _). Qed.

(** A relative name leads from the directory it starts at to what it names; also when it
    is continued. *)
Lemma relpath_words cwd ps ss : proper ps -> proper ss -> exists ws, ws <> [] /\ Forall (fun w => ~ In slash w) ws /\ relpath cwd (at_ ps) (at_ ss) = join_slash ws /\
  isabs (join_slash ws) = false /\ join_slash ws <> [] /\ forall more, proper more -> norm_components (rev ss) (ws ++ more) = ps ++ more.
Proof.
  intros P S. unfold relpath. rewrite !components_at by assumption. destruct (drop_common ss ps) as [u d] eqn:D. destruct (drop_common_split _ _ _ _ D) as (c & -> & ->). clear D.
  apply Forall_app in S as [Pc Pu]. apply Forall_app in P as [_ Pd]. rewrite map_const.
  assert (G : forall more, proper more -> norm_components (rev (c ++ u)) ((repeat dotdot (length u) ++ d) ++ more) = (c ++ d) ++ more).
  { intros more M. rewrite <- app_assoc, norm_ups. rewrite rev_app_distr, skipn_app, skipn_all2, rev_length, Nat.sub_diag by now rewrite rev_length. cbn [app skipn].
    rewrite norm_proper by now apply Forall_app. rewrite rev_involutive. now rewrite app_assoc. }
  assert (NS : Forall (fun w => ~ In slash w) (repeat dotdot (length u) ++ d)).
  { apply Forall_app. split; [|now apply proper_noslash]. apply Forall_forall. intros x I. apply repeat_spec in I as ->. apply noslash_dotdot. }
  destruct (repeat dotdot (length u) ++ d) as [|w ws] eqn:E.
  - exists [dot]. apply app_eq_nil in E as [E ->]. destruct u; [|discriminate]. rewrite !app_nil_r in *. repeat split; try discriminate; try reflexivity.
    + repeat constructor. cbn. intros [H|[]]; discriminate.
    + intros more M. cbn [app norm_components]. change (text_eqb dot [] || text_eqb dot dot)%bool with true. cbn iota. rewrite norm_proper by assumption. now rewrite rev_involutive.
  - exists (w :: ws). split; [discriminate|]. split; [exact NS|]. split; [reflexivity|]. rewrite <- E in NS, G |- *. 
    assert (H : exists x r, w = x :: r /\ x <> slash).
    { assert (WI : w = dotdot \/ component w).
      { assert (I : In w (repeat dotdot (length u) ++ d)) by (rewrite E; now left). apply in_app_iff in I as [I|I]; [left; now apply repeat_spec in I|right]. unfold proper in Pd. rewrite Forall_forall in Pd. now apply Pd. }
      destruct WI as [-> |(W1 & W2 & _)]; [now exists "."%char, ["."%char]|]. destruct w as [|x r]; [contradiction|]. exists x, r. split; [reflexivity|]. intros ->. apply W2. now left. }
    destruct H as (x & r & -> & N). rewrite E. split; [|split].
    + destruct ws; cbn; apply Ascii.eqb_neq; assumption.
    + destruct ws; discriminate.
    + rewrite <- E. exact G.
Qed.
Lemma split_noabs cwd0 ss ws : proper ss -> ws <> [] -> Forall (fun w => ~ In slash w) ws -> isabs (join_slash ws) = false -> join_slash ws <> [] ->
  abs_components cwd0 (path_join (at_ ss) (join_slash ws)) = norm_components (rev ss) ws.
Proof.
  intros S N F A NE. unfold abs_components, path_join. rewrite A. unfold at_.
  assert (X : split_slash ((if Ascii.eqb (last (slash :: join_slash ss) " "%char) slash then (slash :: join_slash ss) ++ join_slash ws else (slash :: join_slash ss) ++ slash :: join_slash ws)) = [] :: ss ++ ws).
  { destruct ss as [|s ss].
    - cbn [join_slash last app]. rewrite Ascii.eqb_refl. cbn [split_slash]. rewrite Ascii.eqb_refl. now rewrite split_join.
    - destruct (join_last (s :: ss)) as (t & c & E & NC); [discriminate|exact S|]. rewrite E. change (slash :: t ++ [c]) with ((slash :: t) ++ [c]). rewrite last_last.
      destruct (Ascii.eqb_spec c slash); [contradiction|]. change ((slash :: t) ++ [c]) with (slash :: t ++ [c]). rewrite <- E. cbn [app]. rewrite <- join_app by (discriminate || assumption).
      cbn [split_slash]. rewrite Ascii.eqb_refl. rewrite split_join; [reflexivity|destruct ss; discriminate|]. apply Forall_app. split; [now apply proper_noslash|assumption]. }
  assert (I : isabs (if Ascii.eqb (last (slash :: join_slash ss) " "%char) slash then (slash :: join_slash ss) ++ join_slash ws else (slash :: join_slash ss) ++ slash :: join_slash ws) = true) by (destruct (Ascii.eqb _ slash); reflexivity).
  rewrite I, X. cbn [norm_components]. change (text_eqb [] [] || text_eqb [] dot)%bool with true. cbn iota. rewrite norm_app by assumption. now rewrite app_nil_r.
Qed.
Theorem C76_relative_names cwd ps ss : proper ps -> proper ss ->
  isabs (relpath cwd (at_ ps) (at_ ss)) = false /\ abs_components cwd (path_join (at_ ss) (relpath cwd (at_ ps) (at_ ss))) = ps.
Proof.
  intros P S. destruct (relpath_words cwd ps ss P S) as (ws & N & F & E & A & NE & G). rewrite E. split; [assumption|]. rewrite split_noabs by assumption.
  specialize (G [] ltac:(constructor)). now rewrite !app_nil_r in G.
Qed.
Print Assumptions C76_relative_names.

(** ** Choosing a build system *)
Lemma insert_below x m y : (snd x <= snd y)%Z -> (forall z, In z m -> (snd z <= snd y)%Z) ->
  exists m', insert_score x (m ++ [y]) = m' ++ [y] /\ forall z, In z m' -> (snd z <= snd y)%Z.
Proof.
  intros H. induction m as [|z m IH]; intros F; cbn [app insert_score].
  - apply Z.leb_le in H as H'. rewrite H'. exists [x]. split; [reflexivity|]. intros z [<-|[]]. assumption.
  - destruct (Z.leb (snd x) (snd z)).
    + exists (x :: z :: m). split; [reflexivity|]. intros t [<-|I]; [assumption|now apply F].
    + destruct IH as (m' & -> & F'); [intros; apply F; now right|]. exists (z :: m'). split; [reflexivity|]. intros t [<-|I]; [apply F; now left|now apply F'].
Qed.
Lemma insert_above x l : (forall z, In z l -> (snd z < snd x)%Z) -> insert_score x l = l ++ [x].
Proof.
  induction l as [|z l IH]; intros F; cbn; [reflexivity|]. assert (Z.leb (snd x) (snd z) = false) as -> by (apply Z.leb_gt, F; now left). rewrite IH by (intros; apply F; now right). reflexivity.
Qed.
Lemma sort_last score l : l <> [] -> exists m b, sort_scores (map (fun b => (b, score b)) l) = m ++ [(b, score b)] /\ (forall z, In z m -> (snd z <= score b)%Z) /\ best score l b.
Proof.
  induction l as [|x l IH]; intros N; [contradiction|]. destruct l as [|y l].
  - exists [], x. split; [reflexivity|]. split; [intros z []|]. exists [], []. split; [reflexivity|]. split; intros z [].
  - destruct IH as (m & b & E & F & (p & q & L & P & Q)); [discriminate|]. change (sort_scores (map (fun b => (b, score b)) (x :: y :: l))) with (insert_score (x, score x) (sort_scores (map (fun b => (b, score b)) (y :: l)))). rewrite E, L.
    destruct (Z.le_gt_cases (score x) (score b)) as [H|H].
    + destruct (insert_below (x, score x) m (b, score b) H F) as (m' & E' & F'). exists m', b. split; [exact E'|]. split; [exact F'|]. exists (x :: p), q. split; [reflexivity|]. split; [|exact Q]. intros z [<-|I]; [exact H|now apply P].
    + exists (m ++ [(b, score b)]), x. split.
      * apply insert_above. intros z I. cbn [snd]. apply in_app_iff in I as [I|[<-|[]]]; [specialize (F z I); lia|exact H].
      * split; [intros z I; apply in_app_iff in I as [I|[<-|[]]]; cbn [snd]; [specialize (F z I)|]; lia|]. exists [], (p ++ b :: q). split; [reflexivity|]. split; [intros z []|].
        intros z I. apply in_app_iff in I as [I|[<-|I]]; [specialize (P z I); lia|exact H|specialize (Q z I); lia].
Qed.
Section Props.
  Variable cwd : text.

  (** Of any build systems the best one is used, unless its score is zero. *)
  Theorem C76_best_build_system w systems loc : systems <> [] ->
    exists b, best (fun b => b_probe b w (src_dir loc)) systems b /\
      guess w systems loc = Some (if Z.eqb (b_probe b w (src_dir loc)) 0 then None else Some (b_command b (src_dir loc) (build_bin_dir loc))).
  Proof.
    intros N. destruct (sort_last (fun b => b_probe b w (src_dir loc)) systems N) as (m & b & E & _ & B). exists b. split; [exact B|]. unfold guess. rewrite E, rev_app_distr. cbn. destruct (Z.eqb _ 0); reflexivity.
  Qed.

  Lemma src_at ds : proper ds -> src_dir (at_ ds) = at_ (ds ++ [T "src"]).
  Proof. intros P. apply join_at; auto with comps. Qed.
  Lemma bin_at ds : proper ds -> build_bin_dir (at_ ds) = at_ (ds ++ [T "build"; T "bin"]).
  Proof. intros P. unfold build_bin_dir. rewrite !join_at by auto with comps. now rewrite <- app_assoc. Qed.
  Lemma rel_bin ds more : proper ds -> proper (T "src" :: more) -> relpath cwd (at_ (ds ++ T "src" :: more)) (at_ (ds ++ [T "build"; T "bin"])) = T "../../" ++ join_slash (T "src" :: more).
  Proof.
    intros P M. assert (B : proper [T "build"; T "bin"]) by (constructor; [apply c_build|apply proper1, c_bin]). unfold relpath. rewrite !components_at by (now apply proper_app).
    rewrite drop_common_app by (left; discriminate). destruct more; reflexivity.
  Qed.

  Lemma star_fits l : forall t, fits (Star :: l) t = true <-> exists a b, t = a ++ b /\ fits l b = true.
  Proof.
    induction t as [|c t IH].
    - change (fits (Star :: l) []) with (fits l [] || false)%bool. rewrite orb_false_r. split; [intros H; now exists [], []|]. intros (a & b & E & H). symmetry in E. apply app_eq_nil in E as [-> ->]. exact H.
    - change (fits (Star :: l) (c :: t)) with (fits l (c :: t) || fits (Star :: l) t)%bool. rewrite orb_true_iff, IH. split.
      + intros [H|(a & b & -> & H)]; [now exists [], (c :: t)|now exists (c :: a), b].
      + intros (a & b & E & H). destruct a as [|x a]; [left; now rewrite E|]. injection E as <- ->. right. now exists a, b.
  Qed.
  Lemma go_fits n : name_fits (T "*.go") n = true <-> (exists stem, n = stem ++ T ".go") /\ (forall r, n <> "."%char :: r).
  Proof.
    unfold name_fits. change (has_magic (T "*.go")) with true. cbv iota. change (translate (length (T "*.go")) (T "*.go")) with [Star; Lit "."; Lit "g"; Lit "o"]. change (hidden (T "*.go")) with false. cbn [orb].
    rewrite andb_true_iff, star_fits. apply and_iff_compat_b || idtac. split; intros [(a & H) H2]; split.
    - destruct H as (b & -> & H). exists a. f_equal. destruct b as [|x1 [|x2 [|x3 [|x4 b]]]]; cbn in H; try discriminate; rewrite ?andb_false_r in H; try discriminate.
      rewrite !andb_true_iff in H. destruct H as (E1 & E2 & E3 & _). apply Ascii.eqb_eq in E1, E2, E3. now subst.
    - intros r ->. discriminate.
    - exists a, (T ".go"). split; [exact H|reflexivity].
    - destruct n as [|c n]; [reflexivity|]. cbn [hidden]. destruct (Ascii.eqb_spec c "."%char) as [-> |]; [now contradiction (H2 n)|reflexivity].
  Qed.
  Lemma plain_fits p n : has_magic p = false -> (name_fits p n = true <-> p = n).
  Proof. intros H. unfold name_fits. rewrite H. apply text_eqb_eq. Qed.
  Lemma magic_false d : (forall c, In c d -> c <> "*"%char /\ c <> "?"%char /\ c <> "["%char) -> has_magic d = false.
  Proof.
    intros H. unfold has_magic. destruct (existsb _ d) eqn:E; [|reflexivity]. exfalso. apply existsb_exists in E as (c & I & E). apply existsb_exists in E as (x & X & E). apply Ascii.eqb_eq in E as <-. destruct (H c I) as (H1 & H2 & H3). cbn in X. destruct X as [X|[X|[X|[]]]]; congruence.
  Qed.
  Lemma path_fits_prefix ds rest : no_magic ds -> forall ns, path_fits (ds ++ rest) ns = true <-> exists more, ns = ds ++ more /\ path_fits rest more = true.
  Proof.
    induction ds as [|d ds IH]; intros NM ns; cbn [app].
    - split; [intros H; now exists ns|]. intros (m & -> & H). exact H.
    - destruct ns as [|n ns]; [split; [discriminate|intros (m & E & _); discriminate]|]. cbn [path_fits]. rewrite andb_true_iff, (plain_fits d n), IH.
      + split; [intros (-> & m & -> & H); now exists m|]. intros (m & E & H). injection E as -> ->. split; [reflexivity|]. now exists m.
      + intros x c I. apply NM. now right.
      + apply magic_false. intros c. apply NM. now left.
  Qed.
  Lemma glob_go w ds : proper ds -> no_magic ds -> (glob_finds w (src_dir (at_ ds) ++ T "/*.go") = true <-> has_go_source w ds).
  Proof.
    intros P NM. rewrite src_at by assumption. unfold glob_finds.
    assert (E : tl (split_slash (at_ (ds ++ [T "src"]) ++ T "/*.go")) = ds ++ [T "src"; T "*.go"]).
    { unfold at_. change (T "/*.go") with (slash :: join_slash [T "*.go"]). change ((slash :: join_slash (ds ++ [T "src"])) ++ slash :: join_slash [T "*.go"]) with (slash :: (join_slash (ds ++ [T "src"]) ++ slash :: join_slash [T "*.go"])).
      rewrite <- join_app by (destruct ds; discriminate). cbn [split_slash]. rewrite Ascii.eqb_refl. cbn [tl]. rewrite <- app_assoc. apply split_join; [destruct ds; discriminate|].
      apply Forall_app. split; [now apply proper_noslash|]. repeat constructor; cbn; intuition discriminate. }
    rewrite E. unfold has_go_source. split.
    - intros H. apply existsb_exists in H as (ns & I & H). rewrite path_fits_prefix in H by assumption. destruct H as (m & -> & H). destruct m as [|a [|b [|c m]]]; cbn [path_fits] in H; rewrite ?andb_false_r in H; try discriminate.
      rewrite !andb_true_iff in H. destruct H as (H1 & H2 & _). apply plain_fits in H1 as <-; [|reflexivity]. apply go_fits in H2 as [H2 H3]. exists b. auto.
    - intros (n & I & S & D). apply existsb_exists. exists (ds ++ [T "src"; n]). split; [exact I|]. rewrite path_fits_prefix by assumption. exists [T "src"; n]. split; [reflexivity|]. cbn [path_fits]. rewrite !andb_true_iff. split; [now apply plain_fits|]. split; [|reflexivity]. apply go_fits. auto.
  Qed.

  Definition builtin := [makefile cwd; golang cwd; autotools cwd].
  (** The command that is guessed, for every provider in every directory, whatever the
      order in which the build systems are found. *)
  Theorem C76_guessed_command w systems ds : proper ds -> no_magic ds -> Permutation systems builtin ->
    guess w systems (at_ ds) = Some (
      if w_isfile w (at_ (ds ++ [T "src"; T "configure"])) then Some (T "../../src/configure && make")
      else if w_isfile w (at_ (ds ++ [T "src"; T "Makefile"])) then Some (T "VPATH=../../src make -f ../../src/Makefile")
      else if glob_finds w (src_dir (at_ ds) ++ T "/*.go") then Some (T "go build ../../src/*.go")
      else None).
  Proof.
    intros P NM PM. destruct (C76_best_build_system w systems (at_ ds)) as (b & (p & q & L & B1 & B2) & G); [intros ->; apply Permutation_nil in PM; discriminate|].
    assert (IB : In b builtin) by (apply (Permutation_in b PM); rewrite L; apply in_app_iff; right; now left).
    assert (MAX : forall x, In x builtin -> (b_probe x w (src_dir (at_ ds)) <= b_probe b w (src_dir (at_ ds)))%Z).
    { intros x I. apply (Permutation_in x (Permutation_sym PM)) in I. rewrite L in I. apply in_app_iff in I as [I|[<-|I]]; [now apply B1|lia|specialize (B2 x I); lia]. }
    pose proof (MAX (makefile cwd) (or_introl eq_refl)) as M1. pose proof (MAX (golang cwd) (or_intror (or_introl eq_refl))) as M2. pose proof (MAX (autotools cwd) (or_intror (or_intror (or_introl eq_refl)))) as M3. clear MAX L B1 B2 PM. rewrite G. clear G. f_equal.
    assert (EC : path_join (src_dir (at_ ds)) (T "configure") = at_ (ds ++ [T "src"; T "configure"])) by (rewrite src_at, join_at by auto with comps; now rewrite <- app_assoc).
    assert (EM : path_join (src_dir (at_ ds)) (T "Makefile") = at_ (ds ++ [T "src"; T "Makefile"])) by (rewrite src_at, join_at by auto with comps; now rewrite <- app_assoc).
    assert (R1 : relpath cwd (src_dir (at_ ds)) (build_bin_dir (at_ ds)) = T "../../src") by (rewrite src_at, bin_at by assumption; rewrite rel_bin by auto with comps; reflexivity).
    assert (R2 : relpath cwd (path_join (src_dir (at_ ds)) (T "Makefile")) (build_bin_dir (at_ ds)) = T "../../src/Makefile").
    { rewrite EM, bin_at by assumption. rewrite (rel_bin ds [T "Makefile"]) by (try assumption; repeat constructor; try apply c_src; try apply c_makefile). reflexivity. }
    cbn [makefile golang autotools b_probe] in M1, M2, M3. rewrite EC in M1, M3. rewrite EM in M1.
    destruct IB as [<-|[<-|[<-|[]]]]; cbn [makefile golang autotools b_probe b_command] in *; rewrite ?EC, ?R1, ?R2, ?EM in *;
      destruct (w_isfile w (at_ (ds ++ [T "src"; T "configure"]))); destruct (w_isfile w (at_ (ds ++ [T "src"; T "Makefile"]))); destruct (glob_finds w (src_dir (at_ ds) ++ T "/*.go")); try lia; reflexivity.
  Qed.
  Theorem C76_go_sources w ds : proper ds -> no_magic ds -> (glob_finds w (src_dir (at_ ds) ++ T "/*.go") = true <-> has_go_source w ds).
  Proof. apply glob_go. Qed.

  (** ** Building and cleaning *)
  Theorem C76_build w systems keyword code ds : proper ds -> systems <> [] ->
    let '(effects, out) := build cwd w systems keyword code (at_ ds) in
    (exists c, (keyword = Some c \/ keyword = None /\ guess w systems (at_ ds) = Some (Some c)) /\
       effects = (if w_isdir w (at_ (ds ++ [T "build"; T "bin"])) then [] else [MakeDirs (at_ (ds ++ [T "build"; T "bin"]))]) ++
                 [Shell c (at_ (ds ++ [T "build"; T "bin"])) (T "../../src")] /\ out = Exit (Some (code c))) \/
    (keyword = None /\ guess w systems (at_ ds) = Some None /\ effects = [] /\ out = Exit (Some 0%Z)).
  Proof.
    intros P N. unfold build. assert (R1 : relpath cwd (src_dir (at_ ds)) (build_bin_dir (at_ ds)) = T "../../src") by (rewrite src_at, bin_at by assumption; rewrite rel_bin by auto with comps; reflexivity).
    rewrite R1, bin_at by assumption. destruct keyword as [c|].
    - left. exists c. split; [now left|]. now split.
    - destruct (C76_best_build_system w systems (at_ ds) N) as (b & _ & G). rewrite G. destruct (if Z.eqb _ 0 then None else _) as [c|].
      + left. exists c. split; [right; now split|]. now split.
      + right. now repeat split.
  Qed.
  Theorem C76_clean code ds keyword : proper ds ->
    (forall c, keyword = Some (Some c) \/ keyword = None /\ c = T "rm -rf build/bin" -> clean cwd keyword code (at_ ds) = ([Shell c (at_ ds) (T "src")], Exit (Some (code c)))) /\
    (keyword = Some None -> clean cwd keyword code (at_ ds) = ([], TypeError)).
  Proof.
    intros P. assert (R : relpath cwd (src_dir (at_ ds)) (at_ ds) = T "src").
    { rewrite src_at by assumption. unfold relpath. rewrite !components_at by auto with comps. now rewrite drop_common_prefix. }
    split; [|intros ->; reflexivity]. intros c [-> |[-> ->]]; unfold clean; now rewrite R.
  Qed.
End Props.
Print Assumptions C76_best_build_system.
Print Assumptions C76_guessed_command.
Print Assumptions C76_go_sources.
Print Assumptions C76_build.
Print Assumptions C76_clean.
