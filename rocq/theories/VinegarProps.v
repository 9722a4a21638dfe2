(** * C91: exceptions that come from the other side are of the class and have the details that were
    sent, and only classes that are allowed are ever made *)
From Coq Require Import String Ascii List Bool Arith NArith ZArith Lia.
From Verif Require Import Utf8Model BrineModel VinegarModel.
Import ListNotations.
Local Open Scope list_scope.

Lemma ueqb_eq a b : ueqb a b = true <-> a = b.
Proof.
  revert b. induction a as [|x a IH]; intros [|y b]; cbn [ueqb]; try (split; [discriminate|discriminate]); [split; reflexivity|].
  rewrite andb_true_iff, N.eqb_eq, IH. split; [intros [-> ->]; reflexivity|now intros [= -> ->]].
Qed.
Lemma ueqb_refl a : ueqb a a = true. Proof. now apply ueqb_eq. Qed.
Lemma ueqb_neq a b : a <> b -> ueqb a b = false.
Proof. intros N. apply not_true_is_false. now rewrite ueqb_eq. Qed.

Lemma NoDup_snoc {A} (x : A) l : NoDup l -> ~ In x l -> NoDup (l ++ [x]).
Proof.
  induction 1 as [|y l N ND IH]; intros I; [constructor; [intros []|constructor]|]. cbn. constructor.
  - intros X. apply in_app_iff in X as [X|[->|[]]]; [now apply N|]. apply I. now left.
  - apply IH. intros X. apply I. now right.
Qed.

Section Sides.
  Variable repr : val -> ustr.

  (** ** Sending *)

  (** Whatever an exception carries, what is made of it can be sent *)
  Lemma simple_dumpable v : dumpable (simple repr v) = true.
  Proof. unfold simple. destruct (dumpable v) eqn:E; [exact E|reflexivity]. Qed.
  Lemma gather_dumpable args dir : forallb dumpable (fst (gather repr args dir)) = true /\ forallb dumpable (snd (gather repr args dir)) = true.
  Proof.
    induction dir as [|[n got] r [A B]]; cbn [gather]; [split; reflexivity|]. destruct (gather repr args r) as [xs attrs]. cbn [fst snd] in A, B.
    destruct (ueqb n (U "args")).
    - cbn [fst snd]. split; [|exact B]. rewrite forallb_app, A, andb_true_r. apply forallb_forall. intros v I. apply in_map_iff in I as (x & <- & _). apply simple_dumpable.
    - destruct (_ || _ || _); [now split|]. destruct got as [v|]; [|now split]. cbn [fst snd]. split; [exact A|]. cbn [forallb dumpable]. now rewrite simple_dumpable, B.
  Qed.
  Theorem C91_sendable local_traceback formatted e : dumpable (dump_exception repr local_traceback formatted e) = true.
  Proof.
    unfold dump_exception. destruct (e_stop e); [reflexivity|]. pose proof (gather_dumpable (e_args e) (e_dir e)) as [A B].
    destruct (gather repr (e_args e) (e_dir e)) as [args attrs]. cbn [fst snd] in A, B. cbn [dumpable forallb]. now rewrite A, B.
  Qed.
  (** Without being asked for, no text of a traceback is sent: what is sent does not depend on it *)
  Theorem C91_no_traceback formatted formatted' e : dump_exception repr false formatted e = dump_exception repr false formatted' e.
  Proof. reflexivity. Qed.

  (** ** What is made *)
  Variables (importable : ustr -> option module) (builtins : module) (settable : option class -> ustr -> val -> bool).
  Notation loads := (load_exception importable builtins settable).

  (** Whatever is received: nothing is imported that is not allowed to be, no module is changed, and what is made
      is an exception that is found under the name that was sent, or one of a generic class *)
  Lemma generic_world m c w : w_modules (fst (generic m c w)) = w_modules w /\ w_imports (fst (generic m c w)) = w_imports w.
  Proof. unfold generic. destruct (position _ _); split; reflexivity. Qed.
  Theorem C91_only_builtins v w :
    let (w', o) := loads false false v w in
    w_modules w' = w_modules w /\ w_imports w' = w_imports w /\
    forall x k, o = Got x -> l_kind x = Real k -> c_exception k = true /\ exists name, builtins name = Some (A_class k).
  Proof.
    destruct (loads false false v w) as [w' o] eqn:E. unfold load_exception in E.
    repeat match type of E with
    | (match ?z with _ => _ end) = _ => is_var z; destruct z; try (injection E as <- <-; split; [reflexivity|]; split; [reflexivity|]; intros; discriminate)
    end.
    match type of E with context [do_import _ _ ?m w] => assert (I : do_import importable false m w = w) by (unfold do_import; now destruct (get m (w_modules w))); rewrite I in E; clear I end.
    match type of E with context [find_class builtins false ?m ?c w] => destruct (find_class builtins false m c w) as [k|] eqn:F end.
    - injection E as <- <-. split; [reflexivity|]. split; [reflexivity|]. intros x k' X K. destruct (set_all _ _ _ _) as [l'|]; [|discriminate]. injection X as <-. cbn in K. injection K as <-.
      unfold find_class in F. destruct (ueqb _ _); [|discriminate]. destruct (builtins _) as [[c|]|] eqn:B; try discriminate. destruct (c_exception c) eqn:C; [|discriminate]. injection F as <-. eauto.
    - match type of E with context [generic ?m ?c w] => pose proof (generic_world m c w) as [G1 G2]; destruct (generic m c w) as [w2 n] end. cbn [fst] in G1, G2. injection E as <- <-.
      split; [exact G1|]. split; [exact G2|]. intros x k X K. destruct (set_all _ _ _ _) as [l'|]; [|discriminate]. injection X as <-. discriminate.
  Qed.
  (** Allowed to make classes of modules but not to import them, it takes them from those that are there;
      allowed to import, it imports only the one that is named, and only if it is not there *)
  Theorem C91_custom import_custom v w :
    let (w', o) := loads import_custom true v w in
    (import_custom = false -> w_modules w' = w_modules w) /\
    (exists imported, w_imports w' = w_imports w ++ imported /\ length imported <= 1 /\ (import_custom = false -> imported = []) /\
      forall m, In m imported -> get m (w_modules w) = None /\ exists c rest, v = VTuple (VTuple [VStr m; VStr c] :: rest)) /\
    forall x k, o = Got x -> l_kind x = Real k -> c_exception k = true /\
      exists m c members rest, v = VTuple (VTuple [VStr m; VStr c] :: rest) /\ members c = Some (A_class k) /\ get m (w_modules w') = Some members.
  Proof.
    destruct (loads import_custom true v w) as [w' o] eqn:E. unfold load_exception in E.
    assert (Z : forall o', (w, o') = (w', o) -> (forall x, o' <> Got x) -> (import_custom = false -> w_modules w' = w_modules w) /\
      (exists imported, w_imports w' = w_imports w ++ imported /\ length imported <= 1 /\ (import_custom = false -> imported = []) /\
        forall m, In m imported -> get m (w_modules w) = None /\ exists c rest, v = VTuple (VTuple [VStr m; VStr c] :: rest)) /\
      forall x k, o = Got x -> l_kind x = Real k -> c_exception k = true /\
        exists m c members rest, v = VTuple (VTuple [VStr m; VStr c] :: rest) /\ members c = Some (A_class k) /\ get m (w_modules w') = Some members).
    { intros o' [= <- <-] N. split; [reflexivity|]. split; [exists []; rewrite app_nil_r; split; [reflexivity|]; split; [cbn; lia|]; split; [reflexivity|intros m []]|]. intros x k X. now destruct (N x). }
    repeat match type of E with
    | (match ?z with _ => _ end) = _ => is_var z; destruct z; try (apply (Z _ E); intros; discriminate)
    end.
    clear Z.
    match type of E with context [do_import importable ?i ?m w] =>
      assert (I : (import_custom = false -> w_modules (do_import importable i m w) = w_modules w) /\
        exists imported, w_imports (do_import importable i m w) = w_imports w ++ imported /\ length imported <= 1 /\ (import_custom = false -> imported = []) /\ forall x, In x imported -> get x (w_modules w) = None /\ x = m) end.
    { unfold do_import. destruct (get _ (w_modules w)) eqn:G; [split; [reflexivity|exists []; rewrite app_nil_r; split; [reflexivity|]; split; [cbn; lia|]; split; [reflexivity|intros x []]]|].
      destruct import_custom; [|split; [reflexivity|exists []; rewrite app_nil_r; split; [reflexivity|]; split; [cbn; lia|]; split; [reflexivity|intros x []]]].
      cbn [w_modules w_imports]. split; [discriminate|]. eexists. split; [reflexivity|]. split; [cbn; lia|]. split; [discriminate|]. intros x [<-|[]]. auto. }
    match type of E with context [do_import importable ?i ?m w] => set (w1 := do_import importable i m w) in * end. clearbody w1. destruct I as [I1 (im & I2 & I3 & I4 & I5)].
    match type of E with context [find_class builtins true ?m ?c w1] => destruct (find_class builtins true m c w1) as [k|] eqn:F end.
    - injection E as <- <-. split; [exact I1|]. split.
      + exists im. split; [exact I2|]. split; [exact I3|]. split; [exact I4|]. intros x X. destruct (I5 x X) as [G ->]. split; [exact G|]. eauto.
      + intros x k' X K. destruct (set_all _ _ _ _); [|discriminate]. injection X as <-. cbn in K. injection K as <-.
        unfold find_class in F. destruct (get _ (w_modules w1)) as [mm|] eqn:G; [|discriminate]. destruct (mm _) as [[c|]|] eqn:B; try discriminate. destruct (c_exception c) eqn:C; [|discriminate].
        injection F as <-. split; [exact C|]. eauto 8.
    - match type of E with context [generic ?m ?c w1] => pose proof (generic_world m c w1) as [G1 G2]; destruct (generic m c w1) as [w2 n] end. cbn [fst] in G1, G2. injection E as <- <-.
      rewrite G1, G2. split; [exact I1|]. split.
      + exists im. split; [exact I2|]. split; [exact I3|]. split; [exact I4|]. intros x X. destruct (I5 x X) as [G ->]. split; [exact G|]. eauto.
      + intros x k' X K. destruct (set_all _ _ _ _); [|discriminate]. injection X as <-. discriminate.
  Qed.

  (** ** There and back *)

  (** The names that are sent: those that do not begin with an underscore, and are not the two that
      every exception has *)
  Definition sent (n : ustr) : Prop := hd 0%N n <> 95%N /\ n <> U "args" /\ n <> U "with_traceback".
  Definition value_of (x : loaded) (n : ustr) : option val := get n (l_attrs x).
  Lemma get_None {A} n (l : list (ustr * A)) : ~ In n (map fst l) -> get n l = None.
  Proof. induction l as [|[k a] l IH]; intros N; [reflexivity|]. cbn [get]. rewrite ueqb_neq; [apply IH|]; intros X; apply N; [now right|now left]. Qed.
  Lemma get_In {A} n (a : A) l : NoDup (map fst l) -> In (n, a) l -> get n l = Some a.
  Proof.
    induction l as [|[k b] l IH]; intros ND I; [destruct I|]. cbn [map fst] in ND. inversion ND as [|? ? N ND']; subst. cbn [get]. destruct I as [[= -> ->]|I]; [now rewrite ueqb_refl|].
    rewrite ueqb_neq; [now apply IH|]. intros ->. apply N. change n with (fst (n, a)). now apply in_map.
  Qed.
  (** The pairs that go over *)
  Lemma gather_args args dir : NoDup (map fst dir) -> In (U "args") (map fst dir) -> fst (gather repr args dir) = map (simple repr) args.
  Proof.
    assert (Z : forall dir, ~ In (U "args") (map fst dir) -> fst (gather repr args dir) = []).
    { induction dir0 as [|[n got] r IH]; intros N; [reflexivity|]. cbn [gather]. destruct (gather repr args r) as [xs attrs]. cbn [fst] in *. cbn [map fst] in N.
      rewrite ueqb_neq by (intros ->; apply N; now left). specialize (IH (fun X => N (or_intror X))). destruct (_ || _ || _); [exact IH|]. now destruct got. }
    induction dir as [|[n got] r IH]; intros ND I; [destruct I|]. cbn [map fst] in ND, I. inversion ND as [|? ? N ND']; subst. cbn [gather]. specialize (Z r).
    destruct (gather repr args r) as [xs attrs]. cbn [fst] in *. destruct (ueqb n (U "args")) eqn:E.
    - apply ueqb_eq in E. subst n. cbn [fst]. rewrite (Z N). apply app_nil_r.
    - destruct I as [->|I]; [now rewrite ueqb_refl in E|]. specialize (IH ND' I). destruct (_ || _ || _); [exact IH|]. now destruct got.
  Qed.
  Fixpoint pairs (dir : list (ustr * option val)) : list (ustr * val) :=
    match dir with
    | [] => []
    | (n, got) :: r =>
        if ueqb n (U "args") || (match n with c :: _ => N.eqb c (N_of_ascii "_") | [] => false end || ueqb n (U "_remote_tb") || ueqb n (U "with_traceback")) then pairs r
        else match got with Some v => (n, simple repr v) :: pairs r | None => pairs r end
    end.
  Lemma gather_attrs args dir : snd (gather repr args dir) = map (fun p => VTuple [VStr (fst p); snd p]) (pairs dir).
  Proof.
    induction dir as [|[n got] r IH]; [reflexivity|]. cbn [gather pairs]. destruct (gather repr args r) as [xs attrs]. cbn [snd] in *. destruct (ueqb n (U "args")); [exact IH|].
    cbn [orb]. destruct (_ || _ || _); [exact IH|]. destruct got; cbn [snd map fst]; [now rewrite IH|exact IH].
  Qed.
  Lemma pairs_spec dir n v : In (n, v) (pairs dir) <-> exists x, In (n, Some x) dir /\ sent n /\ v = simple repr x.
  Proof.
    induction dir as [|[k got] r IH]; cbn [pairs].
    - split; [intros []|intros (x & [] & _)].
    - assert (S : ueqb k (U "args") || (match k with c :: _ => N.eqb c (N_of_ascii "_") | [] => false end || ueqb k (U "_remote_tb") || ueqb k (U "with_traceback")) = false <-> sent k).
      { rewrite !orb_false_iff. unfold sent. destruct (ueqb k (U "args")) eqn:E1.
        - apply ueqb_eq in E1. split; [intros [X _]; discriminate|]. intros (_ & X & _). now destruct X.
        - destruct (ueqb k (U "with_traceback")) eqn:E2; [apply ueqb_eq in E2; split; [intros (_ & _ & X); discriminate|intros (_ & _ & X); now destruct X]|].
          assert (A : k <> U "args") by (intros ->; now rewrite ueqb_refl in E1). assert (B : k <> U "with_traceback") by (intros ->; now rewrite ueqb_refl in E2).
          destruct k as [|c k]; [cbn; split; [intros _; split; [discriminate|now split]|now intros _]|]. cbn [hd]. change (N_of_ascii "_") with 95%N.
          destruct (N.eqb_spec c 95%N) as [->|D]; [split; [intros (_ & [X _] & _); discriminate|intros (X & _); now destruct X]|].
          split; [intros _; now split|]. intros _. split; [reflexivity|]. split; [|reflexivity]. split; [reflexivity|]. apply ueqb_neq. intros [= -> ->]. now apply D. }
      destruct (_ || _) eqn:E.
      + rewrite IH. split; [intros (x & I & R); exists x; split; [now right|exact R]|]. intros (x & [[= -> ->]|I] & R & ->); [apply S in R; discriminate|]. eauto.
      + clear E. pose proof (proj1 S eq_refl) as E. destruct got as [y|].
        * cbn [In]. rewrite IH. split.
          -- intros [[= -> <-]|(x & I & R)]; [exists y; split; [now left|now split]|exists x; split; [now right|exact R]].
          -- intros (x & [[= -> ->]|I] & R & ->); [now left|right; eauto].
        * rewrite IH. split; [intros (x & I & R); exists x; split; [now right|exact R]|]. intros (x & [[=]|I] & R); eauto.
  Qed.
  Lemma pairs_names dir : NoDup (map fst dir) -> NoDup (map fst (pairs dir)).
  Proof.
    induction dir as [|[k got] r IH]; intros ND; cbn [pairs]; [constructor|]. cbn [map fst] in ND. inversion ND as [|? ? N ND']; subst. specialize (IH ND').
    destruct (_ || _); [exact IH|]. destruct got as [y|]; [|exact IH]. cbn [map fst]. constructor; [|exact IH]. intros I. apply in_map_iff in I as ([a b] & <- & I). apply pairs_spec in I as (x & I & _). apply N.
    cbn [fst]. change a with (fst (a, Some x)). now apply in_map.
  Qed.
  Lemma set_all_spec k l got : (forall n v, In (n, v) l -> settable k n v = true) ->
    set_all settable k (map (fun p => VTuple [VStr (fst p); snd p]) l) got = Some (rev l ++ got).
  Proof.
    revert got. induction l as [|[n v] l IH]; intros got S; [reflexivity|]. cbn [map set_all fst snd]. rewrite (S n v) by now left. rewrite IH by (intros; apply S; now right).
    cbn [rev]. now rewrite <- app_assoc.
  Qed.

  (** An exception that was sent and is received: of the same class if it is a builtin one, else of
      the generic class of its full name; with the same arguments, the same attributes but the
      private ones, each replaced by its repr if it is no simple value, and the traceback *)
  Theorem C91_there_and_back formatted e w : e_stop e = false -> NoDup (map fst (e_dir e)) -> In (U "args") (map fst (e_dir e)) ->
    (forall k n x, In (n, Some x) (e_dir e) -> settable k n (simple repr x) = true) ->
    let name := c_name (e_class e) in
    exists x w', loads false false (dump_exception repr true formatted e) w = (w', Got x) /\
      l_args x = map (simple repr) (e_args e) /\ l_tb x = VStr formatted /\
      (forall n v, value_of x n = Some v <-> exists y, In (n, Some y) (e_dir e) /\ sent n /\ v = simple repr y) /\
      (c_module (e_class e) = U "builtins" -> builtins name = Some (A_class (e_class e)) -> c_exception (e_class e) = true -> l_kind x = Real (e_class e)) /\
      (c_module (e_class e) <> U "builtins" -> exists n, l_kind x = Generic n /\ nth_error (w_generic w') n = Some (c_module (e_class e) ++ U "." ++ name)).
  Proof.
    intros NS ND A S name. unfold dump_exception. rewrite NS. pose proof (gather_args (e_args e) (e_dir e) ND A) as GA. pose proof (gather_attrs (e_args e) (e_dir e)) as GB.
    destruct (gather repr (e_args e) (e_dir e)) as [args attrs]. cbn [fst snd] in GA, GB. subst args attrs. cbn [load_exception].
    assert (I : do_import importable false (c_module (e_class e)) w = w) by (unfold do_import; now destruct (get _ (w_modules w))). rewrite I. clear I.
    assert (V : forall k a t n v, get n (l_attrs (Loaded k a (rev (pairs (e_dir e)) ++ []) t)) = Some v <-> exists y, In (n, Some y) (e_dir e) /\ sent n /\ v = simple repr y).
    { intros k a t n v. cbn [l_attrs]. rewrite app_nil_r, <- pairs_spec. pose proof (pairs_names (e_dir e) ND) as PN. assert (PR : NoDup (map fst (rev (pairs (e_dir e))))) by (rewrite map_rev; now apply NoDup_rev).
      split; [|intros X; apply get_In; [exact PR|now apply in_rev in X]]. intros G. destruct (in_dec (list_eq_dec N.eq_dec) n (map fst (rev (pairs (e_dir e))))) as [D|D]; [|rewrite get_None in G by exact D; discriminate].
      apply in_map_iff in D as ([n' v'] & <- & D). cbn [fst] in *. rewrite (get_In _ v' _ PR D) in G. injection G as ->. now apply in_rev. }
    assert (SS : forall k, set_all settable k (map (fun p => VTuple [VStr (fst p); snd p]) (pairs (e_dir e))) [] = Some (rev (pairs (e_dir e)) ++ [])).
    { intros k. apply set_all_spec. intros n v X. apply pairs_spec in X as (y & X & _ & ->). now apply S. }
    destruct (find_class builtins false (c_module (e_class e)) (c_name (e_class e)) w) as [k|] eqn:F.
    - rewrite SS. eexists _, _. split; [reflexivity|]. cbn [l_args l_tb l_kind]. split; [reflexivity|]. split; [reflexivity|]. split; [intros; apply V|].
      unfold find_class in F. split.
      + intros M B C. rewrite M, ueqb_refl in F. fold name in F. rewrite B, C in F. injection F as <-. reflexivity.
      + intros M. rewrite ueqb_neq in F by exact M. discriminate.
    - destruct (generic (c_module (e_class e)) (c_name (e_class e)) w) as [w2 n] eqn:G. rewrite SS. eexists _, _. split; [reflexivity|]. cbn [l_args l_tb l_kind]. split; [reflexivity|]. split; [reflexivity|]. split; [intros; apply V|].
      split.
      + intros M B C. unfold find_class in F. rewrite M, ueqb_refl in F. fold name in F. rewrite B, C in F. discriminate.
      + intros _. exists n. split; [reflexivity|]. unfold generic in G. fold name in G. set (full := c_module (e_class e) ++ U "." ++ name) in *. clearbody full.
        destruct (position full (w_generic w)) as [p|] eqn:P.
        * injection G as <- <-. clear - P. revert p P. generalize (w_generic w). intros l. induction l as [|y l IH]; intros p P; [discriminate|]. cbn [position] in P.
          destruct (ueqb y full) eqn:E; [apply ueqb_eq in E as ->; injection P as <-; reflexivity|]. destruct (position full l) as [q|]; [|discriminate]. injection P as <-. cbn. now apply IH.
        * injection G as <- <-. cbn [w_generic]. rewrite nth_error_app2 by lia. rewrite Nat.sub_diag. reflexivity.
  Qed.

  (** ** Histories *)

  (** What is received one after the other *)
  Inductive received : world -> list (val * outcome) -> world -> Prop :=
  | received_none w : received w [] w
  | received_more w i c v w1 o l w2 : loads i c v w = (w1, o) -> received w1 l w2 -> received w ((v, o) :: l) w2.
  (** A generic class has one name for ever, and a name has one generic class: what was written to
      catch one exception catches the next of that name, and no other *)
  Lemma position_spec x l : match position x l with Some n => nth_error l n = Some x | None => ~ In x l end.
  Proof.
    induction l as [|y l IH]; cbn [position]; [intros []|]. destruct (ueqb y x) eqn:E; [apply ueqb_eq in E as ->; reflexivity|].
    destruct (position x l) as [n|]; [exact IH|]. intros [->|I]; [now rewrite ueqb_refl in E|now apply IH].
  Qed.
  Definition full_name (v : val) : option ustr := match v with VTuple (VTuple [VStr m; VStr c] :: _) => Some (m ++ U "." ++ c) | _ => None end.
  Lemma load_generic i c v w w1 o : loads i c v w = (w1, o) -> (exists more, w_generic w1 = w_generic w ++ more) /\ (NoDup (w_generic w) -> NoDup (w_generic w1)) /\
    forall x n, o = Got x -> l_kind x = Generic n -> exists f, full_name v = Some f /\ nth_error (w_generic w1) n = Some f.
  Proof.
    intros E. unfold load_exception in E.
    repeat match type of E with
    | (match ?z with _ => _ end) = _ => is_var z; destruct z; try (injection E as <- <-; split; [exists []; now rewrite app_nil_r|]; split; [auto|]; intros; discriminate)
    end.
    match type of E with context [do_import importable ?i ?m w] =>
      assert (I : w_generic (do_import importable i m w) = w_generic w) by (unfold do_import; destruct (get m (w_modules w)); [reflexivity|]; now destruct i);
      set (w0 := do_import importable i m w) in * end. clearbody w0. rewrite <- I. clear I.
    match type of E with context [find_class builtins ?i ?m ?c w0] => destruct (find_class builtins i m c w0) as [k|] end.
    - injection E as <- <-. split; [exists []; now rewrite app_nil_r|]. split; [auto|]. intros x n X K. destruct (set_all _ _ _ _); [|discriminate]. injection X as <-. discriminate.
    - match type of E with context [generic ?m ?c w0] => destruct (generic m c w0) as [w2 p] eqn:G; unfold generic in G; set (full := m ++ U "." ++ c) in * end.
      injection E as <- <-. pose proof (position_spec full (w_generic w0)) as P. destruct (position full (w_generic w0)) as [q|].
      + injection G as <- <-. split; [exists []; now rewrite app_nil_r|]. split; [auto|]. intros x n X K. destruct (set_all _ _ _ _); [|discriminate]. injection X as <-. injection K as <-. exists full. split; [reflexivity|exact P].
      + injection G as <- <-. cbn [w_generic]. split; [now exists [full]|]. split.
        * intros ND. now apply NoDup_snoc.
        * intros x n X K. destruct (set_all _ _ _ _); [|discriminate]. injection X as <-. injection K as <-. exists full. split; [reflexivity|]. rewrite nth_error_app2 by lia. now rewrite Nat.sub_diag.
  Qed.
  Theorem C91_classes w l w' v1 x1 n1 v2 x2 n2 : NoDup (w_generic w) -> received w l w' ->
    In (v1, Got x1) l -> In (v2, Got x2) l -> l_kind x1 = Generic n1 -> l_kind x2 = Generic n2 ->
    (n1 = n2 <-> full_name v1 = full_name v2).
  Proof.
    intros ND R I1 I2 K1 K2.
    assert (X : NoDup (w_generic w') /\ (exists more, w_generic w' = w_generic w ++ more) /\ forall v x n, In (v, Got x) l -> l_kind x = Generic n -> exists f, full_name v = Some f /\ nth_error (w_generic w') n = Some f).
    { clear I1 I2 K1 K2. induction R as [w|w i c v w1 o l w2 E R IH]; [split; [exact ND|]; split; [exists []; now rewrite app_nil_r|intros v x n []]|].
      destruct (load_generic i c v w w1 o E) as ((more & M) & D & F). destruct (IH (D ND)) as (D2 & (more2 & M2) & F2). split; [exact D2|]. split; [exists (more ++ more2); now rewrite M2, M, app_assoc|].
      intros v' x n [[= -> ->]|I] K; [|now apply (F2 v' x n)]. destruct (F x n eq_refl K) as (f & Ff & N). exists f. split; [exact Ff|]. rewrite M2. rewrite nth_error_app1; [exact N|]. apply nth_error_Some. congruence. }
    destruct X as (D & _ & F). destruct (F v1 x1 n1 I1 K1) as (f1 & -> & N1). destruct (F v2 x2 n2 I2 K2) as (f2 & -> & N2). split; [intros ->; congruence|]. intros [= ->].
    apply (proj1 (NoDup_nth_error _) D); [apply nth_error_Some; congruence|congruence].
  Qed.

  (** ** What is not kept *)

  (** The value of StopIteration is lost, and any builtin exception can be made to be raised here,
      even those that end the process *)
  Theorem C91_stop_refuted e w formatted : e_stop e = true -> loads false false (dump_exception repr true formatted e) w = (w, Got_stop).
  Proof. intros S. unfold dump_exception. rewrite S. reflexivity. Qed.
  Theorem C91_exit_refuted k w tb : builtins (U "SystemExit") = Some (A_class k) -> c_exception k = true ->
    loads false false (VTuple [VTuple [VStr (U "builtins"); VStr (U "SystemExit")]; VTuple [VInt 0]; VTuple []; tb]) w = (w, Got (Loaded (Real k) [VInt 0] [] tb)).
  Proof.
    intros B C. cbn [load_exception]. assert (I : do_import importable false (U "builtins") w = w) by (unfold do_import; now destruct (get _ (w_modules w))). rewrite I.
    assert (F : find_class builtins false (U "builtins") (U "SystemExit") w = Some k) by (unfold find_class; rewrite ueqb_refl, B, C; reflexivity). rewrite F. reflexivity.
  Qed.
End Sides.
Print Assumptions C91_sendable.
Print Assumptions C91_no_traceback.
Print Assumptions C91_only_builtins.
Print Assumptions C91_custom.
Print Assumptions C91_there_and_back.
Print Assumptions C91_classes.
Print Assumptions C91_stop_refuted.
Print Assumptions C91_exit_refuted.

(** ** Cases *)

Definition os_error := Class (U "builtins") (U "OSError") true.
Definition some_builtins : module := fun n => if ueqb n (U "OSError") then Some (A_class os_error) else if ueqb n (U "len") then Some A_thing else None.
Definition broken := Exception_ false os_error [VInt 2; VOther 7] [(U "__str__", Some (VOther 1)); (U "args", None); (U "characters_written", None); (U "errno", Some (VInt 2)); (U "with_traceback", Some (VOther 3))].
Example C91_case_there_and_back :
  load_exception (fun _ => None) some_builtins (fun _ _ _ => true) false false (dump_exception (fun _ => U "<obj>") true (U "tb") broken) (World [] [] []) =
    (World [] [] [], Got (Loaded (Real os_error) [VInt 2; VStr (U "<obj>")] [(U "errno", VInt 2)] (VStr (U "tb")))).
Proof. reflexivity. Qed.
Example C91_case_hypotheses : e_stop broken = false /\ NoDup (map fst (e_dir broken)) /\ In (U "args") (map fst (e_dir broken)).
Proof. split; [reflexivity|]. split; [|right; now left]. repeat (constructor; [intros I; cbn in I; repeat destruct I as [I|I]; try discriminate; destruct I|]). constructor. Qed.
Definition custom (m c : string) : val := VTuple [VTuple [VStr (U m); VStr (U c)]; VTuple []; VTuple []; VStr []].
Example C91_case_generic : exists w, received (fun _ => None) some_builtins (fun _ _ _ => true) (World [] [] [])
  [(custom "os" "system", Got (Loaded (Generic 0) [] [] (VStr []))); (custom "builtins" "len", Got (Loaded (Generic 1) [] [] (VStr []))); (custom "os" "system", Got (Loaded (Generic 0) [] [] (VStr [])))] w /\
  w_imports w = [].
Proof.
  eexists. split; [|shelve].
  eapply received_more with (i := false) (c := false); [reflexivity|]. eapply received_more with (i := false) (c := false); [reflexivity|].
  eapply received_more with (i := false) (c := false); [reflexivity|]. apply received_none.
  Unshelve. reflexivity.
Qed.
