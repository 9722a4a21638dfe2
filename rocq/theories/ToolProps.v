(** * C90: command line tools run the command that was named, and end as they should *)
From Coq Require Import String Ascii List Bool Arith Lia.
From Verif Require Import ScanModel Rfc822Model Rfc822Proofs IniModel ExportModel ToolModel.
Import ListNotations.
Local Open Scope list_scope.

Lemma existsb_In c l : existsb (text_eqb c) l = true <-> In c l.
Proof.
  rewrite existsb_exists. split; [intros (x & I & E); apply text_eqb_eq in E; now subst|]. intros I. exists c. split; [exact I|]. now apply text_eqb_eq.
Qed.
Lemma guess_known known hints c : guess known hints = Some c -> In c known.
Proof.
  induction hints as [|h r IH]; cbn [guess]; [discriminate|]. destruct (match h with "-"%char :: _ => true | _ => false end); [exact IH|].
  destruct (existsb (text_eqb h) known) eqn:E; [|exact IH]. intros [= <-]. now apply existsb_In.
Qed.

(** ** Commands *)

(** What the first word that is not an option of the tool is: it does not begin with a dash *)
Definition begins_with_word (rest : list text) : Prop := forall r, rest = r :: tl rest -> forall t, r <> "-"%char :: t.
(** Guessing which command is needed does not change what is run: whatever follows the name, it is
    the same command with the same arguments as if all had been loaded, and it is a mistake if and
    only if it were one then *)
Theorem C90_guessing known rest : begins_with_word rest ->
  let lazy := parse (registered known (Some rest)) rest in let eager := parse (registered known None) rest in
  (forall c args, lazy = Command c args <-> eager = Command c args) /\
  (lazy = No_command <-> eager = No_command) /\
  ((exists c l, lazy = Invalid_choice c l) <-> (exists c l, eager = Invalid_choice c l)).
Proof.
  intros B. cbn [registered]. destruct rest as [|w args]; [cbn; intuition|].
  assert (N : match w with "-"%char :: _ => true | _ => false end = false).
  { specialize (B w eq_refl). destruct w as [|c w]; [reflexivity|]. destruct c as [[] [] [] [] [] [] [] []]; try reflexivity. now destruct (B w). }
  cbv zeta. unfold registered_with_hints, parse. cbn [guess]. rewrite N. destruct (existsb (text_eqb w) known) eqn:E.
  - cbn [existsb]. rewrite (proj2 (text_eqb_eq w w) eq_refl). cbn [orb]. split; [reflexivity|]. split; reflexivity.
  - assert (F : existsb (text_eqb w) (match guess known args with Some c => [c] | None => known end) = false).
    { destruct (guess known args) as [c|] eqn:G; [|exact E]. apply not_true_is_false. rewrite existsb_In. intros [->|[]].
      apply guess_known in G. apply existsb_In in G. congruence. }
    rewrite F. split; [intros; split; discriminate|]. split; [split; discriminate|]. split; intros _; eauto.
Qed.
Print Assumptions C90_guessing.
(** The choices that are offered may not be all there are *)
Theorem C90_choices_refuted : exists known rest c l, begins_with_word rest /\
  parse (registered known (Some rest)) rest = Invalid_choice c l /\ l <> known /\ length l = 1.
Proof.
  exists [L "run"; L "list"; L "dev"], [L "rnu"; L "list"], (L "rnu"), [L "list"]. split; [intros r [= <-] t; discriminate|]. split; [reflexivity|].
  split; [discriminate|reflexivity].
Qed.
Print Assumptions C90_choices_refuted.

(** ** Endings *)

(** A tool runs the command that was named, once all is set up; its end is told by what the command
    did *)
Theorem C90_endings known invoked pdb debug_interrupt c args : In c known -> (forall t, c <> "-"%char :: t) ->
  let ends := main known invoked pdb debug_interrupt None (c :: args) in
  (forall v, invoked c args = Finishes v -> ends = Returned v) /\
  (forall s, invoked c args = Raises_ (System_exit s) -> ends = Left (System_exit s)) /\
  (invoked c args = Raises_ (Io_error true) -> ends = Returned (Some 0)) /\
  (invoked c args = Raises_ Keyboard_interrupt -> ends = if debug_interrupt then Debugged Keyboard_interrupt 1 else Returned (Some 0)) /\
  (forall n, invoked c args = Raises_ (Other_exception n) -> ends = if pdb then Debugged (Other_exception n) 1 else Crashed (Other_exception n)).
Proof.
  intros K D. cbv zeta. assert (E : main known invoked pdb debug_interrupt None (c :: args) = catch pdb debug_interrupt (invoked c args)).
  { destruct (C90_guessing known (c :: args)) as [G _]; [intros r [= <-] t; apply D|]. unfold main.
    rewrite (proj2 (G c args)); [reflexivity|]. cbn [registered parse]. now rewrite (proj2 (existsb_In c known) K). }
  rewrite E. split; [intros v ->; reflexivity|]. split; [intros s ->; reflexivity|]. split; [intros ->; reflexivity|].
  split; [intros ->; now destruct debug_interrupt|intros n ->; now destruct pdb].
Qed.
Print Assumptions C90_endings.
(** No command, or one that there is not: the status is 2, and nothing is run *)
Theorem C90_mistakes known invoked invoked' pdb debug_interrupt rest : begins_with_word rest -> (forall c, rest = c :: tl rest -> ~ In c known) ->
  main known invoked pdb debug_interrupt None rest = Left (System_exit 2) /\
  main known invoked' pdb debug_interrupt None rest = Left (System_exit 2).
Proof.
  intros B K. assert (X : forall i, main known i pdb debug_interrupt None rest = Left (System_exit 2)); [|auto].
  intros i. destruct (C90_guessing known rest B) as [G _]. cbv zeta in G. unfold main. destruct (parse (registered known (Some rest)) rest) as [|c args|c l] eqn:P; [reflexivity| |reflexivity].
  exfalso. clear P. pose proof (proj1 (G c args) eq_refl) as P. destruct rest as [|w r]; [discriminate|]. cbn [registered parse] in P.
  destruct (existsb (text_eqb w) known) eqn:E; [|discriminate]. apply existsb_In in E. now apply (K w).
Qed.
Print Assumptions C90_mistakes.
(** Interrupted before that, it ends as if all were well *)
Theorem C90_interrupted known invoked pdb debug_interrupt rest : main known invoked pdb debug_interrupt (Some Keyboard_interrupt) rest = Returned None.
Proof. reflexivity. Qed.
Print Assumptions C90_interrupted.
(** The debugger is never started for errors of the system, whatever was asked for *)
Theorem C90_debugger_refuted known invoked debug_interrupt c args : In c known -> (forall t, c <> "-"%char :: t) ->
  invoked c args = Raises_ (Io_error false) -> main known invoked true debug_interrupt None (c :: args) = Crashed (Io_error false).
Proof.
  intros K D I. destruct (C90_guessing known (c :: args)) as [G _]; [intros r [= <-] t; apply D|]. unfold main.
  rewrite (proj2 (G c args)); [now rewrite I|]. cbn [registered parse]. now rewrite (proj2 (existsb_In c known) K).
Qed.
Print Assumptions C90_debugger_refuted.

(** ** Names *)

Lemma tprefix_spec p t : tprefix p t = true <-> exists r, t = p ++ r.
Proof.
  revert t. induction p as [|c p IH]; intros t; cbn [tprefix]; [split; [now exists t|reflexivity]|]. destruct t as [|d t]; [split; [discriminate|intros (r & E); discriminate]|].
  rewrite andb_true_iff, IH, Ascii.eqb_eq. split; [intros (-> & r & ->); now exists r|]. intros (r & E). injection E as -> ->. split; [reflexivity|now exists r].
Qed.
Definition occurs (p t : text) : Prop := exists a b, t = a ++ p ++ b.
Lemma replace_skip p new n : forall t, replace_from p new n t = replace_from p new 0 (skipn n t).
Proof. induction n as [|n IH]; intros t; [reflexivity|]. destruct t as [|c t]; [reflexivity|]. cbn [replace_from skipn]. apply IH. Qed.
(** Without a name of its own, a command is called like its class, without the word at the end, if
    that is where the word first occurs *)
Theorem C90_named stem : (forall a b, stem ++ L "command" = a ++ L "command" ++ b -> b = []) ->
  get_command_name None (stem ++ L "command") = stem.
Proof.
  intros U. unfold get_command_name. rewrite (proj2 (tprefix_spec _ _)) by (exists (rev stem); now rewrite rev_app_distr).
  unfold replace_all. revert U. induction stem as [|c r IH]; intros U; [reflexivity|]. cbn [app]. cbn [replace_from].
  destruct (tprefix (L "command") (c :: r ++ L "command")) eqn:P.
  - apply tprefix_spec in P as (b & E). specialize (U [] b E). subst b. apply (f_equal (@length ascii)) in E. cbn in E. rewrite ?app_length in E. cbn in E. lia.
  - f_equal. apply IH. intros a b E. apply (U (c :: a) b). cbn [app]. now rewrite E.
Qed.
Print Assumptions C90_named.
Theorem C90_named_otherwise cls : (forall stem, cls <> stem ++ L "command") -> get_command_name None cls = cls /\ forall n, get_command_name (Some n) cls = n.
Proof.
  intros N. split; [|reflexivity]. unfold get_command_name. destruct (tprefix (rev (L "command")) (rev cls)) eqn:P; [|reflexivity].
  apply tprefix_spec in P as (r & E). exfalso. apply (N (rev r)). rewrite <- (rev_involutive cls), E, rev_app_distr. reflexivity.
Qed.
Print Assumptions C90_named_otherwise.
(** Otherwise the word is taken out everywhere *)
Theorem C90_named_refuted : get_command_name None (L "commandlistcommand") = L "list" /\ get_command_name None (L "recommandercommand") = L "reer" /\
  get_command_name None (L "command") = [].
Proof. repeat split; reflexivity. Qed.
Print Assumptions C90_named_refuted.

(** ** Texts *)

Lemma split_at_spec m t : m <> [] -> match split_at m t with
  | Some (a, b) => t = a ++ m ++ b /\ (forall x y, t = x ++ m ++ y -> length a <= length x)
  | None => ~ occurs m t end.
Proof.
  intros M. induction t as [|c t IH]; cbn [split_at].
  - destruct (tprefix m []) eqn:P; [apply tprefix_spec in P as (r & E); symmetry in E; apply app_eq_nil in E as [-> _]; congruence|].
    intros (a & b & E). symmetry in E. apply app_eq_nil in E as [_ E]. apply app_eq_nil in E as [-> _]. congruence.
  - destruct (tprefix m (c :: t)) eqn:P.
    + apply tprefix_spec in P as (r & E). rewrite E. rewrite skipn_app, skipn_all, Nat.sub_diag. cbn [skipn app]. split; [reflexivity|]. intros; cbn; lia.
    + assert (NP : forall y, c :: t <> m ++ y) by (intros y E; assert (tprefix m (c :: t) = true) by (apply tprefix_spec; now exists y); congruence).
      destruct (split_at m t) as [[a b]|].
      * destruct IH as [-> F]. split; [reflexivity|]. intros [|x0 x] y E; [now destruct (NP y)|]. injection E as -> E. specialize (F x y E). cbn. lia.
      * intros ([|x0 x] & y & E); [now destruct (NP y)|]. injection E as -> E. apply IH. now exists x, y.
Qed.
Fixpoint lines_text (l : list text) : text := match l with [] => [] | [x] => x | x :: r => x ++ "010"%char :: lines_text r end.
(** The docstring is the help, the description up to the mark, and the epilog after it *)
Theorem C90_docstring first rest before after :
  (lines_text rest = before ++ L "@EPILOG@" ++ after -> (forall x y, lines_text rest = x ++ L "@EPILOG@" ++ y -> length before <= length x) ->
    get_command_help None (Some (first :: rest)) = Some first /\
    get_command_description None (Some (first :: rest)) = Some (strip before) /\
    get_command_epilog None (Some (first :: rest)) = Some (strip after)) /\
  (~ occurs (L "@EPILOG@") (lines_text rest) ->
    get_command_help None (Some (first :: rest)) = Some first /\
    get_command_description None (Some (first :: rest)) = Some (strip (lines_text rest)) /\
    get_command_epilog None (Some (first :: rest)) = None).
Proof.
  assert (J : join_nl rest = lines_text rest) by (induction rest as [|x [|y r] IH]; [reflexivity|reflexivity|cbn [join_nl lines_text] in *; now rewrite IH]).
  unfold get_command_help, get_command_description, get_command_epilog. cbn [tl]. rewrite J.
  pose proof (split_at_spec EPILOG (lines_text rest)) as S. assert (M : EPILOG <> []) by discriminate. specialize (S M).
  split.
  - intros E F. destruct (split_at EPILOG (lines_text rest)) as [[a b]|]; [|destruct S; now exists before, after].
    destruct S as [E' F']. assert (LEN : length a = length before) by (pose proof (F a b E'); pose proof (F' before after E); lia).
    assert (a = before /\ b = after) as [-> ->]; [|auto]. rewrite E in E'. clear - LEN E'. revert before LEN E'.
    induction a as [|c a IH]; intros [|d before] LEN E'; cbn in LEN; try discriminate.
    + split; [reflexivity|]. symmetry. exact (app_inv_head (L "@EPILOG@") _ _ E').
    + cbn [app] in E'. injection E' as -> E'. destruct (IH before) as [-> ->]; auto.
  - intros N. destruct (split_at EPILOG (lines_text rest)) as [[a b]|]; [|auto]. destruct N. destruct S as [E _]. now exists a, b.
Qed.
Print Assumptions C90_docstring.

(** ** Programs *)

Section Programs.
  Variables (path : list text) (join : text -> text -> text) (executable : text -> bool).
  Lemma find_in_spec n l : match find_in join executable n l with
    | Some (m, f) => m = n /\ exists l1 p l2, l = l1 ++ p :: l2 /\ f = join p n /\ executable f = true /\ forall q, In q l1 -> executable (join q n) = false
    | None => forall q, In q l -> executable (join q n) = false end.
  Proof.
    induction l as [|p l IH]; cbn [find_in]; [intros q []|]. destruct (executable (join p n)) eqn:E.
    - split; [reflexivity|]. exists [], p, l. repeat split; auto. intros q [].
    - destruct (find_in join executable n l) as [[m f]|].
      + destruct IH as (-> & l1 & p' & l2 & -> & -> & X & F). split; [reflexivity|]. exists (p :: l1), p', l2. repeat split; auto. intros q [<-|Q]; auto.
      + intros q [<-|Q]; auto.
  Qed.
  (** The first of the programs that there is anywhere, in the first place where it is; the one that
      the user prefers comes first; none without a terminal *)
  Theorem C90_pager tty windows env names :
    let wanted := match env with Some p => [p] | None => [] end ++ names in
    match pager path join executable tty windows env names with
    | Some (n, f) => tty = true /\ windows = false /\
        exists n1 n2 l1 p l2, wanted = n1 ++ n :: n2 /\ path = l1 ++ p :: l2 /\ f = join p n /\ executable f = true /\
          (forall m q, In m n1 -> In q path -> executable (join q m) = false) /\ (forall q, In q l1 -> executable (join q n) = false)
    | None => tty = false \/ windows = true \/ forall m q, In m wanted -> In q path -> executable (join q m) = false
    end.
  Proof.
    intros wanted. unfold pager. destruct tty; [|cbn; auto]. destruct windows; [cbn; auto|]. cbn [negb orb].
    assert (W : match env with Some p => p :: names | None => names end = wanted) by (unfold wanted; now destruct env). rewrite W. clearbody wanted. clear W.
    assert (X : match find_exec path join executable wanted with
      | Some (n, f) => exists n1 n2 l1 p l2, wanted = n1 ++ n :: n2 /\ path = l1 ++ p :: l2 /\ f = join p n /\ executable f = true /\
          (forall m q, In m n1 -> In q path -> executable (join q m) = false) /\ (forall q, In q l1 -> executable (join q n) = false)
      | None => forall m q, In m wanted -> In q path -> executable (join q m) = false end).
    { induction wanted as [|w l IH]; cbn [find_exec]; [intros m q []|]. pose proof (find_in_spec w path) as S.
      destruct (find_in join executable w path) as [[n f]|].
      - destruct S as (-> & l1 & p & l2 & E & F & G & H). exists [], l, l1, p, l2. split; [reflexivity|]. split; [exact E|]. split; [exact F|]. split; [exact G|]. split; [intros m q []|exact H].
      - destruct (find_exec path join executable l) as [[n f]|].
        + destruct IH as (n1 & n2 & l1 & p & l2 & -> & E & F & G & H & K). exists (w :: n1), n2, l1, p, l2. split; [reflexivity|]. split; [exact E|]. split; [exact F|]. split; [exact G|].
          split; [|exact K]. intros m q [<-|M] Q; [now apply S|now apply H].
        + intros m q [<-|M] Q; [now apply S|now apply IH]. }
    destruct (find_exec path join executable wanted) as [[n f]|]; [auto|]. auto.
  Qed.
  (** A preference that is set to nothing is taken for a program: a directory is started *)
  Theorem C90_pager_empty_refuted p r names : path = p :: r -> executable (join p []) = true ->
    pager path join executable true false (Some []) names = Some ([], join p []).
  Proof. intros -> E. unfold pager. cbn. now rewrite E. Qed.
End Programs.
Print Assumptions C90_pager.
Print Assumptions C90_pager_empty_refuted.

(** ** Cases *)

Example C90_case_run : main [L "run"; L "dev"] (fun c args => if text_eqb c (L "run") then Finishes (Some (length args)) else Raises_ Keyboard_interrupt) false false None
    [L "run"; L "-i"; L "dev"] = Returned (Some 2) /\
  main [L "run"; L "dev"] (fun c args => Raises_ (Io_error true)) true false None [L "dev"] = Returned (Some 0) /\
  main [L "run"; L "dev"] (fun c args => Finishes None) false false None [L "rnu"; L "dev"] = Left (System_exit 2).
Proof. repeat split; reflexivity. Qed.
Example C90_case_named : get_command_name None (L "listcommand") = L "list" /\ (forall a b, L "list" ++ L "command" = a ++ L "command" ++ b -> b = []) /\
  get_command_name None (L "commander") = L "commander".
Proof.
  split; [reflexivity|]. split; [|reflexivity]. intros a b E. do 5 (destruct a as [|? a]; [cbn in E; try discriminate; injection E; auto|]).
  apply (f_equal (@length ascii)) in E. cbn in E. rewrite !app_length in E. cbn in E. lia.
Qed.
Example C90_case_docstring : get_command_description None (Some [L "run jobs"; L ""; L "Runs. @EPILOG@"; L "See also"]) = Some (L "Runs.") /\
  get_command_epilog None (Some [L "run jobs"; L ""; L "Runs. @EPILOG@"; L "See also"]) = Some (L "See also").
Proof. split; reflexivity. Qed.
Example C90_case_pager : pager [L "/bin"; L "/usr/bin"] (fun p n => p ++ "/"%char :: n) (fun f => text_eqb f (L "/usr/bin/less") || text_eqb f (L "/bin/more")) true false
  (Some (L "most")) [L "sensible-pager"; L "less"; L "more"] = Some (L "less", L "/usr/bin/less").
Proof. reflexivity. Qed.
