(** * C99: what small commands print and how they exit *)
From Coq Require Import String Ascii List Bool Arith Lia Permutation Sorted.
From Verif Require Import ScanModel Rfc822Model Rfc822Proofs ChecksumModel ChecksumProps CommandsModel.
Import ListNotations.
Local Open Scope list_scope.

Definition printed (o : outcome) : list text := match o with Exit _ l => l | Raised => [] end.
Definition exit_code (o : outcome) : option nat := match o with Exit n _ => Some n | Raised => None end.

(** ** check-config *)

(** It exits with 0 exactly if there is no problem, and prints all of them; it tells of each file whether it
    is there; each variable is shown with its section; each section with all its values, sorted by name *)
Theorem C99_check_config c :
  (exit_code (check_config c) = Some 0 <-> c_problems c = []) /\
  (c_problems c <> [] -> exit_code (check_config c) = Some 1 /\
     exists l, printed (check_config c) = l ++ L "Problems:" :: map (fun p => match p with (Some v, m) => L " - variable " ++ v ++ L ": " ++ m | (None, m) => L " - " ++ m end) (c_problems c)) /\
  (forall f, In f (c_known c) -> In f (c_loaded c) -> In (L " - " ++ f) (printed (check_config c))) /\
  (forall f, In f (c_known c) -> ~ In f (c_loaded c) -> In (L " - " ++ f ++ L " (not present)") (printed (check_config c))) /\
  (forall s n x, In (s, n, x) (c_variables c) -> exists a b, printed (check_config c) = a ++ (L "   [" ++ s ++ L "]") :: (L "   " ++ n ++ L "=" ++ x) :: b) /\
  (forall s items, In (s, Some items) (c_sections c) -> exists a b sorted, printed (check_config c) = a ++ (L "   [" ++ s ++ L "]") :: map (fun kv => L "   " ++ fst kv ++ L "=" ++ snd kv) sorted ++ b /\
     Permutation sorted items /\ StronglySorted (fun x y => text_leb (fst x) (fst y) = true) sorted).
Proof.
  unfold check_config, printed, exit_code. split; [|split; [|split; [|split; [|split]]]].
  - destruct (c_problems c); [tauto|]. split; discriminate.
  - destruct (c_problems c) as [|p l] eqn:E; [contradiction|]. intros _. split; [reflexivity|]. rewrite !app_assoc. eexists. reflexivity.
  - intros f K I. apply in_app_iff. right. apply in_app_iff. left. apply in_map_iff. exists f. split; [|exact K]. unfold file_line. rewrite (proj2 (existsb_exists _ _)); [reflexivity|]. exists f. split; [exact I|now apply text_eqb_eq].
  - intros f K I. apply in_app_iff. right. apply in_app_iff. left. apply in_map_iff. exists f. split; [|exact K]. unfold file_line. destruct (existsb (text_eqb f) (c_loaded c)) eqn:E; [|reflexivity]. apply existsb_exists in E as (g & G & E). apply text_eqb_eq in E as <-. contradiction.
  - intros s n x I. apply in_split in I as (a & b & ->). rewrite flat_map_app. cbn [flat_map variable_lines]. eexists ([L "Configuration files:"] ++ map (file_line _) (c_known c) ++ [L "Variables:"] ++ flat_map variable_lines a), _. rewrite <- !app_assoc. cbn [app]. reflexivity.
  - intros s items I. apply in_split in I as (a & b & ->). rewrite flat_map_app. cbn [flat_map section_lines fst snd].
    eexists ([L "Configuration files:"] ++ map (file_line _) (c_known c) ++ [L "Variables:"] ++ flat_map variable_lines (c_variables c) ++ [L "Sections:"] ++ flat_map section_lines a), _, (sorted_items items).
    split; [rewrite <- ?app_assoc; cbn [app]; rewrite <- ?app_assoc; reflexivity|]. split; [apply sorted_perm|apply sorted_sorted].
Qed.
Print Assumptions C99_check_config.

(** ** parse *)

(** The result of the parser is printed, with exit code 0, exactly if the text could be read and the parser gave
    something; a parser that fails, in whatever way, gives 2 and prints nothing *)
Theorem C99_parse {ast} (parser_fn : text -> parsed ast) dumps i :
  (forall j, parse ast parser_fn dumps i = Exit 0 [j] <-> exists t a, i = Text t /\ parser_fn t = Returned (Some a) /\ j = dumps a) /\
  (exit_code (parse ast parser_fn dumps i) = Some 2 <-> exists t, i = Text t /\ (parser_fn t = Failed \/ parser_fn t = Returned None)) /\
  (exit_code (parse ast parser_fn dumps i) <> Some 0 -> printed (parse ast parser_fn dumps i) = []).
Proof.
  unfold parse, parse_text_to_json. destruct i as [t| |]; cbn.
  - destruct (parser_fn t) as [[a|]|] eqn:E; cbn; (split; [|split]); try tauto.
    + intros j. split; [intros [= <-]; eauto|]. intros (t' & a' & [= <-] & E' & ->). congruence.
    + split; [discriminate|]. intros (t' & [= <-] & [H|H]); congruence.
    + intros j. split; [discriminate|]. intros (t' & a' & [= <-] & E' & _). congruence.
    + split; [eauto|reflexivity].
    + intros j. split; [discriminate|]. intros (t' & a' & [= <-] & E' & _). congruence.
    + split; [eauto|reflexivity].
  - split; [intros j; split; [discriminate|intros (t & a & H & _); discriminate]|]. split; [split; [discriminate|intros (t & H & _); discriminate]|reflexivity].
  - split; [intros j; split; [discriminate|intros (t & a & H & _); discriminate]|]. split; [split; [discriminate|intros (t & H & _); discriminate]|reflexivity].
Qed.
Print Assumptions C99_parse.
(** Input that cannot be decoded is not reported, it is an exception *)
Theorem C99_undecodable_refuted {ast} (parser_fn : text -> parsed ast) dumps : parse ast parser_fn dumps Decode_error = Raised.
Proof. reflexivity. Qed.
Print Assumptions C99_undecodable_refuted.

(** ** script *)

Section Script.
  Variable ascii_repr : text -> text.
  Variable str_of_nat : nat -> text.
  Variable run_command : job -> nat * list leftover.
  Notation script := (script ascii_repr str_of_nat run_command).
  (** Nothing is run without a job of that id, or if it has no command; else the first such job is, and the exit code is
      that of its command *)
  Theorem C99_script jobs i :
    match snd (script jobs i) with
    | None => ((forall j, In j jobs -> j_id j <> i) /\ exit_code (fst (script jobs i)) = Some 126) \/
              (exists a j b, jobs = a ++ j :: b /\ j_id j = i /\ (forall j', In j' a -> j_id j' <> i) /\ j_command j = None /\ exit_code (fst (script jobs i)) = Some 125)
    | Some j => (exists a b, jobs = a ++ j :: b /\ forall j', In j' a -> j_id j' <> i) /\ j_id j = i /\ j_command j <> None /\ exit_code (fst (script jobs i)) = Some (fst (run_command j))
    end.
  Proof.
    assert (G : match get_job jobs i with Some j => j_id j = i /\ exists a b, jobs = a ++ j :: b /\ (forall j', In j' a -> j_id j' <> i) | None => forall j, In j jobs -> j_id j <> i end).
    { unfold get_job. induction jobs as [|j jobs IH]; cbn [filter]; [intros j []|]. destruct (text_eqb (j_id j) i) eqn:E; [apply text_eqb_eq in E; split; [exact E|]; exists [], jobs; split; [reflexivity|intros ? []]|].
      assert (N : j_id j <> i) by (intros H; apply text_eqb_eq in H; congruence). destruct (filter _ jobs) as [|k r]; [intros x [<-|I]; auto|]. destruct IH as (K & a & b & -> & A). split; [exact K|]. exists (j :: a), b. split; [reflexivity|]. intros x [<-|I]; auto. }
    unfold CommandsModel.script. destruct (get_job jobs i) as [j|]; [|left; auto]. destruct G as (E & a & b & -> & A). destruct (j_command j) as [c|] eqn:C; [|right; exists a, j, b; auto 10].
    destruct (run_command j) as [rc left] eqn:R. cbn [snd fst]. split; [eauto|]. split; [exact E|]. split; [congruence|]. now rewrite R.
  Qed.
  (** Everything that is left is told of: the names of directories and other things, and each line of each file with its
      number; then the return code and the command *)
  Theorem C99_leftovers jobs i j c rc left : snd (script jobs i) = Some j -> j_command j = Some c -> run_command j = (rc, left) ->
    (forall n, In (Dir n) left -> In (L "Leftover directory detected: " ++ ascii_repr n) (printed (fst (script jobs i)))) /\
    (forall n, In (Other n) left -> In (L "Leftover thing detected: " ++ ascii_repr n) (printed (fst (script jobs i)))) /\
    (forall n lines, In (File n lines) left -> In (L "Leftover file detected: " ++ ascii_repr n ++ L ":") (printed (fst (script jobs i))) /\
       forall k x, nth_error lines k = Some x -> In (L "  " ++ n ++ L ":" ++ str_of_nat (k + 1) ++ L ": " ++ x) (printed (fst (script jobs i)))) /\
    exists l, printed (fst (script jobs i)) = l ++ [L "job " ++ j_id j ++ L " returned " ++ str_of_nat rc; L "command: " ++ c].
  Proof.
    unfold CommandsModel.script. destruct (get_job jobs i) as [j'|]; [|discriminate]. destruct (j_command j') as [c'|] eqn:C'; [|discriminate]. destruct (run_command j') as [rc' left'] eqn:R'. cbn [snd fst printed]. intros [= <-] C R. assert (c' = c) by congruence. assert (rc' = rc /\ left' = left) as [-> ->] by (split; congruence). subst c'.
    assert (D : forall x t, In x left -> In t (display ascii_repr str_of_nat x) -> In t (flat_map (display ascii_repr str_of_nat) left ++ [L "job " ++ j_id j' ++ L " returned " ++ str_of_nat rc; L "command: " ++ c])) by (intros x t I J; apply in_app_iff; left; apply in_flat_map; eauto).
    split; [|split; [|split; [|eauto]]].
    - intros n I. apply (D _ _ I). now left.
    - intros n I. apply (D _ _ I). now left.
    - intros n lines I. split; [apply (D _ _ I); now left|]. intros k x N. apply (D _ _ I). right.
      assert (G : forall ls k0 k, nth_error ls k = Some x -> In (L "  " ++ n ++ L ":" ++ str_of_nat (k + k0) ++ L ": " ++ x) (numbered str_of_nat n k0 ls)).
      { induction ls as [|y ls IH]; intros k0 [|k'] H; try discriminate; cbn [numbered].
        - cbn in H. injection H as ->. left. reflexivity.
        - right. replace (S k' + k0) with (k' + (k0 + 1)) by lia. now apply IH. }
      now apply G.
  Qed.
End Script.
Print Assumptions C99_script.
Print Assumptions C99_leftovers.

(** ** self-test *)

Section Self_test.
  Variable option_kind : text -> option bool.
  Notation scan := (scan option_kind). Notation process := (process option_kind).
  Lemma scan_shape args g c a : scan args = Some (g, c, a) -> args = g ++ c :: a.
  Proof.
    revert g c a. induction args as [args IH] using (well_founded_induction (Wf_nat.well_founded_ltof _ (@length text))). unfold Wf_nat.ltof in IH. intros g c a. destruct args as [|t r]; cbn [CommandsModel.scan]; [discriminate|].
    destruct (is_option t); [|intros [= <- <- <-]; reflexivity]. destruct (option_kind t) as [[]|]; [|..]; try discriminate.
    - destruct r as [|v r]; [discriminate|]. destruct (scan r) as [[[g' c'] a']|] eqn:S; [|discriminate]. intros [= <- <- <-]. cbn. f_equal. f_equal. apply IH; [cbn; lia|exact S].
    - destruct (scan r) as [[[g' c'] a']|] eqn:S; [|discriminate]. intros [= <- <- <-]. cbn. f_equal. apply IH; [cbn; lia|exact S].
  Qed.
  (** What follows the command does not matter to it *)
  Lemma scan_rest args g c a b : scan args = Some (g, c, a) -> scan (g ++ c :: b) = Some (g, c, b).
  Proof.
    revert g c a. induction args as [args IH] using (well_founded_induction (Wf_nat.well_founded_ltof _ (@length text))). unfold Wf_nat.ltof in IH. intros g c a. destruct args as [|t r]; cbn [CommandsModel.scan]; [discriminate|].
    destruct (is_option t) eqn:O; [|intros [= <- <- <-]; cbn [app CommandsModel.scan]; now rewrite O]. destruct (option_kind t) as [[]|] eqn:K; try discriminate.
    - destruct r as [|v r]; [discriminate|]. destruct (scan r) as [[[g' c'] a']|] eqn:S; [|discriminate]. intros [= <- <- <-]. cbn [app CommandsModel.scan]. rewrite O, K. rewrite (IH r ltac:(cbn; lia) _ _ _ S). reflexivity.
    - destruct (scan r) as [[[g' c'] a']|] eqn:S; [|discriminate]. intros [= <- <- <-]. cbn [app CommandsModel.scan]. rewrite O, K. rewrite (IH r ltac:(cbn; lia) _ _ _ S). reflexivity.
  Qed.
  Lemma insert_first t x a b : ~ In t a -> insert_after t x (a ++ t :: b) = Some (a ++ t :: x :: b).
  Proof.
    induction a as [|y a IH]; intros N; cbn [app insert_after]; [now rewrite (proj2 (text_eqb_eq t t) eq_refl)|]. destruct (text_eqb y t) eqn:E; [apply text_eqb_eq in E as ->; destruct N; now left|]. rewrite IH; [reflexivity|]. intros I. apply N. now right.
  Qed.
  (** The tests are run: at once if the program says that it is its own second run, else after running itself again
      exactly once, with the same arguments and that one; provided that no argument before is the name of the command *)
  Theorem C99_self_test prog args globals rest : scan args = Some (globals, self_test, rest) -> ~ In self_test (prog :: globals) ->
    process (prog :: args) = (if existsb (text_eqb after_reexec) rest then Tests else Again (prog :: globals ++ self_test :: after_reexec :: rest)) /\
    process (prog :: globals ++ self_test :: after_reexec :: rest) = Tests.
  Proof.
    intros S N. cbn [CommandsModel.process]. rewrite S, (proj2 (text_eqb_eq self_test self_test) eq_refl). rewrite (scan_rest _ _ _ _ (after_reexec :: rest) S), (proj2 (text_eqb_eq self_test self_test) eq_refl).
    split; [|cbn [existsb]; now rewrite (proj2 (text_eqb_eq after_reexec after_reexec) eq_refl)]. destruct (existsb _ rest); [reflexivity|].
    apply scan_shape in S as ->. change (prog :: globals ++ self_test :: rest) with ((prog :: globals) ++ self_test :: rest). now rewrite (insert_first _ _ _ _ N).
  Qed.
  (** If one is, the argument ends up before the command, where it is not known *)
  Theorem C99_self_test_refuted prog o rest : prog <> self_test -> o <> self_test -> is_option o = true -> option_kind o = Some true -> option_kind after_reexec = None ->
    existsb (text_eqb after_reexec) rest = false ->
    exists argv, process (prog :: o :: self_test :: self_test :: rest) = Again argv /\ process argv = Complains.
  Proof.
    intros P Q O K U R. exists (prog :: o :: self_test :: after_reexec :: self_test :: rest).
    assert (E1 : text_eqb prog self_test = false) by (destruct (text_eqb prog self_test) eqn:E; [apply text_eqb_eq in E; contradiction|reflexivity]). assert (E2 : text_eqb o self_test = false) by (destruct (text_eqb o self_test) eqn:E; [apply text_eqb_eq in E; contradiction|reflexivity]).
    split; cbn [CommandsModel.process CommandsModel.scan]; rewrite O, K.
    - change (is_option self_test) with false. cbv iota. rewrite (proj2 (text_eqb_eq self_test self_test) eq_refl), R. cbn [insert_after]. rewrite E1, E2, (proj2 (text_eqb_eq self_test self_test) eq_refl). reflexivity.
    - change (is_option after_reexec) with true. cbv iota. now rewrite U.
  Qed.
End Self_test.
Print Assumptions C99_self_test.
Print Assumptions C99_self_test_refuted.

(** ** Cases *)

Definition kinds (t : text) : option bool := if text_eqb t (L "-v") then Some false else if text_eqb t (L "-T") then Some true else None.
Example C99_case_self_test : process kinds [L "plainbox"; L "-T"; L "plainbox.session"; L "self-test"; L "-u"] = Again [L "plainbox"; L "-T"; L "plainbox.session"; L "self-test"; L "--after-reexec"; L "-u"] /\
  process kinds [L "plainbox"; L "-T"; L "self-test"; L "self-test"] = Again [L "plainbox"; L "-T"; L "self-test"; L "--after-reexec"; L "self-test"] /\
  scan kinds [L "-T"; L "plainbox.session"; L "self-test"; L "-u"] = Some ([L "-T"; L "plainbox.session"], self_test, [L "-u"]).
Proof. repeat split; reflexivity. Qed.
Example C99_case_script : let js := [{| j_id := L "a"; j_command := None |}; {| j_id := L "b"; j_command := Some (L "true") |}] in
  let s := script (fun t => t) (fun _ => L "0") (fun _ => (0, [Dir (L "tmp"); File (L "log") [L "x"]])) js in
  s (L "c") = (Exit 126 [L "There is no job called c"; L "See `plainbox special --list-jobs` for a list of choices"], None) /\ fst (s (L "a")) = Exit 125 [L "Selected job does not have a command"] /\
  printed (fst (s (L "b"))) = [L "Leftover directory detected: tmp"; L "Leftover file detected: log:"; L "  log:0: x"; L "job b returned 0"; L "command: true"].
Proof. repeat split; reflexivity. Qed.
Example C99_case_config : check_config {| c_known := [L "/etc/a"; L "/b"]; c_loaded := [L "/b"]; c_variables := [(L "s", L "v", L "1")]; c_sections := [(L "env", Some [(L "B", L "2"); (L "A", L "1")])]; c_problems := [(Some (L "v"), L "bad")] |} =
  Exit 1 (map L ["Configuration files:"; " - /etc/a (not present)"; " - /b"; "Variables:"; "   [s]"; "   v=1"; "Sections:"; "   [env]"; "   A=1"; "   B=2"; "Problems:"; " - variable v: bad"]%string).
Proof. reflexivity. Qed.
