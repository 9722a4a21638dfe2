(** * C95: the usage of a tool names every part in order, on lines that fit *)
From Coq Require Import String Ascii List Bool Arith Lia.
From Verif Require Import ScanModel Rfc822Model UsageModel.
Import ListNotations.
Local Open Scope list_scope.

(** Words with one space between them *)
Fixpoint phrase (l : list text) : text := match l with [] => [] | [x] => x | x :: r => x ++ " "%char :: phrase r end.
Lemma join_phrase l : join SP l = phrase l.
Proof. induction l as [|x [|y r] IH]; [reflexivity|reflexivity|]. cbn [join phrase] in *. now rewrite IH. Qed.
Fixpoint measure (l : list text) : nat := match l with [] => 0 | x :: r => length x + 1 + measure r end.
Lemma measure_app a b : measure (a ++ b) = measure a + measure b.
Proof. induction a; cbn [app measure]; lia. Qed.
Lemma phrase_measure l : l <> [] -> length (phrase l) + 1 = measure l.
Proof. induction l as [|x [|y r] IH]; [congruence|cbn; lia|]. intros _. cbn [phrase measure] in *. rewrite app_length. cbn [length]. specialize (IH ltac:(discriminate)). lia. Qed.
Lemma phrase_snoc l p : length (phrase (l ++ [p])) = measure l + length p.
Proof. pose proof (phrase_measure (l ++ [p])) as H. rewrite measure_app in H. cbn [measure] in H. assert (l ++ [p] <> []) by (destruct l; discriminate). specialize (H H0). lia. Qed.

Section Width.
  Variable tw : nat.
  (** Rows that fit: those with more than one part, the first one after [first] columns, the others after [rest] *)
  Definition fits (first rest : nat) (rows : list (list text)) : Prop :=
    match rows with
    | [] => True
    | r0 :: rs => (2 <= length r0 -> first + length (phrase r0) <= tw) /\ forall r, In r rs -> 2 <= length r -> rest + length (phrase r) <= tw
    end.
  (** Rows that are full: the first part of a row would not have fitted on the one before *)
  Fixpoint full (first rest : nat) (rows : list (list text)) : Prop :=
    match rows with
    | [] => True
    | r :: tail => match tail with (p :: _) :: _ => tw < first + length (phrase (r ++ [p])) | _ => True end /\ full rest rest tail
    end.
  Lemma loop_spec indent parts : forall line first, (2 <= length line -> first + length (phrase line) <= tw) ->
    exists rows, loop tw indent parts line (first + measure line) = map (fun r => indent ++ phrase r) rows /\ concat rows = line ++ parts /\
      fits first (length indent) rows /\ full first (length indent) rows /\ (forall r, In r (tl rows) -> r <> []) /\
      (line <> [] -> exists r0 more rs, rows = (line ++ more) :: rs /\ r0 = line ++ more) /\ (line ++ parts <> [] -> rows <> []) /\ (line ++ parts = [] -> rows = []).
  Proof.
    induction parts as [|part r IH]; intros line first F; cbn [loop].
    - destruct line as [|x line].
      + exists []. cbn. split; [reflexivity|]. split; [reflexivity|]. split; [exact I|]. split; [exact I|]. split; [intros r []|]. split; [congruence|]. split; [congruence|reflexivity].
      + exists [x :: line]. rewrite join_phrase. split; [reflexivity|]. split; [cbn; now rewrite !app_nil_r|]. split; [split; [exact F|intros r []]|]. split; [split; exact I|]. split; [intros r []|].
        split; [intros _; exists (x :: line), [], []; rewrite app_nil_r; split; reflexivity|]. split; discriminate.
    - destruct (Nat.ltb_spec tw (first + measure line + length part)) as [G|G].
      + destruct (IH [part] (length indent)) as (rows & E & C & FF & FU & NE & P & _ & _); [cbn; lia|].
        replace (length indent + length part + 1) with (length indent + measure [part]) by (cbn; lia). destruct P as (r0 & more & rs & -> & _); [discriminate|].
        exists (line :: ([part] ++ more) :: rs). rewrite join_phrase, E. split; [reflexivity|]. split; [cbn [concat] in *; now rewrite C|].
        split. { destruct FF as [F0 FR]. split; [exact F|]. intros q [<-|I] L; [now apply F0|now apply FR]. }
        split. { cbn [full app]. split; [rewrite phrase_snoc; lia|exact FU]. }
        split. { intros q [<-|I]; [discriminate|now apply NE]. }
        split. { intros N. exists line, [], (([part] ++ more) :: rs). rewrite app_nil_r. split; reflexivity. }
        split; [discriminate|]. intros Z. destruct line; discriminate.
      + replace (first + measure line + length part + 1) with (first + measure (line ++ [part])) by (rewrite measure_app; cbn; lia).
        destruct (IH (line ++ [part]) first) as (rows & E & C & FF & FU & NE & P & Q & R).
        { intros _. rewrite phrase_snoc. lia. }
        exists rows. split; [exact E|]. split; [rewrite C, <- app_assoc; reflexivity|]. split; [exact FF|]. split; [exact FU|]. split; [exact NE|].
        split. { intros N. destruct P as (r0 & more & rs & -> & _); [destruct line; discriminate|]. exists (line ++ part :: more), (part :: more), rs. rewrite <- app_assoc. split; reflexivity. }
        split; [intros _; apply Q; destruct line; discriminate|]. intros Z. destruct line; discriminate.
  Qed.

  (** ** Lines *)

  (** The parts are put on lines in order, none is lost, each line that has more than one fits, and a
      new one is begun only when the part would not have fitted *)
  Theorem C95_lines parts indent prefix : parts <> [] ->
    exists rows, get_lines tw parts indent prefix =
      Some (match prefix, rows with
            | Some _, r0 :: rs => phrase r0 :: map (fun r => indent ++ phrase r) rs
            | _, _ => map (fun r => indent ++ phrase r) rows
            end) /\
      concat rows = parts /\ (forall r, In r (tl rows) -> r <> []) /\
      let first := match prefix with Some p => length p | None => length indent end in
      fits first (length indent) rows /\ full first (length indent) rows.
  Proof.
    intros NE. unfold get_lines. destruct prefix as [p|].
    - destruct (loop_spec indent parts [] (length p)) as (rows & E & C & F & U & N & _ & Q & _); [cbn; lia|]. cbn [measure] in E. rewrite Nat.add_0_r in E. rewrite E. specialize (Q NE).
      exists rows. destruct rows as [|r0 rs]; [congruence|]. cbn [map]. rewrite skipn_app, skipn_all, Nat.sub_diag. cbn [skipn app]. split; [reflexivity|]. split; [exact C|]. split; [exact N|]. split; [exact F|exact U].
    - destruct (loop_spec indent parts [] (length indent)) as (rows & E & C & F & U & N & _); [cbn; lia|]. cbn [measure] in E. rewrite Nat.add_0_r in E. rewrite E. exists rows. split; [reflexivity|]. auto.
  Qed.
  (** A part that fits nowhere leaves an empty line before it *)
  Theorem C95_empty_line_refuted part rest indent : tw < length indent + length part ->
    exists lines, get_lines tw (part :: rest) indent None = Some (indent :: lines).
  Proof. intros G. unfold get_lines. cbn [loop]. rewrite (proj2 (Nat.ltb_lt _ _) G). cbn [join]. rewrite app_nil_r. eauto. Qed.

  (** ** The usage *)

  Lemma get_lines_plain parts indent : exists rows, get_lines tw parts indent None = Some (map (fun r => indent ++ phrase r) rows) /\ concat rows = parts /\ fits (length indent) (length indent) rows.
  Proof.
    destruct (loop_spec indent parts [] (length indent)) as (rows & E & C & F & _); [cbn; lia|]. cbn [measure] in E. rewrite Nat.add_0_r in E. unfold get_lines. rewrite E. exists rows. auto.
  Qed.
  Lemma fits_app f r a b : a <> [] -> fits f r a -> fits r r b -> fits f r (a ++ b).
  Proof.
    destruct a as [|x a]; [congruence|]. intros _ [A0 AR] B. cbn [app fits]. split; [exact A0|]. intros q I. apply in_app_iff in I as [I|I]; [now apply AR|]. destruct b as [|y b]; [destruct I|]. destruct B as [B0 BR]. destruct I as [<-|I]; [exact B0|now apply BR].
  Qed.
  (** Whatever the parts are: there is a usage; it names the tool and then all parts, in order and with one space between
      those on a line; the lines but the first are indented alike; and a line is longer than the
      width only if it has a single part *)
  Theorem C95_usage prefix prog opt pos : exists rows indent,
    format_usage tw prefix prog opt pos =
      Some (prefix ++ match rows with [] => [] | r0 :: rs => phrase r0 ++ flat_map (fun r => "010"%char :: repeat " "%char indent ++ phrase r) rs end ++ ["010"%char; "010"%char]) /\
    concat rows = prog :: opt ++ pos /\
    (indent = length prefix \/ indent = length prefix + length prog + 1) /\
    fits (length prefix) indent rows.
  Proof.
    assert (J : forall x l, join NL (x :: l) = x ++ flat_map (fun t => "010"%char :: t) l).
    { intros x l. revert x. induction l as [|y l IH]; intros x; [cbn; now rewrite app_nil_r|]. change (join NL (x :: y :: l)) with (x ++ NL :: join NL (y :: l)). rewrite IH. reflexivity. }
    assert (X : exists r0 rs indent, usage_lines tw prefix prog opt pos = Some (phrase r0 :: map (fun r => repeat " "%char indent ++ phrase r) rs) /\
      concat (r0 :: rs) = prog :: opt ++ pos /\ (indent = length prefix \/ indent = length prefix + length prog + 1) /\ fits (length prefix) indent (r0 :: rs)).
    { unfold usage_lines. destruct (Nat.ltb_spec tw (length prefix + length (join SP (prog :: opt ++ pos)))) as [G|G].
      - unfold wrapped. destruct (Nat.leb_spec (4 * (length prefix + length prog)) (3 * tw)) as [S|S].
        + set (n := length prefix + length prog + 1). assert (BL : length (blanks n) = n) by apply repeat_length.
          destruct opt as [|o opt].
          * destruct pos as [|q pos].
            -- exists [prog], [], n. split; [reflexivity|]. split; [reflexivity|]. split; [now right|]. split; [cbn; lia|intros r []].
            -- destruct (C95_lines (prog :: q :: pos) (blanks n) (Some prefix) ltac:(discriminate)) as (rows & E & C & _ & F & _). rewrite E. destruct rows as [|r0 rs]; [discriminate|].
               exists r0, rs, n. split; [reflexivity|]. split; [exact C|]. split; [now right|]. rewrite BL in F. exact F.
          * destruct (C95_lines (prog :: o :: opt) (blanks n) (Some prefix) ltac:(discriminate)) as (rows & E & C & _ & F & _). rewrite E. destruct rows as [|r0 rs]; [discriminate|].
            destruct (get_lines_plain pos (blanks n)) as (rows2 & E2 & C2 & F2). rewrite E2. exists r0, (rs ++ rows2), n. split; [cbn [app]; now rewrite map_app|]. rewrite BL in F, F2.
            split; [cbn [concat] in *; rewrite concat_app, C2, app_assoc, C; reflexivity|]. split; [now right|]. change (r0 :: rs ++ rows2) with ((r0 :: rs) ++ rows2). apply fits_app; [discriminate|exact F|exact F2].
        + set (n := length prefix). assert (BL : length (blanks n) = n) by apply repeat_length.
          assert (ONE : forall b, fits n n b -> fits n n ([prog] :: b)) by (intros b B; change ([prog] :: b) with ([[prog]] ++ b); apply fits_app; [discriminate|split; [cbn; lia|intros r []]|exact B]).
          destruct (get_lines_plain (opt ++ pos) (blanks n)) as (rows & E & C & F). rewrite E. rewrite BL in F. destruct (Nat.ltb 1 _).
          * destruct (get_lines_plain opt (blanks n)) as (r1 & E1 & C1 & F1). destruct (get_lines_plain pos (blanks n)) as (r2 & E2 & C2 & F2). rewrite E1, E2. rewrite BL in F1, F2.
            exists [prog], (r1 ++ r2), n. split; [now rewrite map_app|]. split; [cbn [concat app]; now rewrite concat_app, C1, C2|]. split; [now left|]. apply ONE. destruct r1 as [|x r1]; [exact F2|]. apply fits_app; [discriminate|exact F1|exact F2].
          * exists [prog], rows, n. split; [reflexivity|]. split; [cbn [concat app]; now rewrite C|]. split; [now left|]. now apply ONE.
      - exists (prog :: opt ++ pos), [], (length prefix). rewrite join_phrase in *. split; [reflexivity|]. split; [apply app_nil_r|]. split; [now left|]. split; [intros _; exact G|intros r []]. }
    destruct X as (r0 & rs & indent & E & C & I & F). exists (r0 :: rs), indent. unfold format_usage. rewrite E, J.
    split; [|split; [exact C|]; split; [exact I|exact F]]. f_equal. f_equal. f_equal. f_equal. clear. induction rs as [|r rs IH]; [reflexivity|]. cbn [map flat_map]. now rewrite IH.
  Qed.
End Width.
Print Assumptions C95_lines.
Print Assumptions C95_empty_line_refuted.
Print Assumptions C95_usage.

(** ** Cases *)

Definition T (s : string) : text := list_ascii_of_string s.
Example C95_case_usage : format_usage 30 (T "usage: ") (T "plainbox") [T "[-h]"; T "[--version]"; T "[-v]"] [T "{run,session}"; T "..."] = Some (T "usage: plainbox [-h]
                [--version]
                [-v]
                {run,session}
                ...

").
Proof. reflexivity. Qed.
Example C95_case_short : format_usage 80 (T "usage: ") (T "plainbox") [T "[-h]"] [T "x"] = Some (T "usage: plainbox [-h] x

").
Proof. reflexivity. Qed.
