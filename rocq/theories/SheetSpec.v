(** What the spreadsheet should show. *)
From Coq Require Import String Ascii List Bool Arith NArith.
From Verif Require Import ScanModel Rfc822Model JsonModel IologModel IniModel ChecksumModel ExportModel PluginModel PluginSpec
  Utf8Model Utf8Spec SheetModel.
Import ListNotations.
Local Open Scope nat_scope.
Local Open Scope list_scope.

(** What a cell shows: the last value written into it. *)
Definition shows (ws : list write) (row column : nat) (v : value) : Prop :=
  exists a b, ws = a ++ (row, column, v) :: b /\ forall v', ~ In (row, column, v') b.

(** The job is in the category with this name. *)
Definition belongs (d : data) (name job : text) (j : jobdata) : Prop :=
  In (job, j) (d_results d) /\ In (j_category j, name) (d_categories d).
Definition is_local (j : jobdata) : Prop := j_plugin j = Some (T "local").

(** How a category did: failed when a job failed, passed when none failed and one
    passed, skipped otherwise. *)
Definition some_outcome (d : data) (name o : text) : Prop := exists job j, belongs d name job j /\ j_outcome j = o.
Definition verdict (d : data) (name v : text) : Prop :=
  (some_outcome d name (T "fail") /\ v = T "fail") \/
  (~ some_outcome d name (T "fail") /\ some_outcome d name (T "pass") /\ v = T "pass") \/
  (~ some_outcome d name (T "fail") /\ ~ some_outcome d name (T "pass") /\ v = T "skip").

(** The lines of the report: categories by name, each followed by its jobs by identifier;
    local jobs, which only make other jobs, are left out. *)
Inductive line := LCategory (name verdict : text) | LJob (job : text) (j : jobdata).
Definition block : Type := (text * text * list (text * jobdata))%type.
Definition block_lines (b : block) : list line :=
  LCategory (fst (fst b)) (snd (fst b)) :: map (fun jj => LJob (fst jj) (snd jj)) (snd b).
Definition good_block (d : data) (b : block) : Prop :=
  verdict d (fst (fst b)) (snd (fst b)) /\
  increasing (map fst (snd b)) /\
  forall job j, In (job, j) (snd b) <-> belongs d (fst (fst b)) job j /\ ~ is_local j.
Definition layout (d : data) (lines : list line) : Prop :=
  exists blocks, lines = concat (map block_lines blocks) /\
    increasing (map (fun b => fst (fst b)) blocks) /\
    (forall name, In name (map (fun b => fst (fst b)) blocks) <-> exists job j, belongs d name job j) /\
    Forall (good_block d) blocks.

(** The characters that end lines, and the lines of a text. *)
Definition ends (c : N) : Prop := In c [10; 11; 12; 13; 28; 29; 30; 133; 8232; 8233]%N.
Inductive line_end : ustr -> ustr -> Prop :=
| le_crlf r : line_end [13; 10]%N r
| le_one c r : ends c -> ~ (c = 13%N /\ exists r', r = 10%N :: r') -> line_end [c] r.
Inductive ulines : ustr -> list ustr -> Prop :=
| ul_nil : ulines [] []
| ul_last t : t <> [] -> Forall (fun c => ~ ends c) t -> ulines t [t]
| ul_line t e r ls : Forall (fun c => ~ ends c) t -> line_end e r -> ulines r ls -> ulines (t ++ e ++ r) (t :: ls).
(** White space, and a text without the white space at its end. *)
Definition blank (c : N) : Prop :=
  In c [9; 10; 11; 12; 13; 28; 29; 30; 31; 32; 133; 160; 5760; 8192; 8193; 8194; 8195; 8196; 8197; 8198; 8199; 8200; 8201; 8202;
        8232; 8233; 8239; 8287; 12288]%N.
Definition trimmed (t s : ustr) : Prop :=
  (exists w, t = s ++ w /\ Forall blank w) /\ forall x c, s = x ++ [c] -> ~ blank c.
(** At most three lines of a text. *)
Definition abridged (t u : ustr) : Prop :=
  (exists ls, ulines t ls /\ length ls <= 3 /\ u = t) \/
  (exists a b c d r, ulines t (a :: b :: c :: d :: r) /\
     u = a ++ [10%N] ++ b ++ [10%N] ++ c ++ [10%N] ++ map N_of_ascii (T "[...]")).

(** What is in the columns of a line; [log] is the text of a log. *)
Inductive log_text (j : jobdata) : ustr -> Prop :=
| log_other : In (j_plugin j) [Some (T "resource"); Some (T "attachment")] -> log_text j [32%N]
| log_empty : ~ In (j_plugin j) [Some (T "resource"); Some (T "attachment")] -> j_io_log j = Some [] -> log_text j [32%N]
| log_some t s : ~ In (j_plugin j) [Some (T "resource"); Some (T "attachment")] ->
    t <> [] -> Forall scalar t -> j_io_log j = Some (utf8_text t) -> trimmed t s -> log_text j s.
Inductive comment_text (j : jobdata) : ustr -> Prop :=
| comment_none : In (j_comments j) [None; Some []] -> comment_text j [32%N]
| comment_some t s : t <> [] -> j_comments j = Some t -> trimmed t s -> comment_text j s.
Inductive line_shows : line -> nat -> value -> Prop :=
| ls_name name v : line_shows (LCategory name v) 1 (Txt name)
| ls_verdict name v : line_shows (LCategory name v) 4 (Label v)
| ls_sigil job j : line_shows (LJob job j) 2 (Sigil (j_outcome j))
| ls_summary job j : line_shows (LJob job j) 3 (Txt (j_summary j))
| ls_outcome job j : line_shows (LJob job j) 4 (Label (j_outcome j))
| ls_cert job j : line_shows (LJob job j) 5
    (Txt (match j_cert j with Some t => if list_eq_dec ascii_dec t (T "unspecified") then [] else t | None => [] end))
| ls_log job j log u : log_text j log -> abridged log u -> line_shows (LJob job j) 6 (Utx u)
| ls_comments job j u : comment_text j u -> line_shows (LJob job j) 7 (Utx u).
(** the sheet with descriptions *)
Inductive line_describes : line -> nat -> value -> Prop :=
| ld_name name v : line_describes (LCategory name v) 1 (Txt name)
| ld_summary job j : line_describes (LJob job j) 3 (Txt (j_summary j))
| ld_description job j : line_describes (LJob job j) 4 (Txt (match j_description j with Some t => t | None => [] end)).

(** A text with a heading in a column: the heading, an empty line, the lines, an empty
    line. *)
Inductive written_below : nat -> list (text * list ustr) -> nat -> value -> Prop :=
| wb_heading row name ls r : written_below row ((name, ls) :: r) row (Txt name)
| wb_line row name ls r k l : nth_error ls k = Some l -> written_below row ((name, ls) :: r) (row + 2 + k) (Utx l)
| wb_later row name ls r row' v : written_below (row + 3 + length ls) r row' v -> written_below row ((name, ls) :: r) row' v.
(** the texts among the contents; the others are left out *)
Inductive texts_of : list (text * bytes) -> list (text * list ustr) -> Prop :=
| to_nil : texts_of [] []
| to_text name t ls l l' : Forall scalar t -> ulines t ls -> texts_of l l' -> texts_of ((name, utf8_text t) :: l) ((name, ls) :: l')
| to_binary name s l l' : (forall t, Forall scalar t -> utf8_text t <> s) -> texts_of l l' -> texts_of ((name, s) :: l) l'.
(** the logs of the resource jobs; an empty log counts as one space *)
Inductive resource_texts : list (text * jobdata) -> list (text * bytes) -> Prop :=
| rt_nil : resource_texts [] []
| rt_other job j r l : j_plugin j <> Some (T "resource") -> resource_texts r l -> resource_texts ((job, j) :: r) l
| rt_empty job j r l : j_plugin j = Some (T "resource") -> j_io_log j = Some [] -> resource_texts r l ->
    resource_texts ((job, j) :: r) ((job, T " ") :: l)
| rt_log job j s r l : j_plugin j = Some (T "resource") -> j_io_log j = Some s -> s <> [] -> resource_texts r l ->
    resource_texts ((job, j) :: r) ((job, s) :: l).

(** When the report can be made at all. *)
Definition reportable (d : data) : Prop :=
  forall job j, In (job, j) (d_results d) ->
    (exists name, belongs d name job j) /\
    (forall job' j', ~ belongs d job job' j') /\
    (exists plugin, j_plugin j = Some plugin) /\
    (j_plugin j = Some (T "resource") -> j_io_log j <> None) /\
    (is_local j \/ In (j_plugin j) [Some (T "resource"); Some (T "attachment")] \/
     exists t, Forall scalar t /\ j_io_log j = Some (utf8_text t)).
Definition well_formed (d : data) : Prop := NoDup (map fst (d_results d)) /\ NoDup (map fst (d_categories d)).

(** The cells above the lines. *)
Definition results_heading : list write :=
  [(1, 1, Txt (T "System Testing Report")); (3, 1, Txt (T "Tests Performed")); (5, 3, Txt (T "Name")); (5, 4, Txt (T "Result"));
   (5, 5, Txt (T "Certification Status")); (5, 6, Txt (T "I/O Log")); (5, 7, Txt (T "Comments"))].
Definition descriptions_heading : list write :=
  [(1, 1, Txt (T "System Testing Report")); (3, 1, Txt (T "Test Descriptions")); (5, 3, Txt (T "Name")); (5, 4, Txt (T "Description"))].

(** The jobs that are counted. *)
Definition counted (d : data) : list (text * jobdata) :=
  filter (fun jj => match j_plugin (snd jj) with
                    | Some p => if list_eq_dec ascii_dec p (T "local") then false else true
                    | None => true
                    end) (d_results d).
Definition ended (o : text) (l : list (text * jobdata)) : nat :=
  length (filter (fun jj => if list_eq_dec ascii_dec (j_outcome (snd jj)) o then true else false) l).
