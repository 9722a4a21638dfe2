(** * The spreadsheet report: /repo/plainbox/impl/exporter/xlsx.py 366-378 and 442-715

    Job identifiers, names of categories and other texts are bytes in UTF-8, in which the
    order of bytes is the order of code points; logs are decoded, so their characters are
    code points.  An outcome is the text of result.py 60-110 (crash included), None is some
    text other than those.  A workbook is the sequence of values written into cells of worksheets.
    Not modelled: formats, row heights, outlines, the chart, the sheet with information
    about the system (188-364), and what the xlsxwriter library does to a value (a text
    that starts with an equals sign becomes a formula, one of more than 32767 characters
    is not written). *)
From Coq Require Import String Ascii List Bool Arith NArith.
From Verif Require Import ScanModel Rfc822Model JsonModel IologModel IniModel ChecksumModel ExportModel PluginModel Utf8Model.
Import ListNotations.
Local Open Scope nat_scope.
Local Open Scope list_scope.

(** ** Python's str *)
(** str.splitlines: the characters that end a line *)
Definition ends_line (c : N) : bool :=
  existsb (N.eqb c) [10; 11; 12; 13; 28; 29; 30; 133; 8232; 8233]%N.
Fixpoint usplit (cur : ustr) (t : ustr) : list ustr :=
  match t with
  | [] => match cur with [] => [] | _ => [rev cur] end
  | c :: r =>
      if ends_line c then
        match N.eqb c 13, r with
        | true, d :: r' => if N.eqb d 10 then rev cur :: usplit [] r' else rev cur :: usplit [] r
        | _, _ => rev cur :: usplit [] r
        end
      else usplit (c :: cur) r
  end.
Definition usplitlines (t : ustr) : list ustr := usplit [] t.
(** str.isspace *)
Definition uspace (c : N) : bool :=
  ((9 <=? c) && (c <=? 13) || (28 <=? c) && (c <=? 32) || (8192 <=? c) && (c <=? 8202) ||
   existsb (N.eqb c) [133; 160; 5760; 8232; 8233; 8239; 8287; 12288])%N.
Fixpoint udrop (t : ustr) : ustr :=
  match t with
  | [] => []
  | c :: r => if uspace c then udrop r else t
  end.
Definition urstrip (t : ustr) : ustr := rev (udrop (rev t)).
Fixpoint ujoin (l : list ustr) : ustr :=
  match l with
  | [] => []
  | [x] => x
  | x :: r => x ++ [10%N] ++ ujoin r
  end.

(** ** The data (what get_session_data_subset makes, C51, with base64 undone) *)
Record jobdata := mk_jobdata {
  j_summary : text;
  j_category : text;
  j_outcome : text;
  j_plugin : option text;        (** None: the key is missing *)
  j_description : option text;
  j_io_log : option bytes;       (** None: the key is missing, as for attachments *)
  j_comments : option ustr;
  j_cert : option text;
}.
Record data := mk_data {
  d_results : list (text * jobdata);
  d_categories : list (text * text);
  d_attachments : list (text * bytes);
}.

Inductive value :=
| Txt (t : text)
| Utx (u : ustr)
| Sigil (outcome : text)
| Label (outcome : text).
(** row, column, value *)
Definition write : Type := nat * nat * value.

Inductive exn := KeyError | UnicodeDecodeError.
Inductive res (A : Type) := Ok (a : A) | Raised (e : exn).
Arguments Ok {A}. Arguments Raised {A}.
Definition bind {A B} (a : res A) (f : A -> res B) : res B :=
  match a with Ok x => f x | Raised e => Raised e end.

(** ** 442-473 _tree: a category, its status and its jobs; res and tmp_result_map have
    the same keys *)
Definition PASS : text := T "pass".
Definition FAIL : text := T "fail".
Definition SKIP : text := T "skip".
Record cat := mk_cat { c_name : text; c_status : option text; c_jobs : list text }.
Definition is_status (s : option text) (o : text) : bool :=
  match s with Some x => text_eqb x o | None => false end.
Definition new_status (old : option text) (outcome : text) : option text :=
  if text_eqb outcome FAIL then Some FAIL
  else if text_eqb outcome PASS && negb (is_status old FAIL) then Some PASS
  else if negb (is_status old PASS || is_status old FAIL) then Some SKIP
  else old.
Fixpoint add_job (cats : list cat) (name job outcome : text) : list cat :=
  match cats with
  | [] => [mk_cat name (new_status None outcome) [job]]
  | c :: r =>
      if text_eqb (c_name c) name
      then mk_cat (c_name c) (new_status (c_status c) outcome) (c_jobs c ++ [job]) :: r
      else c :: add_job r name job outcome
  end.
Fixpoint find {A} (k : text) (l : list (text * A)) : option A :=
  match l with
  | [] => None
  | (k', a) :: r => if text_eqb k' k then Some a else find k r
  end.
Fixpoint tree (categories : list (text * text)) (results : list (text * jobdata)) (cats : list cat) : res (list cat) :=
  match results with
  | [] => Ok cats
  | (job, j) :: r =>
      match find (j_category j) categories with
      | Some name => tree categories r (add_job cats name job (j_outcome j))
      | None => Raised KeyError
      end
  end.
(** 472 result_map.update(tmp_result_map) *)
Inductive entry := Category (status : option text) | Job (j : jobdata).
Definition lookup (results : list (text * jobdata)) (cats : list cat) (k : text) : option entry :=
  match List.find (fun c => text_eqb (c_name c) k) cats with
  | Some c => Some (Category (c_status c))
  | None => option_map Job (find k results)
  end.

(** ** 475-594 _write_job: max_level is 2 *)
Record acc := mk_acc {
  a_line : nat;
  a_total : nat; a_pass : nat; a_fail : nat; a_skip : nat;
  a_results : list write;
  a_descriptions : list write;
}.
(** 552-563: the log *)
Definition LOCAL : text := T "local".
Definition RESOURCE : text := T "resource".
Definition ATTACHMENT : text := T "attachment".
Definition SPACE : ustr := [32%N].
Definition io_text (plugin : text) (io : option bytes) : res ustr :=
  if text_eqb plugin RESOURCE || text_eqb plugin ATTACHMENT then Ok SPACE
  else match io with
       | None => Raised KeyError
       | Some [] => Ok SPACE
       | Some s => match fst (decode true true true s) with
                   | Some u => Ok (urstrip u)
                   | None => Raised UnicodeDecodeError
                   end
       end.
Definition dots : ustr := map N_of_ascii (T "[...]").
Definition shorten (u : ustr) : ustr :=
  if 3 <? length (usplitlines u) then ujoin (firstn 3 (usplitlines u)) ++ [10%N] ++ dots else u.
(** 543-547 *)
Definition cert_text (c : option text) : text :=
  match c with
  | None => []
  | Some t => if text_eqb t (T "unspecified") then [] else t
  end.
(** 569-571 *)
Definition comments_text (c : option ustr) : ustr :=
  match c with
  | None | Some [] => SPACE
  | Some t => urstrip t
  end.
(** 515-594: a job.  [None] is the continue of 480-482. *)
Definition write_leaf (descriptions : bool) (lookup : text -> option entry) (a : acc) (job : text) : res acc :=
  match lookup job with
  | None => Raised KeyError
  | Some (Category _) => Raised KeyError
  | Some (Job j) =>
      match j_plugin j with
      | None => Raised KeyError
      | Some plugin =>
          if text_eqb plugin LOCAL then Ok a
          else
            let n := a_line a + 1 in
            bind (io_text plugin (j_io_log j)) (fun log =>
            Ok (mk_acc n (a_total a + 1)
              (a_pass a + if text_eqb (j_outcome j) PASS then 1 else 0)
              (a_fail a + if text_eqb (j_outcome j) PASS then 0 else if text_eqb (j_outcome j) FAIL then 1 else 0)
              (a_skip a + if text_eqb (j_outcome j) PASS then 0 else if text_eqb (j_outcome j) FAIL then 0 else 1)
              (a_results a ++
               [(n, 3, Txt (j_summary j))] ++
               (if descriptions then [(n, 3, Txt (j_summary j))] else []) ++
               [(n, 2, Sigil (j_outcome j)); (n, 4, Label (j_outcome j)); (n, 5, Txt (cert_text (j_cert j)));
                (n, 6, Utx (shorten log)); (n, 7, Utx (comments_text (j_comments j)))])
              (a_descriptions a ++
               if descriptions
               then [(n, 3, Txt (j_summary j)); (n, 4, Txt (match j_description j with Some t => t | None => [] end))]
               else [])))
      end
  end.
Fixpoint write_leaves (descriptions : bool) (lookup : text -> option entry) (a : acc) (jobs : list text) : res acc :=
  match jobs with
  | [] => Ok a
  | job :: r => bind (write_leaf descriptions lookup a job) (fun a' => write_leaves descriptions lookup a' r)
  end.
(** 484-514: a category; all have jobs and a status *)
Definition write_category (descriptions : bool) (lookup : text -> option entry) (a : acc) (c : cat) : res acc :=
  match c_status c with
  | None => Ok a
  | Some status =>
      let n := a_line a + 1 in
      let a' := mk_acc n (a_total a) (a_pass a) (a_fail a) (a_skip a)
        (a_results a ++ [(n, 1, Txt (c_name c)); (n, 4, Label status)])
        (a_descriptions a ++ if descriptions then [(n, 1, Txt (c_name c))] else []) in
      write_leaves descriptions lookup a' (sort_by (fun j => j) (c_jobs c))
  end.
Fixpoint write_categories (descriptions : bool) (lookup : text -> option entry) (a : acc) (cats : list cat) : res acc :=
  match cats with
  | [] => Ok a
  | c :: r => bind (write_category descriptions lookup a c) (fun a' => write_categories descriptions lookup a' r)
  end.

(** 712: the title of every worksheet; 596-633 write_results *)
Definition title : write := (1, 1, Txt (T "System Testing Report")).
Definition results_header : list write :=
  [(3, 1, Txt (T "Tests Performed")); (5, 3, Txt (T "Name")); (5, 4, Txt (T "Result"));
   (5, 5, Txt (T "Certification Status")); (5, 6, Txt (T "I/O Log")); (5, 7, Txt (T "Comments"))].
Definition descriptions_header : list write :=
  [(3, 1, Txt (T "Test Descriptions")); (5, 3, Txt (T "Name")); (5, 4, Txt (T "Description"))].
(** [t] are the counters of the exporter, which start at zero when it is made (105-108) *)
Record totals := mk_totals { t_total : nat; t_pass : nat; t_fail : nat; t_skip : nat }.
Definition write_results (descriptions : bool) (t : totals) (d : data) : res acc :=
  bind (tree (d_categories d) (d_results d) []) (fun cats =>
    write_categories descriptions (lookup (d_results d) cats)
      (mk_acc 5 (t_total t) (t_pass t) (t_fail t) (t_skip t)
         results_header (if descriptions then descriptions_header else []))
      (sort_by c_name cats)).

(** ** 635-690 write_attachments, write_resources; None is a content that is not text *)
Fixpoint write_lines (row : nat) (ls : list ustr) : list write :=
  match ls with
  | [] => []
  | l :: r => (row, 1, Utx l) :: write_lines (row + 1) r
  end.
Fixpoint write_texts (i : nat) (l : list (text * option ustr)) : list write :=
  match l with
  | [] => []
  | (_, None) :: r => write_texts i r
  | (name, Some u) :: r =>
      let ls := usplitlines u in
      (i, 1, Txt name) :: write_lines (i + 2) ls ++ write_texts (i + 1 + (1 + length ls) + 1) r
  end.
Definition write_attachments (d : data) : list write :=
  write_texts 4 (map (fun a => (fst a, fst (decode true true true (snd a)))) (d_attachments d)).
(** the resource jobs, in the order of the results *)
Fixpoint resource_logs (l : list (text * jobdata)) : res (list (text * option ustr)) :=
  match l with
  | [] => Ok []
  | (job, j) :: r =>
      match j_plugin j with
      | None => Raised KeyError
      | Some plugin =>
          if text_eqb plugin RESOURCE then
            match j_io_log j with
            | None => Raised KeyError
            | Some s =>
                bind (resource_logs r) (fun l' =>
                  Ok ((job, match s with [] => Some SPACE | _ => fst (decode true true true s) end) :: l'))
            end
          else resource_logs r
      end
  end.

(** ** 692-715 dump *)
Record options := mk_options { with_summary : bool; with_description : bool; with_attachments : bool }.
Record workbook := mk_workbook {
  w_results : list write;
  w_descriptions : option (list write);
  w_summary : option totals;
  w_attachments : option (list write);
  w_resources : list write;
}.
(** the workbook and the counters afterwards *)
Definition dump (o : options) (t : totals) (d : data) : res (workbook * totals) :=
  bind (write_results (with_description o) t d) (fun a =>
  bind (resource_logs (d_results d)) (fun logs =>
    let t' := mk_totals (a_total a) (a_pass a) (a_fail a) (a_skip a) in
    Ok (mk_workbook (a_results a ++ [title])
          (if with_description o then Some (a_descriptions a ++ [title]) else None)
          (if with_summary o then Some t' else None)
          (if with_attachments o then Some (write_attachments d ++ [title]) else None)
          (write_texts 4 logs ++ [title]), t'))).
