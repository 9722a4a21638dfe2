(** * C52: the text of a job's output does not depend on how it was recorded *)
From Coq Require Import String Ascii List Bool Arith NArith Lia.
From Verif Require Import ScanModel Rfc822Model Rfc822Proofs JsonModel IologModel IniModel IniProofs ExportModel ExportSpec Utf8Model Utf8Spec Utf8Proofs.
Import ListNotations.
Local Open Scope N_scope.
Local Open Scope list_scope.

Lemma flat_full v l : exists t, reads (concat (map io_data l)) t /\ flat_text v l = remove_controls t.
Proof.
  destruct (full_reads _ (concat (map io_data l)) (le_n _)) as (t & F & R). exists t. split; [assumption|].
  pose proof (iterdecode_full v false (map io_data l) []) as H. cbn [app] in H. rewrite F in H. unfold flat_text.
  destruct (iterdecode v false [] (map io_data l)) as [ts|]; [|discriminate H]. injection H as <-. apply remove_controls_concat.
Qed.

(** The text of a log is what its bytes read as, all records together, without control
    characters. *)
Theorem C52_flat_text v l u :
  flat_text v l = u <-> exists t, reads (concat (map io_data l)) t /\ without_controls t u.
Proof.
  destruct (flat_full v l) as (t & R & E). rewrite E. split.
  - intros H. exists t. split; [assumption|]. now apply remove_controls_spec.
  - intros (t' & R' & W). rewrite (reads_fun _ _ R _ R'). now apply remove_controls_spec.
Qed.
Print Assumptions C52_flat_text.

(** Bytes always read as exactly one text. *)
Theorem C52_reading_is_unique s : exists t, reads s t /\ forall t', reads s t' -> t' = t.
Proof.
  destruct (full_reads _ s (le_n _)) as (t & _ & R). exists t. split; [assumption|]. intros t' R'. symmetry. now apply (reads_fun s).
Qed.
Print Assumptions C52_reading_is_unique.

(** How the output was cut into records, the streams and the version of Python do not
    matter. *)
Theorem C52_cutting_does_not_matter v v' l l' :
  concat (map io_data l) = concat (map io_data l') -> flat_text v l = flat_text v' l'.
Proof.
  intros E. apply C52_flat_text. destruct (flat_full v' l') as (t & R & E'). exists t. rewrite E. split; [assumption|].
  apply remove_controls_spec. now symmetry.
Qed.
Print Assumptions C52_cutting_does_not_matter.

(** A job that writes a text in UTF-8: that text is shown, however it was cut. *)
Theorem C52_text_is_shown v l t u : Forall scalar t -> concat (map io_data l) = utf8_text t ->
  flat_text v l = u <-> without_controls t u.
Proof.
  intros F E. rewrite C52_flat_text, E. split.
  - intros (t' & R & W). rewrite (reads_fun _ _ (reads_utf8 t F) _ R). assumption.
  - intros W. exists t. split; [now apply reads_utf8|assumption].
Qed.
Print Assumptions C52_text_is_shown.

(** Nothing but control characters is left out: the text of the log is as long as the
    bytes it was read from are characters or replacements. *)
Theorem C52_no_controls v l c : In c (flat_text v l) -> ~ dropped c.
Proof.
  destruct (flat_full v l) as (t & _ & ->). intros I D. apply control_dropped in D.
  unfold remove_controls in I. apply filter_In in I as [_ I]. rewrite D in I. discriminate.
Qed.
Print Assumptions C52_no_controls.

Lemma stdout_concat l : concat (map io_data (filter is_stdout l)) = stdout_of l.
Proof.
  induction l as [|r l IH]; [reflexivity|]. cbn [filter stdout_of]. unfold is_stdout at 1.
  destruct (io_stream r) as [| | |st| |]; auto. destruct (list_eq_dec ascii_dec st (T "stdout")) as [->|D].
  - rewrite (proj2 (text_eqb_eq _ _) eq_refl). cbn [map concat]. now rewrite IH.
  - apply text_eqb_neq in D. rewrite D. assumption.
Qed.

(** A text attachment is what the standard output says if that is a text, otherwise
    nothing. *)
Theorem C52_text_attachment v l :
  (forall t u, Forall scalar t -> stdout_of l = utf8_text t -> (text_attachment v l = u <-> without_controls t u)) /\
  ((forall t, Forall scalar t -> stdout_of l <> utf8_text t) -> text_attachment v l = []).
Proof.
  pose proof (iterdecode_full v true (map io_data (filter is_stdout l)) []) as H. cbn [app] in H. rewrite stdout_concat in H.
  destruct (full_strict _ (stdout_of l) (le_n _)) as [A B]. unfold text_attachment.
  destruct (iterdecode v true [] (map io_data (filter is_stdout l))) as [ts|].
  - cbn [option_map] in H. symmetry in H. destruct (A _ H) as [F E]. split.
    + intros t u Ft Et. rewrite remove_controls_concat.
      replace t with (concat ts); [apply remove_controls_spec|].
      apply (reads_fun (stdout_of l)); [rewrite <- E|rewrite Et]; now apply reads_utf8.
    + intros N. exfalso. apply (N _ F). now symmetry.
  - symmetry in H. specialize (B H). split; [|reflexivity].
    intros t u F E. exfalso. apply (B t F). now symmetry.
Qed.
Print Assumptions C52_text_attachment.

(** What is written in UTF-8 can be read. *)
Theorem C52_utf8_is_injective t t' : Forall scalar t -> Forall scalar t' -> utf8_text t = utf8_text t' -> t = t'.
Proof.
  intros F F' E. apply (reads_fun (utf8_text t)); [now apply reads_utf8|]. rewrite E. now apply reads_utf8.
Qed.
Print Assumptions C52_utf8_is_injective.

(** ** Examples *)

Definition out (s : string) (d : list nat) : iorecord := mk_iorecord (JNum (T "0")) (JStr (T s)) (map ascii_of_nat d).
(** A euro sign in two records, an escape character, a byte that is nothing and the
    beginning of a character at the end. *)
Example flat_example : flat_text true [out "stdout" [226; 130]; out "stderr" [172; 27; 65]; out "stdout" [255; 10; 240; 159]]%nat
  = [8364; 65; 65533; 10; 65533].
Proof. vm_compute. reflexivity. Qed.
Example attachment_example : text_attachment true [out "stdout" [226; 130]; out "stderr" [255]; out "stdout" [172; 10]]%nat = [8364; 10].
Proof. vm_compute. reflexivity. Qed.
Example attachment_broken : text_attachment true [out "stdout" [226; 130]; out "stdout" [65; 10]]%nat = [].
Proof. vm_compute. reflexivity. Qed.
Example scalars : Forall scalar [8364; 65; 128512].
Proof. unfold scalar. repeat constructor; lia. Qed.
