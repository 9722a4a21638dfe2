(** * IO logs: what was written is what is read (C25) *)

From Coq Require Import Ascii String List Bool Arith Lia ZArith ZifyNat.
From Verif Require Import ScanModel Rfc822Model JsonModel JsonProofs IologModel.
Import ListNotations.
Local Open Scope nat_scope.
Local Open Scope list_scope.

(** ** Base64 *)

Lemma b64char_value n : n < 64 -> b64value (b64char n) = Some n /\ (nat_of_ascii (b64char n) =? 61) = false.
Proof.
  intros H. do 64 (destruct n as [|n]; [split; reflexivity|]). lia.
Qed.

Lemma b64char_ascii n : n < 64 -> (nat_of_ascii (b64char n) <? 128) = true.
Proof.
  intros H. do 64 (destruct n as [|n]; [reflexivity|]). lia.
Qed.

Lemma ch_nat c : ch (nat_of_ascii c) = c.
Proof. apply ascii_nat_embedding. Qed.

Lemma byte_bound c : nat_of_ascii c < 256.
Proof. apply nat_ascii_bounded. Qed.

Ltac divmod := zify; Z.to_euclidean_division_equations; lia.

Lemma scan_char quad left n t : n < 64 ->
  b64scan quad left 0 (b64char n :: t) =
  match quad with
  | 0 => b64scan 1 n 0 t
  | 1 => option_map (cons (ch (left * 4 + n / 16))) (b64scan 2 (n mod 16) 0 t)
  | 2 => option_map (cons (ch (left * 16 + n / 4))) (b64scan 3 (n mod 4) 0 t)
  | _ => option_map (cons (ch (left * 64 + n))) (b64scan 0 0 0 t)
  end.
Proof.
  intros H. destruct (b64char_value n H) as [V P]. cbn [b64scan]. rewrite P, V. reflexivity.
Qed.

Lemma triple_induction (P : bytes -> Prop) :
  P [] -> (forall a, P [a]) -> (forall a b, P [a; b]) ->
  (forall a b c r, P r -> P (a :: b :: c :: r)) -> forall l, P l.
Proof.
  intros H0 H1 H2 H3. fix go 1. intros [|a [|b [|c r]]]; [exact H0|apply H1|apply H2|].
  apply H3, go.
Qed.

Theorem b64_round_trip data : b64decode (b64encode data) = Some data.
Proof.
  unfold b64decode. induction data as [|a|a b|a b c r IH] using triple_induction.
  - reflexivity.
  - cbn [b64encode]. assert (A := byte_bound a). set (x := nat_of_ascii a) in *.
    rewrite scan_char by divmod. rewrite scan_char by divmod.
    replace (x / 4 * 4 + x mod 4 * 16 / 16) with x by divmod.
    cbn. unfold x. rewrite ch_nat. reflexivity.
  - cbn [b64encode]. assert (A := byte_bound a). assert (B := byte_bound b).
    set (x := nat_of_ascii a) in *. set (y := nat_of_ascii b) in *.
    rewrite scan_char by divmod. rewrite scan_char by divmod. rewrite scan_char by divmod.
    replace (x / 4 * 4 + (x mod 4 * 16 + y / 16) / 16) with x by divmod.
    replace ((x mod 4 * 16 + y / 16) mod 16 * 16 + y mod 16 * 4 / 4) with y by divmod.
    cbn. unfold x, y. rewrite !ch_nat. reflexivity.
  - cbn [b64encode].
    assert (A := byte_bound a). assert (B := byte_bound b). assert (C := byte_bound c).
    set (x := nat_of_ascii a) in *. set (y := nat_of_ascii b) in *. set (z := nat_of_ascii c) in *.
    rewrite scan_char by divmod. rewrite scan_char by divmod. rewrite scan_char by divmod.
    rewrite scan_char by divmod.
    replace (x / 4 * 4 + (x mod 4 * 16 + y / 16) / 16) with x by divmod.
    replace ((x mod 4 * 16 + y / 16) mod 16 * 16 + (y mod 16 * 4 + z / 64) / 4) with y by divmod.
    replace ((y mod 16 * 4 + z / 64) mod 4 * 64 + z mod 64) with z by divmod.
    rewrite IH. unfold x, y, z. cbn. rewrite !ch_nat. reflexivity.
Qed.

Lemma b64_ascii data : encode_ascii (b64encode data) = Some (b64encode data).
Proof.
  unfold encode_ascii.
  enough (H : forallb (fun c => nat_of_ascii c <? 128) (b64encode data) = true)
    by (rewrite H; reflexivity).
  induction data as [|a|a b|a b c r IH] using triple_induction.
  - reflexivity.
  - assert (A := byte_bound a). cbn [b64encode forallb].
    rewrite !b64char_ascii by divmod. reflexivity.
  - assert (A := byte_bound a). assert (B := byte_bound b). cbn [b64encode forallb].
    rewrite !b64char_ascii by divmod. reflexivity.
  - assert (A := byte_bound a). assert (B := byte_bound b). assert (C := byte_bound c).
    cbn [b64encode forallb]. rewrite !b64char_ascii by divmod. exact IH.
Qed.

(** ** Lines *)

Lemma stream_lines_acc t : forall acc rest, ~ In NL t ->
  stream_lines_aux acc (t ++ NL :: rest) = (rev acc ++ t ++ [NL]) :: stream_lines_aux [] rest.
Proof.
  induction t as [|c t IH]; intros acc rest H.
  - cbn [app stream_lines_aux]. rewrite Ascii.eqb_refl. cbn [rev]. reflexivity.
  - cbn [app stream_lines_aux]. destruct (Ascii.eqb_spec c NL) as [->|N].
    + exfalso. apply H. left. reflexivity.
    + rewrite IH by (intros K; apply H; right; exact K). cbn [rev].
      rewrite <- app_assoc. reflexivity.
Qed.

Lemma stream_lines_line t rest : ~ In NL t ->
  stream_lines (t ++ NL :: rest) = (t ++ [NL]) :: stream_lines rest.
Proof. intros H. unfold stream_lines. rewrite stream_lines_acc by exact H. reflexivity. Qed.

Lemma stream_lines_last t : forall acc, ~ In NL t ->
  stream_lines_aux acc t = match rev acc ++ t with [] => [] | l => [l] end.
Proof.
  induction t as [|c t IH]; intros acc H.
  - cbn [stream_lines_aux]. rewrite app_nil_r. destruct acc as [|a acc]; [reflexivity|].
    destruct (rev (a :: acc)) as [|x y] eqn:E; [|reflexivity].
    apply (f_equal (@length _)) in E. rewrite rev_length in E. discriminate.
  - cbn [stream_lines_aux]. destruct (Ascii.eqb_spec c NL) as [->|N].
    + exfalso. apply H. left. reflexivity.
    + rewrite IH by (intros K; apply H; right; exact K). cbn [rev]. rewrite <- app_assoc. reflexivity.
Qed.

(** ** One record *)

(** The delay and the stream name are values that JSON can hold. *)
Definition storable (r : iorecord) : Prop := good (io_delay r) /\ good (io_stream r).

Definition record_json (r : iorecord) : json :=
  JList [io_delay r; io_stream r; JStr (b64encode (io_data r))].

Lemma record_good r : storable r -> good (record_json r).
Proof.
  intros [D S']. constructor. intros v [<-|[<-|[<-|[]]]]; auto. constructor.
Qed.

Lemma loads_blank t v : parse_value (S (length t)) t = Some (v, []) ->
  ended v [] -> loads (t ++ [NL]) = Some v.
Proof.
  intros P E. unfold loads.
  apply (proj1 (parse_more _) _ [NL]) in P; auto.
  rewrite (parse_value_fuel _ (S (length (t ++ [NL]))) _ _) with (2 := P).
  - reflexivity.
  - rewrite app_length. lia.
Qed.

Lemma parse_value_dumps v : good v -> parse_value (S (length (dumps v))) (dumps v) = Some (v, []).
Proof.
  intros G. assert (A := dumps_reads v G (S (length (dumps v))) []).
  rewrite app_nil_r in A. apply A; [lia|]. apply needs_end_close. exact I.
Qed.

Lemma parse_written r : storable r ->
  parse_record (write_record r) = Some r /\ parse_record (dumps (record_json r)) = Some r.
Proof.
  intros S'. apply record_good in S'.
  unfold parse_record, write_record. fold (record_json r).
  rewrite (loads_blank _ (record_json r)) by (try exact I; apply parse_value_dumps, S').
  rewrite loads_dumps by exact S'. unfold record_json. cbv beta iota zeta.
  rewrite b64_ascii, b64_round_trip. destruct r; auto.
Qed.

Lemma read_written rs : forall rest, Forall storable rs ->
  read_log (write_log rs ++ rest) =
  let (rs', e) := read_log rest in (rs ++ rs', e).
Proof.
  intros rest F. unfold read_log, write_log. induction F as [|r rs S' F IH].
  - cbn. destruct (read_lines (stream_lines rest)); reflexivity.
  - cbn [map concat]. unfold write_record at 1. fold (record_json r).
    rewrite <- !app_assoc. cbn [app].
    rewrite stream_lines_line by (apply dumps_one_line, record_good, S').
    cbn [read_lines].
    change (dumps (record_json r) ++ [NL]) with (write_record r).
    rewrite (proj1 (parse_written r S')).
    rewrite IH. destruct (read_lines (stream_lines rest)); reflexivity.
Qed.

(** ** The property *)

(** Every sequence of records is read back exactly, and the iteration ends
    normally. *)
Theorem C25_round_trip rs : Forall storable rs -> read_log (write_log rs) = (rs, true).
Proof.
  intros F. rewrite <- (app_nil_r (write_log rs)), read_written by exact F.
  cbn. rewrite app_nil_r. reflexivity.
Qed.
Print Assumptions C25_round_trip.

(** Records appended later (by another writer on the same file) do not disturb the
    ones that are there. *)
Theorem C25_append rs rs' : Forall storable rs -> Forall storable rs' ->
  read_log (write_log rs ++ write_log rs') = (rs ++ rs', true).
Proof.
  intros F F'. rewrite read_written, C25_round_trip by assumption. reflexivity.
Qed.
Print Assumptions C25_append.

(** Every log has one line per record, so the reader never joins or splits records,
    whatever bytes the program printed. *)
Theorem C25_one_line_each rs : Forall storable rs ->
  stream_lines (write_log rs) = map write_record rs /\
  forall r, In r rs -> exists t, write_record r = t ++ [NL] /\ ~ In NL t.
Proof.
  intros F. split.
  - unfold write_log. induction F as [|r rs S' F IH]; [reflexivity|].
    cbn [map concat]. unfold write_record at 1 3. fold (record_json r).
    rewrite <- !app_assoc. cbn [app].
    rewrite stream_lines_line by (apply dumps_one_line, record_good, S').
    rewrite IH. reflexivity.
  - intros r I'. rewrite Forall_forall in F. exists (dumps (record_json r)). split; [reflexivity|].
    apply dumps_one_line, record_good, F, I'.
Qed.
Print Assumptions C25_one_line_each.

(** Different sequences of records have different files. *)
Theorem C25_injective rs rs' : Forall storable rs -> Forall storable rs' ->
  write_log rs = write_log rs' -> rs = rs'.
Proof.
  intros F F' E. apply C25_round_trip in F, F'. congruence.
Qed.
Print Assumptions C25_injective.

(** The third element of every line is ordinary base64 text of the data: it is made
    of ASCII characters and decodes to the data. *)
Theorem C25_base64 r : storable r ->
  exists b, loads (write_record r) = Some (JList [io_delay r; io_stream r; JStr b]) /\
            b64decode b = Some (io_data r) /\
            (forall c, In c b -> nat_of_ascii c < 128) /\
            length b = 4 * ((length (io_data r) + 2) / 3).
Proof.
  intros S'. exists (b64encode (io_data r)). split; [|split; [|split]].
  - apply loads_blank; [|exact I]. apply parse_value_dumps, record_good, S'.
  - apply b64_round_trip.
  - intros c C. assert (A := b64_ascii (io_data r)). unfold encode_ascii in A.
    destruct (forallb _ _) eqn:B in A; [|discriminate]. rewrite forallb_forall in B.
    apply Nat.ltb_lt, B, C.
  - clear S'. induction (io_data r) as [|a|a b|a b c d IH] using triple_induction; try reflexivity.
    cbn [b64encode length]. rewrite IH. divmod.
Qed.
Print Assumptions C25_base64.

(** A file that was cut anywhere (the program crashed while writing) is read as a
    prefix of the records, never as records that were not written.  Every record
    that was written completely is there. *)
Theorem C25_cut rs p q : Forall storable rs -> write_log rs = p ++ q ->
  exists n e, read_log p = (firstn n rs, e) /\
    (forall k, k <= length rs -> length (write_log (firstn k rs)) <= length p -> k <= n) /\
    length (write_log (firstn n rs)) <= S (length p).
Proof.
  intros F. revert p. induction F as [|r rs S' F IH]; intros p E.
  - cbn in E. symmetry in E. apply app_eq_nil in E as [-> _].
    exists 0, true. repeat split; cbn; intros; lia.
  - unfold write_log in E. cbn [map concat] in E. fold (write_log rs) in E.
    destruct (le_lt_dec (length (write_record r)) (length p)) as [L|L].
    + assert (P : p = write_record r ++ skipn (length (write_record r)) p).
      { apply (f_equal (firstn (length (write_record r)))) in E.
        rewrite firstn_app, firstn_all, Nat.sub_diag, app_nil_r in E.
        rewrite firstn_app in E.
        replace (length (write_record r) - length p) with 0 in E by lia.
        rewrite app_nil_r in E. rewrite E at 1. symmetry. apply firstn_skipn. }
      set (p' := skipn (length (write_record r)) p) in *.
      rewrite P, <- app_assoc in E. apply app_inv_head in E.
      destruct (IH p' E) as (n & e & R & K & B). exists (S n), e.
      assert (W : write_record r = write_log [r]) by (unfold write_log; cbn [map concat]; rewrite app_nil_r; reflexivity).
      rewrite P. split; [|split].
      * rewrite W, read_written by (constructor; [exact S'|constructor]).
        rewrite R. reflexivity.
      * intros [|k] H1 H2; [lia|]. apply le_n_S, K; [cbn in H1; lia|].
        cbn [firstn] in H2. unfold write_log in H2. cbn [map concat] in H2.
        rewrite !app_length in H2. fold (write_log (firstn k rs)) in H2. lia.
      * cbn [firstn]. unfold write_log. cbn [map concat].
        rewrite !app_length. fold (write_log (firstn n rs)). lia.
    + assert (G := record_good r S').
      assert (WL : write_record r = dumps (record_json r) ++ [NL]) by reflexivity.
      assert (PD : exists q', dumps (record_json r) = p ++ q').
      { exists (skipn (length p) (dumps (record_json r))).
        assert (X : firstn (length p) (write_record r ++ write_log rs) = p).
        { rewrite E, firstn_app, firstn_all, Nat.sub_diag, app_nil_r. reflexivity. }
        rewrite WL, <- app_assoc, firstn_app in X. rewrite WL, app_length in L. cbn [length] in L.
        replace (length p - length (dumps (record_json r))) with 0 in X by lia.
        cbn [firstn] in X. rewrite app_nil_r in X. rewrite <- X at 1. symmetry. apply firstn_skipn. }
      destruct PD as [q' D].
      assert (NN : ~ In NL p).
      { intros H. apply (dumps_one_line _ G). rewrite D. apply in_app_iff. auto. }
      assert (SL : stream_lines p = match p with [] => [] | l => [l] end)
        by (unfold stream_lines; rewrite stream_lines_last by exact NN; destruct p; reflexivity).
      unfold read_log. rewrite SL.
      destruct q' as [|c q'].
      * rewrite app_nil_r in D. exists 1, true. split; [|split].
        -- destruct p as [|d t]; [discriminate|]. cbn [read_lines].
           rewrite <- D, (proj2 (parse_written r S')). reflexivity.
        -- intros [|[|k]] H1 H2; try lia. exfalso.
           cbn [firstn] in H2. unfold write_log in H2. cbn [map concat] in H2.
           rewrite app_length in H2. lia.
        -- unfold write_log. cbn [firstn map concat]. rewrite app_nil_r, WL, app_length, D.
           cbn [length]. lia.
      * assert (LN : loads p = None) by (apply (loads_cut _ p (c :: q') G D); discriminate).
        exists 0, (match p with [] => true | _ => false end). split; [|split].
        -- destruct p as [|d p]; [reflexivity|]. cbn [read_lines]. unfold parse_record.
           rewrite LN. reflexivity.
        -- intros [|k] H1 H2; [lia|]. exfalso. cbn [firstn] in H2.
           unfold write_log in H2. cbn [map concat] in H2. rewrite app_length in H2. lia.
        -- cbn. lia.
Qed.
Print Assumptions C25_cut.

(** The standard test vectors of RFC 4648 and a log with awkward bytes. *)
Definition tx := list_ascii_of_string.
Example b64_vectors :
  map (fun s => string_of_list_ascii (b64encode (tx s))) ["" ; "f"; "fo"; "foo"; "foob"; "fooba"; "foobar"]%string
  = [""; "Zg=="; "Zm8="; "Zm9v"; "Zm9vYg=="; "Zm9vYmE="; "Zm9vYmFy"]%string.
Proof. vm_compute. reflexivity. Qed.
Definition sample : list iorecord :=
  [mk_iorecord (JNum (tx "0.125")) (JStr (tx "stdout")) (tx "hello" ++ [NL; ch 0; ch 255]);
   mk_iorecord (JNum (tx "1e-05")) (JStr [ch 34; ch 10; ch 233]) [];
   mk_iorecord (JNum (tx "2.0")) (JStr (tx "stderr")) [NL]].
Example sample_storable : Forall storable sample.
Proof. repeat constructor; discriminate. Qed.
Example sample_round_trip : read_log (write_log sample) = (sample, true).
Proof. vm_compute. reflexivity. Qed.
Example sample_text : string_of_list_ascii (write_record (hd (mk_iorecord JNull JNull []) sample))
  = String.append "[0.125,""stdout"",""aGVsbG8KAP8=""]" (String NL EmptyString).
Proof. vm_compute. reflexivity. Qed.
Example sample_cut : read_log (firstn 45 (write_log sample)) = (firstn 1 sample, false).
Proof. vm_compute. reflexivity. Qed.
