(** * Theorems about reading in chunks and restricted views (C109) *)
From Coq Require Import List Bool Arith Lia.
From Verif Require Import HelpersModel.
Import ListNotations.

(** ** Specification *)

(** The value of an attribute when some may be written and others not *)
Fixpoint last_written (may : nat -> bool) (n : nat) (l : list access) (first : option nat) : option nat :=
  match l with
  | [] => first
  | Write m v :: r => last_written may n r (if Nat.eqb m n && may m then Some v else first)
  | Read _ :: r => last_written may n r first
  end.

(** ** Chunks *)
Lemma fetch_stops : forall count rem, fetch count rem Stops = (inr (firstn count rem), skipn count rem).
Proof.
  induction count as [|c IH]; intros rem; cbn; [reflexivity|]. destruct rem as [|v r]; [reflexivity|]. now rewrite IH.
Qed.
Lemma fetch_raises x : forall count rem, fetch count rem (Raises x) =
  if Nat.leb count (length rem) then (inr (firstn count rem), skipn count rem) else (inl x, []).
Proof.
  induction count as [|c IH]; intros rem; cbn; [reflexivity|]. destruct rem as [|v r]; [reflexivity|]. cbn. rewrite IH.
  now destruct (Nat.leb c (length r)).
Qed.
Lemma grows count factor max_chunk : 1 <= count -> 1 <= factor -> 1 <= max_chunk -> 1 <= Nat.min (count * factor) max_chunk.
Proof. intros A B C. apply Nat.min_glb; [|exact C]. nia. Qed.
Lemma some_first count (rem : list nat) : 1 <= count -> firstn count rem = [] -> rem = [].
Proof. destruct count; [lia|]. destruct rem; [reflexivity|discriminate]. Qed.

(** ** C109 *)

(** Going through an iterator of the other side in chunks gives exactly its elements in order, for any sizes of chunks, in
    at most one request for each element and one more *)
Theorem C109_all_elements chunk max_chunk factor : 1 <= chunk -> 1 <= max_chunk -> 1 <= factor ->
  forall rem, exists asked, buffiter (S (length rem)) chunk max_chunk factor rem Stops = inr (Some (rem, None, asked)) /\
    length asked <= S (length rem).
Proof.
  intros C M F rem. unfold buffiter. destruct (Nat.ltb_spec factor 1); [lia|].
  assert (K : forall fuel rem count, length rem < fuel -> 1 <= count -> exists asked,
    rounds fuel count max_chunk factor rem Stops = Some (rem, None, asked) /\ length asked <= S (length rem)).
  { clear rem. induction fuel as [|f IH]; intros rem count L CO; [lia|]. cbn [rounds]. rewrite fetch_stops.
    destruct (firstn count rem) as [|v l] eqn:E.
    - apply some_first in E; [|exact CO]. subst. exists [count]. split; [reflexivity|cbn; lia].
    - assert (LE : length (skipn count rem) < length rem).
      { rewrite skipn_length. assert (length rem <> 0) by (destruct rem; [rewrite firstn_nil in E; discriminate|discriminate]). lia. }
      destruct (IH (skipn count rem) (Nat.min (count * factor) max_chunk)) as [asked [R A]]; [lia|now apply grows|].
      rewrite R, <- E, firstn_skipn. exists (count :: asked). split; [reflexivity|cbn; lia]. }
  destruct (K (S (length rem)) rem chunk) as [asked [R A]]; [lia|exact C|]. exists asked. now rewrite R.
Qed.
(** No request asks for more than the first chunk or the greatest one *)
Theorem C109_chunks_are_bounded fuel chunk max_chunk factor rem e l x asked :
  buffiter fuel chunk max_chunk factor rem e = inr (Some (l, x, asked)) ->
  forall n, In n asked -> n <= Nat.max chunk max_chunk.
Proof.
  unfold buffiter. destruct (Nat.ltb factor 1); [discriminate|]. intros E. injection E as E. revert chunk rem l x asked E.
  induction fuel as [|f IH]; intros count rem l x asked E; cbn in E; [discriminate|].
  destruct (fetch count rem e) as [[y|[|v l0]] r].
  - injection E as <- <- <-. intros n [<-|[]]. lia.
  - injection E as <- <- <-. intros n [<-|[]]. lia.
  - destruct (rounds f _ _ _ r e) as [[[l' y] a']|] eqn:R; [|discriminate]. injection E as <- <- <-.
    intros n [<-|I]; [lia|]. specialize (IH _ _ _ _ _ R n I). lia.
Qed.
(** When the iterator raises an exception, that exception comes and the elements before it are given, but for the last
    ones: fewer than a chunk *)
Theorem C109_exception chunk max_chunk factor x : 1 <= chunk -> 1 <= max_chunk -> 1 <= factor ->
  forall rem, exists given lost asked,
    buffiter (S (length rem)) chunk max_chunk factor rem (Raises x) = inr (Some (given, Some x, asked)) /\
    rem = given ++ lost /\ length lost < Nat.max chunk max_chunk.
Proof.
  intros C M F rem. unfold buffiter. destruct (Nat.ltb_spec factor 1); [lia|].
  assert (K : forall fuel rem count, length rem < fuel -> 1 <= count -> exists given lost asked,
    rounds fuel count max_chunk factor rem (Raises x) = Some (given, Some x, asked) /\ rem = given ++ lost /\
    length lost < Nat.max count max_chunk).
  { clear rem. induction fuel as [|f IH]; intros rem count L CO; [lia|]. cbn [rounds]. rewrite fetch_raises.
    destruct (Nat.leb_spec count (length rem)) as [LE|LT].
    - destruct (firstn count rem) as [|v l] eqn:E.
      { apply some_first in E; [|exact CO]. subst. cbn in LE. lia. }
      destruct (IH (skipn count rem) (Nat.min (count * factor) max_chunk)) as [g [lo [a [R [A B]]]]].
      { rewrite skipn_length. lia. }
      { now apply grows. }
      rewrite R. exists ((v :: l) ++ g), lo, (count :: a). split; [reflexivity|]. split.
      + rewrite <- E, <- app_assoc, <- A. symmetry. apply firstn_skipn.
      + lia.
    - exists [], rem, [count]. split; [reflexivity|]. split; [reflexivity|]. lia. }
  destruct (K (S (length rem)) rem chunk) as [g [lo [a [R [A B]]]]]; [lia|exact C|]. exists g, lo, a. now rewrite R.
Qed.
(** Refuted: that all elements before an exception are given, as they are without chunks; and that any size of the first
    chunk will do: with 0 nothing is given *)
Theorem C109_elements_before_exception_refuted :
  ~ (forall chunk max_chunk factor x rem, 1 <= chunk -> 1 <= max_chunk -> 1 <= factor ->
     exists asked, buffiter (S (length rem)) chunk max_chunk factor rem (Raises x) = inr (Some (rem, Some x, asked))).
Proof.
  intros H. destruct (H 10 1000 2 7 [1; 2; 3]) as [asked E]; [lia..|]. vm_compute in E. discriminate.
Qed.
Theorem C109_chunk_zero_refuted max_chunk factor rem : 1 <= factor ->
  buffiter (S (length rem)) 0 max_chunk factor rem Stops = inr (Some ([], None, [0])).
Proof. intros F. unfold buffiter. destruct (Nat.ltb_spec factor 1); [lia|]. reflexivity. Qed.

(** Through a restricted view the attributes that may not be written never change and the others have the value last
    written *)
Theorem C109_view_writes attrs wattrs : forall l obj n,
  fst (through_all attrs wattrs l obj) n =
  last_written (fun m => existsb (Nat.eqb m) (match wattrs with None => attrs | Some w => w end)) n l (obj n).
Proof.
  induction l as [|a l IH]; intros obj n; [reflexivity|]. cbn [through_all last_written].
  destruct a as [m|m v]; cbn [through].
  - specialize (IH obj n). destruct (through_all attrs wattrs l obj). exact IH.
  - unfold mem. destruct (existsb (Nat.eqb m) _) eqn:B.
    + specialize (IH (fun k => if Nat.eqb k m then Some v else obj k) n).
      destruct (through_all attrs wattrs l _). cbn in *. rewrite IH. rewrite (Nat.eqb_sym m n).
      now destruct (Nat.eqb n m).
    + specialize (IH obj n). destruct (through_all attrs wattrs l obj). cbn in *. rewrite IH, andb_false_r. reflexivity.
Qed.
(** Reading gives the value of the attribute when it may be read and nothing else otherwise, whatever was done before *)
Theorem C109_view_reads attrs wattrs before n obj :
  snd (through attrs wattrs (Read n) (fst (through_all attrs wattrs before obj))) =
  match last_written (fun m => existsb (Nat.eqb m) (match wattrs with None => attrs | Some w => w end)) n before (obj n) with
  | Some v => if existsb (Nat.eqb n) attrs then Value v else NoAttribute
  | None => NoAttribute
  end.
Proof.
  cbn [through snd]. rewrite C109_view_writes. unfold mem. destruct (last_written _ n before (obj n)); now destruct (existsb _ attrs).
Qed.
Theorem C109_view_secret attrs wattrs n before : forall obj obj', existsb (Nat.eqb n) attrs = false ->
  (forall m, m <> n -> obj m = obj' m) ->
  snd (through_all attrs wattrs before obj) = snd (through_all attrs wattrs before obj').
Proof.
  induction before as [|a l IH]; intros obj obj' N H; [reflexivity|]. cbn [through_all].
  destruct a as [m|m v]; cbn [through].
  - specialize (IH obj obj' N H). destruct (through_all attrs wattrs l obj), (through_all attrs wattrs l obj'). cbn in *.
    f_equal; [|exact IH]. unfold mem. destruct (existsb (Nat.eqb m) attrs) eqn:B; [|reflexivity].
    rewrite H; [reflexivity|]. intros ->. congruence.
  - destruct (mem m _) eqn:B.
    + assert (H' : forall k, k <> n -> (if Nat.eqb k m then Some v else obj k) = (if Nat.eqb k m then Some v else obj' k)).
      { intros k D. destruct (Nat.eqb k m); auto. }
      specialize (IH _ _ N H'). destruct (through_all attrs wattrs l _), (through_all attrs wattrs l _). cbn in *. now f_equal.
    + specialize (IH obj obj' N H). destruct (through_all attrs wattrs l obj), (through_all attrs wattrs l obj'). cbn in *. now f_equal.
Qed.
Print Assumptions C109_all_elements.
Print Assumptions C109_chunks_are_bounded.
Print Assumptions C109_exception.
Print Assumptions C109_elements_before_exception_refuted.
Print Assumptions C109_chunk_zero_refuted.
Print Assumptions C109_view_writes.
Print Assumptions C109_view_reads.
Print Assumptions C109_view_secret.
Example C109_case_chunks :
  buffiter 8 2 5 2 [1; 2; 3; 4; 5; 6; 7] Stops = inr (Some ([1; 2; 3; 4; 5; 6; 7], None, [2; 4; 5; 5])) /\
  buffiter 8 2 5 2 [1; 2; 3; 4; 5; 6; 7] (Raises 9) = inr (Some ([1; 2; 3; 4; 5; 6], Some 9, [2; 4; 5])) /\
  buffiter 8 2 5 0 [1] Stops = inl tt.
Proof. repeat split. Qed.
Example C109_case_view :
  snd (through_all [1; 2] (Some [2; 3]) [Write 1 9; Read 1; Write 2 8; Read 2; Write 3 7; Read 3; Read 4] (fun n => Some n)) =
    [NoAttribute; Value 1; Done; Value 8; Done; NoAttribute; NoAttribute] /\
  snd (through_all [1; 2] None [Write 1 9; Read 1; Write 3 7] (fun n => Some n)) = [Done; Value 9; NoAttribute].
Proof. repeat split. Qed.
