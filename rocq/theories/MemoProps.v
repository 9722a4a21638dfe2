(** * Theorems about methods and properties that remember what they gave (C107) *)
From Coq Require Import List Bool Arith Lia.
From Verif Require Import MemoModel.
Import ListNotations.

(** ** Specification *)

(** What reading an attribute gives when the first value it comes to is kept and exceptions are not *)
Fixpoint kept (eval : nat -> nat + nat) (l : list nat) (first : option nat) : list (nat + nat) :=
  match l with
  | [] => []
  | w :: l' => match first with
               | Some v => inr v :: kept eval l' first
               | None => eval w :: kept eval l' (match eval w with inr v => Some v | inl _ => None end)
               end
  end.
(** The same for a method, for each value of its arguments by itself *)
Fixpoint kept_each (eval : nat -> nat -> nat + nat) (l : list (nat * nat)) (first : nat -> option nat) : list (nat + nat) :=
  match l with
  | [] => []
  | (w, a) :: l' =>
      match first a with
      | Some v => inr v :: kept_each eval l' first
      | None => eval w a :: kept_each eval l'
                  (match eval w a with inr v => fun b => if Nat.eqb b a then Some v else first b | inl _ => first end)
      end
  end.
(** What the implementations come to when nothing is remembered *)
Fixpoint plainly (classes : list impl) (w a : nat) : nat + nat :=
  match classes with
  | [] => inl 0
  | f :: rest => if above f then match plainly rest w a with inl x => inl x | inr v => body f w a (Some v) end
                 else body f w a None
  end.
(** An implementation that calls the one above does not raise after that *)
Definition steady (f : impl) : Prop := above f = true -> forall w a b, exists v, body f w a b = inr v.

(** ** C107 *)
Lemma compute_value : forall classes w st, snd (compute w classes st) = plainly classes w 0.
Proof.
  induction classes as [|f rest IH]; intros w st; cbn; [reflexivity|]. destruct (above f).
  - specialize (IH w st). destruct (compute w rest st) as [s [x|v]]; cbn in IH; rewrite <- IH; [reflexivity|].
    now destruct (body f w 0 (Some v)).
  - now destruct (body f w 0 None).
Qed.
Lemma compute_entry : forall classes w, Forall steady classes ->
  fst (compute w classes None) = match plainly classes w 0 with inr v => Some v | inl _ => None end.
Proof.
  induction classes as [|f rest IH]; intros w S; cbn; [reflexivity|]. inversion S as [|? ? S1 S2]; subst.
  destruct (above f) eqn:A.
  - pose proof (compute_value rest w None) as V. specialize (IH w S2). destruct (compute w rest None) as [s [x|v]]; cbn in *; rewrite <- V in *.
    + exact IH.
    + destruct (S1 A w 0 (Some v)) as [u ->]. reflexivity.
  - now destruct (body f w 0 None).
Qed.
(** A cached property gives the first value it comes to forever and does not remember exceptions, also when classes
    extend those above; provided nothing raises after it was given the value of the class above *)
Theorem C107_property classes l : Forall steady classes ->
  reads classes l None = kept (fun w => plainly classes w 0) l None.
Proof.
  intros S.
  assert (K : forall l v, reads classes l (Some v) = kept (fun w => plainly classes w 0) l (Some v)).
  { induction l0 as [|w l0 IH]; intros v; cbn; [reflexivity|]. now rewrite IH. }
  induction l as [|w l IH]; cbn; [reflexivity|].
  pose proof (compute_value classes w None) as V. pose proof (compute_entry classes w S) as E.
  destruct (compute w classes None) as [st r]. cbn in V, E. subst r st. f_equal.
  destruct (plainly classes w 0) as [x|v]; [exact IH|apply K].
Qed.
(** Refuted: the same when one raises then. The value of the class above stays and is given from then on *)
Definition picky : impl := mk_impl true (fun w _ b => match b with Some v => if Nat.eqb w 0 then inl 7 else inr (v + 100) | None => inl 8 end).
Definition simple : impl := mk_impl false (fun _ a _ => inr (1 + a)).
Theorem C107_property_after_error_refuted :
  ~ (forall classes l, reads classes l None = kept (fun w => plainly classes w 0) l None).
Proof. intros H. specialize (H [picky; simple] [0; 1]). vm_compute in H. discriminate. Qed.

(** A cached method whose implementation calls none above gives for each value of its arguments the first value it came
    to, forever, and does not remember exceptions *)
Theorem C107_method f rest l : above f = false ->
  calls (f :: rest) l fresh = kept_each (plainly (f :: rest)) l (fun _ => None).
Proof.
  intros A.
  assert (P : forall w a, plainly (f :: rest) w a = body f w a None) by (intros w a; cbn; now rewrite A).
  assert (K : forall l known first, (forall b, assoc b known = first b) ->
    calls (f :: rest) l (mk_inst [(f :: rest, known)] (Some 0)) = kept_each (plainly (f :: rest)) l first).
  { clear l. induction l as [|[w a] l IH]; intros known first H; [reflexivity|].
    cbn [calls call current heap nth_error kept_each]. rewrite H. destruct (first a) as [v|] eqn:F.
    - f_equal. now apply IH.
    - rewrite A. cbn [heap current]. rewrite P. destruct (body f w a None) as [x|v]; f_equal.
      + now apply IH.
      + cbn [remember]. apply IH. intros b. cbn. now rewrite H. }
  destruct l as [|[w a] l]; [reflexivity|].
  cbn [calls call current fresh factory heap length app kept_each]. rewrite A, P. cbn [heap current].
  destruct (body f w a None) as [x|v]; f_equal; cbn [remember]; apply K; intros b; reflexivity.
Qed.
(** Each instance remembers by itself: what an instance gives is what it would give if it were alone *)
Theorem C107_instances_apart classes o : forall l sts,
  map snd (filter (fun x => Nat.eqb o (fst x)) (calls_on classes l sts)) =
  calls (classes o) (map snd (filter (fun x => Nat.eqb o (fst x)) l)) (sts o).
Proof.
  induction l as [|[p x] l IH]; intros sts; [reflexivity|]. cbn [calls_on filter fst].
  destruct (call (classes p) x (sts p)) as [st r] eqn:E. cbn [filter fst]. destruct (Nat.eqb_spec o p) as [->|N].
  - cbn [map snd calls]. rewrite E, IH, Nat.eqb_refl. reflexivity.
  - rewrite IH. destruct (Nat.eqb_spec o p); [contradiction|reflexivity].
Qed.
(** But when a cached method calls that of the class above, which is cached too, it is itself called once: from then on
    the instance gives what the class above gives *)
Theorem C107_override_is_lost f g rest w a l :
  above f = true -> above g = false ->
  calls (f :: g :: rest) ((w, a) :: l) fresh =
    plainly (f :: g :: rest) w a ::
    kept_each (plainly (g :: rest)) l
      (match body g w a None with inr v => fun b => if Nat.eqb b a then Some v else None | inl _ => fun _ => None end).
Proof.
  intros A B.
  assert (P : forall w a, plainly (g :: rest) w a = body g w a None) by (intros w' a'; cbn; now rewrite B).
  assert (K : forall l known junk first, (forall b, assoc b known = first b) ->
    calls (f :: g :: rest) l (mk_inst [junk; (g :: rest, known)] (Some 1)) = kept_each (plainly (g :: rest)) l first).
  { clear l. induction l as [|[w' a'] l IH]; intros known junk first H; [reflexivity|].
    cbn [calls call current heap nth_error kept_each]. rewrite H. destruct (first a') as [v|] eqn:F.
    - f_equal. now apply IH.
    - rewrite B. cbn [heap current]. rewrite P. destruct (body g w' a' None) as [x|v]; f_equal.
      + now apply IH.
      + destruct junk as [jc jl]. cbn [remember]. apply IH. intros b. cbn. now rewrite H. }
  assert (Q : plainly (f :: g :: rest) w a = match body g w a None with inl x => inl x | inr v => body f w a (Some v) end).
  { rewrite <- P. cbn [plainly]. now rewrite A. }
  rewrite Q. cbn [calls call current fresh factory heap length app]. rewrite A, B. cbn [heap current length app].
  destruct (body g w a None) as [x|v].
  - cbn [heap current remember]. f_equal. apply K. reflexivity.
  - cbn [heap current remember]. destruct (body f w a (Some v)) as [x|u]; f_equal; cbn [heap current remember];
      apply K; intros b; cbn; now destruct (Nat.eqb b a).
Qed.
(** Refuted: that a cached method gives the same again for the same arguments in an unchanged world *)
Theorem C107_method_repeats_refuted :
  ~ (forall classes w a v l, calls classes [(w, a); (w, a)] fresh = inr v :: l -> l = [inr v]).
Proof.
  intros H. specialize (H [mk_impl true (fun _ _ b => match b with Some v => inr (v + 100) | None => inl 8 end); simple] 0 0 101 _ eq_refl).
  discriminate.
Qed.
Print Assumptions C107_property.
Print Assumptions C107_property_after_error_refuted.
Print Assumptions C107_method.
Print Assumptions C107_instances_apart.
Print Assumptions C107_override_is_lost.
Print Assumptions C107_method_repeats_refuted.
(** A property that raises at first, then gives 11, then would give 12; extended by one that adds 100 *)
Definition moody : impl := mk_impl false (fun w a _ => if Nat.eqb w 0 then inl 3 else inr (10 + w + a)).
Definition extending : impl := mk_impl true (fun _ _ b => match b with Some v => inr (v + 100) | None => inr 0 end).
Example C107_case_property : Forall steady [extending; moody] /\
  reads [extending; moody] [0; 1; 2; 0] None = [inl 3; inr 111; inr 111; inr 111].
Proof.
  split; [|reflexivity]. repeat constructor; unfold steady; cbn; [|discriminate].
  intros _ w a b. destruct b; eauto.
Qed.
Example C107_case_method :
  calls [moody] [(0, 5); (1, 5); (2, 5); (2, 6); (3, 6); (0, 5)] fresh = [inl 3; inr 16; inr 16; inr 18; inr 18; inr 16].
Proof. reflexivity. Qed.
Example C107_case_override : calls [extending; moody] [(1, 5); (1, 5); (2, 6)] fresh = [inr 116; inr 16; inr 18].
Proof. reflexivity. Qed.
