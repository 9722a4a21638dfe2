(** Theorems about format strings and templates: C34, C45. *)
From Coq Require Import String Ascii List Bool Arith Lia.
From Verif Require Import Base BaseFacts ResourceModel ResourceSpec ResourceProps
  FormatModel TemplateModel TemplateSpec.
Import ListNotations.
Local Open Scope string_scope.
Local Open Scope list_scope.

(** * Format strings *)

Lemma append_assoc a b c : String.append (String.append a b) c = String.append a (String.append b c).
Proof. induction a; simpl; congruence. Qed.
Lemma append_nil a : String.append a "" = a.
Proof. induction a; simpl; congruence. Qed.
Lemma snoc_append a c b : String.append (snoc a c) b = String.append a (String c b).
Proof. unfold snoc. rewrite append_assoc. reflexivity. Qed.

(** Literal text up to a brace. *)
Lemma parse_plain l : forall lit rest,
  (forall c, In c (list_ascii_of_string l) -> c <> LB /\ c <> RB) ->
  fparse_from (SLit lit) (String.append l rest) = fparse_from (SLit (String.append lit l)) rest.
Proof.
  induction l as [|c l IH]; intros lit rest H; simpl.
  - rewrite append_nil. reflexivity.
  - destruct (H c (or_introl eq_refl)) as [H1 H2].
    apply Ascii.eqb_neq in H1. apply Ascii.eqb_neq in H2. rewrite H1, H2. simpl.
    rewrite IH by (intros; apply H; now right). unfold snoc. rewrite append_assoc. reflexivity.
Qed.

Lemma no_braces_parse s : (forall c, In c (list_ascii_of_string s) -> c <> LB /\ c <> RB) ->
  fparse s = (match s with EmptyString => [] | _ => [(s, None)] end, true).
Proof.
  intros H. unfold fparse.
  pose proof (parse_plain s "" "" H) as P. rewrite append_nil in P. rewrite P. simpl.
  destruct s; reflexivity.
Qed.

Section Vformat.
Variable access : pval -> string -> option pval.
Variable conv1 : pval -> ascii -> option pval.
Variable fmt1 : pval -> string -> option string.
Notation vf := (vf access conv1 fmt1).
Notation vformat := (vformat access conv1 fmt1).
Notation get_field := (get_field access).
Notation convert_field := (convert_field conv1).

(** The loop of [vf], by itself. *)
Fixpoint vgo (d : nat) (params : dict pval) (ok : bool) (ps : list piece) (acc : string) : ferr + string :=
  match ps with
  | [] => if ok then inr acc else inl FValue
  | (lit, None) :: ps' => vgo d params ok ps' (String.append acc lit)
  | (lit, Some h) :: ps' =>
      match get_field (h_name h) params with
      | inl e => inl e
      | inr v =>
          match convert_field v (h_conv h) with
          | inl e => inl e
          | inr w =>
              match vf d (h_spec h) params with
              | inl e => inl e
              | inr spec =>
                  match fmt1 w spec with
                  | None => inl FValue
                  | Some t => vgo d params ok ps' (String.append acc (String.append lit t))
                  end
              end
          end
      end
  end.
Lemma vf_eq d s params : vf (S d) s params = vgo d params (snd (fparse s)) (fst (fparse s)) "".
Proof.
  simpl. destruct (fparse s) as [ps ok]. simpl. generalize "" as acc.
  induction ps as [|[lit [h|]] ps IH]; intros acc; simpl; try reflexivity; try apply IH.
  destruct (get_field (h_name h) params); [reflexivity|].
  destruct (convert_field p (h_conv h)); [reflexivity|].
  destruct (FormatModel.vf access conv1 fmt1 d (h_spec h) params); [reflexivity|].
  destruct (fmt1 p0 s0); [apply IH|reflexivity].
Qed.

Lemma vf_plain d s params : (forall c, In c (list_ascii_of_string s) -> c <> LB /\ c <> RB) ->
  vf (S d) s params = inr s.
Proof.
  intros H. rewrite vf_eq, (no_braces_parse s H). destruct s; reflexivity.
Qed.

Lemma first_part_plain n : (forall c, In c (list_ascii_of_string n) -> c <> "."%char /\ c <> "["%char) ->
  first_part n = (n, "").
Proof.
  induction n as [|c n IH]; intros H; simpl; [reflexivity|].
  destruct (H c (or_introl eq_refl)) as [H1 H2].
  apply Ascii.eqb_neq in H1. apply Ascii.eqb_neq in H2. rewrite H1, H2. simpl.
  rewrite IH by (intros; apply H; now right). reflexivity.
Qed.

(** Formatting only looks at the parameters that are named in the text, if its
    placeholders are simple. *)
Lemma vf_agree d s P Q :
  (forall h, placeholder s h -> simple_hole h /\ dget (h_name h) P = dget (h_name h) Q) ->
  vf d s P = vf d s Q.
Proof.
  destruct d as [|d]; [reflexivity|]. rewrite !vf_eq. unfold placeholder.
  destruct (fparse s) as [ps ok]. simpl. generalize "" as acc.
  induction ps as [|[lit [h|]] ps IH]; intros acc H; simpl; [reflexivity| |].
  - destruct (H h) as [[S1 S2] E]; [exists lit; now left|].
    replace (get_field (h_name h) P) with (get_field (h_name h) Q).
    2:{ unfold FormatModel.get_field. rewrite (first_part_plain _ S1). rewrite E. reflexivity. }
    destruct (get_field (h_name h) Q); [reflexivity|].
    destruct (convert_field p (h_conv h)); [reflexivity|].
    assert (E2 : vf d (h_spec h) P = vf d (h_spec h) Q).
    { destruct d; [reflexivity|]. rewrite !vf_plain; auto. }
    rewrite E2. destruct (vf d (h_spec h) Q); [reflexivity|].
    destruct (fmt1 p0 s0); [|reflexivity]. apply IH. intros g [l G]. apply H. exists l. now right.
  - apply IH. intros g [l G]. apply H. exists l. now right.
Qed.

(** ** Written templates *)

Lemma append_cons_acc (x y z : string) : String.append x (String.append y z) = String.append (String.append x y) z.
Proof. symmetry. apply append_assoc. Qed.

(** Reading doubled braces: the pieces are all literal, and together they are the
    text. *)
Lemma parse_doubled s : forall lit rest,
  exists ps l, Forall (fun p => snd p = None) ps /\
  String.append (String.concat "" (map fst ps)) l = String.append lit s /\
  fparse_from (SLit lit) (String.append (doubled s) rest) =
  (ps ++ fst (fparse_from (SLit l) rest), snd (fparse_from (SLit l) rest)).
Proof.
  induction s as [|c s IH]; intros lit rest; simpl.
  - exists [], lit. simpl. rewrite append_nil. split; [constructor|]. split; [reflexivity|].
    destruct (fparse_from (SLit lit) rest); reflexivity.
  - assert (C : forall ps (l : string), String.concat "" (l :: ps) = String.append l (String.concat "" ps)).
    { intros [|p ps] l; simpl; [now rewrite append_nil|reflexivity]. }
    destruct (Ascii.eqb_spec c "{"%char) as [->|N1]; [|destruct (Ascii.eqb_spec c "}"%char) as [->|N2]]; simpl.
    + destruct (IH "" rest) as (ps & l & A & B & E).
      exists ((snoc lit LB, None) :: ps), l. split; [constructor; auto|]. split.
      * cbn [map fst]. rewrite C, append_assoc, B. simpl. rewrite snoc_append. reflexivity.
      * unfold LB. rewrite E. reflexivity.
    + destruct (IH "" rest) as (ps & l & A & B & E).
      exists ((snoc lit RB, None) :: ps), l. split; [constructor; auto|]. split.
      * cbn [map fst]. rewrite C, append_assoc, B. simpl. rewrite snoc_append. reflexivity.
      * unfold RB. rewrite E. reflexivity.
    + destruct (IH (snoc lit c) rest) as (ps & l & A & B & E).
      exists ps, l. split; [exact A|]. split; [rewrite B, snoc_append; reflexivity|].
      unfold LB, RB. apply Ascii.eqb_neq in N1. apply Ascii.eqb_neq in N2. rewrite N1, N2. exact E.
Qed.

Lemma parse_name n : forall lit nm rest,
  (forall c, In c (list_ascii_of_string n) -> ~ In c punctuation) ->
  fparse_from (SName lit nm) (String.append n (String RB rest)) =
  ((lit, Some (mk_hole (String.append nm n) None "")) :: fst (fparse_from (SLit "") rest),
   snd (fparse_from (SLit "") rest)).
Proof.
  induction n as [|c n IH]; intros lit nm rest H; simpl.
  - rewrite append_nil. unfold RB. simpl. destruct (fparse_from (SLit "") rest); reflexivity.
  - pose proof (H c (or_introl eq_refl)) as N. unfold punctuation in N. simpl in N.
    unfold name_step, LB, RB.
    destruct (Ascii.eqb_spec c "{"%char) as [->|]; [exfalso; auto|].
    destruct (Ascii.eqb_spec c "["%char) as [->|]; [exfalso; auto|].
    destruct (Ascii.eqb_spec c "}"%char) as [->|]; [exfalso; auto|].
    destruct (Ascii.eqb_spec c ":"%char) as [->|]; [exfalso; auto 7|].
    destruct (Ascii.eqb_spec c "!"%char) as [->|]; [exfalso; auto 9|].
    fold RB. rewrite IH by (intros; apply H; now right). unfold snoc. rewrite append_assoc. reflexivity.
Qed.
Lemma parse_hole n lit rest : plain_name n ->
  fparse_from (SLit lit) (String.append (String.append "{" (String.append n "}")) rest) =
  ((lit, Some (mk_hole n None "")) :: fst (fparse_from (SLit "") rest), snd (fparse_from (SLit "") rest)).
Proof.
  intros (NE & _ & H). rewrite append_assoc. simpl. rewrite append_assoc. simpl.
  destruct n as [|c n]; [contradiction|]. simpl.
  pose proof (parse_name (String c n) lit "" rest H) as P. simpl in P.
  unfold LB. destruct (Ascii.eqb_spec c "{"%char) as [->|N].
  - exfalso. apply (H "{"%char); [now left|]. unfold punctuation. now left.
  - exact P.
Qed.

Lemma vgo_lits d params ok ps ps' : Forall (fun p => snd p = None) ps -> forall acc,
  vgo d params ok (ps ++ ps') acc = vgo d params ok ps' (String.append acc (String.concat "" (map fst ps))).
Proof.
  induction 1 as [|[lit o] ps H _ IH]; intros acc; simpl.
  - rewrite append_nil. reflexivity.
  - simpl in H. subst o. rewrite IH. f_equal. rewrite append_assoc. f_equal.
    destruct ps; simpl; [now rewrite append_nil|reflexivity].
Qed.

Lemma get_plain n params : plain_name n ->
  get_field n params = match dget n params with Some v => inr v | None => inl (FKey n) end.
Proof.
  intros (NE & DI & H). unfold FormatModel.get_field.
  rewrite first_part_plain.
  - destruct n as [|c n]; [contradiction|]. rewrite DI, andb_false_r.
    destruct (dget (String c n) params); reflexivity.
  - intros c I'. specialize (H c I'). unfold punctuation in H. simpl in H. split; intros ->; tauto.
Qed.

(** A template that is written with doubled braces and plain names is formatted to
    the text with the values in place of the names. *)
Theorem C45_format params l t :
  (forall n, In (Hole n) l -> plain_name n) ->
  filled (fun v => fmt1 v "") params l = Some t ->
  vformat (all_written l) params = inr t.
Proof.
  intros PN F. unfold FormatModel.vformat. rewrite vf_eq. unfold fparse.
  assert (G : forall l lit acc t, (forall n, In (Hole n) l -> plain_name n) ->
    filled (fun v => fmt1 v "") params l = Some t ->
    vgo 2 params (snd (fparse_from (SLit lit) (all_written l))) (fst (fparse_from (SLit lit) (all_written l))) acc
    = inr (String.append acc (String.append lit t))).
  { clear l t PN F. induction l as [|[s|n] l IH]; intros lit acc t PN F.
    - simpl in F. injection F as <-. rewrite append_nil. destruct lit; [simpl; rewrite append_nil|]; reflexivity.
    - simpl in F. destruct (filled _ params l) as [t'|] eqn:F'; [|discriminate]. simpl in F. injection F as <-.
      cbn [all_written written]. destruct (parse_doubled s lit (all_written l)) as (ps & l' & A & B & E).
      rewrite E. cbn [fst snd]. rewrite vgo_lits by exact A.
      rewrite (IH l' _ t'); [|intros; apply PN; now right|first [exact F' | reflexivity]].
      f_equal. rewrite append_assoc. f_equal. rewrite append_cons_acc, B. rewrite append_assoc. reflexivity.
    - simpl in F. destruct (dget n params) as [v|] eqn:D; [|discriminate].
      destruct (fmt1 v "") as [a|] eqn:V; [|discriminate].
      destruct (filled _ params l) as [t'|] eqn:F'; [|discriminate]. injection F as <-.
      cbn [all_written written]. rewrite parse_hole by (apply PN; now left). cbn [fst snd vgo h_name h_conv h_spec].
      rewrite get_plain by (apply PN; now left). rewrite D. simpl convert_field. cbn [FormatModel.convert_field].
      rewrite vf_plain by (intros c []). rewrite V.
      rewrite (IH "" _ t'); [|intros; apply PN; now right|first [exact F' | reflexivity]].
      f_equal. simpl. rewrite !append_assoc. reflexivity. }
  rewrite (G l "" "" t PN F). reflexivity.
Qed.

(** The first name without a value is what is reported. *)
Theorem C45_missing params l1 l2 n t :
  (forall m, In (Hole m) l1 -> plain_name m) -> plain_name n ->
  filled (fun v => fmt1 v "") params l1 = Some t ->
  dget n params = None ->
  vformat (all_written (l1 ++ Hole n :: l2)) params = inl (FKey n).
Proof.
  intros PN Pn F D. unfold FormatModel.vformat. rewrite vf_eq. unfold fparse.
  assert (G : forall l lit acc t, (forall n, In (Hole n) l -> plain_name n) ->
    filled (fun v => fmt1 v "") params l = Some t ->
    vgo 2 params (snd (fparse_from (SLit lit) (all_written (l ++ Hole n :: l2))))
      (fst (fparse_from (SLit lit) (all_written (l ++ Hole n :: l2)))) acc = inl (FKey n)).
  { clear l1 t PN F. induction l as [|[s|m] l IH]; intros lit acc t PN F.
    - cbn [app all_written written]. rewrite parse_hole by exact Pn. cbn [fst snd vgo h_name h_conv h_spec].
      rewrite get_plain by exact Pn. rewrite D. reflexivity.
    - simpl in F. destruct (filled _ params l) as [t'|] eqn:F'; [|discriminate].
      cbn [app all_written written]. destruct (parse_doubled s lit (all_written (l ++ Hole n :: l2))) as (ps & l' & A & B & E).
      rewrite E. cbn [fst snd]. rewrite vgo_lits by exact A.
      apply (IH l' _ t'); [intros; apply PN; now right|first [exact F' | reflexivity]].
    - simpl in F. destruct (dget m params) as [v|] eqn:Dm; [|discriminate].
      destruct (fmt1 v "") as [a|] eqn:V; [|discriminate].
      destruct (filled _ params l) as [t'|] eqn:F'; [|discriminate].
      cbn [app all_written written]. rewrite parse_hole by (apply PN; now left). cbn [fst snd vgo h_name h_conv h_spec].
      rewrite get_plain by (apply PN; now left). rewrite Dm. cbn [FormatModel.convert_field].
      rewrite vf_plain by (intros c []). rewrite V.
      apply (IH "" _ t'); [intros; apply PN; now right|first [exact F' | reflexivity]]. }
  eapply G; eauto.
Qed.

(** Exactly those names are reported as accessed. *)
Theorem C45_accessed l :
  (forall n, In (Hole n) l -> plain_name n) ->
  exists names, accessed_default (all_written l) = Some names /\
  forall n, In n names <-> In (Hole n) l.
Proof.
  intros PN. unfold accessed_default, fparse.
  assert (G : forall l lit, (forall n, In (Hole n) l -> plain_name n) ->
    snd (fparse_from (SLit lit) (all_written l)) = true /\
    forall n, In n (hole_names (fst (fparse_from (SLit lit) (all_written l)))) <-> In (Hole n) l).
  { clear l PN. induction l as [|[s|m] l IH]; intros lit PN.
    - simpl. destruct lit; simpl; split; auto; intros; tauto.
    - cbn [all_written written]. destruct (parse_doubled s lit (all_written l)) as (ps & l' & A & B & E).
      rewrite E. cbn [fst snd]. destruct (IH l') as [I1 I2]; [intros; apply PN; now right|].
      split; [exact I1|]. intros n. unfold hole_names. rewrite flat_map_app, in_app_iff.
      replace (flat_map _ ps) with (@nil name).
      + simpl. fold (hole_names (fst (fparse_from (SLit l') (all_written l)))). rewrite I2. intuition discriminate.
      + clear - A. induction A as [|[lit o] ps H _ IHA]; simpl; [reflexivity|]. simpl in H. subst o. exact IHA.
    - cbn [all_written written]. rewrite parse_hole by (apply PN; now left). cbn [fst snd].
      destruct (IH "") as [I1 I2]; [intros; apply PN; now right|].
      split; [exact I1|]. intros n. cbn [hole_names flat_map snd h_name app In].
      fold (hole_names (fst (fparse_from (SLit "") (all_written l)))). rewrite I2.
      split; [intros [->|H]; auto|intros [[= ->]|H]; auto]. }
  destruct (G l "" PN) as [G1 G2].
  destruct (fparse_from (SLit "") (all_written l)) as [ps ok]. simpl in *. subst ok. eauto.
Qed.

End Vformat.
Print Assumptions C45_format.
Print Assumptions C45_missing.
Print Assumptions C45_accessed.

Definition show (v : pval) (spec : string) : option string :=
  match v, spec with PStr s, "" => Some s | PInt n, "" => Some (if Nat.eqb n 7 then "7" else "n") | _, _ => None end.
Definition na (_ : pval) (_ : string) : option pval := None.
Definition nc (_ : pval) (_ : ascii) : option pval := None.
Example format_example :
  all_written [Text "a{b}"; Hole "name"; Text "-"; Hole "__index__"] = "a{{b}}{name}-{__index__}" /\
  vformat na nc show "a{{b}}{name}-{__index__}" [("name", PStr "{x}"); ("__index__", PInt 7)] = inr "a{b}{x}-7" /\
  vformat na nc show "{name}{other}" [("name", PStr "x")] = inl (FKey "other") /\
  vformat na nc show "{name" [("name", PStr "x")] = inl FValue /\
  vformat na nc show "{}" [("name", PStr "x")] = inl FIndex /\
  vformat na nc show "}{" [] = inl FValue /\
  vformat na nc show "{name.x}" [("name", PStr "x")] = inl FOther /\
  fst (fparse "x{a!r:>{w}}y") = [("x", Some (mk_hole "a" (Some "r"%char) ">{w}")); ("y", None)].
Proof. vm_compute. auto 9. Qed.

(** * Templates *)
Section Template.
Variable jinja : string -> string.
Variable jinja_vars : string -> option (list name).
Variable read_filter : string -> list source.
Variable read_imports : string -> list (list string).
Variable known_unit : string -> bool.
Variable value : Type.
Variable truth : value -> bool.
Variable constant : cls -> option value.
Variable attribute : value -> string -> option value.
Variable compare : string -> value -> value -> option value.
Variable sequence : cls -> list value -> option value.
Variable call : string -> list value -> option value.
Variable global : string -> option value.
Variable as_value : resource -> value.
Notation sat := (satisfied value truth constant attribute compare sequence call global).
Notation instantiate_all := (instantiate_all jinja jinja_vars read_filter read_imports known_unit
  value truth constant attribute compare sequence call global as_value).
Notation instantiate_loop := (instantiate_loop jinja jinja_vars read_filter read_imports
  value truth constant attribute compare sequence call global as_value).
Notation should_instantiate := (should_instantiate jinja read_filter read_imports
  value truth constant attribute compare sequence call global as_value).
Notation instantiate_one := (instantiate_one jinja jinja_vars).
Notation filter_program := (filter_program jinja read_filter read_imports).
Notation resource_id := (resource_id jinja read_imports).
Notation template_unit := (template_unit jinja).
Notation record_value := (record_value jinja).

(** A record is accepted if the template has no filter, or if it alone, under the id
    of the resource of the template, satisfies every expression of the filter. *)
Definition accepted (t : template) (r : resource) : Prop :=
  filter_program t = inr None \/
  exists es rid, filter_program t = inr (Some es) /\ resource_id t = inr rid /\
  Forall (sat (match rid with Some i => [(i, [as_value r])] | None => [] end)) es.

(** A parameter is used if some field of the unit refers to it. *)
Definition used (t : template) (u : tunit) (k : name) : Prop :=
  exists f text, dget f (u_data u) = Some text /\
  if String.eqb (engine t) "jinja2" then exists l, jinja_vars text = Some l /\ In k l
  else exists h, placeholder text h /\ h_name h = k.

Definition instance_of (t : template) (r : resource) (i : nat) (u : tunit) : Prop :=
  u_class u = template_unit t /\
  fields_of (t_data t) (u_data u) (template_unit t) (engine t) /\
  fields_of (t_raw t) (u_raw u) (template_unit t) (engine t) /\
  params_of (used t u) r i (u_params u).

Lemma shaped_gen ns : forall lines g es, make_program_gen ns g lines = inr es -> Forall shaped es.
Proof.
  assert (L : forall aliases g ids g', resolve_aliases ns g aliases = inr (ids, g') ->
    length aliases = length ids).
  { induction aliases as [|a aliases IH]; intros g ids g' E; simpl in E.
    - injection E as <- _. reflexivity.
    - destruct (take_import a g) as [e|[f g1]]; [discriminate|].
      destruct (resolve_aliases ns g1 aliases) as [e|[ids' g2]] eqn:R; [discriminate|].
      injection E as <- _. simpl. f_equal. eapply IH, R. }
  induction lines as [|src lines IH]; intros g es E; simpl in E.
  - injection E as <-. constructor.
  - destruct (make_expression_gen ns g src) as [e|[e g1]] eqn:M; [discriminate|].
    destruct (make_program_gen ns g1 lines) as [x|es'] eqn:P; [discriminate|].
    injection E as <-. constructor; [|eapply IH, P].
    unfold make_expression_gen in M. destruct (analyze src) as [aliases|]; [|discriminate].
    destruct (resolve_aliases ns g aliases) as [x|[ids g2]] eqn:R; [discriminate|].
    unfold shaped.
    destruct src as [|[|[| |[] [|? [|? ?]]] [|? ?]] []]; try discriminate; injection M as <- _; simpl;
      eapply L, R.
Qed.

Lemma should_accepted t r b : should_instantiate t r = inr b -> (b = true <-> accepted t r).
Proof.
  unfold TemplateModel.should_instantiate, accepted.
  destruct (filter_program t) as [e|[es|]] eqn:F; [discriminate| |].
  - destruct (resource_id t) as [e|rid] eqn:R; [discriminate|].
    assert (Sh : Forall shaped es).
    { unfold TemplateModel.filter_program in F. destruct (record_value t "template-filter" None); [|discriminate].
      destruct (make_program_gen _ _ _) as [e|es'] eqn:M; [discriminate|]. injection F as <-.
      eapply shaped_gen, M. }
    pose proof (C24_holds value truth constant attribute compare sequence call global
      (match rid with Some i => [(i, [as_value r])] | None => [] end) es Sh) as H.
    destruct (evaluate_or_raise _ _ _ _ _ _ _ _ _ es) eqn:V.
    + intros [= <-]. split; [intros _|reflexivity]. right. exists es, rid. intuition.
    + intros [= <-]. split; [discriminate|]. intros [X|(es' & rid' & X & Y & Z)]; [discriminate|].
      injection X as <-. injection Y as <-. apply H in Z. discriminate.
    + intros [= <-]. split; [discriminate|]. intros [X|(es' & rid' & X & Y & Z)]; [discriminate|].
      injection X as <-. injection Y as <-. apply H in Z. discriminate.
  - intros [= <-]. intuition.
Qed.

Lemma dget_filter {A} (f : name -> bool) (d : dict A) k :
  dget k (filter (fun kv => f (fst kv)) d) = if f k then dget k d else None.
Proof.
  induction d as [|[k' v] d IH]; simpl; [destruct (f k); reflexivity|].
  destruct (f k') eqn:F; simpl; rewrite IH; destruct (String.eqb_spec k k') as [->|D]; try reflexivity.
  - rewrite F. reflexivity.
  - rewrite F. reflexivity.
Qed.
Lemma dget_map {A B} (g : A -> B) (d : dict A) k :
  dget k (map (fun kv => (fst kv, g (snd kv))) d) = option_map g (dget k d).
Proof. induction d as [|[k' v] d IH]; simpl; [reflexivity|]. destruct (String.eqb k k'); auto. Qed.

Lemma fields_set d un en : fields_of d (dset "unit" un (dset "template-engine" en (own_fields d))) un en.
Proof.
  unfold fields_of, own_fields. split; [apply dget_dset_same|]. split.
  - rewrite dget_dset_other by discriminate. apply dget_dset_same.
  - intros k N1 N2. rewrite !dget_dset_other by congruence.
    rewrite (dget_filter (fun k => negb (is_template_field k))). unfold is_template_field.
    destruct (String.prefix "template-" k); reflexivity.
Qed.

Lemma In_dget_some {A} k (v : A) d : In (k, v) d -> exists w, dget k d = Some w.
Proof.
  intros H. destruct (dget k d) eqn:E; [eauto|]. apply dget_None in E. exfalso. apply E.
  unfold dkeys. change k with (fst (k, v)). apply in_map, H.
Qed.

Lemma accessed_spec t (d : dict string) l : NoDup (dkeys d) -> accessed_all jinja_vars (engine t) d = Some l ->
  forall k, In k l <-> exists f text, dget f d = Some text /\
    if String.eqb (engine t) "jinja2" then exists l, jinja_vars text = Some l /\ In k l
    else exists h, placeholder text h /\ h_name h = k.
Proof.
  intros N H k.
  assert (A : forall text a, accessed jinja_vars (engine t) text = Some a ->
    (In k a <-> if String.eqb (engine t) "jinja2" then exists l, jinja_vars text = Some l /\ In k l
    else exists h, placeholder text h /\ h_name h = k)).
  { intros text a. unfold accessed. destruct (String.eqb (engine t) "jinja2").
    - intros E. split; [eauto|]. intros (l' & E' & Hk). congruence.
    - unfold accessed_default. destruct (fparse text) as [ps ok] eqn:FP. destruct ok; [|discriminate].
      intros [= <-]. unfold hole_names, placeholder. rewrite FP. simpl. rewrite in_flat_map. split.
      + intros ([lit [h|]] & P & Q); [|destruct Q]. destruct Q as [Q|[]]. exists h. eauto.
      + intros (h & (lit & P) & <-). exists (lit, Some h). split; auto. now left. }
  assert (B : forall l, accessed_all jinja_vars (engine t) d = Some l ->
    (In k l <-> exists f text, In (f, text) d /\
     if String.eqb (engine t) "jinja2" then exists l, jinja_vars text = Some l /\ In k l
     else exists h, placeholder text h /\ h_name h = k)).
  { clear l H N. induction d as [|[f text] d IH]; intros l H; simpl in H.
    - injection H as <-. split; [intros []|]. intros (f & text & [] & _).
    - destruct (accessed jinja_vars (engine t) text) as [a|] eqn:E; [|discriminate].
      destruct (accessed_all jinja_vars (engine t) d) as [b|] eqn:E2; [|discriminate].
      injection H as <-. rewrite in_app_iff, (A text a E), (IH b eq_refl). split.
      + intros [H|(f' & t' & H1 & H2)]; [exists f, text; split; [now left|exact H]|].
        exists f', t'. split; [now right|exact H2].
      + intros (f' & t' & [H1|H1] & H2); [injection H1 as -> ->; left; exact H2|].
        right. eauto. }
  rewrite (B l H). split; intros (f & text & H1 & H2); exists f, text; split; auto.
  - apply In_dget; assumption.
  - apply dget_In, H1.
Qed.

Lemma NoDup_own d : NoDup (dkeys d) -> NoDup (dkeys (own_fields d)).
Proof.
  intros N. unfold own_fields, dkeys in *. induction d as [|[k v] d IH]; simpl; [constructor|].
  simpl in N. apply NoDup_cons_iff in N as [N1 N2]. destruct (negb _); simpl; auto.
  constructor; auto. intros X. apply N1. apply in_map_iff in X as (kv & E & Hin).
  apply filter_In in Hin as [Hin _]. rewrite <- E. apply in_map, Hin.
Qed.

Lemma one_spec t r i u : NoDup (dkeys (t_data t)) ->
  instantiate_one t r (template_unit t) i = inr u -> instance_of t r i u.
Proof.
  intros N. unfold TemplateModel.instantiate_one.
  destruct (accessed_all jinja_vars (engine t) _) as [l|] eqn:A; [|discriminate]. intros [= <-].
  unfold instance_of. simpl. split; [reflexivity|]. split; [apply fields_set|]. split; [apply fields_set|].
  unfold params_of. split; [apply dget_dset_same|]. intros k K.
  rewrite dget_dset_other by exact K. rewrite dget_map.
  rewrite (dget_filter (fun k => smem k l)).
  assert (U : In k l <-> used t (mk_tunit (template_unit t)
     (dset "unit" (template_unit t) (dset "template-engine" (engine t) (own_fields (t_data t))))
     (dset "unit" (template_unit t) (dset "template-engine" (engine t) (own_fields (t_raw t))))
     (dset "__index__" (PInt i) (map (fun kv => (fst kv, PStr (snd kv))) (filter (fun kv => smem (fst kv) l) r)))) k).
  { unfold used. simpl. apply (accessed_spec t _ l); [|exact A].
    apply NoDup_dset, NoDup_dset, NoDup_own, N. }
  rewrite <- U. split; intros H.
  - apply smem_In in H. rewrite H. reflexivity.
  - apply smem_false in H. rewrite H. reflexivity.
Qed.

(** One unit is created for each accepted record, in the order of the records; the
    units are numbered from one without gaps; they have the fields of the template,
    and as parameters only what their fields refer to. *)
Theorem C34_instances t rs us : NoDup (dkeys (t_data t)) ->
  instantiate_all t rs = inr us ->
  instances (accepted t) (instance_of t) 0 rs us.
Proof.
  intros N. unfold TemplateModel.instantiate_all. destruct (known_unit (template_unit t)); [|discriminate].
  generalize 0 as i. revert us. induction rs as [|r rs IH]; intros us i E; simpl in E.
  - injection E as <-. constructor.
  - destruct (should_instantiate t r) as [e|b] eqn:Sh; [discriminate|].
    pose proof (should_accepted t r b Sh) as A. destruct b.
    + destruct (instantiate_one t r (template_unit t) (S i)) as [e|u] eqn:O; [discriminate|].
      destruct (instantiate_loop t (template_unit t) (S i) rs) as [e|us'] eqn:L; [discriminate|].
      injection E as <-. apply inst_take; [apply A; reflexivity|apply one_spec; assumption|apply IH, L].
    + apply inst_skip; [intros X; apply A in X; discriminate|apply IH, E].
Qed.

Lemma instances_nth acc one i rs us : instances acc one i rs us ->
  forall j u, nth_error us j = Some u -> exists r, In r rs /\ acc r /\ one r (S (i + j)) u.
Proof.
  induction 1; intros j v E.
  - destruct j; discriminate.
  - destruct (IHinstances j v E) as (r' & H1 & H2 & H3). exists r'. split; [now right|auto].
  - destruct j as [|j]; simpl in E.
    + injection E as <-. exists r. rewrite Nat.add_0_r. split; [now left|auto].
    + destruct (IHinstances j v E) as (r' & H2 & H3 & H4). exists r'. split; [now right|].
      split; auto. replace (i + S j) with (S i + j) by lia. exact H4.
Qed.

(** In particular the j-th unit has the number j. *)
Theorem C34_numbered t rs us j u : NoDup (dkeys (t_data t)) ->
  instantiate_all t rs = inr us -> nth_error us j = Some u ->
  dget "__index__" (u_params u) = Some (PInt (S j)).
Proof.
  intros N E Hj. apply C34_instances in E; auto.
  destruct (instances_nth _ _ _ _ _ E j u Hj) as (r & _ & _ & (_ & _ & _ & (P & _))). exact P.
Qed.

(** Dropping the other attributes of the record is not visible: a field whose
    placeholders are simple is formatted as it would be with all of them. *)
Theorem C34_rendered access conv1 fmt1 t r i u f text : NoDup (dkeys (t_data t)) ->
  engine t <> "jinja2" -> instance_of t r i u -> dget f (u_data u) = Some text ->
  (forall h, placeholder text h -> simple_hole h) ->
  vformat access conv1 fmt1 text (u_params u) =
  vformat access conv1 fmt1 text
    (dset "__index__" (PInt i) (map (fun kv => (fst kv, PStr (snd kv))) r)).
Proof.
  intros N EN (_ & _ & _ & (P1 & P2)) F Si. apply vf_agree. intros h H. split; [apply Si, H|].
  destruct (String.eqb_spec (h_name h) "__index__") as [->|D].
  - rewrite P1, dget_dset_same. reflexivity.
  - rewrite dget_dset_other by exact D. rewrite dget_map. apply P2; auto.
    exists f, text. split; auto. apply String.eqb_neq in EN. rewrite EN. eauto.
Qed.

Lemma split_colons_some s : forall a p, split_colons s = Some (a, p) ->
  s = String.append a (String.append "::" p) /\ ~ has_colons (String.append a ":").
Proof.
  induction s as [|c s IH]; intros a p H; [discriminate|].
  assert (X : (exists r, c = ":"%char /\ s = String ":" r) \/
              split_colons (String c s) = match split_colons s with Some (a, b) => Some (String c a, b) | None => None end
              /\ ~ (exists r, c = ":"%char /\ s = String ":" r)).
  { destruct s as [|d r].
    - right. split; [|intros (r & _ & E); discriminate].
      destruct c as [[] [] [] [] [] [] [] []]; reflexivity.
    - destruct (Ascii.eqb_spec c ":") as [->|N].
      + destruct (Ascii.eqb_spec d ":") as [->|N]; [left; eauto|right; split; [|intros (r' & _ & [= -> _]); congruence]].
        cbn [split_colons]. destruct d as [[] [] [] [] [] [] [] []]; try reflexivity. congruence.
      + right. split; [|intros (r' & E & _); congruence].
        cbn [split_colons]. destruct c as [[] [] [] [] [] [] [] []]; try reflexivity. congruence. }
  destruct X as [(r & -> & ->)|[X NX]].
  - cbn in H. injection H as <- <-. split; [reflexivity|]. intros (x & y & E). destruct x as [|? [|? ?]]; discriminate.
  - rewrite X in H. destruct (split_colons s) as [[a' b]|] eqn:E; [|discriminate]. injection H as <- <-.
    destruct (IH a' b eq_refl) as [I1 I2]. split; [cbn; now f_equal|].
    intros (x & y & Exy). destruct x as [|d x]; cbn in Exy.
    + injection Exy as -> Exy. apply NX. destruct a' as [|d a']; cbn in Exy.
      * exists (String.append ":" b). split; [reflexivity|]. exact I1.
      * injection Exy as -> _. exists (String.append a' (String.append "::" b)). split; [reflexivity|]. exact I1.
    + injection Exy as -> Exy. apply I2. exists x, y. exact Exy.
Qed.
Lemma split_colons_none s : split_colons s = None -> ~ has_colons s.
Proof.
  induction s as [|c s IH]; intros H (x & y & E).
  - destruct x; discriminate.
  - destruct x as [|d x]; cbn in E.
    + injection E as -> ->. discriminate.
    + injection E as -> ->. apply IH; [|exists x, y; reflexivity].
      remember (String.append x (String ":" (String ":" y))) as z. clear -H.
      cbn [split_colons] in H. destruct (split_colons z) as [[a b]|]; [exfalso|reflexivity].
      destruct d as [[] [] [] [] [] [] [] []]; try discriminate.
      destruct z as [|e z]; [discriminate|].
      destruct e as [[] [] [] [] [] [] [] []]; discriminate.
Qed.

Lemma take_import_spec p g imports : parse_imports g = Some imports ->
  match take_import p g with
  | inl _ => False
  | inr (Some id, _) => exists l1 l2, imports = l1 ++ (id, p) :: l2 /\ forall x, ~ In (x, p) l1
  | inr (None, _) => forall x, ~ In (x, p) imports
  end.
Proof.
  revert imports. induction g as [|l g IH]; intros imports H; cbn in *.
  - injection H as <-. auto.
  - destruct (parse_import l) as [[id a]|]; [|discriminate].
    destruct (parse_imports g) as [xs|]; [|discriminate]. injection H as <-. specialize (IH xs eq_refl).
    destruct (String.eqb_spec a p) as [->|N].
    + exists [], xs. split; auto.
    + destruct (take_import p g) as [e|[[i|] g']]; [exact IH| |].
      * destruct IH as (l1 & l2 & -> & Hl). exists ((id, a) :: l1), l2. split; [reflexivity|].
        intros x [[= _ E]|Hx]; [congruence|]. now apply (Hl x).
      * intros x [[= _ E]|Hx]; [congruence|]. now apply (IH x).
Qed.

(** The resource of a template is the one that its field template-resource refers
    to. *)
Theorem C34_resource t s imports :
  record_value t "template-resource" None = Some s ->
  parse_imports (imported_jobs jinja read_imports t) = Some imports ->
  exists id, resource_id t = inr (Some id) /\ refers_to (t_ns t) imports s id.
Proof.
  intros R I. unfold TemplateModel.resource_id, resource_partial_id, resource_namespace. rewrite R.
  destruct (split_colons s) as [[a p]|] eqn:E.
  - apply split_colons_some in E as [E1 E2].
    pose proof (take_import_spec p _ _ I) as T. destruct (take_import p _) as [e|[[i|] g]]; [destruct T| |].
    + exists i. split; auto. exists (Some a), p. split; [left; eauto|]. now left.
    + eexists. split; [reflexivity|]. exists (Some a), p. split; [left; eauto|]. right. split; auto.
  - apply split_colons_none in E.
    pose proof (take_import_spec s _ _ I) as T. destruct (take_import s _) as [e|[[i|] g]]; [destruct T| |].
    + exists i. split; auto. exists (t_ns t), s. split; [right; auto|]. now left.
    + exists (match t_ns t with None => s | Some ns => qualify ns s end).
      split; [destruct (t_ns t); reflexivity|]. exists (t_ns t), s. split; [right; auto|].
      right. split; auto. destruct (t_ns t); reflexivity.
Qed.

(** Filters: with no imports a filter means what a program of requirements means. *)
Theorem C34_filter_no_imports ns lines :
  make_program_gen ns [] lines =
  match make_program ns [] lines with inl es => inr es | inr p => inl (BadFilter p) end.
Proof.
  assert (R : forall aliases, resolve_aliases ns [] aliases = inr (map (qualified ns) aliases, [])).
  { induction aliases as [|a aliases IH]; simpl; [reflexivity|]. rewrite IH. reflexivity. }
  induction lines as [|src lines IH]; simpl; [reflexivity|].
  unfold make_expression_gen, make_expression. destruct (analyze src) as [aliases|p]; [|reflexivity].
  rewrite R. simpl.
  destruct src as [|[|[| |[] [|? [|? ?]]] [|? ?]] []]; try reflexivity; rewrite IH;
    destruct (make_program ns [] lines); reflexivity.
Qed.

(** So it does with imports, if it is one line about one resource. *)
Theorem C34_filter_one_line ns g imports src alias :
  parse_imports g = Some imports -> analyze src = inl [alias] ->
  make_program_gen ns g [src] =
  match make_program ns imports [src] with inl es => inr es | inr p => inl (BadFilter p) end.
Proof.
  intros PI A. simpl. unfold make_expression_gen, make_expression. rewrite A.
  assert (T : exists g', take_import alias g =
    inr (if existsb (fun p => String.eqb (snd p) alias) imports then Some (imported alias imports) else None, g')).
  { clear A. revert imports PI. induction g as [|l g IH]; intros imports PI; simpl in PI.
    - injection PI as <-. simpl. eauto.
    - simpl. destruct (parse_import l) as [[id a]|]; [|discriminate].
      destruct (parse_imports g) as [xs|]; [|discriminate]. injection PI as <-. simpl.
      destruct (String.eqb a alias); simpl; [eauto|]. apply IH. reflexivity. }
  assert (I0 : existsb (fun p => String.eqb (snd p) alias) imports = false -> imported alias imports = alias).
  { clear. induction imports as [|[id a] imports IH]; simpl; [reflexivity|].
    destruct (String.eqb a alias); [discriminate|]. exact IH. }
  destruct T as (g' & T). cbn [resolve_aliases]. rewrite T. cbn [map].
  replace (match (if existsb (fun p => String.eqb (snd p) alias) imports then Some (imported alias imports) else None) with
           | Some id => id | None => alias end) with (imported alias imports).
  2:{ destruct (existsb _ imports); auto. }
  destruct src as [|[|[| |[] [|? [|? ?]]] [|? ?]] []]; reflexivity.
Qed.
End Template.
Print Assumptions C34_instances.
Print Assumptions C34_numbered.
Print Assumptions C34_rendered.
Print Assumptions C34_filter_no_imports.
Print Assumptions C34_filter_one_line.
Print Assumptions C34_resource.

(** * Examples and what is false *)
Definition fline (a v : string) : source :=
  Source [Node Expr [Node Compare [attr_of "cpu" a; Node (Cmpop "Eq") []; Node (Str v) []]]] false.
(** The texts of the filters and imports of the examples. *)
Definition ex_filter (s : string) : list source :=
  match s with
  | "arch" => [fline "arch" "x86"]
  | "arch,cores" => [fline "arch" "x86"; fline "cores" "4"]
  | _ => []
  end.
Definition ex_imports (s : string) : list (list string) :=
  match s with "hw" => [["from"; "hw"; "import"; "cpuinfo"; "as"; "cpu"]] | _ => [] end.
Definition ex_known (s : string) : bool := String.eqb s "job".
Definition ex_all := instantiate_all (fun s => s) (fun _ => Some []) ex_filter ex_imports ex_known
  V vtruth vconst vattr vcmp (fun _ _ => None) (fun _ _ => None) (fun _ => None) VR.
Definition ex_template (filter imports command : string) : template :=
  let d := [("unit", "template"); ("template-resource", "cpu"); ("template-filter", filter);
            ("template-imports", imports); ("id", "cpu_{name}"); ("command", command)] in
  mk_template d d (Some "ns").
Definition cpu (n arch : string) : resource := [("name", n); ("arch", arch); ("cores", "4"); ("w", "3")].

(** Two of three records are accepted; the attributes arch, cores and w are dropped. *)
Example two_instances :
  match ex_all (ex_template "arch" "hw" "test {name} {__index__}") [cpu "a" "x86"; cpu "b" "arm"; cpu "c" "x86"] with
  | inr us => map u_params us =
      [[("name", PStr "a"); ("__index__", PInt 1)]; [("name", PStr "c"); ("__index__", PInt 2)]] /\
      map u_data us = repeat [("unit", "job"); ("id", "cpu_{name}"); ("command", "test {name} {__index__}");
                              ("template-engine", "default")] 2
  | inl _ => False
  end.
Proof. vm_compute. split; reflexivity. Qed.
Example bad_field : ex_all (ex_template "arch" "hw" "test {name") [cpu "a" "x86"] = inl BadFormat.
Proof. reflexivity. Qed.

(** A filter of two lines about an imported resource accepts nothing, although the
    record satisfies both lines: the imports are used up by the first. *)
Theorem C34_two_lines_refuted : exists t r es,
  make_program (Some "ns") [("hw::cpuinfo", "cpu")] (ex_filter "arch,cores") = inl es /\
  record_value (fun s => s) t "template-filter" None = Some "arch,cores" /\
  parse_imports (ex_imports "hw") = Some [("hw::cpuinfo", "cpu")] /\
  record_value (fun s => s) t "template-imports" None = Some "hw" /\
  resource_id (fun s => s) ex_imports t = inr (Some "hw::cpuinfo") /\
  Forall (satisfied V vtruth vconst vattr vcmp (fun _ _ => None) (fun _ _ => None) (fun _ => None)
    [("hw::cpuinfo", [VR r])]) es /\
  ex_all t [r] = inr [].
Proof.
  exists (ex_template "arch,cores" "hw" "true"), (cpu "a" "x86"). eexists.
  split; [vm_compute; reflexivity|]. repeat (split; [reflexivity|]). split; [|vm_compute; reflexivity].
  repeat constructor; eexists [_], _, _;
    (split; [constructor; [eexists; split; [reflexivity|left; reflexivity]|constructor]|]);
    (split; [reflexivity|]); split; vm_compute; reflexivity.
Qed.
Print Assumptions C34_two_lines_refuted.

(** A placeholder inside the format of another one, or the attribute of a parameter,
    does not count as a use of the parameter: the unit lacks it. *)
Theorem C34_nested_refuted : exists t r u,
  ex_all t [r] = inr [u] /\
  dget "command" (u_data u) = Some "{name:{w}}" /\
  vformat na nc (fun v s => match v with PStr x => Some (String.append x s) | _ => None end) "{name:{w}}"
    (map (fun kv => (fst kv, PStr (snd kv))) r) = inr "a3" /\
  vformat na nc (fun v s => match v with PStr x => Some (String.append x s) | _ => None end) "{name:{w}}"
    (u_params u) = inl (FKey "w").
Proof.
  exists (ex_template "" "" "{name:{w}}"), (cpu "a" "x86"). eexists.
  split; [vm_compute; reflexivity|]. repeat split; vm_compute; reflexivity.
Qed.
Print Assumptions C34_nested_refuted.

Example imported_resource :
  resource_id (fun s => s) ex_imports (ex_template "arch" "hw" "x") = inr (Some "hw::cpuinfo") /\
  refers_to (Some "ns") [("hw::cpuinfo", "cpu")] "cpu" "hw::cpuinfo" /\
  resource_id (fun s => s) ex_imports (ex_template "arch" "" "x") = inr (Some "ns::cpu") /\
  refers_to (Some "ns") [] "cpu" "ns::cpu".
Proof.
  split; [reflexivity|]. split; [|split; [reflexivity|]].
  - destruct (C34_resource (fun s => s) ex_imports (ex_template "arch" "hw" "x") "cpu" _ eq_refl eq_refl) as (id & [= <-] & H).
    exact H.
  - destruct (C34_resource (fun s => s) ex_imports (ex_template "arch" "" "x") "cpu" _ eq_refl eq_refl) as (id & [= <-] & H).
    exact H.
Qed.
