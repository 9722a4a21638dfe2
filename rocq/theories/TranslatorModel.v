(** * Translations: GettextTranslator of plainbox/i18n.py *)
From Coq Require Import String Ascii List Bool Arith.
From Verif Require Import ScanModel Rfc822Model.
Import ListNotations.
Local Open Scope list_scope.

(** A catalogue of the gettext module: for a message, its translation if there is one; for a singular,
    a plural and a number as well *)
Record catalogue := { c_one : text -> option text; c_many : text -> text -> nat -> option text }.
(** GNUTranslations.gettext and ngettext (a message without translation is returned), and
    NullTranslations, which has no translations *)
Definition cat_gettext (c : option catalogue) (m : text) : text :=
  match c with Some k => match c_one k m with Some t => t | None => m end | None => m end.
Definition cat_ngettext (c : option catalogue) (m1 m2 : text) (n : nat) : text :=
  let plain := if Nat.eqb n 1 then m1 else m2 in
  match c with Some k => match c_many k m1 m2 n with Some t => t | None => plain end | None => plain end.

(** The calls; a directory is None for the default one.  Arguments are given by position *)
Inductive call :=
  | Get (m : text) | NGet (m1 m2 : text) (n : nat)
  | PGet (c m : text) | PNGet (c m1 m2 : text) (n : nat)
  | DGet (d m : text) | DNGet (d m1 m2 : text) (n : nat)
  | PDGet (c d m : text) | PDNGet (c d m1 m2 : text) (n : nat).
Inductive op := Ask (q : call) | Textdomain (d : text) | Bind (d : text) (dir : option text).

Definition opt_eqb (a b : option text) : bool :=
  match a, b with Some x, Some y => text_eqb x y | None, None => true | _, _ => false end.
Definition call_eqb (a b : call) : bool :=
  match a, b with
  | Get m, Get m' => text_eqb m m'
  | NGet m1 m2 n, NGet m1' m2' n' => text_eqb m1 m1' && text_eqb m2 m2' && Nat.eqb n n'
  | PGet c m, PGet c' m' => text_eqb c c' && text_eqb m m'
  | PNGet c m1 m2 n, PNGet c' m1' m2' n' => text_eqb c c' && text_eqb m1 m1' && text_eqb m2 m2' && Nat.eqb n n'
  | DGet d m, DGet d' m' => text_eqb d d' && text_eqb m m'
  | DNGet d m1 m2 n, DNGet d' m1' m2' n' => text_eqb d d' && text_eqb m1 m1' && text_eqb m2 m2' && Nat.eqb n n'
  | PDGet c d m, PDGet c' d' m' => text_eqb c c' && text_eqb d d' && text_eqb m m'
  | PDNGet c d m1 m2 n, PDNGet c' d' m1' m2' n' => text_eqb c c' && text_eqb d d' && text_eqb m1 m1' && text_eqb m2 m2' && Nat.eqb n n'
  | _, _ => false
  end.

(** The object: _domain, _locale_dir_map, _translations (for a domain, the directory that its catalogue
    was looked for in) and what the lru_caches of the methods remember *)
Record state := {
  s_domain : text;
  s_dirs : list (text * option text);
  s_used : list (text * option text);
  s_answers : list (call * text);
  s_domains_set : list text;
  s_bound : list (text * option text)
}.
(** 383-388 __init__ *)
Definition init (domain : text) (dir : option text) : state :=
  {| s_domain := domain; s_dirs := [(domain, dir)]; s_used := []; s_answers := []; s_domains_set := []; s_bound := [] |}.
(** dictionaries; the newest entry is first *)
Fixpoint dict (k : text) (l : list (text * option text)) : option (option text) :=
  match l with [] => None | (k', v) :: r => if text_eqb k' k then Some v else dict k r end.
Definition set_used st u := {| s_domain := s_domain st; s_dirs := s_dirs st; s_used := u; s_answers := s_answers st; s_domains_set := s_domains_set st; s_bound := s_bound st |}.
Definition set_answers st a := {| s_domain := s_domain st; s_dirs := s_dirs st; s_used := s_used st; s_answers := a; s_domains_set := s_domains_set st; s_bound := s_bound st |}.
(** 402-410 _contextualize *)
Definition contextualize (c m : text) : text := c ++ "004"%char :: m.

Section Catalogues.
  (** gettext_module.translation(domain, dir); None is IOError *)
  Variable translation : text -> option text -> option catalogue.

  (** 390-400 _get_translation *)
  Definition get_translation (st : state) (d : text) : state * option catalogue :=
    match dict d (s_used st) with
    | Some dir => (st, translation d dir)
    | None =>
        let dir := match dict d (s_dirs st) with Some x => x | None => None end in
        (set_used st ((d, dir) :: s_used st), translation d dir)
    end.
  (** lru_cache of a method whose body is [body] *)
  Fixpoint remembered (q : call) (l : list (call * text)) : option text :=
    match l with [] => None | (q', a) :: r => if call_eqb q' q then Some a else remembered q r end.
  Definition memo (q : call) (body : state -> state * text) (st : state) : state * text :=
    match remembered q (s_answers st) with
    | Some a => (st, a)
    | None => let (st, a) := body st in (set_answers st ((q, a) :: s_answers st), a)
    end.
  (** 412-418 gettext and ngettext *)
  Definition do_get (m : text) : state -> state * text :=
    memo (Get m) (fun st => let (st, c) := get_translation st (s_domain st) in (st, cat_gettext c m)).
  Definition do_nget (m1 m2 : text) (n : nat) : state -> state * text :=
    memo (NGet m1 m2 n) (fun st => let (st, c) := get_translation st (s_domain st) in (st, cat_ngettext c m1 m2 n)).
  (** 425-428, 436-443 *)
  Definition strip1 (c m t : text) : text := if text_eqb t (contextualize c m) then m else t.
  Definition strip2 (c m1 m2 t : text) : text :=
    if text_eqb t (contextualize c m1) then m1 else if text_eqb t (contextualize c m2) then m2 else t.
  (** 412-477: the methods *)
  Definition ask (q : call) (st : state) : state * text :=
    match q with
    | Get m => do_get m st
    | NGet m1 m2 n => do_nget m1 m2 n st
    | PGet c m => memo q (fun st => let (st, t) := do_get (contextualize c m) st in (st, strip1 c m t)) st
    | PNGet c m1 m2 n => memo q (fun st => let (st, t) := do_nget (contextualize c m1) (contextualize c m2) n st in (st, strip2 c m1 m2 t)) st
    | DGet d m => memo q (fun st => let (st, k) := get_translation st d in (st, cat_gettext k m)) st
    | DNGet d m1 m2 n => memo q (fun st => let (st, k) := get_translation st d in (st, cat_ngettext k m1 m2 n)) st
    | PDGet c d m => memo q (fun st => let (st, k) := get_translation st d in (st, strip1 c m (cat_gettext k (contextualize c m)))) st
    | PDNGet c d m1 m2 n => memo q (fun st => let (st, k) := get_translation st d in (st, strip2 c m1 m2 (cat_ngettext k (contextualize c m1) (contextualize c m2) n))) st
    end.
  (** 479-495 textdomain and 497-508 bindtextdomain, which are behind lru_cache too; what they tell the
      gettext module is not modelled *)
  Definition textdomain (d : text) (st : state) : state :=
    if existsb (text_eqb d) (s_domains_set st) then st
    else {| s_domain := d; s_dirs := s_dirs st; s_used := s_used st; s_answers := s_answers st; s_domains_set := d :: s_domains_set st; s_bound := s_bound st |}.
  Definition bind (d : text) (dir : option text) (st : state) : state :=
    if existsb (fun p => text_eqb d (fst p) && opt_eqb dir (snd p)) (s_bound st) then st
    else {| s_domain := s_domain st; s_dirs := (d, dir) :: s_dirs st; s_used := s_used st; s_answers := s_answers st; s_domains_set := s_domains_set st; s_bound := (d, dir) :: s_bound st |}.
  (** A history: the state after it, and the answers *)
  Definition step (st : state) (o : op) : state * list (call * text) :=
    match o with
    | Ask q => let (st, a) := ask q st in (st, [(q, a)])
    | Textdomain d => (textdomain d st, [])
    | Bind d dir => (bind d dir st, [])
    end.
  Fixpoint run (st : state) (l : list op) : state * list (call * text) :=
    match l with
    | [] => (st, [])
    | o :: r => let (st, a) := step st o in let (st, b) := run st r in (st, a ++ b)
    end.
End Catalogues.
