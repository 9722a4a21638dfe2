(** Written durations: plainbox/impl/unit/job.py:425-464. *)
From Coq Require Import Ascii String List Bool NArith QArith.
Import ListNotations.
Open Scope char_scope.
Open Scope list_scope.

(** [\d] of the pattern in job.py:440, restricted to ASCII digits (text is a
    list of 8-bit characters; Python's pattern also takes other Unicode
    digits). *)
Definition digit_value (c : ascii) : option N :=
  let n := N_of_ascii c in
  if (N.leb 48 n && N.leb n 57)%bool then Some (n - 48)%N else None.

(** [\d+] takes the longest run of digits, int() of it. *)
Fixpoint take_digits (acc : N) (s : list ascii) : N * nat * list ascii :=
  match s with
  | c :: r =>
      match digit_value c with
      | Some d =>
          match take_digits (acc * 10 + d) r with (v, n, rest) => (v, S n, rest) end
      | None => (acc, 0%nat, s)
      end
  | [] => (acc, 0%nat, [])
  end.

(** [(\d+h)?] : an optional number followed by the unit letter, job.py:440.
    When the letter does not follow, the group matches nothing. *)
Definition take_group (u : ascii) (s : list ascii) : N * list ascii :=
  match take_digits 0 s with
  | (v, S _, c :: rest) => if Ascii.eqb c u then (v, rest) else (0%N, s)
  | _ => (0%N, s)
  end.

(** [[ :]*], job.py:440 *)
Fixpoint take_blanks (s : list ascii) : list ascii :=
  match s with
  | c :: r => if (Ascii.eqb c " " || Ascii.eqb c ":")%bool then take_blanks r else s
  | [] => []
  end.

(** The whole of job.py:440-459: the pattern, with $ also matching before a
    final newline, and the value computed from the groups. *)
Definition match_duration (s : list ascii) : option N :=
  let (hours, s) := take_group "h" s in
  let s := take_blanks s in
  let (minutes, s) := take_group "m" s in
  let s := take_blanks s in
  let (seconds, s) := take_group "s" s in
  match s with
  | [] => Some (seconds + minutes * 60 + hours * 3600)%N
  | [c] => if Ascii.eqb c "010" then Some (seconds + minutes * 60 + hours * 3600)%N else None
  | _ => None
  end.

(** job.py:425-464 estimated_duration of a textual value; [py_float] is
    Python's float(), None for ValueError. *)
Definition estimated_duration (py_float : list ascii -> option Q) (value : option (list ascii))
    : option Q :=
  match value with
  | None => None
  | Some v =>
      match match_duration v with
      | Some n => Some (inject_Z (Z.of_N n))
      | None => py_float v
      end
  end.
