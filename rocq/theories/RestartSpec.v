(** * Restarting the testing application: what is meant

    Independent of RestartModel: words of a shell, the lines of the two files,
    and what it means for a machine to be set up for a restart. *)
From Coq Require Import String Ascii List Bool Arith.
From Verif Require Import ScanModel Rfc822Model IniModel.
Import ListNotations.
Local Open Scope nat_scope.
Local Open Scope list_scope.

(** Characters that mean themselves to a POSIX shell wherever they are inside a
    word: letters, digits and a few more. *)
Definition harmless (c : ascii) : Prop :=
  In c (T "abcdefghijklmnopqrstuvwxyzABCDEFGHIJKLMNOPQRSTUVWXYZ0123456789_@%+=:,./-").

(** [sh_word w u]: a shell that meets the word [w] takes it for the text [u],
    without expanding anything.  Everything is literal between single quotes;
    between double quotes everything but double quotes, dollars, back quotes
    and backslashes is. *)
Inductive sh_word : text -> text -> Prop :=
| sh_end : sh_word [] []
| sh_plain c w u : harmless c -> sh_word w u -> sh_word (c :: w) (c :: u)
| sh_single s w u : ~ In "'"%char s -> sh_word w u ->
    sh_word ("'"%char :: s ++ "'"%char :: w) (s ++ u)
| sh_double s w u : (forall c, In c s -> ~ In c [DQ; "$"; "`"; "\"]%char) -> sh_word w u ->
    sh_word (DQ :: s ++ DQ :: w) (s ++ u).

(** A command line: words with one blank between neighbours *)
Inductive sh_line : text -> list text -> Prop :=
| line_none : sh_line [] []
| line_one w u : w <> [] -> sh_word w u -> sh_line w [u]
| line_more w u t us : w <> [] -> sh_word w u -> us <> [] -> sh_line t us ->
    sh_line (w ++ " "%char :: t) (u :: us).

(** A text that is these lines *)
Definition lines (ls : list text) : text := concat (map (fun l => l ++ [NL]) ls).

(** The desktop entry that starts [exec] *)
Definition desktop_lines (name generic comment : text) (icon : list text) (terminal notify : bool)
  (categories exec : text) : list text :=
  [ T "[Desktop Entry]"; T "Categories=" ++ categories; T "Comment=" ++ comment;
    T "Exec=" ++ exec; T "GenericName=" ++ generic ] ++
  map (fun i => T "Icon=" ++ i) icon ++
  [ T "Name=" ++ name; T "StartupNotify=" ++ (if notify then T "true" else T "false");
    T "Terminal=" ++ (if terminal then T "true" else T "false"); T "Type=Application"; T "Version=1.0"; [] ].

(** The service that starts [exec] as [user] *)
Definition service_lines (user exec : text) : list text :=
  [ T "[Unit]"; T "After=ubuntu-snappy.frameworks.target"; T "Description=Plainbox Resume Wrapper";
    T "Requires=ubuntu-snappy.frameworks.target"; T "X-Snappy=yes"; [];
    T "[Service]"; T "ExecStart=" ++ exec; T "Type=oneshot"; T "User=" ++ user; [];
    T "[Install]"; T "WantedBy=multi-user.target"; [] ].

(** Two file systems that differ at most in the files named *)
Definition same_but (names : list text) (d d' : list (text * text)) : Prop :=
  forall n, ~ In n names -> tget n d' = tget n d.

(** A value that configparser takes as it is: it has no percent sign at all.
    (A pair of them, or a well-formed reference, is taken too.) *)
Definition plain_value (t : text) : Prop := ~ In "%"%char t.
Definition one_line (t : text) : Prop := ~ In NL t.
