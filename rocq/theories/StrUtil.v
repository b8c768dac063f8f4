(** castep_outputs/utilities/utility.py: text helpers. *)
From Verif Require Import PyBase Regex.
Local Open Scope list_scope.
Local Open Scope nat_scope.

(** utility.py 81 *)
Definition normalise_string (s : str) : str := join ($" ") (split (strip s)).

(** utility.py 39: [[_\W]+] *)
Definition is_sep (c : ascii) : bool := Ascii.eqb c "_" || negb (is_word c).
Definition NORMALISE_RE : re := RPlus (RChr is_sep).
(** utility.py 113 *)
Definition normalise_key (s : str) : str :=
  lower (strip_by (Ascii.eqb "_") (re_sub NORMALISE_RE ($"_") s)).

(** utility.py 482, 529: ['|'.join(comment_char)] for literal markers, i.e.
    without regular-expression metacharacters (a set of markers is given as a
    list, in whatever order the set iterates; joining no markers gives the empty
    pattern). *)
Definition comment_alt (ms : list str) : re :=
  match ms with [] => REps | _ => RAlts (map RLit_l ms) end.

(** utility.py 482-489; [comment_re.split(line)[0]] is the text before the first match. *)
Definition before_match (r : re) (l : str) : str :=
  match search_from r None l with Some (pre, _) => pre | None => l end.
Definition strip_inline_comments (ms : list str) (ls : list str) : list str :=
  filter (fun l => negb (isempty l)) (map (fun l => rstrip (before_match (comment_alt ms) l)) ls).

(** utility.py 529-533 *)
Definition strip_initial_comments (ms : list str) (ls : list str) : list str :=
  filter (fun l => negb (isempty l)) (map rstrip
    (filter (fun l => negb (re_match_test (RSeqs [RBol; ws_star; comment_alt ms]) l)) ls)).

(** utility.py 596-602: the lines of the Block that is returned; [ls] are the
    lines [data] delivers (all are consumed). *)
Definition strip_comments (ms : list str) (remove_inline : bool) (ls : list str) : list str :=
  if remove_inline then strip_inline_comments ms ls else strip_initial_comments ms ls.
