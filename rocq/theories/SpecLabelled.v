(** Specification of labelled positions in .castep files, independent of the parser. *)
From Coq Require Import Ascii String List ZArith.
From Verif Require Import PyBase PyVal NumSpec SpecStr SpecLine SpecTable SpecBands SpecMd SpecDict SpecCastep SpecEdges.
Import ListNotations.
Open Scope list_scope.

(** "x  Element    Atom        Fractional coordinates of atoms  User-defined  x" *)
Definition labelled_title (l : list ascii) : Prop := exists a g r, blanks g /\ g <> [] /\
  l = a ++ text_of "Fractional coordinates of atoms" ++ g ++ text_of "User-defined" ++ r.
(** "x  H            1         0.000000   0.000000   0.000000     H1          x": an atom, three
    numbers, five blanks and a label of at most eight characters or no label. *)
Definition labelled_atom := (((list ascii * Z) * list num) * list ascii)%type.
Inductive label_row : list ascii -> labelled_atom -> Prop :=
| lbr a u at_ t ns g lab s : no_capitals a -> edge a -> numbered_atom u at_ -> columns ns t -> length ns = 3%nat -> all_fit ns ->
    blanks g -> length g = 5%nat -> (forall c, In c lab -> ~ blank c) -> (length lab <= 8)%nat -> token_end s ->
    label_row (a ++ u ++ t ++ g ++ lab ++ s) ((at_, ns), lab).
(** The label under the atom; the position under the atom with its label. *)
Definition label_entry (r : labelled_atom) : key * pyval :=
  let '((at_, _), lab) := r in (atom_key at_, VStr match lab with [] => text_of "NULL" | _ => lab end).
Definition position_entry (r : labelled_atom) : key * pyval :=
  let '((at_, ns), lab) := r in
  (atom_key match lab with [] => at_ | _ => (fst at_ ++ text_of " [" ++ lab ++ text_of "]", snd at_) end, vector ns).
