(** Specification of the names of atoms: a chemical symbol, a tag and a label. *)
From Coq Require Import List Ascii String NArith.
From Verif Require Import PyVal NumSpec SpecLine SpecStr SpecTable SpecBands SpecMd SpecCastep.
Import ListNotations.
Local Open Scope list_scope.

(** [:tag] *)
Inductive tag_text : list ascii -> list (key * pyval) -> Prop :=
| tt_none : tag_text [] []
| tt_some w : word w -> tag_text (":"%char :: w) [(name "tag", VStr w)].
(** [ [label] ]: kept without the blanks around it; an empty one is no label, one of blanks
    only is the empty text *)
Inductive label_text : list ascii -> list (key * pyval) -> Prop :=
| lt_empty g : blanks g -> label_text (g ++ ["["; "]"]%char) []
| lt_some g x y : blanks g -> x <> [] -> ~ In "]"%char x -> trimmed x y ->
    label_text (g ++ "["%char :: x ++ ["]"%char]) [(name "label", VStr y)].
(** What may follow a name without being part of it: nothing that continues the
    word, starts a tag or a label. *)
Definition apart (r : list ascii) : Prop := ~ In "["%char r /\ forall c t, r = c :: t -> ~ word_char c /\ c <> ":"%char.
Inductive atom_text : list ascii -> list (key * pyval) -> Prop :=
| at_label s t l r ts ls : symbol s -> tag_text t ts -> label_text l ls ->
    atom_text (s ++ t ++ l ++ r) ((name "species", VStr s) :: ts ++ ls)
| at_plain s t r ts : symbol s -> tag_text t ts -> apart r ->
    atom_text (s ++ t ++ r) ((name "species", VStr s) :: ts).
(** The fields of a label: what is given under the name, or else the default *)
Definition given (d : list (key * pyval)) (f : string) (v : pyval) : Prop := In (name f, v) d.
Definition given_or_empty (d : list (key * pyval)) (f : string) (v : pyval) : Prop :=
  given d f v \/ ~ In (name f) (map fst d) /\ v = VStr [].
