(** Specification of the options of a run in .castep files, with developer codes;
    independent of the parser. *)
From Coq Require Import Ascii String List Arith NArith ZArith.
From Verif Require Import PyBase PyVal NumSpec SpecLine SpecStr SpecTable SpecBands SpecMd SpecDict SpecCastep SpecCastep2 SpecCastep5 SpecDevel.
Import ListNotations.
Open Scope list_scope.

(** A row of stars *)
Definition star_row (l : list ascii) : Prop := exists a n b, blanks a /\ blanks b /\ l = a ++ repeat "*"%char (S n) ++ b.
(** Groups, units and entries as in [SpecCastep5]; and developer codes, from a line
    that mentions them to a row of stars *)
Inductive option_item := OLine (i : param_item) | OCode (d : list (key * pyval)).
Inductive option_lines : list (list ascii) -> list option_item -> Prop :=
| ol_nil : option_lines [] []
| ol_row l i ls its : param_row l i -> option_lines ls its -> option_lines (l :: ls) (OLine i :: its)
| ol_other l ls its : silent_param l -> option_lines ls its -> option_lines (l :: ls) its
| ol_code l body e d ls its : mentions "Developer Code" l -> Forall (fun x => ~ star_row x) body -> star_row e -> devel_block body d ->
    option_lines ls its -> option_lines (l :: body ++ e :: ls) (OCode d :: its).
(** What is written into the options, in turn: the units so far after each line
    of a unit, the entries of a group when the next group begins, developer codes at once. *)
Inductive options_filed : list (key * pyval) -> list ascii -> list (key * pyval) -> list option_item -> list (key * pyval) -> Prop :=
| of_end us g : options_filed us g [] [] []
| of_last us g es d : es <> [] -> merged es d -> options_filed us g es [] [(KStr g, VDict false d)]
| of_head us g h its out : options_filed us h [] its out -> options_filed us g [] (OLine (PHead h) :: its) out
| of_close us g es d h its out : es <> [] -> merged es d -> options_filed us h [] its out ->
    options_filed us g es (OLine (PHead h) :: its) ((KStr g, VDict false d) :: out)
| of_unit us g es k v d its out : merged (us ++ [(KStr k, VStr v)]) d -> options_filed (us ++ [(KStr k, VStr v)]) g es its out ->
    options_filed us g es (OLine (PUnit k v) :: its) ((name "output_units", VDict false d) :: out)
| of_entry us g es k v its out : options_filed us g (es ++ [(KStr k, v)]) its out -> options_filed us g es (OLine (PEntry k v) :: its) out
| of_code us g es d its out : options_filed us g es its out ->
    options_filed us g es (OCode d :: its) ((name "devel_code", VDict false d) :: out).
Definition options_are (its : list option_item) (d : list (key * pyval)) : Prop := exists out, options_filed [] [] [] its out /\ merged out d.
