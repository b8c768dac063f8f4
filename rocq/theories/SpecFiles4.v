(** Specification of .ts files. *)
From Coq Require Import Ascii String List NArith ZArith QArith.
From Verif Require Import PyBase PyVal NumSpec SpecLine SpecStr SpecTable SpecBands SpecDict SpecMd SpecCastep SpecFiles.
Import ListNotations.
Open Scope list_scope.

(** ** Lines of a structure *)
(** No word of the text begins with a capital. *)
Definition no_capital_word (body : list ascii) : Prop :=
  forall a c t, body = a ++ c :: t -> capital c -> exists a' d, a = a' ++ [d] /\ word_char d.
Definition ts_tag (tag : list ascii) : Prop := tag_ok tag /\ tag <> text_of "reaction_coordinate".
Inductive ts_row : list ascii -> option item -> Prop :=
| tr_other l : ~ mentions "<--" l -> ts_row l None
| tr_row l body tag ns : tagged body tag l -> (forall r, l = body ++ text_of "<--" ++ r -> ~ mentions "<--" r) -> ts_tag tag ->
    number_line ns l -> all_fit ns -> no_capital_word body -> ts_row l (Some (MRow tag ns))
| tr_atom l a sp g ds t b tag x y z :
    tagged (a ++ sp ++ g ++ write_digits ds ++ t ++ b) tag l -> ts_tag tag ->
    blanks a -> species sp -> blanks g -> g <> [] -> ds <> [] ->
    columns [x; y; z] t -> all_fit [x; y; z] -> blanks b -> b <> [] ->
    ts_row l (Some (MAtom sp (decimal ds) tag x y z)).
Inductive ts_rows : list (list ascii) -> list item -> Prop :=
| trs_nil : ts_rows [] []
| trs_cons l o ls its : ts_row l o -> ts_rows ls its -> ts_rows (l :: ls) (match o with Some it => it :: its | None => its end).

(** ** Files *)
Inductive ts_kind := Reagent | Product | Test.
Definition kind_word (k : ts_kind) : string := match k with Reagent => "REA" | Product => "PRO" | Test => "TST" end.
Definition kind_name (k : ts_kind) : string := match k with Reagent => "reagent" | Product => "product" | Test => "test" end.
Inductive ts_item := Confirmation | Structure (k : ts_kind) (rc : num) (its : list item).
(** "REA n coordinate" *)
Inductive ts_head (k : ts_kind) (rc : num) : list ascii -> Prop :=
| th a g ds t s : blanks a -> blanks g -> ds <> [] -> columns [rc] t -> token_end s -> all_fit [rc] ->
    ts_head k rc (a ++ text_of (kind_word k) ++ g ++ write_digits ds ++ t ++ s).
(** The lines of a structure but for the blank line after it *)
Inductive ts_lines : ts_item -> list (list ascii) -> Prop :=
| tl_lines k rc its l body : ts_head k rc l -> ~ mentions "TSConfirmation" l -> ~ mentions "<--" l ->
    Forall (fun x => ~ blanks x) body -> ts_rows body its -> ts_lines (Structure k rc its) (l :: body).
Inductive ts_file : list ts_item -> list (list ascii) -> Prop :=
| tf_nil : ts_file [] []
| tf_other l ls its : Forall (fun w => ~ mentions w l) ["TSConfirmation"; "REA"; "PRO"; "TST"]%string -> ts_file its ls -> ts_file its (l :: ls)
| tf_confirmation l ls its : mentions "TSConfirmation" l -> ts_file its ls -> ts_file (Confirmation :: its) (l :: ls)
| tf_last it ls : ts_lines it ls -> ts_file [it] ls
| tf_structure it b e ls its : ts_lines it b -> blanks e -> ts_file its ls -> ts_file (it :: its) (b ++ e :: ls).

(** ** What is returned *)
Definition rows_value (rs : list (list num)) : pyval := VList (map (fun ns => VList (map float_of ns)) rs).
Definition vector_val (v : num * num * num) : pyval := let '(x, y, z) := v in VTuple (map float_of [x; y; z]).
(** The dictionary of a structure: the coordinate, the rows under their tags and
    the long names of these, the vectors of every atom. *)
Record structure_says (rc : num) (its : list item) (d : list (key * pyval)) : Prop := {
  ss_nodup : NoDup (map fst d);
  ss_rows : forall s v, In (KStr s, v) d <->
    (s = text_of "reaction_coordinate" /\ v = float_of rc) \/ frame_has float_of rows_value its s v;
  ss_atoms : forall sp i, has_atom sp i its <-> ~ absent d (SpecDict.atom_key (sp, i));
  ss_other : forall k v, In (k, v) d -> (exists s, k = KStr s) \/ exists sp i p, k = SpecDict.atom_key (sp, i) /\ v = VDict false p /\
    NoDup (map fst p) /\ forall k' w, In (k', w) p <-> exists s, k' = KStr s /\ atom_has vector_val its sp i s w
}.
Definition structure_entry (it : ts_item) (es : list (key * pyval)) : Prop :=
  match it with
  | Confirmation => es = []
  | Structure k rc its => exists d, es = [named (kind_name k) (VDict true d)] /\ structure_says rc its d
  end.
Definition confirmations (its : list ts_item) : list (key * pyval) :=
  if existsb (fun it => match it with Confirmation => true | _ => false end) its then [named "confirmation" (VBool true)] else [].
(** [d] says "confirmation" if there is such a line and gathers the structures of each kind. *)
Definition ts_says (its : list ts_item) (d : list (key * pyval)) : Prop :=
  exists ess, Forall2 structure_entry its ess /\ gathered (confirmations its) (concat ess) d.
