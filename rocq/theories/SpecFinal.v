(** Specification of final configurations in .castep files, independent of the parser. *)
From Coq Require Import Ascii String List Arith NArith.
From Verif Require Import PyBase PyVal NumSpec SpecStr SpecLine SpecTable SpecBands SpecDict SpecMd SpecCastep SpecCastep2 SpecCastepRun.
Import ListNotations.
Open Scope list_scope.

(** The name of a minimiser, in any case *)
Definition minimisers : list string := ["BFGS"; "LBFGS"; "FIRE"; "TPSD"; "DMD"; "DI"]%string.
Definition minimiser (t : list ascii) : Prop := exists m, In m minimisers /\ lower t = lower (text_of m).
(** A number with a decimal point or an exponent *)
Definition pointed (n : num) : Prop := n_frac n <> None \/ n_exp n <> None.
(** " BFGS: Final Enthalpy     = -1.23E+002 eV": the key and the number *)
Inductive minim_value : list ascii -> list ascii -> num -> Prop :=
| mv a t k g n r nm : blanks a -> minimiser t -> k <> [] -> ~ In "="%char k -> key_name k nm -> blanks g -> num_ok n -> pointed n -> fits (num_value n) -> token_end r ->
    minim_value (a ++ t ++ ":"%char :: k ++ "="%char :: g ++ write_num n ++ r) nm n.
(** No "=", or something else than a minimiser before the first ":" *)
Definition no_value (l : list ascii) : Prop :=
  ~ In "="%char l \/ forall a t r, blanks a -> minimiser t -> l <> a ++ t ++ ":"%char :: r.
Definition in_neither (l : list ascii) : Prop := ~ mentions "Unit Cell" l /\ ~ heading "Cell Contents" l.
Inductive final_item : list (list ascii) -> list (key * pyval) -> Prop :=
| fi_cell l b rows : mentions "Unit Cell" l -> delimited blanks 3 b -> laid cell_row not_cell_row (l :: b) rows ->
    final_item (l :: b) [(name "cell", VDict false (cell_read rows))]
| fi_atoms l b rows d : ~ mentions "Unit Cell" l -> heading "Cell Contents" l -> delimited (ruled "x") 2 b -> laid vector_row plain (l :: b) rows ->
    merged (map vector_entry rows) d -> final_item (l :: b) [(name "atoms", VDict false d)]
| fi_value l nm n : in_neither l -> minim_value l nm n -> final_item [l] [(KStr nm, float_of n)]
| fi_other l : in_neither l -> no_value l -> final_item [l] [].
(** The same line after the block: the words of the key, the first of which is "Final", in lower case *)
Definition words_name (k nm : list ascii) : Prop := exists ws, cut nonblank ws k /\ nm = joined (text_of "_") (map lower ws).
Inductive final_value : list ascii -> list ascii -> num -> Prop :=
| fv a t g0 f k g n r nm : blanks a -> minimiser t -> blanks g0 -> lower f = text_of "final " -> k <> [] -> ~ In "="%char k -> words_name (f ++ k) nm ->
    blanks g -> num_ok n -> pointed n -> fits (num_value n) -> token_end r ->
    final_value (a ++ t ++ ":"%char :: g0 ++ f ++ k ++ "="%char :: g ++ write_num n ++ r) nm n.
(** No "=", or something else than a minimiser, ":" and "Final" before it *)
Definition no_final (l : list ascii) : Prop :=
  ~ In "="%char l \/ forall a t g f r, blanks a -> minimiser t -> blanks g -> lower f = text_of "final " -> l <> a ++ t ++ ":"%char :: g ++ f ++ r.
