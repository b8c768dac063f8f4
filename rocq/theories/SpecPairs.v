(** Specification of the pair potentials of a .castep file, independent of the parser. *)
From Coq Require Import Ascii String List Arith NArith.
From Verif Require Import PyVal NumSpec SpecStr SpecLine SpecTable SpecBands SpecDict SpecMd SpecCastep SpecEdges SpecTree.
Import ListNotations.
Open Scope list_scope.

Definition word_or_none (t : list ascii) : Prop := t = [] \/ word t.
(** The name of a potential: its type, after the tag of the line if it has one *)
Definition potential (tag typ : list ascii) : key := KStr (match tag with [] => typ | _ => tag ++ "_"%char :: typ end).
(** A unit: it does not begin with a digit. *)
Definition unit_char (c : ascii) : Prop := word_char c \/ among "^/*" c.
Definition unit_text (u : list ascii) : Prop := u <> [] /\ Forall unit_char u /\ not_first "0123456789" u.
(** "SR *  r   3.0000   eV   * <-- SHO": tag, label, numbers, unit and type *)
Inductive value_line : list ascii -> list ascii -> list ascii -> list num -> list ascii -> Prop :=
| vl t a g lab cols ns g1 u g2 g3 g4 typ r : word_or_none t -> blanks a -> blanks g -> word lab -> columns ns cols -> ns <> [] -> all_fit ns ->
    gap g1 -> unit_text u -> gap g2 -> blanks g3 -> blanks g4 -> word typ -> blanks r ->
    value_line (t ++ a ++ "*"%char :: g ++ lab ++ cols ++ g1 ++ u ++ g2 ++ "*"%char :: g3 ++ text_of "<--" ++ g4 ++ typ ++ r) t lab ns typ.
(** No species, dash, species *)
Definition unpaired (l : list ascii) : Prop :=
  forall a c g g' d b, word_char c \/ c = "]"%char -> blanks g -> blanks g' -> capital d -> l <> a ++ c :: g ++ "-"%char :: g' ++ d :: b.
Definition no_capitals (s : list ascii) : Prop := forall c, In c s -> ~ capital c.
Definition edge (s : list ascii) : Prop := forall a c, s = a ++ [c] -> ~ word_char c.
(** "*  H  -H    H  -He  *": all the pairs of species of a text *)
Inductive pairs : list ascii -> list (list ascii * list ascii) -> Prop :=
| pr_end t : no_capitals t -> pairs t []
| pr_next a s1 g g' s2 r ps : no_capitals a -> edge a -> symbol s1 -> blanks g -> blanks g' -> symbol s2 -> not_first "[" r -> (r = [] \/ exists x r', r = x :: r' /\ blank x) -> ~ In "["%char r ->
    pairs r ps -> pairs (a ++ s1 ++ g ++ "-"%char :: g' ++ s2 ++ r) ((s1, s2) :: ps).
Definition pair_key (p : list ascii * list ascii) : key := KTuple [KStr (fst p); KStr (snd p)].
(** "*  H  *" *)
Inductive one_line : list ascii -> list ascii -> Prop :=
| ol t a g s g1 g2 : word_or_none t -> blanks a -> blanks g -> symbol s -> blanks g1 -> blanks g2 ->
    one_line (t ++ a ++ "*"%char :: g ++ s ++ g1 ++ "*"%char :: g2) s.
(** Between the stars there is one word, and it begins with a capital. *)
Definition one_like (l : list ascii) : Prop :=
  exists t a g c w g1 g2, l = t ++ a ++ "*"%char :: g ++ c :: w ++ g1 ++ "*"%char :: g2 /\ word_or_none t /\ blanks a /\ blanks g /\ capital c /\ (forall x, In x w -> ~ blank x) /\ blanks g1 /\ blanks g2.
(** What the lines of a block of two-body terms say, and to which species the values of
    the next line belong, from the species of the previous line on *)
Definition values (pot : key) (lab : list ascii) (ks : list key) (ns : list num) : list said :=
  map (fun x => ([pot; KStr lab; fst x], float_of (snd x))) (combine ks ns).
Inductive two_lines : option (list key) -> list (list ascii) -> list said -> option (list key) -> Prop :=
| tw_nil ks : two_lines ks [] [] ks
| tw_pairs ks l p ps ls es ks' : pairs l (p :: ps) -> two_lines (Some (map pair_key (p :: ps))) ls es ks' -> two_lines ks (l :: ls) es ks'
| tw_one ks l s ls es ks' : one_line l s -> two_lines (Some [KTuple [KStr s]]) ls es ks' -> two_lines ks (l :: ls) es ks'
| tw_value ks l t lab ns typ ls es ks' : unpaired l -> value_line l t lab ns typ -> length ns <= 4 -> length ks = length ns -> two_lines (Some ks) ls es ks' ->
    two_lines (Some ks) (l :: ls) (values (potential t typ) lab ks ns ++ es) ks'
| tw_other ks l ls es ks' : unpaired l -> ~ mentions "<--" l -> ~ In "["%char l -> ~ one_like l -> two_lines ks ls es ks' -> two_lines ks (l :: ls) es ks'.
(** "*  H  H  H  *" *)
Inductive triple_line : list ascii -> list (list ascii) -> Prop :=
| tl_ t a g s1 g1 s2 g2 s3 g3 g4 : word_or_none t -> blanks a -> blanks g -> symbol s1 -> gap g1 -> symbol s2 -> gap g2 -> symbol s3 -> blanks g3 -> blanks g4 ->
    triple_line (t ++ a ++ "*"%char :: g ++ s1 ++ g1 ++ s2 ++ g2 ++ s3 ++ g3 ++ "*"%char :: g4) [s1; s2; s3].
(** Fewer than three capitals *)
Definition few_capitals (l : list ascii) : Prop := forall a b c d x y z, capital x -> capital y -> capital z -> l <> a ++ x :: b ++ y :: c ++ z :: d.
Inductive three_lines : option (list key) -> list (list ascii) -> list said -> option (list key) -> Prop :=
| th_nil ks : three_lines ks [] [] ks
| th_triple ks l ss ls es ks' : triple_line l ss -> three_lines (Some [KTuple (map KStr ss)]) ls es ks' -> three_lines ks (l :: ls) es ks'
| th_value k ks l t lab n typ ls es ks' : value_line l t lab [n] typ -> three_lines (Some (k :: ks)) ls es ks' ->
    three_lines (Some (k :: ks)) (l :: ls) (([potential t typ; KStr lab; k], float_of n) :: es) ks'
| th_other ks l ls es ks' : ~ mentions "<--" l -> few_capitals l -> three_lines ks ls es ks' -> three_lines ks (l :: ls) es ks'.
(** A row of stars, with or without a tag *)
Definition starred (l : list ascii) : Prop := exists t g, l = t ++ g /\ word_or_none t /\ ruled "*" g.
(** The report: blocks of two-body and three-body terms, values for all species, other lines *)
Inductive pair_report : option (list key) -> list (list ascii) -> list said -> Prop :=
| pp_nil ks : pair_report ks [] []
| pp_two ks ks' l b es r es' : mentions "Two Body" l -> delimited starred 1 b -> two_lines ks (l :: b) es ks' -> pair_report ks' r es' ->
    pair_report ks (l :: b ++ r) (es ++ es')
| pp_three ks ks' l b es r es' : ~ mentions "Two Body" l -> mentions "Three Body" l -> delimited (ruled "*") 1 b -> three_lines ks (l :: b) es ks' -> pair_report ks' r es' ->
    pair_report ks (l :: b ++ r) (es ++ es')
| pp_value ks l t lab n typ r es : ~ mentions "Two Body" l -> ~ mentions "Three Body" l -> value_line l t lab [n] typ -> pair_report ks r es ->
    pair_report ks (l :: r) (([potential t typ; KStr lab], float_of n) :: es)
| pp_other ks l r es : ~ mentions "Two Body" l -> ~ mentions "Three Body" l -> ~ mentions "<--" l -> pair_report ks r es -> pair_report ks (l :: r) es.
