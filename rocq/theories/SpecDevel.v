(** Specification of DEVEL_CODE blocks: how settings, flags and groups of them are
    written, and what they are filed under; independent of the parser. *)
From Coq Require Import Ascii String List Arith NArith ZArith.
From Verif Require Import PyBase PyVal NumSpec SpecLine SpecStr SpecTable SpecBands SpecMd SpecDict.
From Verif Require SpecCell SpecCastep2.
Import ListNotations.
Open Scope list_scope.

(** ** Words and what is between them *)
Definition space (c : ascii) : Prop := c = " "%char \/ c = SpecCell.TAB.
Definition spaces (g : list ascii) : Prop := Forall space g.
(** What follows a word *)
Definition ended (t : list ascii) : Prop := t = [] \/ exists c t', t = c :: t' /\ space c.
Inductive spread : list ascii -> list (list ascii) -> Prop :=
| sp_end g : spaces g -> spread g []
| sp_word g w t ws : spaces g -> w <> [] -> (forall c, In c w -> ~ blank c) -> ended t -> spread t ws -> spread (g ++ w ++ t) (w :: ws).
Definition occurs (p s : list ascii) : Prop := exists a b, s = a ++ p ++ b.

(** ** Settings: "name=value" *)
Definition in_word (w : list ascii) : Prop := forall c, In c w -> ~ blank c /\ ~ among ":=;%" c.
Inductive setting : list ascii -> list ascii * pyval -> Prop :=
| se k nm v x : word k -> SpecCastep2.key_name k nm -> v <> [] -> in_word v -> SpecCell.single_value v x -> setting (k ++ "="%char :: v) (nm, x).
(** Outside groups: no letter or underscore after another kind of character, and no
    minus sign after a letter, digit or underscore. *)
Definition steady (w : list ascii) : Prop :=
  forall k u x y u', w = k ++ "="%char :: u ++ x :: y :: u' ->
    (SpecCell.letter y \/ y = "_"%char -> word_char x) /\ (y = "-"%char -> ~ word_char x).
(** Flags: letters, underscores, and minus signs between them *)
Definition flag_char (c : ascii) : Prop := SpecCell.letter c \/ c = "_"%char.
Definition flag (w : list ascii) : Prop :=
  (forall c, In c w -> flag_char c \/ c = "-"%char) /\ (exists c t, w = c :: t /\ flag_char c) /\ (exists t c, w = t ++ [c] /\ flag_char c).

(** ** Groups: "title: ... :endtitle" *)
(** The settings, and the other words, of a group *)
Inductive inside : list (list ascii) -> list (list ascii * pyval) -> list (list ascii) -> list pyval -> Prop :=
| in_nil : inside [] [] [] []
| in_set w e ws es ss xs : setting w e -> inside ws es ss xs -> inside (w :: ws) (e :: es) (w :: ss) xs
| in_data w x ws es ss xs : w <> [] -> in_word w -> SpecCell.single_value w x -> inside ws es ss xs -> inside (w :: ws) es ss (x :: xs).
Definition data_of (xs : list pyval) : list (key * pyval) :=
  match xs with [] => [] | _ => [(KStr (text_of "data"), VList xs)] end.
Definition filed_as (e : list ascii * pyval) : key * pyval := (KStr (fst e), snd e).
Inductive group (t : list ascii) : list ascii -> list ascii * pyval -> Prop :=
| gr t' z b nm ws es ss xs d : word t -> SpecCell.spells ":end" z -> lower t' = lower t -> SpecCastep2.key_name t nm -> spread b ws -> inside ws es ss xs ->
    (** no setting is part of another word of the group *)
    (forall s w, In s ss -> In w ws -> occurs s w -> w = s) ->
    merged (map filed_as es ++ data_of xs) d ->
    group t (t ++ ":"%char :: b ++ z ++ t') (nm, VDict false d).

(** ** Whole blocks *)
(** Settings and flags outside groups *)
Inductive listed : list (list ascii) -> list (list ascii * pyval) -> list (list ascii) -> Prop :=
| li_nil : listed [] [] []
| li_set w e ws es fs : setting w e -> steady w -> listed ws es fs -> listed (w :: ws) (e :: es) fs
| li_flag w nm ws es fs : flag w -> SpecCastep2.key_name w nm -> listed ws es fs -> listed (w :: ws) es (nm :: fs).
(** The text, its words outside groups, and its groups.  A group is not closed again
    later. *)
Inductive code : list ascii -> list (list ascii) -> list (list ascii * pyval) -> Prop :=
| co_end t ws : spread t ws -> code t ws []
| co_group t ws n g e r ws' gs : spread t ws -> t = [] \/ (exists u c, t = u ++ [c] /\ space c) -> group n g e -> ended r ->
    ~ occurs (text_of ":end" ++ lower n) (lower r) -> code r ws' gs -> code (t ++ g ++ r) (ws ++ ws') (e :: gs).
(** Names that are taken get an underscore in front. *)
Inductive filed : list (key * pyval) -> list (list ascii * pyval) -> list (key * pyval) -> Prop :=
| fi_nil d : filed d [] d
| fi_new d k v es d' : ~ In (KStr k) (map fst d) -> filed (d ++ [(KStr k, v)]) es d' -> filed d ((k, v) :: es) d'
| fi_taken d k v es d1 d' : In (KStr k) (map fst d) -> merged (d ++ [(KStr ("_"%char :: k), v)]) d1 -> filed d1 es d' -> filed d ((k, v) :: es) d'.
(** The lines of a block, without surrounding blanks, are one text; flags have no value. *)
Inductive devel_block : list (list ascii) -> list (key * pyval) -> Prop :=
| db ls os ws gs es fs d : Forall2 trimmed ls os -> code (joined (text_of " ") os) ws gs -> listed ws es fs -> NoDup (map fst gs) ->
    filed (map filed_as gs) (es ++ map (fun f => (f, VNone)) fs) d -> devel_block ls d.
(** Its closing line *)
Definition closing (e : list ascii) : Prop :=
  exists k g n o, trimmed e o /\ o = k ++ g ++ n /\ SpecCell.spells "%endblock" k /\ g <> [] /\ blanks g /\ SpecCell.spells "devel_code" n.
