(** Specification of more blocks of .castep files, those made of mixed lines:
    reports of pseudopotentials, and symmetry and constraints; independent of the
    parser. *)
From Coq Require Import Ascii String List Arith NArith ZArith QArith Qreduction.
From Verif Require Import PyBase PyVal NumSpec SpecLine SpecStr SpecTable SpecBands SpecDict SpecMd SpecCastep SpecCastep2 SpecCastep3 SpecCastep4 SpecPspot.
From Verif Require SpecCell.
Import ListNotations.
Open Scope list_scope.

(** ** Reports of pseudopotentials: lines in a frame of bars *)
(** "3s1/2" *)
Definition orbital (w : list ascii) : Prop := shell w \/ exists s ds, shell s /\ ds <> [] /\ w = s ++ "/"%char :: write_digits ds.
(** The start of a line in the frame *)
Definition bar (a : list ascii) : Prop := exists u v, a = u ++ "|"%char :: v /\ blanks u /\ blanks v.
(** The number of a projector, or "loc" *)
Inductive beta_label : list ascii -> pyval -> Prop :=
| bl_number ds : ds <> [] -> beta_label (write_digits ds) (VInt (decimal ds))
| bl_local : beta_label (text_of "loc") (VStr (text_of "loc")).
(** What may stand between the angular momentum and the energy: the total one *)
Inductive j_text : num -> list ascii -> pyval -> Prop :=
| jt_none e : fixed e -> j_text e [] VNone
| jt_some e g ds : gap g -> ds <> [] -> j_text e (g ++ write_digits ds) (VInt (decimal ds)).
Definition ends_word (s : list ascii) : Prop := forall c t, s = c :: t -> ~ word_char c.
Definition solver_char (c : ascii) : Prop := word_char c \/ blank c \/ c = "-"%char.
Inductive report_item := OfOrbitals (v : pyval) | OfProjectors (v : pyval) | OfReport (es : list (key * pyval)).
Inductive report_row : list ascii -> report_item -> Prop :=
| rp_orbital a w t occ e g s : bar a -> orbital w -> columns [occ; e] t -> all_fit [occ; e] -> gap g -> blanks s ->
    report_row (a ++ w ++ t ++ g ++ "|"%char :: s)
      (OfOrbitals (VDict false [(name "orb", VStr w); (name "occupation", float_of occ); (name "energy", float_of e)]))
| rp_projector a b bv g1 ls u jv t e rc g2 sch g3 ds g4 s : bar a -> beta_label b bv -> gap g1 -> ls <> [] -> j_text e u jv ->
    columns [e; rc] t -> all_fit [e; rc] -> gap g2 -> sch <> [] -> (forall c, In c sch -> word_char c) -> gap g3 -> ds <> [] -> blanks g4 -> blanks s ->
    report_row (a ++ b ++ g1 ++ write_digits ls ++ u ++ t ++ g2 ++ sch ++ g3 ++ write_digits ds ++ g4 ++ "|"%char :: s)
      (OfProjectors (VDict false [(name "beta", bv); (name "l", VInt (decimal ls)); (name "j", jv); (name "e", float_of e); (name "Rc", float_of rc);
                                  (name "scheme", VStr sch); (name "norm", VInt (decimal ds))]))
| rp_element a sp g1 n g2 th s : bar a -> SpecCell.species sp -> gap g1 -> fixed n -> fits (num_value n) -> gap g2 ->
    th <> [] -> (forall c, In c th -> word_char c) -> ends_word s ->
    report_row (a ++ text_of "Element: " ++ sp ++ g1 ++ text_of "Ionic charge: " ++ write_num n ++ g2 ++ text_of "Level of theory: " ++ th ++ s)
      (OfReport [(name "element", VStr sp); (name "ionic_charge", float_of n); (name "level_of_theory", VStr th)])
| rp_solver a g t nm s : bar a -> blanks g -> t <> [] -> (forall c, In c t -> solver_char c) -> (forall c u, t = c :: u -> ~ blank c) ->
    (forall c u, s = c :: u -> ~ solver_char c) -> words_of t nm -> ~ mentions "Element: " (a ++ text_of "Atomic Solver:" ++ g ++ t ++ s) ->
    report_row (a ++ text_of "Atomic Solver:" ++ g ++ t ++ s) (OfReport [(name "solver", VStr nm)])
| rp_augmentation a r ns : bar a -> ~ mentions "Element: " (a ++ text_of "Augmentation charge Rinner" ++ r) ->
    ~ mentions "Atomic Solver:" (a ++ text_of "Augmentation charge Rinner" ++ r) ->
    number_line ns (a ++ text_of "Augmentation charge Rinner" ++ r) -> all_fit ns ->
    report_row (a ++ text_of "Augmentation charge Rinner" ++ r) (OfReport [(name "augmentation_charge_rinner", vector ns)])
| rp_core a r ns : bar a -> ~ mentions "Element: " (a ++ text_of "Partial core correction Rc" ++ r) ->
    ~ mentions "Atomic Solver:" (a ++ text_of "Partial core correction Rc" ++ r) ->
    ~ mentions "Augmentation charge Rinner" (a ++ text_of "Partial core correction Rc" ++ r) ->
    number_line ns (a ++ text_of "Partial core correction Rc" ++ r) -> all_fit ns ->
    report_row (a ++ text_of "Partial core correction Rc" ++ r) (OfReport [(name "partial_core_correction", vector ns)]).
(** A line without numbers, or in the frame and neither a number nor "l" first *)
Definition report_words : list string := ["Element: "; "Atomic Solver:"; "Augmentation charge Rinner"; "Partial core correction Rc"]%string.
Definition unlisted (l : list ascii) : Prop :=
  no_digits l \/ exists a c r, l = a ++ c :: r /\ bar a /\ ~ blank c /\ ~ among "0123456789l" c.
Definition silent_report (l : list ascii) : Prop := unlisted l /\ forall w, In w report_words -> ~ mentions w l.
Definition orbitals_of (its : list report_item) : list pyval := flat_map (fun i => match i with OfOrbitals v => [v] | _ => [] end) its.
Definition projectors_of (its : list report_item) : list pyval := flat_map (fun i => match i with OfProjectors v => [v] | _ => [] end) its.
Definition report_of (its : list report_item) : list (key * pyval) := flat_map (fun i => match i with OfReport es => es | _ => [] end) its.
Definition report_read (its : list report_item) (d : list (key * pyval)) : Prop :=
  exists es, merged (report_of its) es /\
  d = (name "reference_electronic_structure", VList (orbitals_of its)) :: (name "pseudopotential_definition", VList (projectors_of its)) :: es.
(** A line of the frame *)
Definition in_frame (l : list ascii) : Prop := no_digits l \/ exists a r, l = a ++ r /\ bar a.

(** ** Symmetry and constraints *)
Inductive symmetry_item := OfSymmetry (k : list ascii) (v : pyval) | OfConstraints (k : list ascii) (v : pyval) | AnOperation (v : pyval).
(** "name = value": what the value is and what it is called. *)
Inductive symmetry_value : list ascii -> list ascii -> list ascii -> pyval -> Prop :=
| sv_deviation t n ws : cut nonblank (write_num n :: ws) t -> num_ok n -> fits (num_value n) ->
    symmetry_value (text_of "maximum_deviation_from_symmetry") t (text_of "max_deviation") (float_of n)
| sv_number r n : num_ok n -> is_int n -> symmetry_value (text_of "number_of_" ++ r) (write_num n) (text_of "num_" ++ r) (VInt (int_value n))
| sv_point nm i a b c x y z : mentions "point_group" nm -> ~ mentions "number_of" nm -> nm <> text_of "maximum_deviation_from_symmetry" -> i <> [] ->
    ~ In ","%char a -> ~ In ","%char b -> ~ In ","%char c -> trimmed a x -> trimmed b y -> trimmed c z ->
    symmetry_value nm (write_digits i ++ ":"%char :: a ++ ","%char :: b ++ ","%char :: c) (text_of "point_group")
      (VDict false [(name "id", VInt (decimal i)); (name "schoenflies", VStr x); (name "hermann_mauguin", VStr y); (name "hermann_mauguin_full", VStr z)])
| sv_space nm i a b x y : mentions "space_group" nm -> ~ mentions "point_group" nm -> ~ mentions "number_of" nm -> nm <> text_of "maximum_deviation_from_symmetry" -> i <> [] ->
    ~ In ","%char a -> ~ In ","%char b -> trimmed a x -> trimmed b y ->
    symmetry_value nm (write_digits i ++ ":"%char :: a ++ ","%char :: b) (text_of "space_group")
      (VDict false [(name "id", VInt (decimal i)); (name "international", VStr x); (name "hall", VStr y)])
| sv_text nm t : ~ mentions "space_group" nm -> ~ mentions "point_group" nm -> ~ mentions "number_of" nm -> nm <> text_of "maximum_deviation_from_symmetry" ->
    symmetry_value nm t nm (VStr t).
Definition rotation_line (l : list ascii) : Prop :=
  exists a ds g r, l = a ++ write_digits ds ++ g ++ text_of "rotation" ++ r /\ blanks a /\ ds <> [] /\ blanks g.
Definition symmetry_words : list string := ["Cell is a supercell containing"; "Centre of mass"; "constraints....."; "Cell constraints are:"]%string.
(** Not "name = value", not the start of an operation, and of [symmetry_words] the
    [i]-th is the first one in the line; [i = 4]: none is. *)
Definition symmetry_kind (i : nat) (l : list ascii) : Prop :=
  ~ In "="%char l /\ ~ rotation_line l /\ (forall w, nth_error symmetry_words i = Some w -> mentions w l) /\
  forall j w, (j < i)%nat -> nth_error symmetry_words j = Some w -> ~ mentions w l.
Inductive symmetry_row : list ascii -> symmetry_item -> Prop :=
| sr_symmetry k v nm t key x : ~ In "="%char k -> ~ In "="%char v -> key_name k nm -> words_of v t -> symmetry_value nm t key x ->
    ~ mentions "constraints" key -> key <> text_of "symop" -> symmetry_row (k ++ "="%char :: v) (OfSymmetry key x)
| sr_constraints k v nm t key x : ~ In "="%char k -> ~ In "="%char v -> key_name k nm -> words_of v t -> symmetry_value nm t key x ->
    mentions "constraints" key -> symmetry_row (k ++ "="%char :: v) (OfConstraints key x)
| sr_primitives l n ns : symmetry_kind 0 l -> number_line (n :: ns) l -> is_int n -> symmetry_row l (OfSymmetry (text_of "n_primitives") (VInt (int_value n)))
| sr_free l : symmetry_kind 1 l -> mentions "NOT" l -> symmetry_row l (OfConstraints (text_of "com_constrained") (VBool false))
| sr_held l : symmetry_kind 1 l -> ~ mentions "NOT" l -> symmetry_row l (OfConstraints (text_of "com_constrained") (VBool true))
| sr_cell l ns : symmetry_kind 3 l -> number_line ns l -> Forall is_int ns ->
    symmetry_row l (OfConstraints (text_of "cell_constraints") (VTuple (map (fun n => VInt (int_value n)) ns))).
(** Atoms related by an operation: "Se: 1 2 3" *)
Inductive related_row : list ascii -> list pyval -> Prop :=
| rl l k v nss : trimmed l (k ++ ":"%char :: v) -> ~ In ":"%char k -> ~ In ":"%char v -> Forall (fun ds => ds <> []) nss -> cut nonblank (map write_digits nss) v ->
    related_row l (map (fun ds => VTuple [VStr k; VInt (decimal ds)]) nss).
(** Constrained atoms in a text: "Se 1 x 143935.2749 0.0000 0.0000".  What comes
    before one of them: text without numbers that ends with a point or a dash,
    then text without capitals. *)
Definition heading (t : list ascii) : Prop := t = [] \/ exists u c, t = u ++ [c] /\ no_digits t /\ ~ In "["%char t /\ among ".-" c.
Inductive constrained : list ascii -> list (key * pyval) -> Prop :=
| ct_end t : no_digits t -> constrained t []
| ct_next h a u at_ g x t ns r es : heading h -> no_capitals a -> edge (h ++ a) -> numbered_atom u at_ -> gap g -> among "xyz" x -> columns ns t -> length ns = 3%nat -> all_fit ns ->
    token_end r -> constrained r es -> constrained (h ++ a ++ u ++ g ++ x :: t ++ r) ((atom_key at_, vector ns) :: es).
(** The values of each name so far *)
Fixpoint so_far (seen rows : list (key * pyval)) : list (key * pyval) :=
  match rows with
  | [] => []
  | (k, v) :: rest => (k, VList (flat_map (fun e => if key_eqb (fst e) k then [snd e] else []) (seen ++ [(k, v)]))) :: so_far (seen ++ [(k, v)]) rest
  end.
Definition operation_read (n1 n2 n3 d : list num) (rel : list pyval) : pyval :=
  VDict false [(name "rotation", VList [vector n1; vector n2; vector n3]); (name "symmetry_related", VList rel); (name "displacement", vector d)].
Inductive symmetry_lines : list (list ascii) -> list symmetry_item -> Prop :=
| sl_nil : symmetry_lines [] []
| sl_row l it ls its : symmetry_row l it -> symmetry_lines ls its -> symmetry_lines (l :: ls) (it :: its)
| sl_other l ls its : symmetry_kind 4 l -> symmetry_lines ls its -> symmetry_lines (l :: ls) its
| sl_operation l r1 n1 r2 n2 r3 n3 x d nd y rel rels e ls its : ~ In "="%char l -> rotation_line l ->
    number_line n1 r1 -> number_line n2 r2 -> number_line n3 r3 -> number_line nd d -> all_fit n1 -> all_fit n2 -> all_fit n3 -> all_fit nd ->
    Forall2 related_row rel rels -> blanks e -> symmetry_lines ls its ->
    symmetry_lines (l :: r1 :: r2 :: r3 :: x :: d :: y :: rel ++ e :: ls) (AnOperation (operation_read n1 n2 n3 nd (concat rels)) :: its)
| sl_constrained l mid fin rows con ls its : symmetry_kind 2 l -> Forall (fun x => ~ mentions "x...." x) mid -> mentions "x...." fin ->
    constrained (joined [newline] (l :: mid ++ [fin])) rows -> merged (so_far [] rows) con -> symmetry_lines ls its ->
    symmetry_lines (l :: mid ++ fin :: ls) (OfConstraints (text_of "ionic_constraints") (VDict true con) :: its).
Fixpoint symmetries (ops : list pyval) (its : list symmetry_item) : list (key * pyval) :=
  match its with
  | [] => []
  | OfSymmetry k v :: its => (KStr k, v) :: symmetries ops its
  | OfConstraints _ _ :: its => symmetries ops its
  | AnOperation v :: its => (name "symop", VList (ops ++ [v])) :: symmetries (ops ++ [v]) its
  end.
Definition constraints_of (its : list symmetry_item) : list (key * pyval) :=
  flat_map (fun it => match it with OfConstraints k v => [(KStr k, v)] | _ => [] end) its.
Definition symmetry_read (its : list symmetry_item) (r : list (key * pyval) * list (key * pyval)) : Prop :=
  merged (symmetries [] its) (fst r) /\ merged (constraints_of its) (snd r).
