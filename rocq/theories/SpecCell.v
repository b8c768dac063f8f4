(** Specification of .cell and .param files, independent of the parser: which
    assignments a list of lines makes. *)
From Coq Require Import Ascii String List NArith ZArith QArith Qreduction.
From Verif Require Import PyBase PyVal NumSpec SpecLine SpecStr SpecTable SpecType SpecDict.
From Verif Require SpecMd.
Import ListNotations.
Open Scope list_scope.

(** ** Lines *)
(** [h] is the line without its comment. *)
Definition code_of (raw h : list ascii) : Prop := before_marker [["#"%char]; ["!"%char]] raw h.

Definition letter (c : ascii) : Prop := (65 <= N_of_ascii c <= 90)%N \/ (97 <= N_of_ascii c <= 122)%N.
Definition key_name (k : list ascii) : Prop := k <> [] /\ forall c, In c k -> letter c \/ c = "_"%char.
Definition TAB : ascii := ascii_of_nat 9.
(** Between a name and its value: a colon or an equals sign, or only blanks (the
    last one a space or a tab). *)
Inductive separator : list ascii -> Prop :=
| sep_mark a c b : blanks a -> among ":=" c -> blanks b -> separator (a ++ c :: b)
| sep_gap a c : blanks a -> c = " "%char \/ c = TAB -> separator (a ++ [c]).

(** ** Values of keywords *)
(** Text: does not start like a number, and is not surrounded by blanks... *)
Definition word_text (s : list ascii) : Prop :=
  s <> [] /\ not_first "+-.0123456789" s /\ (forall c t, s = c :: t -> ~ blank c) /\ (forall t c, s = t ++ [c] -> ~ blank c).
(** ...is a logical or stands for itself. *)
Inductive word_means (s : list ascii) : pyval -> Prop :=
| wm_true : is_logical s -> is_true_word s -> word_means s (VBool true)
| wm_false : is_logical s -> ~ is_true_word s -> word_means s (VBool false)
| wm_text : ~ is_logical s -> word_means s (VStr s).

Definition float_of (n : num) : pyval := VFloat (FQ (Qred (num_value n))).
Inductive scalar_number (n : num) : pyval -> Prop :=
| sn_int : is_int n -> scalar_number n (VInt (int_value n))
| sn_float : ~ is_int n -> fits (num_value n) -> scalar_number n (float_of n).
(** Lists of numbers: all integers, or the first is not one. *)
Inductive number_list : list num -> pyval -> Prop :=
| nl_int ns : Forall is_int ns -> number_list ns (VTuple (map (fun n => VInt (int_value n)) ns))
| nl_float n ns : ~ is_int n -> Forall (fun n => fits (num_value n)) (n :: ns) ->
    number_list (n :: ns) (VTuple (map float_of (n :: ns))).
(** The gaps of a list contain at least one space (not only tabs). *)
Inductive numeric : list ascii -> pyval -> Prop :=
| num_one n v : num_ok n -> scalar_number n v -> numeric (write_num n) v
| num_many n ns t v : num_ok n -> columns ns t -> In " "%char t -> number_list (n :: ns) v -> numeric (write_num n ++ t) v.
(** A unit: no blanks, and not entirely made of characters of numbers. *)
Definition unit_text (u : list ascii) : Prop :=
  (forall c, In c u -> ~ blank c) /\ exists c, In c u /\ ~ among "0123456789+-.eE" c.
Inductive value_text : list ascii -> pyval -> Prop :=
| vt_word s v : word_text s -> word_means s v -> value_text s v
| vt_num t v : numeric t v -> value_text t v
| vt_unit t v c u : numeric t v -> blank c -> unit_text u -> value_text (t ++ c :: u) (VTuple [v; VStr u]).

(** A keyword line, without its comment. *)
Inductive keyword_code : list ascii -> list ascii -> pyval -> Prop :=
| kc a k sep t v b : blanks a -> key_name k -> separator sep -> not_first ":=" t -> value_text t v -> blanks b ->
    keyword_code (a ++ k ++ sep ++ t ++ b) k v.

(** Lists that cannot be read: integers first and another number later, or gaps of
    tabs only. *)
Inductive unreadable_code : list ascii -> Prop :=
| ur_mixed a k sep n ns t b : blanks a -> key_name k -> separator sep -> num_ok n -> is_int n -> columns ns t ->
    In " "%char t -> Exists (fun m => ~ is_int m) ns -> blanks b -> unreadable_code (a ++ k ++ sep ++ write_num n ++ t ++ b)
| ur_tabs a k sep n ns t b : blanks a -> key_name k -> separator sep -> num_ok n -> columns ns t -> ns <> [] ->
    ~ In " "%char t -> blanks b -> unreadable_code (a ++ k ++ sep ++ write_num n ++ t ++ b).

(** ** Blocks *)
Definition spells (w : string) (s : list ascii) : Prop := lower s = list_ascii_of_string w.
Inductive block_head : list ascii -> list ascii -> Prop :=
| bh a p b title rest : blanks a -> spells "%block " p -> blanks b -> title <> [] ->
    (forall c, In c title -> ~ blank c) -> token_end rest ->
    block_head (a ++ p ++ b ++ title ++ rest) title.
Definition end_line (l : list ascii) : Prop :=
  exists a p rest, blanks a /\ spells "%endblock" p /\ l = a ++ p ++ rest.

(** *** Coordinates: numbers, or unsigned ratios *)
Inductive coord := CNum (n : num) | CRatio (r : ratio).
Definition coord_text (x : coord) : list ascii := match x with CNum n => write_num n | CRatio r => write_ratio r end.
Definition coord_value (x : coord) : Q := match x with CNum n => num_value n | CRatio r => ratio_value r end.
Definition coord_ok (x : coord) : Prop :=
  fits (coord_value x) /\
  match x with
  | CNum n => num_ok n
  | CRatio r => ratio_ok r /\ r_sign r = NoSign /\ decimal (r_den r) <> 0%Z
  end.
Definition coord_float (x : coord) : pyval := VFloat (FQ (Qred (coord_value x))).
Inductive coords : list coord -> list ascii -> Prop :=
| co_nil : coords [] []
| co_cons g x xs t : blanks g -> g <> [] -> coord_ok x -> coords xs t -> coords (x :: xs) (g ++ coord_text x ++ t).
(** A row of coordinates, the first one possibly not indented. *)
Definition row (xs : list coord) (t : list ascii) : Prop :=
  exists g x xs' t', xs = x :: xs' /\ t = g ++ coord_text x ++ t' /\ blanks g /\ coord_ok x /\ coords xs' t'.

(** *** Atoms *)
Definition lower_letter (c : ascii) : Prop := (97 <= N_of_ascii c <= 122)%N.
Definition upper_letter (c : ascii) : Prop := (65 <= N_of_ascii c <= 90)%N.
Definition species (s : list ascii) : Prop :=
  exists c t, s = c :: t /\ upper_letter c /\ (length t <= 2)%nat /\ forall x, In x t -> lower_letter x.
Inductive spin_text : coord -> list ascii -> Prop :=
| st_spin g kw sep x : blanks g -> g <> [] -> (spells "spin" kw \/ spells "magmom" kw) -> separator sep -> coord_ok x ->
    spin_text x (g ++ kw ++ sep ++ coord_text x).
Inductive mixture_text : num * num -> list ascii -> Prop :=
| mt_mix g kw c i w t : blanks g -> g <> [] -> spells "mixture" kw -> among ":= " c \/ c = TAB ->
    columns [i; w] t -> is_int i -> fits (num_value w) ->
    mixture_text (i, w) (g ++ kw ++ c :: "("%char :: t ++ [")"%char]).
Inductive extras : option coord -> option (num * num) -> list ascii -> Prop :=
| ex_none : extras None None []
| ex_spin x t : spin_text x t -> extras (Some x) None t
| ex_mix m t : mixture_text m t -> extras None (Some m) t
| ex_spin_mix x m t t' : spin_text x t -> mixture_text m t' -> extras (Some x) (Some m) (t ++ t')
| ex_mix_spin x m t t' : spin_text x t -> mixture_text m t' -> extras (Some x) (Some m) (t' ++ t).
Record atom := { at_spec : list ascii; at_pos : list coord; at_spin : option coord; at_mix : option (num * num) }.
Inductive atom_line : list ascii -> atom -> Prop :=
| al a s t e b x : blanks a -> species (at_spec x) -> s = at_spec x -> coords (at_pos x) t -> length (at_pos x) = 3%nat ->
    extras (at_spin x) (at_mix x) e -> blanks b ->
    atom_line (a ++ s ++ t ++ e ++ b) x.
Definition name (s : string) : key := KStr (list_ascii_of_string s).
Definition atom_info (units : option (list ascii)) (x : atom) : pyval :=
  VDict false
    ([(name "pos", VTuple (map coord_float (at_pos x)))] ++
     match units with Some u => [(name "units", VStr u)] | None => [] end ++
     match at_spin x with Some c => [(name "spin", coord_float c)] | None => [] end ++
     match at_mix x with
     | Some (i, w) => [(name "mix_index", VInt (int_value i)); (name "weight", float_of w)]
     | None => []
     end).
(** Atoms are numbered 1, 2, ... within their species. *)
Definition occurrences (s : list ascii) (l : list (list ascii)) : nat := count_occ (list_eq_dec ascii_dec) l s.
Fixpoint numbered (units : option (list ascii)) (before : list (list ascii)) (l : list atom) : list (key * pyval) :=
  match l with
  | [] => []
  | x :: l' =>
      (KTuple [KStr (at_spec x); KInt (Z.of_nat (S (occurrences (at_spec x) before)))], atom_info units x)
      :: numbered units (before ++ [at_spec x]) l'
  end.
(** A units line is a single word. *)
Definition unit_line (l u : list ascii) : Prop :=
  exists a b, blanks a /\ blanks b /\ u <> [] /\ (forall c, In c u -> ~ blank c) /\ l = a ++ u ++ b.

Definition frac_blocks : list string :=
  ["positions_frac"; "positions_frac_intermediate"; "positions_frac_product"; "positions_abs_intermediate";
   "positions_abs_product"; "positions_aspectral_intermediate"; "positions_aspectral_product"]%string.

(** *** Symmetry operations: four rows each *)
Definition row_value (xs : list coord) : pyval := VTuple (map coord_float xs).
Record symop := { so_x : list coord; so_y : list coord; so_z : list coord; so_t : list coord }.
Definition symop_value (o : symop) : pyval :=
  VDict false [(name "r", VList [row_value (so_x o); row_value (so_y o); row_value (so_z o)]); (name "t", row_value (so_t o))].
Inductive rows : list (list ascii) -> list (list coord) -> Prop :=
| rows_nil : rows [] []
| rows_cons l xs b ls xss : row xs l -> blanks b -> rows ls xss -> rows ((l ++ b) :: ls) (xs :: xss).
Definition symop_rows (o : symop) : list (list coord) := [so_x o; so_y o; so_z o; so_t o].

(** *** Ionic constraints: "number species index x y z" *)
Record constraint := { ic_no : digit; ic_spec : list ascii; ic_index : list digit; ic_vec : list num }.
Inductive constraint_line : list ascii -> constraint -> Prop :=
| icl a g1 g2 t b x : blanks a -> blanks g1 -> g1 <> [] -> SpecMd.species (ic_spec x) -> blanks g2 -> g2 <> [] ->
    ic_index x <> [] -> columns (ic_vec x) t -> length (ic_vec x) = 3%nat ->
    Forall (fun n => fits (num_value n)) (ic_vec x) -> blanks b ->
    constraint_line (a ++ digit_char (ic_no x) :: g1 ++ ic_spec x ++ g2 ++ write_digits (ic_index x) ++ t ++ b) x.
Definition constraint_key (x : constraint) : key := KTuple [KStr (ic_spec x); KInt (decimal (ic_index x))].
(** The distinct keys, in the order in which they first occur. *)
Fixpoint firsts (l : list key) : list key :=
  match l with
  | [] => []
  | k :: l' => k :: filter (fun k' => negb (key_eqb k' k)) (firsts l')
  end.
(** The vectors of one atom, in order. *)
Definition vectors (k : key) (l : list constraint) : list pyval :=
  map (fun x => VTuple (map float_of (ic_vec x))) (filter (fun x => key_eqb (constraint_key x) k) l).

(** *** Other blocks: rows of numbers, or one value for each species.  A line with a
    single word gives the units. *)
Definition own_format : list string :=
  ["devel_code"; "ionic_constraints"; "nonlinear_constraints"; "positions_frac"; "positions_frac_intermediate";
   "positions_frac_product"; "positions_abs"; "positions_abs_intermediate"; "positions_abs_product";
   "positions_aspectral_intermediate"; "positions_aspectral_product"; "species_pot"; "sedc_custom_params"; "hubbard_u";
   "symmetry_ops"; "xc_definition"]%string.
Inductive unit_lines : list (list ascii) -> option (list ascii) -> Prop :=
| ul_none : unit_lines [] None
| ul_one a u : blanks a -> u <> [] -> (forall c, In c u -> ~ blank c) -> free_of "0123456789#!" u -> ~ end_line (a ++ u) ->
    unit_lines [a ++ u] (Some u).
Definition with_units (u : option (list ascii)) (data : pyval) : pyval :=
  VDict false ((name "data", data) :: match u with Some u => [(name "units", VStr u)] | None => [] end).
(** A species, possibly with a label. *)
Definition labelled_species (s : list ascii) : Prop :=
  exists w l, s = w ++ l /\ species w /\
    (l = [] \/ exists t, l = ":"%char :: t /\ t <> [] /\ forall c, In c t -> SpecMd.word_char c).
Inductive single_value : list ascii -> pyval -> Prop :=
| sv_word s v : word_text s -> word_means s v -> single_value s v
| sv_num n v : num_ok n -> scalar_number n v -> single_value (write_num n) v.
Inductive property_line : list ascii -> key * pyval -> Prop :=
| pl a s g t v b : blanks a -> labelled_species s -> blanks g -> g <> [] -> single_value t v -> free_of "#!" t -> blanks b ->
    property_line (a ++ s ++ g ++ t ++ b) (KStr s, v).

(** What a block says, given its title and its lines without comments, the last of
    which ends it. *)
Inductive block_means : list ascii -> list (list ascii) -> pyval -> Prop :=
| bm_frac w ls e atoms : In w frac_blocks -> Forall2 atom_line ls atoms -> end_line e ->
    block_means (list_ascii_of_string w) (ls ++ [e]) (VDict false (numbered None [] atoms))
| bm_abs u l ls e atoms : unit_line l u -> Forall2 atom_line ls atoms -> end_line e ->
    block_means (list_ascii_of_string "positions_abs") (l :: ls ++ [e]) (VDict false (numbered (Some u) [] atoms))
| bm_abs_default l ls e atoms : Forall2 atom_line (l :: ls) atoms -> end_line e ->
    block_means (list_ascii_of_string "positions_abs") ((l :: ls) ++ [e])
      (VDict false (numbered (Some (list_ascii_of_string "Ang")) [] atoms))
| bm_symops ls e ops : rows ls (flat_map symop_rows ops) -> end_line e -> free_of "0123456789" e ->
    block_means (list_ascii_of_string "symmetry_ops") (ls ++ [e]) (VList (map symop_value ops))
| bm_constraints ls e cs : Forall2 constraint_line ls cs -> end_line e ->
    block_means (list_ascii_of_string "ionic_constraints") (ls ++ [e])
      (VDict false (map (fun k => (k, VList (vectors k cs))) (firsts (map constraint_key cs))))
| bm_rows title us u ls xss e : ~ In title (map list_ascii_of_string own_format) -> unit_lines us u -> rows ls xss ->
    end_line e -> free_of "0123456789#!" e ->
    block_means title (us ++ ls ++ [e]) (with_units u (VList (map row_value xss)))
| bm_properties title us u ls its out e : ~ In title (map list_ascii_of_string own_format) -> unit_lines us u ->
    Forall2 property_line ls its -> ls <> [] -> merged its out -> end_line e -> free_of "0123456789#!" e ->
    block_means title (us ++ ls ++ [e]) (with_units u (VDict false out)).

(** ** Files: the assignments, in order *)
Inductive cell_lines : list (list ascii) -> list (key * pyval) -> Prop :=
| cl_nil : cell_lines [] []
| cl_blank raw h ls asg : code_of raw h -> blanks h -> cell_lines ls asg -> cell_lines (raw :: ls) asg
| cl_keyword raw h k v ls asg : code_of raw h -> keyword_code h k v -> cell_lines ls asg ->
    cell_lines (raw :: ls) ((KStr (lower k), v) :: asg)
| cl_block raw h title body e clean v ls asg : code_of raw h -> block_head h title ->
    Forall (fun l => ~ end_line l) body -> end_line e ->
    stripped (inline_drops [["#"%char]; ["!"%char]]) (inline_keeps [["#"%char]; ["!"%char]]) (body ++ [e]) clean ->
    block_means (lower title) clean v -> cell_lines ls asg ->
    cell_lines (raw :: body ++ e :: ls) ((KStr (lower title), v) :: asg).
(** A file that is one block with the given (lower-case) title; [clean] are its lines
    without comments and without the opening one. *)
Definition one_block (ls : list (list ascii)) (title : list ascii) (clean : list (list ascii)) : Prop :=
  exists raw h body e t, ls = raw :: body ++ [e] /\ code_of raw h /\ block_head h t /\ lower t = title /\
    Forall (fun l => ~ end_line l) body /\ end_line e /\
    stripped (inline_drops [["#"%char]; ["!"%char]]) (inline_keeps [["#"%char]; ["!"%char]]) (body ++ [e]) clean.
