(** Specification of .elastic and .epme files. *)
From Coq Require Import Ascii String List NArith ZArith QArith.
From Verif Require Import PyBase PyVal NumSpec SpecLine SpecStr SpecTable SpecBands SpecDict SpecMd SpecCastep SpecFiles.
Import ListNotations.
Open Scope list_scope.

(** ** .elastic files *)
(** The first line of a block: BEGIN, a title and maybe units in parentheses. *)
Inductive block_title : list ascii -> list ascii * option (list ascii) -> Prop :=
| bt_unit a t u e : blanks a -> t <> [] -> ~ In "("%char t -> u <> [] -> ~ In ")"%char u ->
    block_title (a ++ text_of "BEGIN " ++ t ++ "("%char :: u ++ ")"%char :: e) (t, Some u)
| bt_none a t : blanks a -> t <> [] -> ~ In "("%char t -> block_title (a ++ text_of "BEGIN " ++ t) (t, None).
(** The name given to a title: its words in small letters, joined, without a
    listing of the components at its end. *)
Definition components : list ascii := text_of "_xx_yy_zz_yz_zx_xy".
Inductive block_name (t : list ascii) : list ascii -> Prop :=
| bn_cut ws k : cut letter_or_digit ws t -> joined (text_of "_") (map lower ws) = k ++ components -> block_name t k
| bn_whole ws : cut letter_or_digit ws t -> (forall k, joined (text_of "_") (map lower ws) <> k ++ components) ->
    block_name t (joined (text_of "_") (map lower ws)).
(** A row of internal strain: the index and name of an atom, a direction, six
    components.  All numbers of the line are kept, the index among them. *)
Inductive strain_row : list ascii -> atom_vector -> Prop :=
| sr a ds g1 sp g2 d g3 t ns s ms l : blanks a -> ds <> [] -> blanks g1 -> g1 <> [] -> species sp -> blanks g2 -> g2 <> [] ->
    In d (text_of "XYZ") -> blanks g3 -> g3 <> [] -> columns ns t -> length ns = 6%nat -> token_end s ->
    l = a ++ write_digits ds ++ g1 ++ sp ++ g2 ++ d :: g3 ++ t ++ s -> number_line ms l -> all_fit ms ->
    strain_row l ((sp, decimal ds), ms).
Definition number_row (l : list ascii) (ns : list num) : Prop := number_line ns l /\ all_fit ns.
Definition some_numbers (rows : list (list num)) : list (list num) := filter (fun ns => match ns with [] => false | _ => true end) rows.
Inductive elastic_part :=
| Tensor (k : list ascii) (u : option (list ascii)) (rows : list (list num))
| Strain (k : list ascii) (u : option (list ascii)) (rows : list atom_vector).
Inductive elastic_parts : list (list ascii) -> list elastic_part -> Prop :=
| lp_nil : elastic_parts [] []
| lp_other l ls ps : ~ mentions "BEGIN" l -> elastic_parts ls ps -> elastic_parts (l :: ls) ps
| lp_strain l t u k body l' rows ls ps : ~ mentions "BEGIN header" l -> block_title l (t, u) -> block_name t k ->
    delimited "BEGIN Internal Strain" "END" l body l' -> Forall2 strain_row body rows ->
    elastic_parts ls ps -> elastic_parts (l :: body ++ l' :: ls) (Strain k u rows :: ps)
| lp_tensor l t u k body l' rows ls ps : ~ mentions "BEGIN header" l -> ~ mentions "BEGIN Internal Strain" l ->
    block_title l (t, u) -> block_name t k ->
    delimited "BEGIN" "END" l body l' -> Forall2 number_row (body ++ [l']) rows ->
    elastic_parts ls ps -> elastic_parts (l :: body ++ l' :: ls) (Tensor k u (some_numbers rows) :: ps).
Inductive elastic_file (its : list hitem) (ps : list elastic_part) : list (list ascii) -> Prop :=
| lf hd ls : header_block "" its hd -> elastic_parts ls ps -> elastic_file its ps (hd ++ ls).
Definition unit_val (u : option (list ascii)) : pyval := match u with Some u => VStr u | None => VNone end.
Inductive elastic_says : elastic_part -> key * pyval -> Prop :=
| es_tensor k u rows : elastic_says (Tensor k u rows)
    (KStr k, VDict false [named "units" (unit_val u); named "val" (VTuple (map vector rows))])
| es_strain k u rows d : gathered [named "units" (unit_val u)] (map vector_entry rows) d ->
    elastic_says (Strain k u rows) (KStr k, VDict true d).
(** Without the entries of one key *)
Definition without (k : key) (es : list (key * pyval)) : list (key * pyval) := filter (fun e => negb (key_eqb (fst e) k)) es.

(** ** .epme files *)
(** A line whose last word, of at least two, is a number *)
Definition last_number (n : num) (l : list ascii) : Prop :=
  exists w ws, cut nonblank (w :: ws ++ [write_num n]) l /\ num_wf n.
Record coupling := { cp_ints : list num; cp_energies : list num; cp_from : list num; cp_to : list num; cp_re : num; cp_im : num }.
Definition coupling_floats (c : coupling) : list num := cp_energies c ++ cp_from c ++ cp_to c ++ [cp_re c; cp_im c].
(** Columns beyond the thirteenth are not read. *)
Inductive coupling_row : list ascii -> coupling -> Prop :=
| cr l c more : cut nonblank (map write_num (cp_ints c ++ coupling_floats c) ++ more) l ->
    length (cp_ints c) = 3%nat -> length (cp_energies c) = 2%nat -> length (cp_from c) = 3%nat -> length (cp_to c) = 3%nat ->
    Forall (fun n => is_int n /\ num_wf n) (cp_ints c) -> Forall (fun n => num_wf n /\ fits (num_value n)) (coupling_floats c) ->
    ~ begins "Electron-Phonon coupling" l -> coupling_row l c.
(** The couplings between two k-points *)
Inductive epme_pairs : list (list ascii) -> list (list num * list coupling) -> Prop :=
| em_nil : epme_pairs [] []
| em_pair l ks x body cs ls ps : begins "Electron-Phonon coupling" l -> number_line ks l -> all_fit ks -> Forall2 coupling_row body cs ->
    epme_pairs ls ps -> epme_pairs (l :: x :: body ++ ls) ((ks, cs) :: ps).
Record epme_head := { eh_version : num; eh_volume : num; eh_fermi : num; eh_bands : num; eh_branches : num }.
Inductive epme_file (h : epme_head) (ps : list (list num * list coupling)) : list (list ascii) -> Prop :=
| ef2 l1 l2 l3 l4 l5 l6 l7 ls : last_number (eh_version h) l2 -> last_number (eh_volume h) l4 -> last_number (eh_fermi h) l5 ->
    last_number (eh_bands h) l6 -> last_number (eh_branches h) l7 -> is_int (eh_version h) -> is_int (eh_bands h) -> is_int (eh_branches h) ->
    all_fit [eh_volume h; eh_fermi h] -> epme_pairs ls ps -> epme_file h ps (l1 :: l2 :: l3 :: l4 :: l5 :: l6 :: l7 :: ls).
Definition coupling_val (ks : list num) (c : coupling) : pyval :=
  VDict false ([named "kpt_i" (vector (firstn 3 ks)); named "kpt_f" (vector (skipn 3 ks))] ++
    combine (map (fun k => KStr (text_of k)) ["ph_index"; "band_i"; "band_f"]%string) (map int_val (cp_ints c)) ++
    combine (map (fun k => KStr (text_of k)) ["e_i"; "e_f"]%string) (map float_of (cp_energies c)) ++
    [named "velocity" (VTuple [vector (cp_from c); vector (cp_to c)]);
     named "e_p_matrix" (VComplex (FQ (Qreduction.Qred (num_value (cp_re c)))) (FQ (Qreduction.Qred (num_value (cp_im c)))))]).
Definition epme_val (h : epme_head) (ps : list (list num * list coupling)) : pyval :=
  VDict false [named "version" (int_val (eh_version h)); named "volume" (float_of (eh_volume h)); named "fermi_energy" (float_of (eh_fermi h));
    named "n_bands" (int_val (eh_bands h)); named "n_branches" (int_val (eh_branches h));
    named "data" (VList (flat_map (fun p => map (coupling_val (fst p)) (snd p)) ps))].
