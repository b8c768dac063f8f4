(** Specification of .tddft and .xrd_sf files. *)
From Coq Require Import Ascii String List NArith ZArith QArith.
From Verif Require Import PyBase PyVal NumSpec SpecLine SpecStr SpecTable SpecBands SpecDict SpecMd SpecCastep SpecFiles.
Import ListNotations.
Open Scope list_scope.

(** ** .tddft files *)
(** Lines of a block of states *)
Inductive state_item := Overlap (o u : Z) (n : num) | Total (n : num).
Definition titled (w : string) (l : list ascii) : Prop := exists a e, blanks a /\ l = a ++ text_of w ++ e.
Inductive state_line : list ascii -> option state_item -> Prop :=
| sl_overlap a ds g1 o g2 g3 u t n s : blanks a -> ds <> [] -> blanks g1 -> g1 <> [] -> o <> [] -> blanks g2 -> blanks g3 -> u <> [] ->
    columns [n] t -> token_end s -> all_fit [n] ->
    state_line (a ++ write_digits ds ++ g1 ++ write_digits o ++ g2 ++ text_of "-->" ++ g3 ++ write_digits u ++ t ++ s)
      (Some (Overlap (decimal o) (decimal u) n))
| sl_total l ns n : titled "Total overlap for state" l -> ~ mentions "-->" l -> number_line (ns ++ [n]) l -> all_fit [n] ->
    state_line l (Some (Total n))
| sl_other l : ~ titled "Total overlap for state" l -> ~ mentions "-->" l -> state_line l None.
(** The overlaps up to a total make one state; those after the last total are left out. *)
Definition overlap_item (x : Z * Z * num) : state_item := Overlap (fst (fst x)) (snd (fst x)) (snd x).
Definition overlap_entry (x : Z * Z * num) : key * pyval := (KTuple [KInt (fst (fst x)); KInt (snd (fst x))], float_of (snd x)).
Inductive states : list state_item -> list (list (Z * Z * num) * num) -> Prop :=
| st_left os : states (map overlap_item os) []
| st_state os n its sts : states its sts -> states (map overlap_item os ++ Total n :: its) ((os, n) :: sts).
Definition state_entries (s : list (Z * Z * num) * num) : list (key * pyval) := map overlap_entry (fst s) ++ [named "total" (float_of (snd s))].
(** Lines of a block of spectroscopic data *)
Record excitation := { ex_energy : num; ex_kind : list ascii; ex_done : bool; ex_dipoles : list (num * num) }.
Definition pair_nums (ps : list (num * num)) : list num := flat_map (fun p => [fst p; snd p]) ps.
Inductive spectrum_row : list ascii -> option excitation -> Prop :=
| sp_row x a ds t g1 g2 g3 d e : blanks a -> ds <> [] -> columns [ex_energy x] t -> blanks g1 -> g1 <> [] -> word (ex_kind x) -> blanks g2 -> g2 <> [] ->
    blanks g3 -> ~ In newline d -> (e = [] \/ exists e', e = newline :: e') -> (forall c r, d ++ e = c :: r -> ~ blank c) ->
    number_line (pair_nums (ex_dipoles x)) d -> all_fit (ex_energy x :: pair_nums (ex_dipoles x)) ->
    spectrum_row (a ++ write_digits ds ++ t ++ g1 ++ ex_kind x ++ g2 ++ text_of (if ex_done x then "Yes" else "No") ++ g3 ++ d ++ e) (Some x)
| sp_none l : ~ mentions "Yes" l -> ~ mentions "No" l -> spectrum_row l None.
Definition complex_val (p : num * num) : pyval := VComplex (FQ (Qreduction.Qred (num_value (fst p)))) (FQ (Qreduction.Qred (num_value (snd p)))).
Definition excitation_val (x : excitation) : pyval :=
  VDict false [named "energy" (float_of (ex_energy x)); named "characterisation" (VStr (ex_kind x)); named "converged" (VBool (ex_done x));
               named "dipoles" (VList (map complex_val (ex_dipoles x)))].
Definition somes {A} (l : list (option A)) : list A := flat_map (fun o => match o with Some x => [x] | None => [] end) l.
Inductive tddft_part := States (sts : list (list (Z * Z * num) * num)) | Spectrum (xs : list excitation).
Definition states_begin := "BEGIN Characterisation of states as Kohn-Sham bands"%string.
Definition states_end := "END Characterisation of states as Kohn-Sham bands"%string.
Inductive tddft_parts : list (list ascii) -> list tddft_part -> Prop :=
| tp_nil : tddft_parts [] []
| tp_other l ls ps : ~ mentions "BEGIN header" l -> ~ mentions states_begin l -> ~ mentions "BEGIN TDDFT Spectroscopic Data" l ->
    tddft_parts ls ps -> tddft_parts (l :: ls) ps
| tp_states l body l' os sts ls ps : ~ mentions "BEGIN header" l -> delimited states_begin states_end l body l' ->
    Forall2 state_line (l :: body ++ [l']) os -> states (somes os) sts ->
    tddft_parts ls ps -> tddft_parts (l :: body ++ l' :: ls) (States sts :: ps)
| tp_spectrum l body l' os ls ps : ~ mentions "BEGIN header" l -> ~ mentions states_begin l ->
    delimited "BEGIN TDDFT Spectroscopic Data" "END TDDFT Spectroscopic Data" l body l' ->
    Forall2 spectrum_row (l :: body ++ [l']) os ->
    tddft_parts ls ps -> tddft_parts (l :: body ++ l' :: ls) (Spectrum (somes os) :: ps).
Inductive tddft_file (its : list hitem) (ps : list tddft_part) : list (list ascii) -> Prop :=
| tf hd ls : header_block "Higest occupied band" its hd -> tddft_parts ls ps -> tddft_file its ps (hd ++ ls).
Inductive tddft_says : tddft_part -> key * pyval -> Prop :=
| ts_states sts ds : Forall2 (fun s d => merged (state_entries s) d) sts ds ->
    tddft_says (States sts) (named "overlap" (VList (map (VDict false) ds)))
| ts_spectrum xs : tddft_says (Spectrum xs) (named "spectroscopic_data" (VList (map excitation_val xs))).

(** ** .xrd_sf files *)
(** A column heading: the real or imaginary part of a named structure factor.  Names
    are made of small letters. *)
Definition head_word (w : list ascii) (h : bool * list ascii) : Prop :=
  exists x, w = text_of (if fst h then "Re(" else "Im(") ++ x ++ text_of ")" /\ snd h = lower x.
Definition head_label (h : bool * list ascii) : list ascii := snd h ++ text_of (if fst h then "_re" else "_im").
Definition good_heads (hs : list (bool * list ascii)) : Prop :=
  NoDup hs /\ Forall (fun h => identifier (head_label h) /\ snd h <> text_of "qvec") hs /\ forall b n, In (b, n) hs -> In (negb b, n) hs.
Inductive heads_line (hs : list (bool * list ascii)) (l : list ascii) : Prop :=
| hl w1 w2 w3 ws : cut nonblank (w1 :: w2 :: w3 :: ws) l -> Forall2 head_word ws hs -> heads_line hs l.
(** A row: the three indices and one number for each heading *)
Inductive factor_row (hs : list (bool * list ascii)) : list ascii -> list num * list num -> Prop :=
| fr a i js t1 ns t2 s : blanks a -> Forall (fun n => is_int n /\ num_wf n) (i :: js) -> length js = 2%nat -> columns js t1 ->
    columns ns t2 -> length ns = length hs -> token_end s -> all_fit ns ->
    factor_row hs (a ++ write_num i ++ t1 ++ t2 ++ s) (i :: js, ns).
Inductive xrd_file (hs : list (bool * list ascii)) (rows : list (list num * list num)) : list (list ascii) -> Prop :=
| xf l ls : heads_line hs l -> Forall2 (factor_row hs) ls rows -> xrd_file hs rows (l :: ls).
(** [z] is the factor [n] of a row. *)
Definition factor_of (hs : list (bool * list ascii)) (n : list ascii) (row : list num * list num) (z : pyval) : Prop :=
  exists a b, In ((true, n), a) (combine hs (snd row)) /\ In ((false, n), b) (combine hs (snd row)) /\ z = complex_val (a, b).
Record xrd_says (hs : list (bool * list ascii)) (rows : list (list num * list num)) (d : list (key * pyval)) : Prop := {
  xs_nodup : NoDup (map fst d);
  xs_keys : forall k, In k (map fst d) <-> rows <> [] /\ (k = KStr (text_of "qvec") \/ exists b n, In (b, n) hs /\ k = KStr n);
  xs_qvec : forall v, In (KStr (text_of "qvec"), v) d -> v = VList (map (fun r => VTuple (map int_val (fst r))) rows);
  xs_factor : forall b n v, In (b, n) hs -> In (KStr n, v) d -> exists zs, v = VList zs /\ Forall2 (factor_of hs n) rows zs
}.
