(** Specification of the blocks of .castep files whose rows are reports of a
    calculation: excitations, molecular dynamics, thermodynamics, bands,
    convergence and self-consistency; independent of the parser. *)
From Coq Require Import Ascii String List Arith NArith ZArith QArith Qreduction.
From Verif Require Import PyBase PyVal NumSpec SpecLine SpecStr SpecTable SpecBands SpecDict SpecMd SpecCastep SpecCastep2 SpecCastep3.
From Verif Require SpecCell.
Import ListNotations.
Open Scope list_scope.

(** ** Excitations: "+ <no> energy error type +TDDFT" *)
Record excitation := { ex_energy : num; ex_error : num; ex_type : list ascii }.
Inductive excitation_row : list ascii -> excitation -> Prop :=
| exr a g ds t g2 g3 r x : blanks a -> blanks g -> ds <> [] -> columns [ex_energy x; ex_error x] t -> all_fit [ex_energy x; ex_error x] -> gap g2 ->
    ex_type x <> [] -> (forall c, In c (ex_type x) -> word_char c) -> blanks g3 ->
    excitation_row (a ++ "+"%char :: g ++ write_digits ds ++ t ++ g2 ++ ex_type x ++ g3 ++ text_of "+TDDFT" ++ r) x.
Definition excitation_read (x : excitation) : pyval :=
  VDict false [(name "energy", float_of (ex_energy x)); (name "error", float_of (ex_error x)); (name "type", VStr (ex_type x))].
Definition not_excitation (l : list ascii) : Prop := lacking "+" l \/ ~ has_columns 2 l.

(** ** Electron localisation: "ELF <no> value" *)
Inductive elf_row : list ascii -> num -> Prop :=
| elfr a g ds g2 n s : gap a -> gap g -> ds <> [] -> gap g2 -> fixed n -> fits (num_value n) -> token_end s ->
    elf_row (a ++ text_of "ELF" ++ g ++ write_digits ds ++ g2 ++ write_num n ++ s) n.

(** ** Thermodynamics: the zero-point energy, then rows of five numbers *)
Definition quantities : list string := ["t"; "e"; "f"; "s"; "cv"]%string.
Inductive zero_row : list ascii -> num -> Prop :=
| zrr l n ns : mentions "Zero-point energy" l -> ~ has_columns 5 l -> number_line (n :: ns) l -> fits (num_value n) -> zero_row l n.
Inductive thermo_row : list ascii -> list num -> Prop :=
| thr t ns s : columns ns t -> length ns = 5%nat -> all_fit ns -> token_end s -> ~ mentions "Zero-point energy" (t ++ s) -> thermo_row (t ++ s) ns.
Definition not_thermo (l : list ascii) : Prop := ~ mentions "Zero-point energy" l /\ ~ has_columns 5 l.
Definition last_one {A} (l : list A) : list A := match rev l with x :: _ => [x] | [] => [] end.
(** The last zero-point energy and the columns, if there are rows. *)
Definition thermo_read (zs : list num) (rows : list (list num)) : list (key * pyval) :=
  map (fun n => (name "zero_point_energy", float_of n)) (last_one zs) ++
  match rows with
  | [] => []
  | _ => map (fun p => (name (snd p), vector (nth_column (fst p) rows))) (combine (seq 0 5) quantities)
  end.

(** ** Molecular dynamics: "x name: number" *)
Inductive md_row : list ascii -> list ascii * list ascii * num -> Prop :=
| mdr a g c k g2 n s raw nm : blanks a -> gap g -> SpecCell.letter c -> k <> [] -> (forall x, In x k -> SpecCell.letter x \/ x = " "%char) ->
    blanks g2 -> fixed n -> fits (num_value n) -> token_end s -> trimmed (c :: k) raw -> key_name raw nm ->
    md_row (a ++ "x"%char :: g ++ (c :: k) ++ ":"%char :: g2 ++ write_num n ++ s) (raw, nm, n).
Definition not_md (l : list ascii) : Prop := lacking ":" l.
(** Entries of one name, as it is written, replace each other; then those of one
    normalised name do. *)
Definition md_read (rows : list (list ascii * list ascii * num)) (d : list (key * pyval)) : Prop :=
  exists d1, merged (map (fun r => let '(raw, nm, n) := r in (KStr raw, (nm, n))) rows) d1 /\
             merged (map (fun e => (KStr (fst (snd e)), float_of (snd (snd e)))) d1) d.

(** ** Convergence tables: fields between bars *)
Inductive barred : list num -> list ascii -> Prop :=
| bd_nil : barred [] []
| bd_cons g n g' ns t : blanks g -> num_ok n -> blanks g' -> barred ns t -> barred (n :: ns) ("|"%char :: g ++ write_num n ++ g' ++ t).
Definition has_fields (k : nat) (l : list ascii) : Prop := exists a t b ns, l = a ++ t ++ b /\ barred ns t /\ length ns = k.
(** A row of a table: its name and what it says. *)
Inductive geom_row : list ascii -> key * pyval -> Prop :=
| gm_step a g st t r nm x y z : blanks a -> blanks g -> free_of "|" st -> st <> [] -> (forall c u, st = c :: u -> ~ blank c) ->
    barred [x; y; z] t -> all_fit [x; y; z] -> words_of st nm ->
    geom_row (a ++ "|"%char :: g ++ st ++ t ++ "|"%char :: r)
      (KStr nm, VDict false [(name "lambda", float_of x); (name "fdelta", float_of y); (name "enthalpy", float_of z)])
| gm_check a g par h t g2 unit g3 g4 (b : bool) g5 r nm v tol l :
    l = a ++ "|"%char :: g ++ par ++ h ++ t ++ "|"%char :: g2 ++ unit ++ g3 ++ "|"%char :: g4 ++ text_of (if b then "Yes" else "No") ++ g5 ++ "|"%char :: r ->
    blanks a -> blanks g -> par <> [] -> (forall c, In c par -> ~ blank c) -> gap h -> barred [v; tol] t -> all_fit [v; tol] ->
    blanks g2 -> unit <> [] -> (forall c, In c unit -> ~ blank c) -> gap g3 -> blanks g4 -> blanks g5 -> key_name par nm -> ~ has_fields 3 l ->
    geom_row l (KStr nm, VDict false [(name "value", float_of v); (name "tolerance", float_of tol); (name "converged", VBool b)]).
Definition not_geom (l : list ascii) : Prop := ~ has_fields 2 l.

(** ** Band structures *)
Record band_head := { bh_spin : list digit; bh_k : list num; bh_group : list digit }.
(** "Spin=<n> kpt= <n> ( x y z) kpt-group= <n>" *)
Inductive head_row : list ascii -> band_head -> Prop :=
| bhr a g1 g2 g3 kd g4 t g5 g6 s h : free_of "S" a -> blanks g1 -> bh_spin h <> [] -> blanks g2 -> blanks g3 -> kd <> [] -> blanks g4 ->
    columns (bh_k h) t -> length (bh_k h) = 3%nat -> all_fit (bh_k h) -> blanks g5 -> blanks g6 -> bh_group h <> [] -> token_end s ->
    head_row (a ++ text_of "Spin=" ++ g1 ++ write_digits (bh_spin h) ++ g2 ++ text_of "kpt=" ++ g3 ++ write_digits kd ++ g4 ++
              "("%char :: t ++ ")"%char :: g5 ++ text_of "kpt-group=" ++ g6 ++ write_digits (bh_group h) ++ s) h.
(** "+ band energy" *)
Inductive band_row : list ascii -> num * num -> Prop :=
| bdr a t s b e : blanks a -> columns [b; e] t -> is_int b -> fits (num_value e) -> token_end s -> ~ mentions "kpt-group=" (a ++ "+"%char :: t ++ s) ->
    band_row (a ++ "+"%char :: t ++ s) (b, e).
Definition not_bands (l : list ascii) : Prop := no_digits l \/ ~ mentions "kpt-group=" l /\ ~ has_columns 2 l.
Definition band_block := (band_head * list (num * num))%type.
Inductive band_lines : list (list ascii) -> list band_block -> Prop :=
| bdl_nil : band_lines [] []
| bdl_cons l h ls rows more bs : head_row l h -> laid band_row not_bands ls rows -> band_lines more bs ->
    band_lines (l :: ls ++ more) ((h, rows) :: bs).
Definition bands_read (b : band_block) : pyval :=
  VDict false
    ([(name "band", VTuple (map (fun r => VInt (int_value (fst r))) (snd b))); (name "energy", VTuple (map (fun r => float_of (snd r)) (snd b)));
      (name "spin", VInt (decimal (bh_spin (fst b))))] ++
     named_floats ["kx"; "ky"; "kz"]%string (bh_k (fst b)) ++ [(name "kpgrp", VInt (decimal (bh_group (fst b))))]).

(** ** Pseudo-atomic energies *)
(** A shell: "3d10" *)
Inductive shell : list ascii -> Prop :=
| shl d c ds : among "spdf" c -> (length ds <= 2)%nat -> shell (write_digits [d] ++ c :: write_digits ds).
Inductive shells_text : list ascii -> Prop :=
| sht_nil : shells_text []
| sht_cons g w t : gap g -> shell w -> shells_text t -> shells_text (g ++ w ++ t).
Inductive ps_lines (sp : list ascii) (e : num) : list (list ascii) -> list num -> Prop :=
| psl a t s l1 l2 n ns ls xs : blanks a -> SpecCell.species sp -> shells_text t -> t <> [] -> blanks s ->
    number_line (n :: e :: ns) l2 -> fits (num_value e) ->
    laid (fun l x => mentions "Charge spilling" l /\ fits (num_value x) /\ exists xs, number_line (xs ++ [x]) l) (fun l => ~ mentions "Charge spilling" l) ls xs ->
    ps_lines sp e ((a ++ text_of "Pseudo atomic calculation performed for " ++ sp ++ t ++ s) :: l1 :: l2 :: ls) xs.
(** The spillings are percentages. *)
Definition ps_read (e : num) (xs : list num) : list (key * pyval) :=
  (name "pseudo_atomic_energy", float_of e) ::
  match xs with [] => [] | _ => [(name "charge_spilling", VTuple (map (fun x => exact ((1 # 100) * num_value x)) xs))] end.

(** ** Self-consistent fields *)
Record iteration := { it_energy : num; it_fermi : num; it_gain : option num; it_time : num }.
Definition it_nums (i : iteration) : list num := [it_energy i; it_fermi i] ++ opt_list (it_gain i) ++ [it_time i].
Definition loop_name (w : list ascii) : Prop := w = text_of "Initial" \/ exists ds, ds <> [] /\ w = write_digits ds.
(** "Initial|<no>  energy fermi [gain] time" *)
Inductive loop_row : list ascii -> iteration -> Prop :=
| lpr a w t s i : blanks a -> loop_name w -> columns (it_nums i) t -> all_fit (it_nums i) -> token_end s ->
    (forall g n r, gap g -> num_ok n -> s <> g ++ write_num n ++ r) -> loop_row (a ++ w ++ t ++ s) i.
Definition loop_read (i : iteration) : list (key * pyval) :=
  [(name "energy", float_of (it_energy i)); (name "fermi_energy", float_of (it_fermi i));
   (name "energy_gain", match it_gain i with Some n => float_of n | None => VNone end); (name "time", float_of (it_time i))].
(** Remarks.  The first text counts. *)
Definition scf_words : list string :=
  ["Density was not mixed"; "Norm of density"; "constraint energy"; "Correcting PBC dipole-dipole"; "no. bands"; "Kinetic eigenvalue"]%string.
Definition first_said (i : nat) (l : list ascii) : Prop :=
  (exists w, nth_error scf_words i = Some w /\ mentions w l) /\ forall j w, (j < i)%nat -> nth_error scf_words j = Some w -> ~ mentions w l.
Definition none_said (l : list ascii) : Prop := forall w, In w scf_words -> ~ mentions w l.
Inductive scf_note : list ascii -> key * pyval -> Prop :=
| sn_unmixed l : ~ has_columns 3 l -> first_said 0 l -> scf_note l (name "density_residual", VNone)
| sn_number l i k n ns : ~ has_columns 3 l -> first_said (S i) l -> nth_error ["density_residual"; "constraint_energy"; "dipole_corr_energy"]%string i = Some k ->
    number_line (n :: ns) l -> fits (num_value n) -> scf_note l (name k, float_of n).
(** What is said of the cycle that ends with the next iteration: numbers of bands, kinetic energies, sweeps over the eigenvalues (first, final, change), and terms of the energy *)
Inductive remark :=
| RBands (z : Z) | RKinetic (n : num) | RSweep (es : list (num * num * num)) | RTerm (k : list ascii) (n : num).
Definition scf_other (l : list ascii) : Prop :=
  ~ has_columns 3 l /\ none_said l /\ ~ mentions "init=" l /\ ~ mentions "Checking convergence criteria" l /\ ~ mentions " eV" l.
Definition eigen_triple (e : num * num * num) : pyval :=
  let '(a, b, c) := e in VDict false [(name "initial", float_of a); (name "final", float_of b); (name "change", float_of c)].
(** "eigenvalue <no> init= a fin= b change= c" *)
Inductive eigen_row : list ascii -> num * num * num -> Prop :=
| egr g ds g' r x a b c ns : blanks g -> ds <> [] -> blanks g' ->
    let l := text_of "eigenvalue" ++ g ++ write_digits ds ++ g' ++ text_of "init=" ++ r in
    ~ has_columns 3 l -> none_said l -> number_line (x :: a :: b :: c :: ns) l -> all_fit [a; b; c] -> eigen_row l (a, b, c).
Definition checking (l : list ascii) : Prop :=
  ~ has_columns 3 l /\ none_said l /\ ~ mentions "init=" l /\ mentions "Checking convergence criteria" l.
(** The name of a term: its words in lower case, joined by "_"; three names are shortened. *)
Definition term_char (c : ascii) : Prop := letter_or_digit c \/ In c ["("; ")"; " "; "-"]%char.
Definition shortened : list (string * string) :=
  [("apolar_corr_to_eigenvalue_sum", "apolar_correction"); ("hubbard_u_correction_to_eigenvalu", "hubbard_u_correction");
   ("xc_correction_to_eigenvalue_sum", "xc_correction")]%string.
Inductive term_name (k : list ascii) : list ascii -> Prop :=
| tn_short ws a b : cut letter_or_digit ws k -> In (a, b) shortened -> joined (text_of "_") (map lower ws) = text_of a -> term_name k (text_of b)
| tn_same ws : cut letter_or_digit ws k -> (forall a b, In (a, b) shortened -> joined (text_of "_") (map lower ws) <> text_of a) ->
    term_name k (joined (text_of "_") (map lower ws)).
(** "+Name of the term = x eV" *)
Inductive term_row : list ascii -> remark -> Prop :=
| tmr p k t r n nm : (p = [] /\ (forall c q, k = c :: q -> c <> "("%char) \/ p = ["+"%char] \/ p = ["("%char]) -> k <> [] -> (forall c, In c k -> term_char c) ->
    columns [n] t -> fits (num_value n) -> term_name k nm ->
    let l := p ++ k ++ "="%char :: t ++ text_of " eV" ++ r in
    ~ has_columns 3 l -> none_said l -> ~ mentions "init=" l -> ~ mentions "Checking convergence criteria" l -> term_row l (RTerm nm n).
Inductive scf_lines : list (list ascii) -> list (key * pyval) -> list remark -> Prop :=
| sl_nil : scf_lines [] [] []
| sl_other l ls notes rs : scf_other l -> scf_lines ls notes rs -> scf_lines (l :: ls) notes rs
| sl_note l ls kv notes rs : scf_note l kv -> scf_lines ls notes rs -> scf_lines (l :: ls) (kv :: notes) rs
| sl_bands l ls n ns notes rs : ~ has_columns 3 l -> first_said 4 l -> number_line (n :: ns) l -> is_int n -> scf_lines ls notes rs ->
    scf_lines (l :: ls) notes (RBands (int_value n) :: rs)
| sl_kinetic l ls x n ns notes rs : ~ has_columns 3 l -> first_said 5 l -> number_line (x :: n :: ns) l -> fits (num_value n) -> scf_lines ls notes rs ->
    scf_lines (l :: ls) notes (RKinetic n :: rs)
| sl_sweep es l ls1 ls notes rs : laid eigen_row scf_other ls1 es -> checking l -> scf_lines ls notes rs ->
    scf_lines (ls1 ++ l :: ls) notes (RSweep es :: rs)
| sl_term l r ls notes rs : term_row l r -> scf_lines ls notes rs -> scf_lines (l :: ls) notes (r :: rs).
(** Sweeps come after a kinetic energy of the same cycle. *)
Definition ordered (rs : list remark) : Prop := forall a es b, rs = a ++ RSweep es :: b -> exists n, In (RKinetic n) a.
Definition kinetics (rs : list remark) : list num := flat_map (fun r => match r with RKinetic n => [n] | _ => [] end) rs.
Definition sweeps (rs : list remark) : list (list (num * num * num)) := flat_map (fun r => match r with RSweep es => [es] | _ => [] end) rs.
Definition bands_said (rs : list remark) : list Z := flat_map (fun r => match r with RBands z => [z] | _ => [] end) rs.
Definition terms (rs : list remark) : list (key * pyval) := flat_map (fun r => match r with RTerm k n => [(KStr k, float_of n)] | _ => [] end) rs.
(** The entries of what is said of a cycle. *)
Definition has (d : list (key * pyval)) (k : string) (v : option pyval) : Prop := dget key_eqb d (name k) = v.
Definition remarks_read (rs : list remark) (d : list (key * pyval)) : Prop :=
  NoDup (map fst d) /\ (forall k, In k (map fst d) -> In k (map name ["no_bands"; "kinetic_eigenvalue"; "eigenvalue"; "contributions"]%string)) /\
  has d "no_bands" (match rev (bands_said rs) with z :: _ => Some (VInt z) | [] => None end) /\
  has d "kinetic_eigenvalue" (match kinetics rs with [] => None | ns => Some (VList (map float_of ns)) end) /\
  has d "eigenvalue" (match kinetics rs with [] => None | _ => Some (VList (map (fun es => VList (map eigen_triple es)) (sweeps rs))) end) /\
  match terms rs with [] => has d "contributions" None | ts => exists out, merged ts out /\ has d "contributions" (Some (VDict false out)) end.
(** An iteration: its row, what was said of the cycle before it, and the notes after it. *)
Record cycle := { cy_row : iteration; cy_said : list remark; cy_notes : list (key * pyval) }.
Definition cycle_read (c : cycle) (v : pyval) : Prop :=
  exists info d, v = VDict false d /\ remarks_read (cy_said c) info /\
  merged (loop_read (cy_row c) ++ match info with [] => [] | _ => [(name "debug_info", VDict false info)] end ++ cy_notes c) d.
Inductive scf_block : list remark -> list (list ascii) -> list cycle -> Prop :=
| sb_nil said : scf_block said [] []
| sb_cons l c ls rs more cs : loop_row l (cy_row c) -> scf_lines ls (cy_notes c) rs -> ordered rs -> scf_block rs more cs ->
    scf_block (cy_said c) (l :: ls ++ more) (c :: cs).
(** Notes before the first row make an entry of their own. *)
Inductive scf_text : list (list ascii) -> list (key * pyval) -> list cycle -> Prop :=
| sr ls notes rs more cs : scf_lines ls notes rs -> ordered rs -> scf_block rs more cs -> scf_text (ls ++ more) notes cs.
Definition scf_read (notes : list (key * pyval)) (cs : list cycle) (out : list pyval) : Prop :=
  exists d vs, merged notes d /\ Forall2 cycle_read cs vs /\ out = match d with [] => [] | _ => [VDict false d] end ++ vs.
