(** Specification of whole .castep files, independent of the parser: the pieces a file
    is made of, and what they say about the runs. *)
From Coq Require Import Ascii String List Arith ZArith Bool.
From Verif Require Import CastepFile.   (* only for the names of the filters *)
From Verif Require Import PyBase PyVal NumSpec SpecStr SpecLine SpecTable SpecBands SpecDict SpecMd SpecCastep SpecCastep2 SpecCastep3 SpecCastepFile.
From Verif Require Export SpecEdges.
From Verif Require SpecCastep4 SpecCastep5 SpecCastep6 SpecTree SpecPairs SpecBerry SpecParams.
Import ListNotations.
Open Scope list_scope.

(** ** What a piece says about a run
    [Sets]: this is the value; [Appends]: one more value of a list; [Files]: one more
    value of a list that is kept under a second name; [Enters]: this is the value that is
    kept under a second name. *)
Inductive effect := Sets (k : string) (v : pyval) | Appends (k : string) (v : pyval) | Files (k : string) (sub : list ascii) (v : pyval)
  | Enters (k : string) (sub : key) (v : pyval).
Definition about (e : effect) : string := match e with Sets k _ | Appends k _ | Files k _ _ | Enters k _ _ => k end.
Definition value (e : effect) : pyval := match e with Sets _ v | Appends _ v | Files _ _ v | Enters _ _ v => v end.
Definition second_name (e : effect) : list ascii := match e with Files _ s _ => s | _ => [] end.
Definition second_key (e : effect) : key := match e with Enters _ s _ => s | _ => KNone end.
(** The same text *)
Definition same_text (a b : list ascii) : bool := if list_eq_dec ascii_dec a b then true else false.
(** The run that the effects describe.  When the run is the last of the file its
    energies are tuples, otherwise they are still lists. *)
Definition of_name (k : string) (es : list effect) : list effect := filter (fun e => String.eqb (about e) k) es.
Definition of_second (s : list ascii) (es : list effect) : list effect := filter (fun e => same_text (second_name e) s) es.
Definition of_key (s : key) (es : list effect) : list effect := filter (fun e => key_eqb (second_key e) s) es.
Definition run_value (is_last : bool) (k : string) (es : list effect) : pyval :=
  let own := of_name k es in
  let tuples := is_last && String.eqb k "energies" in
  match last own (Sets k VNone) with
  | Sets _ v => v
  | Appends _ _ => VList (map value own)
  | Files _ _ _ => VDict (negb tuples) (map (fun s => (KStr s, (if tuples then VTuple else VList) (map value (of_second s own))))
                                        (first_seen same_text (map second_name own)))
  | Enters _ _ _ => VDict false (map (fun s => (s, value (last (of_key s own) (Sets k VNone)))) (first_seen key_eqb (map second_key own)))
  end.
Definition run_of (is_last : bool) (es : list effect) : list (key * pyval) :=
  map (fun k => (name k, run_value is_last k es)) (first_seen String.eqb (map about es)).

(** ** Blocks *)
Definition is_dict (es : list (key * pyval)) (v : pyval) : Prop := exists d, merged es d /\ v = VDict false d.
Definition is_nested (rows : list (key * (option key * pyval))) (v : pyval) : Prop := exists d, nested rows d /\ v = VDict true d.
Definition sets (k : string) (says : list (list ascii) -> pyval -> Prop) (b : list (list ascii)) (es : list effect) : Prop := exists v, says b v /\ es = [Sets k v].
Definition appends (k : string) (says : list (list ascii) -> pyval -> Prop) (b : list (list ascii)) (es : list effect) : Prop := exists v, says b v /\ es = [Appends k v].
Definition enters (k : string) (says : list (list ascii) -> list (key * pyval) -> Prop) (b : list (list ascii)) (es : list effect) : Prop :=
  exists d, says b d /\ d <> [] /\ es = map (fun e => Enters k (fst e) (snd e)) d.
Definition rows_dict {A} (row : list ascii -> A -> Prop) (other : list ascii -> Prop) (entry : A -> key * pyval) (b : list (list ascii)) (v : pyval) : Prop :=
  exists rows, laid row other b rows /\ is_dict (map entry rows) v.
Record kind := {
  k_phrase : string;                                    (* the phrase that is looked for *)
  k_open : list ascii -> Prop; k_close : list ascii -> Prop; k_ends : nat;
  k_asked : filt;
  k_says : list (list ascii) -> list effect -> Prop }.
Definition bond_title (l : list ascii) : Prop :=
  exists a g1 m g2 b, gap g1 /\ gap g2 /\ (m = [] \/ exists g, gap g /\ m = g ++ text_of "Spin") /\
    l = a ++ text_of "Bond" ++ g1 ++ text_of "Population" ++ m ++ g2 ++ text_of "Length" ++ b.
Definition stars_rule (l : list ascii) : Prop := exists a n e, blanks a /\ l = a ++ repeat "*"%char (S n) ++ e /\ (e = [] \/ e = empty_line).
Definition magres_kind (t : string) (phrase : string) (task : nat) : kind :=
  {| k_phrase := phrase; k_open := framed "|" t; k_close := ruled "="; k_ends := 1; k_asked := F_CHEM_SHIELDING;
     k_says := appends "magres" (fun b v => exists rows d, laid (SpecCastep3.magres_row task) (not_magres task) b rows /\
       merged (map (magres_entry task) rows) d /\ v = VDict false ((name "task", VStr (text_of (magres_name task))) :: d)) |}.
Definition kinds_1 : list kind :=
  [ {| k_phrase := "Unit Cell"; k_open := heading "Unit Cell"; k_close := blanks; k_ends := 3; k_asked := F_CELL;
       k_says := sets "initial_cell" (fun b v => exists rows, laid cell_row not_cell_row b rows /\ v = VDict false (cell_read rows)) |};
    {| k_phrase := "Fractional coordinates of atoms";
       k_open := fun l => mentions "Fractional coordinates of atoms" l /\ ~ mentions "User-defined" l /\ ~ mentions "Mixture" l;
       k_close := ruled "x"; k_ends := 1; k_asked := F_POSITION; k_says := sets "initial_positions" (rows_dict vector_row plain vector_entry) |};
    {| k_phrase := "User Supplied Ionic Velocities"; k_open := mentions "User Supplied Ionic Velocities";
       k_close := ruled "x"; k_ends := 1; k_asked := F_POSITION; k_says := sets "initial_velocities" (rows_dict vector_row plain vector_entry) |};
    {| k_phrase := "Initial magnetic"; k_open := mentions "Initial magnetic"; k_close := ruled "x"; k_ends := 1; k_asked := F_PARAMETERS;
       k_says := sets "initial_spins" (rows_dict SpecCastep3.spin_row (lacking "|") spin_entry) |};
    {| k_phrase := "k-Points For BZ Sampling"; k_open := mentions "k-Points For BZ Sampling"; k_close := blanks; k_ends := 1; k_asked := F_PARAMETERS;
       k_says := sets "k-points" (fun b v => exists es, all_told kpt_rules b es /\ is_dict es v) |};
    {| k_phrase := "forces"; k_open := fun l => exists k, SpecCastep.title_line "forces" l k; k_close := stars_rule; k_ends := 1; k_asked := F_FORCE;
       k_says := fun b es => exists l ls k rows v, b = l :: ls /\ SpecCastep.title_line "forces" l k /\ laid force_row plain ls rows /\
         is_dict (map vector_entry rows) v /\ es = [Files "forces" k v] |};
    {| k_phrase := "stress tensor"; k_open := fun l => exists k, SpecCastep.title_line "stress tensor" l k; k_close := stars_rule; k_ends := 1; k_asked := F_STRESS;
       k_says := fun b es => exists l ls k t, b = l :: ls /\ SpecCastep.title_line "stress tensor" l k /\ tensor_lines t ls /\ tensor_ok t /\
         es = [Files "stresses" k (tensor_value t)] |};
    {| k_phrase := "Vibrational Frequencies"; k_open := mentions "Vibrational Frequencies"; k_close := ruled "="; k_ends := 1; k_asked := F_PHONON;
       k_says := sets "phonons" (fun b v => exists qs, phonon_lines b qs /\ v = VList (map qpoint qs)) |};
    {| k_phrase := "Dynamical matrix"; k_open := heading "Dynamical matrix"; k_close := ruled "-"; k_ends := 1; k_asked := F_PHONON;
       k_says := sets "dynamical_matrix" (fun b v => exists re im vs, dynamical_lines b re im /\ complex_rows re im vs /\ v = VTuple vs) |};
    {| k_phrase := "Atomic Displacement Parameters (A**2)"; k_open := heading "Atomic Displacement Parameters (A**2)"; k_close := ruled "-"; k_ends := 3;
       k_asked := F_THERMODYNAMICS; k_says := sets "atomic_displacements" (fun b v => exists rows, laid disp_row (no_row 6) b rows /\ is_nested rows v) |};
    {| k_phrase := "Atomic Populations (Mulliken)"; k_open := heading "Atomic Populations (Mulliken)"; k_close := ruled "="; k_ends := 2;
       k_asked := F_POPN_ANALYSIS; k_says := sets "mulliken_popn" (fun b v => exists es, in_turn popn_item b es /\ is_dict es v) |};
    {| k_phrase := "Born Effective Charges"; k_open := heading "Born Effective Charges"; k_close := ruled "="; k_ends := 1;
       k_asked := F_POPN_ANALYSIS; k_says := appends "born" (fun b v => exists es, in_turn born_item b es /\ is_dict es v) |};
    {| k_phrase := "Orbital Populations"; k_open := heading "Orbital Populations"; k_close := ruled "-"; k_ends := 3;
       k_asked := F_POPN_ANALYSIS; k_says := sets "orbital_popn" (fun b v => exists rows, laid orbital_row not_orbital b rows /\ is_nested rows v) |};
    {| k_phrase := "Bond"; k_open := bond_title; k_close := ruled "="; k_ends := 2; k_asked := F_POPN_ANALYSIS;
       k_says := sets "bonds" (rows_dict bond_row not_bond bond_entry) |};
    {| k_phrase := "Hirshfeld Analysis"; k_open := heading "Hirshfeld Analysis"; k_close := ruled "="; k_ends := 2; k_asked := F_POPN_ANALYSIS;
       k_says := sets "hirshfeld" (rows_dict charge_row plain charge_entry) |};
    {| k_phrase := "D I P O L E   O F   M O L E C U L E   I N   S U P E R C E L L";
       k_open := framed "+" "D I P O L E   O F   M O L E C U L E   I N   S U P E R C E L L"; k_close := ruled "="; k_ends := 1;
       k_asked := F_DIPOLE; k_says := sets "molecular_dipole" (fun b v => exists es, in_turn dipole_item b es /\ is_dict es v) |};
    magres_kind "Chemical Shielding Tensor" "Chemical Shielding Tensor" 0;
    magres_kind "Chemical Shielding and Electric Field Gradient Tensors" "Chemical Shielding and Electric Field Gradient Tensors" 1;
    magres_kind "Electric Field Gradient Tensor" "Electric Field Gradient Tensor" 2;
    magres_kind "Isotropic J-coupling" "sotropic J-coupling" 3;
    magres_kind "Anisotropic J-coupling" "sotropic J-coupling" 3;
    magres_kind "Hyperfine Tensor" "Hyperfine Tensor" 4 ]%string.

(** More kinds.  A line with edges, and perhaps a tag after them *)
Definition edged (edge text : list ascii -> Prop) (tag : string) (l : list ascii) : Prop :=
  exists a b1 g t g' b2 b b', blanks a /\ edge b1 /\ blanks g /\ text t /\ blanks g' /\ edge b2 /\ blanks b /\ blanks b' /\
    l = a ++ b1 ++ g ++ t ++ g' ++ b2 ++ b ++ text_of tag ++ b'.
Definition one (c : ascii) (s : list ascii) : Prop := s = [c].
Definition row (c : ascii) (s : list ascii) : Prop := exists n, s = repeat c (S n).
Definition signs (s : list ascii) : Prop := s <> [] /\ forall c, In c s -> among "+-" c.
Definition holding (what : list ascii -> Prop) (l : list ascii) : Prop := exists x u y, l = x ++ u ++ y /\ what u.
Definition is_text (w : string) (s : list ascii) : Prop := s = text_of w.
(** The text, and then more without [c] *)
Definition text_and (w : string) (c : ascii) (more : bool) (s : list ascii) : Prop := exists t, s = text_of w ++ t /\ ~ In c t /\ (more = true -> t <> []).
Definition parameters_title (s : list ascii) : Prop := exists t, s = t ++ text_of " Parameters" /\ ~ In "*"%char t /\ t <> [].
Definition kpoints_title (s : list ascii) : Prop :=
  exists n m, s = text_of "Number" ++ repeat " "%char (S n) ++ text_of "Fractional coordinates" ++ repeat " "%char (S m) ++ text_of "Weight".
Definition after_gap (w : string) (l : list ascii) : Prop := exists g r, gap g /\ l = g ++ text_of w ++ r.
Definition equals_rule (l : list ascii) : Prop := exists n e, l = " "%char :: repeat "="%char (S n) ++ e /\ (e = [] \/ e = empty_line).
Definition scf_rule (l : list ascii) : Prop := exists n r, l = repeat "-"%char (S n) ++ text_of " <-- SCF" ++ r.
Definition tagged_rule (l : list ascii) : Prop :=
  exists a b1 b b', blanks a /\ signs b1 /\ blanks b /\ blanks b' /\ l = a ++ b1 ++ b ++ text_of "<- line" ++ b'.
Definition minimisers : list string := ["BFGS"; "LBFGS"; "FIRE"; "TPSD"; "DMD"; "DI"]%string.
Definition minimiser_tag (l : list ascii) : Prop :=
  exists a m w e, In w minimisers /\ (m = [] \/ m = text_of " min") /\ (e = [] \/ e = empty_line) /\ l = a ++ text_of "<--" ++ m ++ " "%char :: text_of w ++ e.
Definition dashes (n : nat) : list ascii := repeat "-"%char (S n) ++ ["+"%char].
Definition table_rule (l : list ascii) : Prop := exists a i j k m b, l = a ++ "+"%char :: dashes i ++ dashes j ++ dashes k ++ dashes m ++ b.
Definition tensor_of (b : list (list ascii)) (v : pyval) : Prop :=
  exists nss, Forall2 numbers_on b nss /\ Forall all_fit (filter matrix_row nss) /\ v = matrix (filter matrix_row nss).
(** One matrix, or two side by side *)
Definition tensors (k1 k2 : string) (b : list (list ascii)) (es : list effect) : Prop :=
  exists nss r rs, Forall2 numbers_on b nss /\ Forall all_fit (filter matrix_row nss) /\ filter matrix_row nss = r :: rs /\
    es = if Nat.eqb (length r) 6 then [Sets k1 (matrix (map left_half (r :: rs))); Sets k2 (matrix (map right_half (r :: rs)))] else [Sets k1 (matrix (r :: rs))].
Definition band_kind (t : string) : kind :=
  {| k_phrase := t; k_open := edged (one "+") (text_and t "+" true) ""; k_close := ruled "="; k_ends := 1; k_asked := F_BS;
     k_says := sets "bs" (fun b v => exists os ls bs, b = os ++ ls /\ Forall SpecCastep4.not_bands os /\ SpecCastep4.band_lines ls bs /\
       v = VList (map SpecCastep4.bands_read bs)) |}.
Definition polarisability (t : string) : kind :=
  {| k_phrase := "Polarisabilit"; k_open := after_gap t; k_close := equals_rule; k_ends := 1; k_asked := F_OPTICS;
     k_says := tensors "optical_polarisability" "static_polarisability" |}.
Definition kinds_2 : list kind :=
  [ {| k_phrase := "?"; k_open := ruled "?"; k_close := ruled "?"; k_ends := 1; k_asked := F_SYS_INFO;
       k_says := appends "warning" (fun b v => exists l mid fin ws, b = (l :: mid ++ [fin])%list /\ Forall2 trimmed mid ws /\ v = VStr (joined (text_of " ") ws)) |};
    {| k_phrase := " Parameters"; k_open := edged (row "*") parameters_title ""; k_close := ruled "*"; k_ends := 1; k_asked := F_PARAMETERS;
       k_says := sets "options" (fun b v => exists its d, SpecParams.option_lines b its /\ SpecParams.options_are its d /\ v = VDict false d) |};
    {| k_phrase := "Pseudopotential Report"; k_open := edged (one "|") (text_and "Pseudopotential Report" "|" true) ""; k_close := ruled "="; k_ends := 1;
       k_asked := F_PSPOT; k_says := appends "pspot_detail" (fun b v => exists its d, laid SpecCastep6.report_row SpecCastep6.silent_report b its /\
         SpecCastep6.report_read its d /\ v = VDict false d) |};
    {| k_phrase := "DFT-D parameters"; k_open := mentions "DFT-D parameters"; k_close := blanks; k_ends := 3; k_asked := F_PARAMETERS;
       k_says := sets "dftd" (fun b v => exists rows d, laid SpecCastep5.dispersion_row SpecCastep5.not_dispersion b rows /\
         SpecCastep5.dispersion_read rows d /\ v = VDict false d) |};
    {| k_phrase := "SCF loop"; k_open := mentions "SCF loop"; k_close := scf_rule; k_ends := 2; k_asked := F_SCF;
       k_says := appends "scf" (fun b v => exists notes cs out, SpecCastep4.scf_text b notes cs /\ Forall (fun c => SpecCastep4.cy_said c = []) cs /\
         SpecCastep4.scf_read notes cs out /\ v = VList out) |};
    {| k_phrase := "WAVEFUNCTION LINE MINIMISATION"; k_open := edged signs (is_text "WAVEFUNCTION LINE MINIMISATION") "<- line"; k_close := tagged_rule; k_ends := 2;
       k_asked := F_SCF; k_says := appends "wvfn_line_min" (fun b v => exists ess, laid wvfn_row not_wvfn b ess /\ is_dict (concat ess) v) |};
    {| k_phrase := "Occupancy"; k_open := holding (edged (one "|") (is_text "Occupancy") "<- occ"); k_close := mentions "Have a nice day.";
       k_ends := 1; k_asked := F_SCF; k_says := appends "occupancies" (fun b v => exists rows, laid SpecCastep2.occupancy_row no_digits b rows /\ v = VList (map occupancy rows)) |};
    {| k_phrase := "Symmetry and Constraints"; k_open := heading "Symmetry and Constraints"; k_close := mentions "Cell constraints are"; k_ends := 1; k_asked := F_SYMMETRIES;
       k_says := fun b es => exists its sy co, SpecCastep6.symmetry_lines b its /\ SpecCastep6.symmetry_read its (sy, co) /\
         es = [Sets "symmetries" (VDict false sy); Sets "constraints" (VDict false co)] |};
    {| k_phrase := "External pressure/stress"; k_open := mentions "External pressure/stress"; k_close := fun _ => True; k_ends := 3; k_asked := F_PARAMETERS;
       k_says := appends "target_stress" (fun b v => exists nss, Forall2 numbers_on b nss /\ Forall all_fit nss /\ v = VList (map float_of (concat nss))) |};
    {| k_phrase := "Fractional coordinates"; k_open := edged (one "+") kpoints_title ""; k_close := ruled "+"; k_ends := 1; k_asked := F_PARAMETERS;
       k_says := sets "k-points" (fun b v => exists ks, laid kpt_row not_kpt b ks /\ v = VDict false
         [(name "points", VList (map kpt_read (filter one_digit ks))); (name "num_kpoints", VInt (Z.of_nat (length (filter one_digit ks))))]) |};
    {| k_phrase := "Phonon Symmetry Analysis"; k_open := mentions "Phonon Symmetry Analysis"; k_close := blanks; k_ends := 1; k_asked := F_PHONON;
       k_says := appends "phonon_symmetry_analysis" (fun b v => exists l t ws h ls vs, b = l :: h :: ls /\ after_colon l t /\ cut nonblank ws t /\
         laid mixed_row no_digits ls vs /\ v = VDict false [(name "title", VStr (joined (text_of " ") ws)); (name "mat", VTuple vs)]) |};
    {| k_phrase := "Raman Susceptibility Tensors"; k_open := edged (one "+") (text_and "Raman Susceptibility Tensors" "+" false) ""; k_close := blanks; k_ends := 1;
       k_asked := F_PHONON; k_says := appends "raman" (fun b v => exists h ls ms, b = h :: ls /\ raman_lines ls ms /\ v = VList (map raman_read ms)) |};
    {| k_phrase := "AUTOSOLVATION CALCULATION RESULTS"; k_open := edged (row "*") (is_text "AUTOSOLVATION CALCULATION RESULTS") ""; k_close := ruled "*"; k_ends := 1;
       k_asked := F_SOLVATION; k_says := sets "autosolvation" (fun b v => exists es, laid solvation_row (fun l => ~ In "="%char l) b es /\ is_dict es v) |};
    {| k_phrase := "Optical Permittivity"; k_open := after_gap "Optical Permittivity"; k_close := equals_rule; k_ends := 1; k_asked := F_OPTICS;
       k_says := tensors "optical_permittivity" "dc_permittivity" |};
    polarisability "Polarisability"; polarisability "Polarisabilities";
    {| k_phrase := "Nonlinear Optical Susceptibility"; k_open := after_gap "Nonlinear Optical Susceptibility"; k_close := equals_rule; k_ends := 1;
       k_asked := F_OPTICS; k_says := sets "nlo" tensor_of |};
    {| k_phrase := "Thermodynamics"; k_open := heading "Thermodynamics"; k_close := ruled "-"; k_ends := 3; k_asked := F_THERMODYNAMICS;
       k_says := sets "thermodynamics" (fun b v => exists ls1 ls2 zs rows, b = (ls1 ++ ls2)%list /\ laid SpecCastep4.zero_row SpecCastep4.not_thermo ls1 zs /\
         laid SpecCastep4.thermo_row SpecCastep4.not_thermo ls2 rows /\ v = VDict false (SpecCastep4.thermo_read zs rows)) |};
    {| k_phrase := "ELF grid sample"; k_open := heading "ELF grid sample"; k_close := ruled "-"; k_ends := 2; k_asked := F_ELF;
       k_says := sets "elf" (fun b v => exists ns, laid SpecCastep4.elf_row plain b ns /\ v = VList (map float_of ns)) |};
    {| k_phrase := "<--"; k_open := minimiser_tag; k_close := table_rule; k_ends := 2; k_asked := F_GEOM_OPT;
       k_says := appends "minimisation" (fun b v => exists es, laid SpecCastep4.geom_row SpecCastep4.not_geom b es /\ is_dict es v) |};
    {| k_phrase := "INTERNAL CONSTRAINTS"; k_open := mentions "INTERNAL CONSTRAINTS"; k_close := blanks; k_ends := 2; k_asked := F_GEOM_OPT;
       k_says := sets "internal_constraints" (fun b v => exists h1 h2 h3 ls vs, b = h1 :: h2 :: h3 :: ls /\ laid SpecCastep5.constraint_row blanks ls vs /\ v = VList vs) |};
    {| k_phrase := "Message: Generating deloc"; k_open := mentions "Message: Generating deloc"; k_close := mentions "Message: Generation of deloc"; k_ends := 1;
       k_asked := F_GEOM_OPT; k_says := enters "delocalised_internal" (fun b d => exists rows cm e, laid deloc_row not_deloc b rows /\ merged (deloc_map rows) cm /\
         merged (deloc_counts rows) e /\ d = (name "constraint_mapping", VDict false cm) :: e) |};
    {| k_phrase := "The size of active space"; k_open := mentions "The size of active space"; k_close := blanks; k_ends := 1; k_asked := F_GEOM_OPT;
       k_says := enters "delocalised_internal" (fun b d => exists ess, laid space_row space_other b ess /\ merged (concat ess) d) |};
    {| k_phrase := "TDDFT excitation energies"; k_open := edged (one "+") (is_text "TDDFT excitation energies") "TDDFT"; k_close := edged (one "+") (row "=") "TDDFT"; k_ends := 2;
       k_asked := F_TDDFT; k_says := sets "tddft" (fun b v => exists xs, laid SpecCastep4.excitation_row SpecCastep4.not_excitation b xs /\
         v = VList (map SpecCastep4.excitation_read xs)) |};
    band_kind "B A N D"; band_kind "Band Structure Calculation";
    {| k_phrase := "Elastic Constants Tensor (GPa)"; k_open := heading "Elastic Constants Tensor (GPa)"; k_close := ruled "="; k_ends := 1; k_asked := F_ELASTIC;
       k_says := enters "elastic" (fun b d => exists v, tensor_of b v /\ d = [(name "elastic_constants", v)]) |};
    {| k_phrase := "Compliance Matrix (GPa^-1)"; k_open := heading "Compliance Matrix (GPa^-1)"; k_close := ruled "="; k_ends := 1; k_asked := F_ELASTIC;
       k_says := enters "elastic" (fun b d => exists v, tensor_of b v /\ d = [(name "compliance_matrix", v)]) |};
    {| k_phrase := "Elastic Properties"; k_open := heading "Elastic Properties"; k_close := ruled "="; k_ends := 1; k_asked := F_ELASTIC;
       k_says := enters "elastic" (fun b d => exists es, in_turn elastic_item b es /\ merged es d) |};
    {| k_phrase := "Calculating MODOS weights"; k_open := mentions "Calculating MODOS weights"; k_close := blanks; k_ends := 1; k_asked := F_DELTA_SCF;
       k_says := sets "delta_scf" (fun b v => exists ls1 ls2 ls3 fs ss rows d, b = (ls1 ++ ls2 ++ ls3)%list /\ laid SpecCastep5.from_row SpecCastep5.silent_delta ls1 fs /\
         SpecCastep5.all_states ls2 ss /\ laid SpecCastep5.said_row SpecCastep5.silent_delta ls3 rows /\ SpecCastep5.delta_read fs ss rows d /\ v = VDict false d) |} ]%string.
(** Pair potentials and polarisation *)
Definition indented (t : string) (l : list ascii) : Prop := exists a r, blanks a /\ l = a ++ text_of t ++ r.
Definition pair_title (l : list ascii) : Prop :=
  exists a w g s1 g1 s2 b, blanks a /\ (forall c, In c w -> word_char c) /\ blanks g /\ row "*" s1 /\ blanks g1 /\ row "*" s2 /\ blanks b /\
    exists g2, blanks g2 /\ l = a ++ w ++ g ++ s1 ++ g1 ++ text_of "PairParams" ++ g2 ++ s2 ++ b.
Definition polarised (b : list (list ascii)) (d : list (key * pyval)) : Prop := exists es, SpecBerry.berry b es /\ d = SpecTree.tree 2 es.
Definition kinds_3 : list kind :=
  [ {| k_phrase := "PairParams"; k_open := pair_title; k_close := blanks; k_ends := 1; k_asked := F_PARAMETERS;
       k_says := appends "pair_params" (fun b v => exists es, SpecPairs.pair_report None b es /\ SpecTree.orderly es /\ v = VDict false (SpecTree.tree 2 es)) |};
    {| k_phrase := "Ionic contribution to polarisation"; k_open := indented "Ionic contribution to polarisation"; k_close := SpecBerry.equals; k_ends := 14;
       k_asked := F_POLARISATION; k_says := enters "berry_phase" polarised |};
    {| k_phrase := "Polarisation"; k_open := indented "Polarisation"; k_close := SpecBerry.equals; k_ends := 6;
       k_asked := F_POLARISATION; k_says := enters "berry_phase" polarised |};
    {| k_phrase := "firstd_calculate: removing force on centre of mass"; k_open := mentions "firstd_calculate: removing force on centre of mass"; k_close := blanks; k_ends := 1;
       k_asked := F_FORCE; k_says := fun b es => exists ns, laid (fun l n => begins " dF" l /\ exists ms, number_line (n :: ms) l) (fun l => ~ begins " dF" l) b ns /\ all_fit ns /\
         es = [Files "forces" (text_of "com_force_removal") (vector ns)] |} ]%string.
Definition kinds : list kind := kinds_1 ++ kinds_2 ++ kinds_3.

(** ** Lines *)
Record line_kind := { l_phrase : string; l_open : list ascii -> Prop; l_asked : list filt; l_says : list ascii -> effect -> Prop }.
Definition energy (t k : string) (at_start : bool) : line_kind :=
  {| l_phrase := t; l_open := if at_start then begins t else mentions t; l_asked := [];
     l_says := fun l e => exists ns n, number_line (ns ++ [n]) l /\ fits (num_value n) /\ e = Files "energies" (text_of k) (float_of n) |}.
(** "Final free energy (E-TS)    = <number>" *)
Definition free_energy (l : list ascii) : Prop :=
  exists a b n r, l = text_of "Final free energy (E-TS)" ++ repeat " "%char (S a) ++ "="%char :: repeat " "%char (S b) ++ write_num n ++ r /\ num_wf n /\ n_frac n <> None /\ token_end r.
Definition line_kinds_1 : list line_kind :=
  [ {| l_phrase := "Overall parallel efficiency rating"; l_open := begins "Overall parallel efficiency rating"; l_asked := [F_SYS_INFO];
       l_says := fun l e => exists n ns, number_line (n :: ns) l /\ fits (num_value n) /\ e = Sets "parallel_efficiency" (float_of n) |};
    {| l_phrase := "Reading continuation data"; l_open := begins "Reading continuation data"; l_asked := [F_SYS_INFO];
       l_says := fun l e => exists ws w, cut nonblank (ws ++ [w]) l /\ e = Sets "continuation" (VStr w) |};
    {| l_phrase := "Quantisation axis"; l_open := mentions "Quantisation axis"; l_asked := [F_SPECIES_PROPS];
       l_says := fun l e => exists ns, number_line ns l /\ all_fit ns /\ e = Sets "quantisation_axis" (vector ns) |};
    energy "Final energy" "final_energy" true;
    energy "Total energy corrected for finite basis set" "final_basis_set_corrected" false;
    energy "0K energy (E-0.5TS)" "est_0K" false;
    energy "(SEDC) Total Energy" "sedc_correction" true;
    energy "Dispersion corrected final energy" "disperson_corrected" true;
    {| l_phrase := "Final free energy (E-TS)"; l_open := free_energy; l_asked := [];
       l_says := fun l e => exists ns n, number_line (ns ++ [n]) l /\ fits (num_value n) /\ e = Files "energies" (text_of "free_energy") (float_of n) |};
    {| l_phrase := " Free energy of solvation"; l_open := begins " Free energy of solvation"; l_asked := [F_SOLVATION];
       l_says := fun l e => exists n, number_line [n] l /\ fits (num_value n) /\ e = Files "energies" (text_of "solvation") (float_of n) |} ]%string.
(** " AE eigenvalue nl 10 =   -0.53", and the same with "PS" *)
Definition eigen_line (l : list ascii) (t : string) (nl : list digit) (n : num) : Prop :=
  exists a u s, (t = "AE" \/ t = "PS")%string /\ blanks a /\ columns [n] u /\ token_end s /\ nl <> [] /\
    l = a ++ text_of t ++ text_of " eigenvalue nl " ++ write_digits nl ++ text_of " =" ++ u ++ s.
Definition eigen_value (t : string) (nl : list digit) (n : num) : pyval :=
  VDict false [(name "type", VStr (text_of t)); (name "nl", VInt (decimal nl)); (name "eigenvalue", float_of n)].
(** "For future reference: finite basis dEtot/dlog(Ecut) =   -0.25eV" *)
Definition slope_line (l : list ascii) (n : num) : Prop :=
  exists a k r, ~ mentions "fi" a /\ num_ok n /\ n_frac n <> None /\ n_exp n = None /\ not_first "0123456789" r /\
    l = a ++ text_of "finite basis dEtot/dlog(Ecut) =" ++ repeat " "%char (S k) ++ write_num n ++ r.
Definition line_kinds_2 : list line_kind :=
  [ {| l_phrase := "Run started"; l_open := mentions "Run started"; l_asked := [F_SYS_INFO];
       l_says := fun l e => exists a v s, l = (a ++ ":"%char :: v)%list /\ ~ In ":"%char a /\ words_of v s /\ e = Sets "time_started" (VStr s) |};
    {| l_phrase := " eigenvalue nl "; l_open := fun l => exists t nl n, eigen_line l t nl n; l_asked := [F_PSPOT];
       l_says := fun l e => exists t nl n, eigen_line l t nl n /\ fits (num_value n) /\ e = Appends "pspot_debug" (eigen_value t nl n) |};
    {| l_phrase := "Supercell generated"; l_open := mentions "Supercell generated"; l_asked := [];
       l_says := fun l e => exists r1 r2 r3 ns, number_line (r1 ++ r2 ++ r3 ++ ns)%list l /\ length r1 = 3 /\ length r2 = 3 /\ length r3 = 3 /\
         all_fit (r1 ++ r2 ++ r3)%list /\ e = Sets "supercell" (VTuple [vector r1; vector r2; vector r3]) |};
    {| l_phrase := "finite basis dEtot/dlog(Ecut) ="; l_open := fun l => exists n, slope_line l n; l_asked := [];
       l_says := fun l e => exists n, slope_line l n /\ fits (num_value n) /\ e = Sets "dedlne" (float_of n) |} ]%string.
Definition line_kinds : list line_kind := line_kinds_1 ++ line_kinds_2.

(** ** Files
    Pieces that are not asked for are passed over as a whole. *)
Inductive pieces (F : list filt) : list (list ascii) -> list effect -> Prop :=
| pc_nil : pieces F [] []
| pc_quiet l ls es : quiet l -> pieces F ls es -> pieces F (l :: ls) es
| pc_line K l e ls es : In K line_kinds -> nothing_before (l_phrase K) l -> l_open K l -> incl (l_asked K) F -> l_says K l e ->
    pieces F ls es -> pieces F (l :: ls) (e :: es)
| pc_line_off K l ls es : In K line_kinds -> nothing_before (l_phrase K) l -> l_open K l -> ~ incl (l_asked K) F ->
    pieces F ls es -> pieces F (l :: ls) es
| pc_block K l b es' ls es : In K kinds -> nothing_before (k_phrase K) l -> k_open K l -> delimited (k_close K) (k_ends K) b ->
    In (k_asked K) F -> k_says K (l :: b) es' -> pieces F ls es -> pieces F (l :: b ++ ls) (es' ++ es)
| pc_block_off K l b ls es : In K kinds -> nothing_before (k_phrase K) l -> k_open K l -> delimited (k_close K) (k_ends K) b ->
    ~ In (k_asked K) F -> pieces F ls es -> pieces F (l :: b ++ ls) es.
(** "Compiled for" starts a new run. *)
Definition build_title (l : list ascii) : Prop := exists a r, blanks a /\ l = a ++ text_of "Compiled for" ++ r.
Inductive builds (F : list filt) : list (list ascii) -> list effect -> Prop :=
| bd_on l1 l2 ls s1 s2 es d : In F_SYS_INFO F -> build_title l1 -> delimited blanks 1 (l2 :: ls) -> words_of l1 s1 -> words_of l2 s2 ->
    laid build_row not_build ls es -> merged ((name "summary", VStr (s1 ++ " "%char :: s2)) :: es) d ->
    builds F (l1 :: l2 :: ls) [Sets "build_info" (VDict false d)]
| bd_off l b : ~ In F_SYS_INFO F -> build_title l -> delimited blanks 1 b -> builds F (l :: b) [].
Inductive runs (F : list filt) : list (list ascii) -> list (list effect) -> Prop :=
| rn_last ls es : pieces F ls es -> runs F ls [es]
| rn_next ls es b bs ls' es' rs : pieces F ls es -> builds F b bs -> runs F ls' (es' :: rs) -> runs F (ls ++ b ++ ls') (es :: (bs ++ es') :: rs).
Definition nonempty {A} (l : list A) : bool := match l with [] => false | _ => true end.
Definition file_read (rs : list (list effect)) : list (list (key * pyval)) :=
  map (run_of false) (filter nonempty (removelast rs)) ++ map (run_of true) (filter nonempty [last rs []]).

(** ** Asking for less *)
Definition effect_asked (F : list filt) (e : effect) : Prop :=
  asked F (name (about e)) /\ (about e = "energies"%string -> second_name e = text_of "solvation" -> In F_SOLVATION F).
Inductive left_out (F : list filt) : list effect -> list effect -> Prop :=
| lo_nil : left_out F [] []
| lo_keep e es es' : effect_asked F e -> left_out F es es' -> left_out F (e :: es) (e :: es')
| lo_drop e es es' : ~ effect_asked F e -> left_out F es es' -> left_out F (e :: es) es'.
