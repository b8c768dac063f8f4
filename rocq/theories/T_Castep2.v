(** Property theorems C76 and C77: tables of numbers and lines that name what they
    say in .castep files. *)
From Verif Require Import PyBase PyFacts PyVal Regex NumSpec SpecLine SpecTable SpecStr SpecBands SpecDict SpecMd SpecCastep SpecCastep2
  BandsFacts TextParsersFacts StrUtilFacts MdFacts CastepRes StrUtil CastepBlocks CastepNum CastepFacts Castep2Facts ExampleTools ExampleTools2.
Local Open Scope list_scope.
Local Open Scope nat_scope.

Ltac nl := apply nl_of; vmr.
Ltac nlfit := first [apply nl_of; vmr|apply fit_of; vmr|apply fits_of; vmr|apply int_of; vmr|reflexivity].

(** C76.  Matrices: the lines of three or six numbers, as floats; or the two halves
    of six numbers, when the first such line has six. *)
Theorem C76_matrix ls nss : Forall2 numbers_on ls nss -> Forall all_fit (filter matrix_row nss) ->
  process_3_6_matrix false ls = Ok (matrix (filter matrix_row nss), VNone) /\
  process_3_6_matrix true ls = matrices (filter matrix_row nss).
Proof. exact (matrix_spec ls nss). Qed.
Print Assumptions C76_matrix.
Example C76_matrix_ex :
  let ls := lns ["  Elastic Constants 7"; "  1.5 -2.0 3.25   0.5 1.0e-3 2"; "  4 5 6  7 8 9.5"; "  ----"]%string in
  let nss := [nums ["7"]; nums ["1.5"; "-2.0"; "3.25"; "0.5"; "1.0e-3"; "2"]; nums ["4"; "5"; "6"; "7"; "8"; "9.5"]; []]%string in
  Forall2 numbers_on ls nss /\ Forall all_fit (filter matrix_row nss).
Proof. cbv zeta. split; [apply nls_of; vmr|]. repeat constructor; apply fits_of; vmr. Qed.

(** The unit cell. *)
Theorem C76_unit_cell ls rows : laid cell_row not_cell_row ls rows -> process_unit_cell ls = Ok (cell_read rows).
Proof. exact (unit_cell_spec ls rows). Qed.
Print Assumptions C76_unit_cell.
Example C76_unit_cell_ex : laid cell_row not_cell_row
  (lns ["        Real Lattice(A)                      Reciprocal Lattice(1/A)";
        "     6.3145000     0.0000000     0.0000000        0.995040828   0.000000000   0.000000000";
        "                    a =      6.314500          alpha =   90.000000";
        "                       Current cell volume =           251.777492       A**3"]%string)
  [Lattice (nums ["6.3145000"; "0.0000000"; "0.0000000"]%string) (nums ["0.995040828"; "0.000000000"; "0.000000000"]%string);
   Angle (rd "6.314500") (rd "90.000000"); Property (rd "251.777492")].
Proof.
  apply laid_other. { exists (nums ["1"]%string). split; [nl|]. split; discriminate. }
  apply laid_row. { constructor; nlfit. }
  apply laid_row. { apply (cr_angle _ "alpha"); [nl|now left|apply mentions_of; vmr|nlfit]. }
  apply laid_row; [|constructor].
  apply (cr_property _ _ (rd "3")); [nl| |nlfit].
  intros w [<-|[<-|[<-|[]]]]; apply not_mentions_of; vmr.
Qed.

(** Occupancies: a line with any other number of numbers is an error. *)
Theorem C76_occupancies ls rows : laid SpecCastep2.occupancy_row no_digits ls rows -> process_occupancies ls = Ok (map occupancy rows).
Proof. exact (occupancies_spec ls rows). Qed.
Print Assumptions C76_occupancies.
Theorem C76_occupancies_bad ls nss ns : Forall2 numbers_on ls nss -> In ns nss -> length ns <> 0 -> length ns <> 3 ->
  process_occupancies ls = Err ValueError.
Proof. exact (occupancies_bad ls nss ns). Qed.
Print Assumptions C76_occupancies_bad.
Example C76_occupancies_ex : laid SpecCastep2.occupancy_row no_digits
  (lns ["|  Band  |   Eigenvalue      |    Occupancy   |                   <- occ";
        "|     1  |   -.103844E+02    |   1.00000      |                   <- occ";
        "|     2  |   0.326330E+00    |  0.111022E-15  |                   <- occ"]%string)
  [(rd "1", rd "-.103844E+02", rd "1.00000"); (rd "2", rd "0.326330E+00", rd "0.111022E-15")].
Proof.
  apply laid_other; [apply free_of_b; vmr|]. apply laid_row; [constructor; nlfit|]. apply laid_row; [constructor; nlfit|constructor].
Qed.
Example C76_occupancies_bad_ex : Forall2 numbers_on (lns ["|  1  |  0.5  |"]%string) [nums ["1"; "0.5"]%string].
Proof. apply nls_of; vmr. Qed.

(** Raman tensors: the rows of each mode, its depolarisation, and, when the mode is
    closed, the trace and the second invariant. *)
Theorem C76_raman h ls ms : raman_lines ls ms -> process_raman (h :: ls) = Ok (map raman_read ms).
Proof. exact (raman_spec h ls ms). Qed.
Print Assumptions C76_raman.
Definition ex_raman : list raman :=
  [{| rn_rows := [(rd "0.0000", rd "-0.5000", rd "-0.0000", Some (rd "0.750000")); (rd "-0.0000", rd "-2.5000", rd "-1.3062", None);
                  (rd "-0.0000", rd "-1.3062", rd "-1.0000", None)]; rn_ended := true |}].
Lemma ex_raman_other : raman_other (ln " +----------------------+").
Proof.
  split; [apply free_of_b; vmr|]. split; [apply not_mentions_of; vmr|]. intros b r [Hb Hn] E. cbn in E. injection E as E.
  destruct b as [|c b]; [congruence|]. injection E as <- E. apply NumProps.blanks_iff in Hb. discriminate Hb.
Qed.
Example C76_raman_ex : raman_lines
  (lns [" +----------------------+"; " + Mode number:   2 Raman tensor       Depolarisation Ratio                   +";
        " +     0.0000   -0.5000   -0.0000      0.750000                               +";
        " +    -0.0000   -2.5000   -1.3062                                             +";
        " +    -0.0000   -1.3062   -1.0000                                             +";
        " +                                                                            +"]%string) ex_raman.
Proof.
  change (lns _) with ([ln " +----------------------+"] ++ (lns [" + Mode number:   2 Raman tensor       Depolarisation Ratio                   +";
        " +     0.0000   -0.5000   -0.0000      0.750000                               +";
        " +    -0.0000   -2.5000   -1.3062                                             +";
        " +    -0.0000   -1.3062   -1.0000                                             +";
        " +                                                                            +"]%string) ++ []).
  apply rl_cons; [constructor; [exact ex_raman_other|constructor]| |apply rl_nil; constructor].
  unfold lns. cbn [map]. refine (rm_ended _ [_; _; _] _ [] _ _ _ _ _ _ _); [apply mentions_of; vmr| | |constructor|cbn; lia|reflexivity].
  - cbn [ex_raman rn_rows]. repeat (apply laid_row; [apply rr; [nl|apply fit_of; vmr|apply not_mentions_of; vmr]|]). constructor.
  - split; [apply free_of_b; vmr|]. split; [apply not_mentions_of; vmr|].
    exists ($"                                                                            "), [newline]. split; [apply gap_b; vmr|vmr].
Qed.

(** The dynamical matrix: the rows of the real parts with those of the imaginary
    parts; different numbers of rows are an error. *)
Theorem C76_dynamical ls re im vs : dynamical_lines ls re im -> complex_rows re im vs -> process_dynamical_matrix ls = Ok (VTuple vs).
Proof. exact (dynamical_spec ls re im vs). Qed.
Print Assumptions C76_dynamical.
Theorem C76_dynamical_bad ls re im : dynamical_lines ls re im -> length re <> length im -> process_dynamical_matrix ls = Err ValueError.
Proof. exact (dynamical_bad ls re im). Qed.
Print Assumptions C76_dynamical_bad.
Definition ex_dyn_lines (more : list string) : list str :=
  lns (["            Dynamical matrix"; " Ion XYZ        real part  ((cm-1)**2)"; "   1   1          2.000000          -0.5";
        "   1   2          0.25          2.000000"; " Ion XYZ        imaginary part  ((cm-1)**2)"; "   1   1         10.000000          0.125"]%string ++ more ++ ["  ------"%string]).
Example C76_dynamical_ex :
  let re := [nums ["2.000000"; "-0.5"]; nums ["0.25"; "2.000000"]]%string in
  let im := [nums ["10.000000"; "0.125"]; nums ["0"; "-1.0"]]%string in
  dynamical_lines (ex_dyn_lines ["   1   2   0   -1.0"]%string) re im /\ exists vs, complex_rows re im vs.
Proof.
  cbv zeta. split.
  - unfold ex_dyn_lines, lns. cbn [map app]. refine (dl _ _ [_; _] _ [_; _; _] _ _ _ _ _ _).
    + constructor; [apply (dr _ (rd "1") (rd "1")); nlfit|]. constructor; [apply (dr _ (rd "1") (rd "2")); nlfit|constructor].
    + repeat constructor; apply not_mentions_of; vmr.
    + apply mentions_of; vmr.
    + apply laid_row; [apply (dr _ (rd "1") (rd "1")); nlfit|]. apply laid_row; [apply (dr _ (rd "1") (rd "2")); nlfit|].
      apply laid_other; [apply free_of_b; vmr|constructor].
  - eexists. repeat constructor.
Qed.
Example C76_dynamical_bad_ex : dynamical_lines (ex_dyn_lines []) [nums ["2.000000"; "-0.5"]; nums ["0.25"; "2.000000"]]%string [nums ["10.000000"; "0.125"]%string].
Proof.
  unfold ex_dyn_lines, lns. cbn [map app]. refine (dl _ _ [_; _] _ [_; _] _ _ _ _ _ _).
  - constructor; [apply (dr _ (rd "1") (rd "1")); nlfit|]. constructor; [apply (dr _ (rd "1") (rd "2")); nlfit|constructor].
  - repeat constructor; apply not_mentions_of; vmr.
  - apply mentions_of; vmr.
  - apply laid_row; [apply (dr _ (rd "1") (rd "1")); nlfit|]. apply laid_other; [apply free_of_b; vmr|constructor].
Qed.

(** The symmetry analysis of phonons: rows of unsigned integers as integers, other
    rows as floats. *)
Theorem C76_phonon_symmetry l t ws h ls vs : after_colon l t -> cut nonblank ws t -> laid mixed_row no_digits ls vs ->
  process_phonon_sym_analysis (l :: h :: ls) = Ok [(name "title", VStr (joined (text_of " ") ws)); (name "mat", VTuple vs)].
Proof. exact (phonon_sym_spec l t ws h ls vs). Qed.
Print Assumptions C76_phonon_symmetry.
Example C76_phonon_symmetry_ex :
  let t := $" Elements of BEC  with same absolute magnitude" ++ [newline] in
  after_colon ($"  Phonon Symmetry Analysis:" ++ t) t /\
  cut nonblank (map text_of ["Elements"; "of"; "BEC"; "with"; "same"; "absolute"; "magnitude"]%string) t /\
  laid mixed_row no_digits (lns ["     1     0    12"; "   0.0   1   0.0"; ""]%string)
    [VTuple [VInt 1; VInt 0; VInt 12]; vector (nums ["0.0"; "1"; "0.0"]%string)].
Proof.
  cbv zeta. split; [|split; [apply cut_of; vmr|]].
  - exists ($"  Phonon Symmetry Analysis"), []. split; [vmr|]. split; [apply not_in_of; vmr|]. split; [apply not_in_of; vmr|]. discriminate.
  - apply laid_row.
    { apply (mr _ (rd "1") [rd "0"; rd "12"]); [nl|apply fit_of; vmr|]. apply (mx_ints [rd "1"; rd "0"; rd "12"]). repeat constructor. }
    apply laid_row; [|apply laid_other; [apply free_of_b; vmr|constructor]].
    apply (mr _ (rd "0.0") [rd "1"; rd "0.0"]); [nl|apply fit_of; vmr|]. apply mx_floats. intros H. inversion H as [|x y [_ [C _]]]. discriminate C.
Qed.

(** C77.  "key = number" *)
Theorem C77_finalisation ls es : laid equals_row blanks ls es -> exists d, process_finalisation ls = Ok d /\ merged es d.
Proof. exact (finalisation_spec ls es). Qed.
Print Assumptions C77_finalisation.
Theorem C77_finalisation_bad ls es l more : laid equals_row blanks ls es -> not_equals l -> process_finalisation (ls ++ l :: more) = Err ValueError.
Proof. exact (finalisation_bad ls es l more). Qed.
Print Assumptions C77_finalisation_bad.
Example C77_finalisation_ex : laid equals_row blanks (lns ["Initialisation time =      2.08 s"; "  "; "Peak Memory Use     = 107320 kB"]%string)
  [(name "initialisation_time", float_of (rd "2.08")); (name "peak_memory_use", float_of (rd "107320"))].
Proof.
  unfold lns. cbn [map]. apply laid_row.
  { apply (eqr ($"Initialisation time ") ($"      2.08 s" ++ [newline]) (rd "2.08") []);
      [apply not_in_of; vmr..|nl|apply fits_of; vmr|apply key_named; vmr]. }
  apply laid_other; [apply blanks_of; vmr|]. apply laid_row; [|constructor].
  apply (eqr ($"Peak Memory Use     ") ($" 107320 kB" ++ [newline]) (rd "107320") []);
    [apply not_in_of; vmr..|nl|apply fits_of; vmr|apply key_named; vmr].
Qed.
Example C77_finalisation_bad_ex : not_equals (ln "Overall parallel efficiency rating: Good (82%)").
Proof. split; [apply not_blank_b; vmr|]. left. apply not_in_of; vmr. Qed.

(** The results of a solvation: the first number of the line is the value. *)
Theorem C77_autosolvation ls es : laid solvation_row (fun l => ~ In "="%char l) ls es ->
  exists d, process_autosolvation ls = Ok d /\ merged es d.
Proof. exact (autosolvation_spec ls es). Qed.
Print Assumptions C77_autosolvation.
Example C77_autosolvation_ex : laid solvation_row (fun l => ~ In "="%char l)
  (lns [" Calculation succeeded:"; " -Total energy in vacuum          =       -30.72034046140072405 eV";
        "  (Apolar cavitation energy       =         0.23174076832973722 eV)"]%string)
  [(name "total_energy_in_vacuum", float_of (rd "-30.72034046140072405")); (name "apolar_cavitation_energy", float_of (rd "0.23174076832973722"))].
Proof.
  unfold lns. cbn [map]. apply laid_other; [apply not_in_of; vmr|]. apply laid_row.
  { apply (svr ($" -Total energy in vacuum          ") ($"       -30.72034046140072405 eV" ++ [newline]) (rd "-30.72034046140072405") []);
      [apply not_in_of; vmr|nl|apply fits_of; vmr|apply key_named; vmr]. }
  apply laid_row; [|constructor].
  apply (svr ($"  (Apolar cavitation energy       ") ($"         0.23174076832973722 eV)" ++ [newline]) (rd "0.23174076832973722") []);
    [apply not_in_of; vmr|nl|apply fits_of; vmr|apply key_named; vmr].
Qed.

(** Estimates of memory *)
Theorem C77_memory ls es : laid memory_row not_memory ls es -> exists d, process_memory_est ls = Ok d /\ merged es d.
Proof. exact (memory_spec ls es). Qed.
Print Assumptions C77_memory.
Example C77_memory_ex : laid memory_row not_memory
  (lns ["        |                                                     Memory          Disk    |";
        "        | BLAS internal memory storage                          0.0 MB        12.5 MB |"]%string)
  [(name "blas_internal_memory_storage", VDict false [(name "memory", float_of (rd "0.0")); (name "disk", float_of (rd "12.5"))])].
Proof.
  unfold lns. cbn [map]. apply laid_other; [left; apply free_of_b; vmr|]. apply laid_row; [|constructor].
  apply (mmr ($"        ") ($" BLAS internal memory storage                         ") (rd "0.0") ($"        ") (rd "12.5") ($" |" ++ [newline]));
    [apply blanks_of; vmr|discriminate| |apply ok_of; vmr|apply fits_of; vmr|apply gap_b; vmr|apply ok_of; vmr|apply fits_of; vmr|apply key_named; vmr].
  assert (H : forallb (fun c => is_alpha c || Ascii.eqb c " ") ($" BLAS internal memory storage                         ") = true) by vmr.
  intros c Hc. rewrite forallb_forall in H. specialize (H c Hc). apply orb_true_iff in H as [H|H]; [left; now apply letter_b|right; now apply Ascii.eqb_eq].
Qed.

(** Delocalised internals: the size of the active space, and the table. *)
Theorem C77_active_space ls ess : laid space_row space_other ls ess -> exists d, process_deloc_act_space_table ls = Ok d /\ merged (concat ess) d.
Proof. exact (space_spec ls ess). Qed.
Print Assumptions C77_active_space.
Example C77_active_space_ex : laid space_row space_other
  (lns [" The size of active space is :    19"; ""; " There are :     67  primitive internals"]%string)
  [[(name "active_space_size", VInt 19)]; [(name "num_primitive_internals", VInt 67)]].
Proof.
  apply laid_row.
  { apply (spr _ (rd "19") []); [nl|split; reflexivity|]. apply sy_yes; [apply mentions_of; vmr|].
    apply sy_no; [apply not_mentions_of; vmr|]. apply sy_no; [apply not_mentions_of; vmr|constructor]. }
  apply laid_other. { intros w k [E|[E|[E|[]]]]; injection E as <- <-; apply not_mentions_of; vmr. }
  apply laid_row; [|constructor].
  apply (spr _ (rd "67") []); [nl|split; reflexivity|]. apply sy_no; [apply not_mentions_of; vmr|].
  apply sy_no; [apply not_mentions_of; vmr|]. apply sy_yes; [apply mentions_of; vmr|constructor].
Qed.
Theorem C77_delocalised ls rows : laid deloc_row not_deloc ls rows -> exists cm d, merged (deloc_map rows) cm /\ merged (deloc_counts rows) d /\
  process_deloc_table ls = Ok ((name "constraint_mapping", VDict false cm) :: d).
Proof. exact (deloc_spec ls rows). Qed.
Print Assumptions C77_delocalised.
Example C77_delocalised_ex : laid deloc_row not_deloc
  (lns [" constraint #     2 is a primitive #    43"; ""; "Total number of primitive bonds:             16"]%string)
  [Constrains (rd "2") (rd "43"); Counts ($"bonds") (rd "16")].
Proof.
  apply laid_row. { apply dcr_map; [apply begins_b; vmr|nl|split; reflexivity|split; reflexivity]. }
  apply laid_other. { split; apply not_begins_of; vmr. }
  apply laid_row; [|constructor].
  apply (dcr_count _ ($"Total") ($"number") ($"of") ($"primitive") ($"bonds:") (rd "16") [] ($"bonds"));
    [apply begins_b; vmr|apply cut_of; vmr|apply ok_of; vmr|split; reflexivity|].
  exists [], ($":"). split; [vmr|]. split; [intros c []|]. split; [intros c [<-|[]]; reflexivity|]. split.
  - intros c u E. injection E as <- _. discriminate.
  - intros u c E. apply (f_equal (@rev ascii)) in E. rewrite rev_app_distr in E. injection E as <- _. discriminate.
Qed.

(** The line minimiser *)
Theorem C77_line_minimiser ls ess : laid wvfn_row not_wvfn ls ess -> exists d, process_wvfn_line_min ls = Ok d /\ merged (concat ess) d.
Proof. exact (wvfn_spec ls ess). Qed.
Print Assumptions C77_line_minimiser.
Example C77_line_minimiser_ex : laid wvfn_row not_wvfn
  (lns ["| Initial energy = -1.031551E+003 eV; initial dE/dstep = -2.376E-001 eV |<- line";
        "|                                                                       |<- line";
        "| step   |  1.500E+00   1.276E+00* unnecessary unnecessary unnecessary  |<- line";
        "| gain   |  1.469E-01   1.518E-01* unnecessary unnecessary unnecessary  |<- line"]%string)
  [[(name "init_energy", float_of (rd "-1.031551E+003")); (name "init_de_dstep", float_of (rd "-2.376E-001"))];
   [(name "steps", vector (nums ["1.500E+00"; "1.276E+00"]%string))]; [(name "gain", vector (nums ["1.469E-01"; "1.518E-01"]%string))]].
Proof.
  apply laid_row. { apply wr_init; [apply mentions_of; vmr|nl|apply fit_of; vmr]. }
  apply laid_other. { split; [apply not_mentions_of; vmr|]. eexists. split; [apply trimmed_of; reflexivity|]. split; apply not_begins_of; vmr. }
  apply laid_row. { eapply wr_step; [apply not_mentions_of; vmr|apply trimmed_of; reflexivity|apply begins_b; vmr|nl|apply fit_of; vmr]. }
  apply laid_row; [|constructor]. eapply wr_gain; [apply not_mentions_of; vmr|apply trimmed_of; reflexivity|apply begins_b; vmr|nl|apply fit_of; vmr].
Qed.

(** The dipole of a molecule *)
Theorem C77_dipole ls es : in_turn dipole_item ls es -> exists d, process_dipole ls = Ok d /\ merged es d.
Proof. exact (dipole_spec ls es). Qed.
Print Assumptions C77_dipole.
Example C77_dipole_ex : in_turn dipole_item
  (lns ["  +                    +"; "  +    Total  ionic  charge in supercell:       8.0000 electrons      +"; "  +   Centre of electronic charge for system:  +";
        "  +        3.0848      3.0848      -3.0848       ANG                   +"; "  +  Magnitude of Dipole =   2.66023  DEBYE                           +"]%string)
  [(name "total_ionic", float_of (rd "8.0000")); (name "centre_electronic", vector (nums ["3.0848"; "3.0848"; "-3.0848"]%string));
   (name "dipole_magnitude", float_of (rd "2.66023"))].
Proof.
  unfold lns. cbn [map].
  refine (it_cons _ [_] [] _ _ _ _). { apply di_other; apply not_mentions_of; vmr. }
  refine (it_cons _ [_] [_] _ _ _ _).
  { apply (di_total ($"  +    ") ($"  ") ($"ionic") ($"  charge in supercell:       8.0000 electrons      +" ++ [newline]) (rd "8.0000") []).
    - vmr.
    - apply free_of_b; vmr.
    - apply blanks_of; vmr.
    - discriminate.
    - assert (H : forallb is_word ($"ionic") = true) by vmr. intros c Hc. rewrite forallb_forall in H. now apply word_char_iff, H.
    - intros c t E. injection E as <- _. intros C. apply word_char_iff in C. discriminate.
    - nl.
    - apply fits_of; vmr. }
  refine (it_cons _ [_; _] [_] _ _ _ _). { apply di_electrons; [apply not_mentions_of; vmr|apply mentions_of; vmr|apply mentions_of; vmr|nl|apply fit_of; vmr]. }
  refine (it_cons _ [_] [_] [] [] _ _); [|constructor].
  apply (di_magnitude _ (rd "2.66023") []); [apply not_mentions_of; vmr|apply not_mentions_of; vmr|apply mentions_of; vmr|nl|apply fits_of; vmr].
Qed.

(** Elastic properties *)
Theorem C77_elastic ls es : in_turn elastic_item ls es -> exists d, process_elastic_properties ls = Ok d /\ merged es d.
Proof. exact (elastic_properties_spec ls es). Qed.
Print Assumptions C77_elastic.
Example C77_elastic_ex : in_turn elastic_item
  (lns ["  Young's Modulus ::     136.853034     136.853034     136.5     (GPa)"; " ----"; "                                 Speed of Sound";
        "                            x              y              z"; "                  x       83.994377      49.768951      49.768951     (A/ps)"; "";
        "  Compressibility ::       0.0105"]%string)
  [(name "young_s_modulus", vector (nums ["136.853034"; "136.853034"; "136.5"]%string));
   (name "speed_of_sound", VTuple [vector (nums ["83.994377"; "49.768951"; "49.768951"]%string)]);
   (name "compressibility", float_of (rd "0.0105"))].
Proof.
  unfold lns. cbn [map].
  refine (it_cons _ [_] [_] _ _ _ _).
  { apply (ei_line _ ($"  Young's Modulus ") _ (nums ["136.853034"; "136.853034"; "136.5"]%string)); [|apply key_named; vmr|nl|apply fit_of; vmr].
    exists ($"     136.853034     136.853034     136.5     (GPa)" ++ [newline]). split; [vmr|apply not_mentions_of; vmr]. }
  refine (it_cons _ [_] [] _ _ _ _). { apply ei_other; apply not_mentions_of; vmr. }
  refine (it_cons _ [_; _; _; _] [_] _ _ _ _).
  { refine (ei_sound _ [_; _] _ [[]; []; nums ["83.994377"; "49.768951"; "49.768951"]%string; []] _ _ _ _ _ _);
      [apply not_mentions_of; vmr|apply mentions_of; vmr|repeat constructor; apply not_blank_b; vmr|apply blanks_of; vmr|apply nls_of; vmr|].
    repeat constructor; apply fits_of; vmr. }
  refine (it_cons _ [_] [_] [] [] _ _); [|constructor].
  apply (ei_line _ ($"  Compressibility ") _ [rd "0.0105"]); [|apply key_named; vmr|nl|apply fit_of; vmr].
  exists ($"       0.0105" ++ [newline]). split; [vmr|apply not_mentions_of; vmr].
Qed.

(** Build information: two lines make the summary. *)
Theorem C77_build l1 l2 ls s1 s2 es : words_of l1 s1 -> words_of l2 s2 -> laid build_row not_build ls es ->
  exists d, process_buildinfo (l1 :: l2 :: ls) = Ok d /\ merged ((name "summary", VStr (s1 ++ " "%char :: s2)) :: es) d.
Proof. exact (buildinfo_spec l1 l2 ls s1 s2 es). Qed.
Print Assumptions C77_build.
Example C77_build_ex :
  words_of (ln " Compiled for linux_x86_64_gfortran10  on 14-11-2023") ($"Compiled for linux_x86_64_gfortran10 on 14-11-2023") /\
  laid build_row not_build (lns [" Compiler: GNU Fortran 12.2.0; Optimisation: FAST"; ""]%string)
    [(name "compiler", VStr ($"GNU Fortran 12.2.0; Optimisation: FAST"))].
Proof.
  split; [apply words_named; vmr|]. apply laid_row; [|apply laid_other; [apply not_in_of; vmr|constructor]].
  apply (bldr ($" Compiler") ($" GNU Fortran 12.2.0; Optimisation: FAST" ++ [newline]) ($"Compiler"));
    [apply not_in_of; vmr|apply words_named; vmr|apply key_named; vmr|apply words_named; vmr].
Qed.
