(** Specification of .castep files, independent of the parser. *)
From Coq Require Import Ascii String List Arith ZArith.
From Verif Require Import PyBase PyVal NumSpec SpecStr SpecLine SpecTable SpecBands SpecDict SpecMd SpecCastep.
From Verif Require Import CastepFile.   (* only for the names of the filters *)
Import ListNotations.
Open Scope list_scope.

(** ** What is asked for
    The data of a run, and the filters that ask for it: one of the lists has to be
    asked for as a whole. *)
Definition owners : list (string * list (list filt)) :=
  [("energies", [[]]); ("supercell", [[]]); ("dedlne", [[]]); ("geom_opt", [[]]);
   ("build_info", [[F_SYS_INFO]]); ("time_started", [[F_SYS_INFO]]); ("parallel_efficiency", [[F_SYS_INFO]]);
   ("continuation", [[F_SYS_INFO]]); ("warning", [[F_SYS_INFO]]); ("memory_estimate", [[F_SYS_INFO]; [F_MD]]);
   ("title", [[F_PARAMETERS]]); ("options", [[F_PARAMETERS]]); ("pair_params", [[F_PARAMETERS]]); ("dftd", [[F_PARAMETERS]]);
   ("initial_spins", [[F_PARAMETERS]]); ("target_stress", [[F_PARAMETERS]]); ("k-points", [[F_PARAMETERS]]);
   ("applied_field", [[F_PARAMETERS]]);
   ("quantisation_axis", [[F_SPECIES_PROPS]]); ("species_properties", [[F_SPECIES_PROPS]]);
   ("pspot_detail", [[F_PSPOT]]); ("pspot_debug", [[F_PSPOT]]);
   ("scf", [[F_SCF]]); ("wvfn_line_min", [[F_SCF]]); ("occupancies", [[F_SCF]]); ("bsc_energies", [[F_SCF]]); ("bsc_scf", [[F_SCF]]);
   ("spin", [[F_SCF]; [F_SPIN]]); ("modspin", [[F_SCF]; [F_SPIN]]);
   ("initial_cell", [[F_CELL]]); ("symmetries", [[F_SYMMETRIES]]); ("constraints", [[F_SYMMETRIES]]);
   ("reactant", [[F_TSS; F_POSITION]]); ("product", [[F_TSS; F_POSITION]]);
   ("labels", [[F_POSITION]]); ("initial_positions", [[F_POSITION]]); ("initial_velocities", [[F_POSITION]]);
   ("forces", [[F_FORCE]]); ("stresses", [[F_STRESS]]);
   ("phonons", [[F_PHONON]]); ("phonon_symmetry_analysis", [[F_PHONON]]); ("dynamical_matrix", [[F_PHONON]]); ("raman", [[F_PHONON]]);
   ("autosolvation", [[F_SOLVATION]]);
   ("optical_permittivity", [[F_OPTICS]]); ("dc_permittivity", [[F_OPTICS]]); ("optical_polarisability", [[F_OPTICS]]);
   ("static_polarisability", [[F_OPTICS]]); ("nlo", [[F_OPTICS]]);
   ("atomic_displacements", [[F_THERMODYNAMICS]]); ("thermodynamics", [[F_THERMODYNAMICS]]);
   ("mulliken_popn", [[F_POPN_ANALYSIS]]); ("born", [[F_POPN_ANALYSIS]]); ("orbital_popn", [[F_POPN_ANALYSIS]]);
   ("bonds", [[F_POPN_ANALYSIS]]); ("hirshfeld", [[F_POPN_ANALYSIS]]);
   ("elf", [[F_ELF]]); ("md", [[F_MD]]);
   ("enthalpy", [[F_GEOM_OPT]]); ("minimisation", [[F_GEOM_OPT]]); ("internal_constraints", [[F_GEOM_OPT]]);
   ("delocalised_internal", [[F_GEOM_OPT]]);
   ("tddft", [[F_TDDFT]]); ("bs", [[F_BS]]); ("molecular_dipole", [[F_DIPOLE]]); ("magres", [[F_CHEM_SHIELDING]]);
   ("elastic", [[F_ELASTIC]]); ("berry_phase", [[F_POLARISATION]]); ("delta_scf", [[F_DELTA_SCF]]);
   ("external_files", [[F_TEST_EXTRA_DATA]])]%string.
Definition asked (F : list filt) (k : key) : Prop :=
  exists n alts fs, k = name n /\ In (n, alts) owners /\ In fs alts /\ forall f, In f fs -> In f F.
Definition a_float (v : pyval) : Prop := exists f, v = VFloat f.
(** The closing lines of a run and the "MD Data" tables name their numbers freely.
    The energies at several cut-offs are read with everything asked for. *)
Definition permitted (F : list filt) (e : key * pyval) : Prop :=
  asked F (fst e) \/
  (a_float (snd e) /\ (In F_SYS_INFO F \/ In F_MD F \/ In F_MD_SUMMARY F)) \/
  (In F_SCF F /\ (asked FULL (fst e) \/ a_float (snd e))).

(** ** The phrases that are looked for, in their order
    The mark says that the case of letters does not matter. *)
Definition phrases : list (bool * string) :=
  [(false, "Compiled for"); (false, "Run started"); (false, "Initialisation time"); (false, "Overall parallel efficiency rating");
   (false, "Reading continuation data"); (false, "?"); (true, "warning"); (false, "MEMORY AND SCRATCH"); (false, "Title");
   (false, " Parameters"); (false, "Quantisation axis"); (false, "Pseudo atomic calculation performed for ");
   (false, "Mass of species in AMU"); (false, "Electric Quadrupole Moment"); (false, "Files used for pseudopotentials");
   (false, "Pseudopotential Report"); (false, " eigenvalue nl "); (false, "PairParams"); (false, "DFT-D parameters");
   (false, "SCF loop"); (false, "WAVEFUNCTION LINE MINIMISATION"); (false, "Occupancy"); (false, "cut-off energies");
   (false, "Final energy"); (false, "Total energy corrected for finite basis set"); (false, "0K energy (E-0.5TS)");
   (false, "(SEDC) Total Energy"); (false, "Dispersion corrected final energy"); (false, "Final free energy (E-TS)");
   (false, " Free energy of solvation"); (false, "Integrated ");
   (false, "Unit Cell"); (false, "Symmetry and Constraints"); (false, "Reactant"); (false, "Product");
   (false, "Fractional coordinates of atoms"); (false, "Supercell generated"); (false, "User Supplied Ionic Velocities");
   (false, "Initial magnetic"); (false, "External pressure/stress"); (false, "finite basis dEtot/dlog(Ecut) =");
   (false, "k-Points For BZ Sampling"); (false, "Fractional coordinates"); (false, "Applied Electric Field"); (true, "forces");
   (false, "firstd_calculate: removing force on centre of mass"); (true, "stress tensor");
   (false, "Vibrational Frequencies"); (false, "Phonon Symmetry Analysis"); (false, "Dynamical matrix");
   (false, "Raman Susceptibility Tensors"); (false, "AUTOSOLVATION CALCULATION RESULTS"); (false, "Optical Permittivity");
   (false, "Polarisabilit"); (false, "Nonlinear Optical Susceptibility"); (false, "Atomic Displacement Parameters (A**2)");
   (false, "Thermodynamics"); (false, "Atomic Populations (Mulliken)"); (false, "Born Effective Charges"); (false, "Orbital Populations");
   (false, "Bond"); (false, "Hirshfeld Analysis"); (false, "ELF grid sample");
   (false, "Starting MD"); (false, "MD Data:"); (false, "Final Configuration"); (false, " iteration"); (false, "trial guess (lambda=");
   (true, "final "); (false, "<--"); (false, "INTERNAL CONSTRAINTS"); (false, "Message: Generating deloc"); (false, "The size of active space");
   (false, "TDDFT excitation energies"); (false, "B A N D"); (false, "Band Structure Calculation"); (false, "D I P O L E   O F   M O L E C U L E   I N   S U P E R C E L L");
   (false, "Chemical Shielding Tensor"); (false, "Chemical Shielding and Electric Field Gradient Tensors"); (false, "Electric Field Gradient Tensor"); (false, "sotropic J-coupling"); (false, "Hyperfine Tensor");
   (false, "Elastic Constants Tensor (GPa)"); (false, "Compliance Matrix (GPa^-1)"); (false, "Contribution ::"); (false, "Elastic Properties");
   (false, "Ionic contribution to polarisation"); (false, "Polarisation"); (false, "Calculating MODOS weights"); (false, "<BEGIN ")]%string.
Definition holds (p : bool * string) (l : list ascii) : Prop := mentions (snd p) (if fst p then map lower_c l else l).
Definition quiet (l : list ascii) : Prop := Forall (fun p => ~ holds p l) phrases.
(** The phrases looked for before this one *)
Fixpoint up_to (w : string) (ps : list (bool * string)) : list (bool * string) :=
  match ps with
  | [] => []
  | p :: ps' => if String.eqb (snd p) w then [] else p :: up_to w ps'
  end.
Definition nothing_before (w : string) (l : list ascii) : Prop := Forall (fun p => ~ holds p l) (up_to w phrases).
