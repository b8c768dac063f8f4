(** Which branch of [parse_castep_file] a line is given to. *)
From Verif Require Import PyBase PyFacts Regex RegexFacts RegexComplete Stream StreamFacts NeedFacts PhraseFacts TextParsers TextParsersFacts SpecTable TextFiles FileParts.
From Verif Require Import CastepRes CastepBlocks CastepNum CastepRows CastepRest SpecCastepFile CastepFile CastepFileFacts.
Local Open Scope list_scope.
Local Open Scope nat_scope.

(** The conditions of the branches, in their order *)
Inductive trigger := TRe (r : re) | TMatch (r : re) | THas (s : str) | TStart (s : str).
Definition fires (t : trigger) : str -> bool :=
  match t with TRe r => re_test r | TMatch r => re_match_test r | THas s => contains s | TStart s => startswith s end.
Definition start_of (r : rule) : str -> bool := match r with RBlock s _ _ _ _ => s | RLine t _ => t end.
Definition t_table (c b : re) : trigger := TRe (table_re (Some c) b).
Definition t_titled (s : string) : trigger := t_table (RLit s) ws_star.
Definition t_magres (c : re) : trigger := t_table c (RChar "|").
Definition triggers : list trigger :=
  [ TRe (RSeqs [RBol; ws_star; RLit "Compiled for"]); THas ($"Run started"); THas ($"Initialisation time");
    TStart ($"Overall parallel efficiency rating"); TStart ($"Reading continuation data"); TRe (row_re "?"); TMatch WARNING_RE;
    t_table (RSeq (RLit "MEMORY AND SCRATCH") (RPlus (RChr (fun c => is_word c || is_space c)))) pluses;
    TMatch (table_re (Some (RLit "Title")) stars); t_table (RSeq (RPlus (c_notof "*")) (RLit " Parameters")) stars;
    THas ($"Quantisation axis"); TRe PS_SHELL_RE; THas ($"Mass of species in AMU"); THas ($"Electric Quadrupole Moment");
    THas ($"Files used for pseudopotentials"); t_table (RSeq (RLit "Pseudopotential Report") (RPlus (c_notof "|"))) (RChar "|");
    TMatch EIGENVALUE_RE; TRe (gen_table_re (Some (RLit "PairParams")) stars (RStar c_word) REps true); THas ($"DFT-D parameters");
    THas ($"SCF loop"); TRe (gen_table_re (Some (RLit "WAVEFUNCTION LINE MINIMISATION")) pluses REps line_tag true);
    TRe (gen_table_re (Some (RLit "Occupancy")) (RChar "|") REps (RLit "<- occ") false); TRe CUTOFF_RE;
    TStart ($"Final energy"); THas ($"Total energy corrected for finite basis set"); THas ($"0K energy (E-0.5TS)");
    TStart ($"(SEDC) Total Energy"); TStart ($"Dispersion corrected final energy"); TMatch FREE_ENERGY_RE;
    TStart ($" Free energy of solvation"); TMatch INTEGRATED_SPIN_DENSITY_RE;
    t_titled "Unit Cell"; t_titled "Symmetry and Constraints"; t_table (RAlt (RLit "Reactant") (RLit "Product")) (RChar "x");
    TRe (RSeqs [RLit "Fractional coordinates of atoms"; ws_plus; RLit "User-defined"]);
    TRe (RSeqs [RLit "Mixture"; ws_plus; RLit "Fractional coordinates of atoms"]); THas ($"Fractional coordinates of atoms");
    THas ($"Supercell generated"); THas ($"User Supplied Ionic Velocities"); THas ($"Initial magnetic"); THas ($"External pressure/stress");
    TRe DEDLNE_RE; THas ($"k-Points For BZ Sampling");
    t_table (RSeqs [RLit "Number"; RPlus (RChar " "); RLit "Fractional coordinates"; RPlus (RChar " "); RLit "Weight"]) (RChar "+");
    THas ($"Applied Electric Field"); TRe FORCES_BLOCK_RE; THas ($"firstd_calculate: removing force on centre of mass"); TRe STRESSES_BLOCK_RE;
    THas ($"Vibrational Frequencies"); THas ($"Phonon Symmetry Analysis"); t_titled "Dynamical matrix";
    t_table (RSeq (RLit "Raman Susceptibility Tensors") (RStar (c_notof "+"))) (RChar "+"); t_table (RLit "AUTOSOLVATION CALCULATION RESULTS") stars;
    TRe (RSeqs [RBol; ws_plus; RLit "Optical Permittivity"]); TRe (RSeqs [RBol; ws_plus; RLit "Polarisabilit"; RAlt (RLit "y") (RLit "ies")]);
    TRe (RSeqs [RBol; ws_plus; RLit "Nonlinear Optical Susceptibility"]); t_titled "Atomic Displacement Parameters (A**2)";
    t_titled "Thermodynamics"; t_titled "Atomic Populations (Mulliken)"; t_titled "Born Effective Charges"; t_titled "Orbital Populations";
    TRe (RSeqs [RLit "Bond"; ws_plus; RLit "Population"; ROpt (RSeq ws_plus (RLit "Spin")); ws_plus; RLit "Length"]);
    t_titled "Hirshfeld Analysis"; t_titled "ELF grid sample";
    THas ($"Starting MD iteration"); THas ($"Starting MD"); t_table (RLit "MD Data:") (RChar "x"); THas ($"Final Configuration");
    TRe minim_iteration; TRe ENTHALPY_RE; TRe TRIAL_RE; TMatch FINAL_LINE_RE; TRe minim_tag; THas ($"INTERNAL CONSTRAINTS");
    THas ($"Message: Generating deloc"); THas ($"The size of active space");
    TRe (gen_table_re (Some (RLit "TDDFT excitation energies")) (RChar "+") REps tddft_tag true);
    t_table (RSeq (RAlt (RLit "B A N D") (RLit "Band Structure Calculation")) (RPlus (c_notof "+"))) (RChar "+");
    t_table (RLit "D I P O L E   O F   M O L E C U L E   I N   S U P E R C E L L") (RChar "+");
    t_magres (RLit "Chemical Shielding Tensor"); t_magres (RLit "Chemical Shielding and Electric Field Gradient Tensors");
    t_magres (RLit "Electric Field Gradient Tensor"); t_magres (RSeq (RAlt (RLit "I") (RLit "Ani")) (RLit "sotropic J-coupling"));
    t_magres (RLit "Hyperfine Tensor"); t_titled "Elastic Constants Tensor (GPa)"; t_titled "Compliance Matrix (GPa^-1)";
    THas ($"Contribution ::"); t_titled "Elastic Properties"; TRe (RSeqs [RBol; ws_star; RLit "Ionic contribution to polarisation"]);
    TRe (RSeqs [RBol; ws_star; RLit "Polarisation"]); THas ($"Calculating MODOS weights"); TRe (extra_re "<BEGIN ") ].

Lemma rules_triggers iter rec F : map start_of (all_rules iter rec F) = map fires triggers.
Proof. reflexivity. Qed.

(** Every match of a trigger mentions one of these phrases. *)
Definition exact_of (ps : list (bool * string)) : list str := map (fun p => $(snd p)) (filter (fun p => negb (fst p)) ps).
Definition any_case_of (ps : list (bool * string)) : list str := map (fun p => $(snd p)) (filter (fun p => fst p) ps).
Definition covered (ps : list (bool * string)) (t : trigger) : bool :=
  match t with
  | TRe r | TMatch r => must (fun c => c) (exact_of ps) r || must lower_c (any_case_of ps) r
  | THas s | TStart s => existsb (fun w => contains w s) (exact_of ps)
  end.
Lemma one_in_exact ps l : one_in (fun c => c) (exact_of ps) l -> Exists (fun p => holds p l) ps.
Proof.
  intros (w & I & H). unfold exact_of in I. apply in_map_iff in I as ([b s] & <- & I). apply filter_In in I as (I & B).
  apply Exists_exists. exists (b, s). split; [exact I|]. destruct b; [discriminate|]. unfold holds. cbn [fst snd].
  rewrite map_id in H. now apply mentions_iff.
Qed.
Lemma one_in_any ps l : one_in lower_c (any_case_of ps) l -> Exists (fun p => holds p l) ps.
Proof.
  intros (w & I & H). unfold any_case_of in I. apply in_map_iff in I as ([b s] & <- & I). apply filter_In in I as (I & B).
  apply Exists_exists. exists (b, s). split; [exact I|]. cbn [fst] in B. subst b. unfold holds. cbn [fst snd]. now apply mentions_iff.
Qed.
Lemma covered_fires ps t l : covered ps t = true -> fires t l = true -> Exists (fun p => holds p l) ps.
Proof.
  intros C H. destruct t as [r|r|s|s]; cbn [covered fires] in C, H.
  - apply orb_true_iff in C as [C|C].
    + apply one_in_exact. exact (must_search _ _ _ _ C H).
    + apply one_in_any. exact (must_search _ _ _ _ C H).
  - apply orb_true_iff in C as [C|C].
    + apply one_in_exact. exact (must_match _ _ _ _ C H).
    + apply one_in_any. exact (must_match _ _ _ _ C H).
  - apply one_in_exact. apply existsb_exists in C as (w & I & C). exists w. split; [exact I|]. rewrite map_id.
    apply contains_iff in C as (a & b & ->). apply contains_iff in H as (c & d & ->). apply contains_iff. exists (c ++ a), (b ++ d).
    now rewrite <- !app_assoc.
  - apply one_in_exact. apply existsb_exists in C as (w & I & C). exists w. split; [exact I|]. rewrite map_id.
    apply contains_iff in C as (a & b & ->). apply startswith_iff in H as (d & ->). apply contains_iff. exists a, (b ++ d).
    now rewrite <- !app_assoc.
Qed.

(** Branches that are not taken *)
Lemma try_skip k : forall rs l rest st,
  Forall (fun s => s l = false) (firstn k (map start_of rs)) -> try_rules rs l rest st = try_rules (skipn k rs) l rest st.
Proof.
  induction k as [|k IH]; intros rs l rest st H; [reflexivity|]. destruct rs as [|[s e n eof act|t act] rs]; [reflexivity| |];
    cbn [map firstn] in H; inversion_clear H as [|? ? H1 H2]; cbn [start_of] in H1; cbn [try_rules skipn].
  - unfold if_block, l_from_re. rewrite H1. now apply IH.
  - rewrite H1. now apply IH.
Qed.
Lemma silent_before iter rec F ps k l rest st :
  forallb (covered ps) (firstn k triggers) = true -> Forall (fun p => ~ holds p l) ps ->
  castep_step iter rec F st l rest = try_rules (skipn k (all_rules iter rec F)) l rest st.
Proof.
  intros C Q. unfold castep_step. apply try_skip. rewrite rules_triggers, firstn_map. apply Forall_map, Forall_forall.
  intros t I. rewrite forallb_forall in C. destruct (fires t l) eqn:E; [|reflexivity]. exfalso.
  apply (covered_fires ps) in E; [|now apply C]. apply Exists_exists in E as (p & Ip & Hp).
  rewrite Forall_forall in Q. now apply (Q p).
Qed.
Lemma phrases_cover : forallb (covered phrases) (firstn (length triggers) triggers) = true.
Proof. vm_compute. reflexivity. Qed.
Theorem quiet_line iter rec F st l rest : quiet l -> castep_step iter rec F st l rest = Ok (st, rest).
Proof. intros Q. rewrite (silent_before iter rec F phrases (length triggers) l rest st phrases_cover Q). reflexivity. Qed.

(** ** Quiet lines before the rest of a file *)
Lemma quiet_first iter F qs ls : Forall quiet qs -> parse_castep_file iter F (qs ++ ls) = parse_castep_file iter F ls.
Proof.
  intros H. enough (E : parse_castep iter (length (qs ++ ls)) F (qs ++ ls) = parse_castep iter (length ls) F ls) by (unfold parse_castep_file; now rewrite E).
  induction H as [|q qs Hq H IH]; [reflexivity|]. rewrite <- IH. cbn [app]. set (rest := qs ++ ls).
  rewrite (parse_depths iter (length rest) (S (length rest)) F rest) by lia.
  change (length (q :: rest)) with (S (length rest)). cbn [parse_castep]. unfold over_file. cbn [length file_loop]. now rewrite quiet_line.
Qed.
