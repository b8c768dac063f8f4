(** Examples for property C81: pair potentials and polarisation reports in whole .castep files. *)
From Coq Require Import QArith.
From Verif Require Import PyBase PyFacts PyVal Regex CastepRes NumSpec SpecLine SpecTable SpecStr SpecBands SpecDict SpecMd SpecCastep SpecCastepRun SpecTree SpecPairs SpecBerry
  StrUtil TextParsersFacts NumProps MdFacts CastepRest BerryFacts ExampleTools ExampleTools2.
From Verif Require Import CastepFile SpecCastepFile CastepPieces CastepKinds CastepRuns.
From Verif Require Import BandsFacts T_Castep T_Castep3 T_CastepFile2 T_Castep7 T_Castep9.
Local Open Scope list_scope.
Local Open Scope nat_scope.

Definition reports : list filt := [F_PARAMETERS; F_POLARISATION].
Definition c_pairs : list str := ex_pairs ++ [ln ""].
Definition c_polar : list str := usual ++ [rule; rule; rule].
Definition reports_effects : list effect :=
  [Appends "pair_params" (VDict false (tree 2 ex_pairs_say))] ++ map (fun e => Enters "berry_phase" (fst e) (snd e)) (tree 2 usual_said).
(** The blocks as CASTEP writes them, taken to their ends *)
Example C81_reports_ex : pieces reports (c_pairs ++ c_polar) reports_effects.
Proof.
  refine (pc_block reports (nth 52 kinds (magres_kind "" "" 0)) (ln "   ************************     PairParams     ************************") (List.tl c_pairs) [_] _ _ _ _ _ _ _ _ _).
  - apply nth_In. vm_compute. repeat constructor.
  - apply before_b. vmr.
  - exists ($"   "), [], [], ($"************************"), ($"     "), ($"************************"), [newline]. split; [now apply blanks_of|]. split; [intros c []|]. split; [now apply blanks_of|].
    split; [now exists 23|]. split; [now apply blanks_of|]. split; [now exists 23|]. split; [now apply blanks_of|].
    exists ($"     "). split; [now apply blanks_of|reflexivity].
  - apply blank_lines. vmr.
  - now left.
  - exists (VDict false (tree 2 ex_pairs_say)). split; [|reflexivity]. exists (ex_pairs_say ++ []). rewrite app_nil_r. split; [|split; [apply orderly_b; vmr|reflexivity]].
    rewrite <- (app_nil_r ex_pairs_say). apply (ex_pairs_then [ln ""] []). intros ks. apply pp_other; [ppiece..|constructor].
  - rewrite <- (app_nil_r c_polar), <- (app_nil_r (map _ (tree 2 usual_said))).
    refine (pc_block reports (nth 54 kinds (magres_kind "" "" 0)) (List.hd [] c_polar) (List.tl c_polar) _ _ [] _ _ _ _ _ _ _).
    + apply nth_In. vm_compute. repeat constructor.
    + apply before_b. vmr.
    + exists ($" "), (ln " (C/m^2) in Recip Lattice Basis defined on range [-Quantum/2:Quantum/2]"). split; [now apply blanks_of|reflexivity].
    + apply equals_lines. vmr.
    + right. now left.
    + exists (tree 2 usual_said). split; [|split; [discriminate|reflexivity]]. exists (usual_said ++ []). split; [|now rewrite app_nil_r].
      apply (ex_usual_then [rule; rule; rule] []). do 3 refine (other_b rule eq_refl eq_refl eq_refl _ _ _). constructor.
    + constructor.
Qed.

(** Lines about the start of the run, the pseudopotentials, the supercell and the basis, and
    the force that is taken off the centre of mass *)
Definition all_asked : list filt := [F_SYS_INFO; F_FORCE; F_PSPOT].
Definition c_started : str := ln "Run started: Mon, 14 Nov 2023 10:05:42 +0000".
Definition c_eigen : str := ln " AE eigenvalue nl 10 = -18.40702924".
Definition c_supercell : str := ln "    Supercell generated using matrix  [1,1,-1; 1,-1,1; -1,1,1]".
Definition c_slope : str := ln " For future reference: finite basis dEtot/dlog(Ecut) =      -0.749584eV".
Definition c_com : list str := lns ["firstd_calculate: removing force on centre of mass"; " dFx:  -1.0633987424376136E-008 eV/A"; " dFy:  2.5E-009 eV/A"; " dFz:  0.125 eV/A"; ""]%string.
Definition lines_effects : list effect :=
  [Sets "time_started" (VStr ($"Mon, 14 Nov 2023 10:05:42 +0000"));
   Appends "pspot_debug" (VDict false [(name "type", VStr ($"AE")); (name "nl", VInt 10); (name "eigenvalue", SpecCastep.float_of (rd "-18.40702924"))]);
   Sets "supercell" (VTuple [vector (nums ["1"; "1"; "-1"]); vector (nums ["1"; "-1"; "1"]); vector (nums ["-1"; "1"; "1"])]%string);
   Sets "dedlne" (SpecCastep.float_of (rd "-0.749584"));
   Files "forces" ($"com_force_removal") (vector (nums ["-1.0633987424376136E-008"; "2.5E-009"; "0.125"]%string))].
Lemma ex_eigen : eigen_line c_eigen "AE" [d1; d0] (rd "-18.40702924").
Proof.
  exists ($" "), ($" -18.40702924"), [newline]. split; [now left|]. split; [now apply blanks_of|]. split; [apply columns_of; vmr|].
  split; [apply end_of; vmr|]. split; [discriminate|vmr].
Qed.
Lemma ex_slope : slope_line c_slope (rd "-0.749584").
Proof.
  exists ($" For future reference: "), 5, (ln "eV"). split; [apply not_mentions_of; vmr|]. split; [apply ok_of; vmr|]. split; [discriminate|]. split; [vmr|].
  split; [apply not_first_b; vmr|vmr].
Qed.
Example C81_lines_ex : pieces all_asked ([c_started; c_eigen; c_supercell; c_slope] ++ c_com) lines_effects.
Proof.
  set (d := SpecCastepRun.energy "" "" true).
  refine (pc_line all_asked (nth 10 line_kinds d) c_started _ _ _ _ _ _ _ _ _); [apply nth_In; vm_compute; repeat constructor|apply before_b; vmr|apply mentions_of; vmr|intros x [<-|[]]; now left| |].
  { exists ($"Run started"), (ln " Mon, 14 Nov 2023 10:05:42 +0000"), ($"Mon, 14 Nov 2023 10:05:42 +0000"). split; [vmr|]. split; [apply not_in_of; vmr|]. split; [apply words_named; vmr|reflexivity]. }
  refine (pc_line all_asked (nth 11 line_kinds d) c_eigen _ _ _ _ _ _ _ _ _); [apply nth_In; vm_compute; repeat constructor|apply before_b; vmr|eexists _, _, _; exact ex_eigen|intros x [<-|[]]; right; right; now left| |].
  { eexists _, _, _. split; [exact ex_eigen|]. split; [apply fits_of; vmr|reflexivity]. }
  refine (pc_line all_asked (nth 12 line_kinds d) c_supercell _ _ _ _ _ _ _ _ _); [apply nth_In; vm_compute; repeat constructor|apply before_b; vmr|apply mentions_of; vmr|intros x []| |].
  { exists (nums ["1"; "1"; "-1"]%string), (nums ["1"; "-1"; "1"]%string), (nums ["-1"; "1"; "1"]%string), []. split; [apply nl_of; vmr|]. do 3 (split; [reflexivity|]). split; [apply all_fit_of; vmr|reflexivity]. }
  refine (pc_line all_asked (nth 13 line_kinds d) c_slope _ _ _ _ _ _ _ _ _); [apply nth_In; vm_compute; repeat constructor|apply before_b; vmr|eexists; exact ex_slope|intros x []| |].
  { eexists. split; [exact ex_slope|]. split; [apply fits_of; vmr|reflexivity]. }
  rewrite <- (app_nil_r c_com). refine (pc_block all_asked (nth 55 kinds (magres_kind "" "" 0)) (List.hd [] c_com) (List.tl c_com) [_] [] [] _ _ _ _ _ _ _).
  - apply nth_In. vm_compute. repeat constructor.
  - apply before_b. vmr.
  - apply mentions_of. vmr.
  - apply blank_lines. vmr.
  - right. now left.
  - exists (nums ["-1.0633987424376136E-008"; "2.5E-009"; "0.125"]%string). split; [|split; [apply all_fit_of; vmr|reflexivity]].
    assert (N : forall l, startswith ($" dF") l = false -> ~ begins " dF" l) by (intros l H B; apply begins_iff in B; congruence).
    apply laid_other; [apply N; vmr|].
    do 3 (apply laid_row; [split; [apply begins_b; vmr|exists []; apply nl_of; vmr]|]).
    apply laid_other; [apply N; vmr|constructor].
  - constructor.
Qed.
