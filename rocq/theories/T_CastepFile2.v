(** Property theorem C81: whole .castep files. *)
From Verif Require Import PyBase PyFacts PyVal Regex NumSpec SpecLine SpecTable SpecStr SpecBands SpecDict SpecMd
  BandsFacts TextParsersFacts StrUtilFacts NumProps MdFacts CastepFile CastepBlocks CastepRes CastepFacts SpecCastep SpecCastep2 SpecCastep3 SpecCastepFile SpecCastepRun LangFacts
  CastepFileFacts CastepFilter QuietFacts CastepPieces CastepKinds CastepKinds2 CastepRuns CastepLess ExampleTools ExampleTools2.
From Verif Require Import T_Castep T_CastepFile.
Local Open Scope list_scope.
Local Open Scope nat_scope.

(** C81.  A file made of quiet lines and of the known blocks and lines, in any order and
    number, in any number of runs, gives the runs these describe. *)
Theorem C81_runs iter F ls rs : runs F ls rs -> parse_castep_file iter F ls = Ok (VList (map (VDict true) (file_read rs))).
Proof. exact (file_of_runs iter F ls rs). Qed.
Print Assumptions C81_runs.

(** Deciders for the Example *)
Lemma before_b w l : forallb (fun p => negb (holdsb p l)) (up_to w phrases) = true -> nothing_before w l.
Proof.
  intros H. apply Forall_forall. intros p I Q. rewrite forallb_forall in H. specialize (H p I). apply negb_true_iff in H.
  unfold holds in Q. apply mentions_iff in Q. unfold holdsb, mentionsb in H. congruence.
Qed.
Fixpoint delimb (e : str -> bool) (n : nat) (ls : list str) : bool :=
  match ls with
  | [] => false
  | l :: ls' => if e l then match n, ls' with 1, [] => true | S (S _ as n'), _ => delimb e n' ls' | _, _ => false end else delimb e n ls'
  end.
Lemma delim_b (close : str -> Prop) e : (forall x, close x <-> e x = true) -> forall ls n, delimb e n ls = true -> delimited close n ls.
Proof.
  intros H ls. induction ls as [|l ls IH]; intros n D; [discriminate|]. cbn in D. destruct (e l) eqn:E.
  - apply H in E. destruct n as [|[|n]]; [discriminate| |].
    + destruct ls; [now apply dl_end|discriminate].
    + apply dl_close; [exact E|now apply IH].
  - apply dl_in; [rewrite H; congruence|now apply IH].
Qed.
Lemma blank_lines ls n : delimb empty n ls = true -> delimited blanks n ls.
Proof. apply delim_b, blanks_empty. Qed.
Lemma starred_lines ls n : delimb (re_test (RSeqs [RBol; ws_star; CastepBlocks.stars; REol])) n ls = true -> delimited stars_rule n ls.
Proof. apply delim_b, stars_iff. Qed.
Lemma begins_b w l : startswith ($w) l = true -> begins w l.
Proof. intros H. now apply begins_iff. Qed.

Definition c_unit : list str := lns ["                           Unit Cell"; " any text: it is not asked for"; ""; "  "; ""]%string.
Definition c_force : list str := lns [" ******* Constrained Symmetrised Forces *******"; " *  Element  Atom   Cartesian components (eV/A)  *"; " *  Si  1   0.5 -0.25  0.125  *"; " *****"]%string.
Definition c_build : list str := lns [" Compiled for linux_x86_64_gfortran10  on 14-11-2023"; " Code version: 20.1"; ""]%string.
Definition c_energy (s : string) : str := ln ("Final energy, E             =  " ++ s ++ "     eV").
Definition c_first : list str := lns ["  | CASTEP |"]%string ++ c_build ++ lns [" Using some text"]%string ++ c_unit ++ [c_energy "-855.4591"] ++ c_force ++ [c_energy "-855.5"].
Definition c_second : list str := c_build ++ [c_energy "-1.5"].
Definition asked_for : list filt := [F_SYS_INFO; F_FORCE].
Definition build_effect : effect := Sets "build_info" (VDict false
  [(name "summary", VStr ($"Compiled for linux_x86_64_gfortran10 on 14-11-2023 Code version: 20.1"))]).
Definition energy_effect (s : string) : effect := Files "energies" ($"final_energy") (SpecCastep.float_of (rd s)).
Definition force_effect : effect := Files "forces" ($"constrained_symmetrised")
  (VDict false [(atom_key si, SpecCastep.vector [rd "0.5"; rd "-0.25"; rd "0.125"])]).
Lemma ex_energy s ls es : nothing_before "Final energy" (c_energy s) -> nlb (c_energy s) = true -> map snd (nl_parts (c_energy s)) = [rd s] -> fitsb (rd s) = true ->
  pieces asked_for ls es -> pieces asked_for (c_energy s :: ls) (energy_effect s :: es).
Proof.
  intros N L E Fi P. refine (pc_line asked_for (nth 3 line_kinds (SpecCastepRun.energy "" "" true)) _ _ _ _ _ N _ _ _ P).
  - right. right. right. now left.
  - apply begins_b. vm_compute. reflexivity.
  - intros x [].
  - exists [], (rd s). split; [now apply nl_of|]. split; [now apply fits_of|reflexivity].
Qed.
Lemma ex_build : builds asked_for c_build [build_effect].
Proof.
  apply (bd_on asked_for (ln " Compiled for linux_x86_64_gfortran10  on 14-11-2023") (ln " Code version: 20.1") (lns [""]%string)
    ($"Compiled for linux_x86_64_gfortran10 on 14-11-2023") ($"Code version: 20.1") []).
  - now left.
  - exists ($" "), ($" linux_x86_64_gfortran10  on 14-11-2023" ++ [newline]). split; [now apply blanks_of|reflexivity].
  - apply blank_lines. vmr.
  - apply words_named; vmr.
  - apply words_named; vmr.
  - apply laid_other; [apply not_in_of; vmr|constructor].
  - exact (mg_new [] [] _ _ mg_nil (fun H => H)).
Qed.
Lemma ex_force ls es : pieces asked_for ls es -> pieces asked_for (c_force ++ ls) (force_effect :: es).
Proof.
  refine (pc_block asked_for (nth 5 kinds (magres_kind "" "" 0)) (ln " ******* Constrained Symmetrised Forces *******")
    (lns [" *  Element  Atom   Cartesian components (eV/A)  *"; " *  Si  1   0.5 -0.25  0.125  *"; " *****"]%string) [force_effect] ls es _ _ _ _ _ _).
  - do 5 right. now left.
  - apply before_b. vmr.
  - exists ($"constrained_symmetrised"). apply (title_of "forces" ($" ") ($"*******") ($" ") ($"Constrained Symmetrised ") ($"Forces") ($" ") ($"*******") [newline]); try vmr. discriminate.
  - apply starred_lines. vmr.
  - right. now left.
  - eexists _, _, ($"constrained_symmetrised"), [(si, [rd "0.5"; rd "-0.25"; rd "0.125"])], _. split; [reflexivity|]. split.
    { apply (title_of "forces" ($" ") ($"*******") ($" ") ($"Constrained Symmetrised ") ($"Forces") ($" ") ($"*******") [newline]); try vmr. discriminate. }
    split; [|split; [eexists; split; [exact (mg_new [] [] _ _ mg_nil (fun H => H))|reflexivity]|reflexivity]].
    apply laid_other; [left; apply free_of_b; vmr|]. apply laid_row; [|apply laid_other; [left; apply free_of_b; vmr|constructor]].
    apply (fr ($" *  ") ($"Si  1") si ($"   0.5 -0.25  0.125") _ (ln "  *")).
    apply no_caps_of; vmr. apply edge_of; vmr. exact ex_si. 2: reflexivity. 2: now apply end_of. 3: apply all_fit_of; vmr.
    + apply (rm_cons ($"   ") (rd "0.5") [] _ ($" -0.25  0.125")). apply blanks_of; vmr. discriminate. apply ok_of; vmr. now left.
      apply (rm_cons ($" ") (rd "-0.25") [] _ ($"  0.125")). apply blanks_of; vmr. discriminate. apply ok_of; vmr. now left.
      apply (rm_cons ($"  ") (rd "0.125") [] _ []). apply blanks_of; vmr. discriminate. apply ok_of; vmr. now left. constructor.
    + intros g t E K. assert (In "("%char (ln "  *")) as H by (rewrite E; apply in_or_app; right; now left).
      repeat (destruct H as [H|H]; [discriminate|]). exact H.
Qed.
Example C81_runs_ex : runs asked_for (c_first ++ c_second)
  [[]; [build_effect; energy_effect "-855.4591"; force_effect; energy_effect "-855.5"]; [build_effect; energy_effect "-1.5"]].
Proof.
  apply (rn_next asked_for (lns ["  | CASTEP |"]%string) [] c_build [build_effect] _ [energy_effect "-855.4591"; force_effect; energy_effect "-855.5"]).
  - apply pc_quiet; [apply quiet_b; vmr|constructor].
  - exact ex_build.
  - apply (rn_next asked_for (lns [" Using some text"]%string ++ c_unit ++ [c_energy "-855.4591"] ++ c_force ++ [c_energy "-855.5"])
      [energy_effect "-855.4591"; force_effect; energy_effect "-855.5"] c_build [build_effect] [c_energy "-1.5"] [energy_effect "-1.5"]).
    + apply pc_quiet; [apply quiet_b; vmr|].
      refine (pc_block_off asked_for (nth 0 kinds (magres_kind "" "" 0)) (ln "                           Unit Cell") (lns [" any text: it is not asked for"; ""; "  "; ""]%string) _ _ _ _ _ _ _ _).
      * now left.
      * apply before_b. vmr.
      * apply heading_iff. vmr.
      * apply blank_lines. vmr.
      * intros [H|[H|[]]]; discriminate.
      * apply ex_energy; [apply before_b|..]; try vmr. apply ex_force. apply ex_energy; [apply before_b|..]; try vmr. constructor.
    + exact ex_build.
    + apply rn_last. apply ex_energy; [apply before_b|..]; try vmr. constructor.
Qed.
(** ... which is read as two runs: the energies of the last are tuples, those of the first still lists. *)
Example C81_read_ex : file_read [[]; [build_effect; energy_effect "-855.4591"; force_effect; energy_effect "-855.5"]; [build_effect; energy_effect "-1.5"]] =
  [[(name "build_info", VDict false [(name "summary", VStr ($"Compiled for linux_x86_64_gfortran10 on 14-11-2023 Code version: 20.1"))]);
    (name "energies", VDict true [(name "final_energy", VList [SpecCastep.float_of (rd "-855.4591"); SpecCastep.float_of (rd "-855.5")])]);
    (name "forces", VDict true [(name "constrained_symmetrised", VList [VDict false [(atom_key si, SpecCastep.vector [rd "0.5"; rd "-0.25"; rd "0.125"])]])])];
   [(name "build_info", VDict false [(name "summary", VStr ($"Compiled for linux_x86_64_gfortran10 on 14-11-2023 Code version: 20.1"))]);
    (name "energies", VDict false [(name "final_energy", VTuple [SpecCastep.float_of (rd "-1.5")])])]].
Proof. vmr. Qed.

(** Blocks that make several entries, and blocks that add to an entry made before *)
Lemma equals_lines ls n : delimb eq_line n ls = true -> delimited equals_rule n ls.
Proof. apply delim_b, equals_iff. Qed.
Lemma ruled_lines c ls n : delimb (re_test (CastepRest.row_re c)) n ls = true -> delimited (ruled c) n ls.
Proof. apply delim_b, ruled_iff. Qed.
Lemma any_lines ls n : delimb (fun _ => true) n ls = true -> delimited (fun _ => True) n ls.
Proof. apply delim_b, always_iff. Qed.
Fixpoint on_lines (ls : list str) (nss : list (list num)) : Prop :=
  match ls, nss with
  | [], [] => True
  | l :: ls', ns :: nss' => nlb l = true /\ map snd (nl_parts l) = ns /\ on_lines ls' nss'
  | _, _ => False
  end.
Lemma on_lines_of ls : forall nss, on_lines ls nss -> Forall2 numbers_on ls nss.
Proof.
  induction ls as [|l ls IH]; intros [|ns nss] H; try contradiction; [constructor|]. destruct H as (H1 & H2 & H3). constructor; [now apply nl_of|now apply IH].
Qed.
Lemma fit_lines nss : forallb (forallb fitsb) nss = true -> Forall all_fit nss.
Proof. intros H. apply Forall_forall. intros ns I. rewrite forallb_forall in H. now apply all_fit_of, H. Qed.
Definition nums (l : list string) : list num := map rd l.
Definition c_pressure : list str := lns [" External pressure/stress (GPa)"; "   1.5  0.0  0.0"; "        1.5  0.0"; "             2.5"]%string.
Definition c_permittivity : list str := lns ["     Optical Permittivity        DC Permittivity"; "  2.5 0.0 0.0  4.5 0.0 0.0"; "  0.0 2.5 0.0  0.0 4.5 0.0"; " ====="]%string.
Definition c_elastic (t a : string) : list str := lns ["       " ++ t; "  " ++ a ++ " 1.0 2.0 3.0 4.0 5.0"; " ===="]%string.
Definition permitted : list filt := [F_PARAMETERS; F_OPTICS; F_ELASTIC].
Definition six (a : string) : list num := nums [a; "1.0"; "2.0"; "3.0"; "4.0"; "5.0"]%string.
Definition more_effects : list effect :=
  [Appends "target_stress" (VList (map SpecCastep.float_of (nums ["1.5"; "0.0"; "0.0"; "1.5"; "0.0"; "2.5"]%string)));
   Enters "elastic" (name "elastic_constants") (matrix [six "9.5"]);
   Sets "optical_permittivity" (matrix [nums ["2.5"; "0.0"; "0.0"]; nums ["0.0"; "2.5"; "0.0"]]%string);
   Sets "dc_permittivity" (matrix [nums ["4.5"; "0.0"; "0.0"]; nums ["0.0"; "4.5"; "0.0"]]%string);
   Enters "elastic" (name "elastic_constants") (matrix [six "8.5"])].
Lemma ex_elastic a ls es : on_lines (c_elastic "Elastic Constants Tensor (GPa)" a) [[]; six a; []] -> forallb fitsb (six a) = true ->
  delimb (re_test (CastepRest.row_re "=")) 1 (List.tl (c_elastic "Elastic Constants Tensor (GPa)" a)) = true ->
  pieces permitted ls es -> pieces permitted (c_elastic "Elastic Constants Tensor (GPa)" a ++ ls) (Enters "elastic" (name "elastic_constants") (matrix [six a]) :: es).
Proof.
  intros Hl Hf Hd H. refine (pc_block permitted (nth 48 kinds (magres_kind "" "" 0)) _ (List.tl (c_elastic "Elastic Constants Tensor (GPa)" a)) [_] ls es _ _ _ _ _ _ H).
  - apply nth_In. vm_compute. repeat constructor.
  - apply before_b. vmr.
  - apply heading_iff. vmr.
  - now apply ruled_lines.
  - do 2 right. now left.
  - exists [(name "elastic_constants", matrix [six a])]. split; [|split; [discriminate|reflexivity]]. exists (matrix [six a]). split; [|reflexivity]. exists [[]; six a; []]. split; [now apply on_lines_of|].
    split; [|reflexivity]. constructor; [now apply all_fit_of|constructor].
Qed.
Example C81_more_ex : pieces permitted (c_pressure ++ c_elastic "Elastic Constants Tensor (GPa)" "9.5" ++ c_permittivity ++ c_elastic "Elastic Constants Tensor (GPa)" "8.5") more_effects.
Proof.
  refine (pc_block permitted (nth 30 kinds (magres_kind "" "" 0)) (ln " External pressure/stress (GPa)") (List.tl c_pressure) [_] _ _ _ _ _ _ _ _ _).
  - apply nth_In. vm_compute. repeat constructor.
  - apply before_b. vmr.
  - apply mentions_has_iff. vmr.
  - apply any_lines. vmr.
  - now left.
  - eexists. split; [|reflexivity]. exists [[]; nums ["1.5"; "0.0"; "0.0"]; nums ["1.5"; "0.0"]; nums ["2.5"]]%string. split; [apply on_lines_of; repeat split|].
    split; [apply fit_lines; vmr|vmr].
  - apply ex_elastic; [repeat split|vmr..|].
    refine (pc_block permitted (nth 35 kinds (magres_kind "" "" 0)) (ln "     Optical Permittivity        DC Permittivity") (List.tl c_permittivity) [_; _] _ _ _ _ _ _ _ _ _).
    + apply nth_In. vm_compute. repeat constructor.
    + apply before_b. vmr.
    + exists ($"     "), ($"        DC Permittivity" ++ [newline]). split; [split; [now apply blanks_of|discriminate]|reflexivity].
    + apply equals_lines. vmr.
    + right. now left.
    + exists [[]; nums ["2.5"; "0.0"; "0.0"; "4.5"; "0.0"; "0.0"]; nums ["0.0"; "2.5"; "0.0"; "0.0"; "4.5"; "0.0"]; []]%string. eexists _, _.
      split; [apply on_lines_of; repeat split|]. split; [apply fit_lines; vmr|]. split; vmr.
    + change (c_elastic "Elastic Constants Tensor (GPa)" "8.5") with (c_elastic "Elastic Constants Tensor (GPa)" "8.5" ++ []). apply ex_elastic; [repeat split|vmr..|constructor].
Qed.
Example C81_more_read_ex : file_read [more_effects] =
  [[(name "target_stress", VList [VList (map SpecCastep.float_of (nums ["1.5"; "0.0"; "0.0"; "1.5"; "0.0"; "2.5"]%string))]);
    (name "elastic", VDict false [(name "elastic_constants", matrix [six "8.5"])]);
    (name "optical_permittivity", matrix [nums ["2.5"; "0.0"; "0.0"]; nums ["0.0"; "2.5"; "0.0"]]%string);
    (name "dc_permittivity", matrix [nums ["4.5"; "0.0"; "0.0"]; nums ["0.0"; "4.5"; "0.0"]]%string)]].
Proof. vmr. Qed.

(** C82.  Asking for less of such a file leaves out what is not asked for and nothing else. *)
Theorem C82_asking_for_less iter F F' ls rs : incl F F' -> runs F' ls rs ->
  exists rs', parse_castep_file iter F ls = Ok (VList (map (VDict true) (file_read rs'))) /\ Forall2 (left_out F) rs rs'.
Proof. exact (less_read iter F F' ls rs). Qed.
Print Assumptions C82_asking_for_less.
(** The entries of a run: those asked for, unchanged (the energies apart: one of them can be left out). *)
Theorem C82_entries F is_last es es' k v : left_out F es es' -> k <> name "energies" ->
  In (k, v) (run_of is_last es') <-> In (k, v) (run_of is_last es) /\ asked F k.
Proof. exact (left_entries F is_last es es' k v). Qed.
Print Assumptions C82_entries.
Example C82_ex : incl [F_FORCE] asked_for /\ left_out [F_FORCE] [build_effect; energy_effect "-1.5"; force_effect] [energy_effect "-1.5"; force_effect].
Proof.
  split; [intros x [<-|[]]; right; now left|]. assert (A : effect_asked [F_FORCE] (energy_effect "-1.5")) by (apply keep_asked; vmr).
  assert (B : effect_asked [F_FORCE] force_effect) by (apply keep_asked; vmr).
  apply lo_drop; [|apply lo_keep; [exact A|apply lo_keep; [exact B|apply lo_nil]]]. intros H. apply keep_asked in H. vm_compute in H. discriminate.
Qed.
(** Not so for all files.  A warning of one line takes the line after it along, so the energy
    there is only found when warnings are not asked for. *)
Definition warned_file : list str := lns ["Warning: something is odd"; "Final energy, E             =  -855.5     eV"; "Final energy, E             =  -855.25     eV"]%string.
Definition energies_found (l : list string) : pyval := VDict false [(name "final_energy", VTuple (map (fun s => SpecCastep.float_of (rd s)) l))].
Theorem C82_less_is_part_refuted : exists F F' ls r r', incl F F' /\
  parse_castep_file (fun l => l) F ls = Ok (VList [VDict true r]) /\ parse_castep_file (fun l => l) F' ls = Ok (VList [VDict true r']) /\
  In (name "energies", energies_found ["-855.5"; "-855.25"]%string) r /\ In (name "energies", energies_found ["-855.25"]%string) r'.
Proof.
  exists LOW, FULL, warned_file. eexists _, _. split; [apply incl_appl, incl_appl, incl_appl, incl_refl|]. split; [vm_compute; reflexivity|]. split; [vm_compute; reflexivity|].
  split; [left; vm_compute; reflexivity|right; left; vm_compute; reflexivity].
Qed.
Print Assumptions C82_less_is_part_refuted.
(** With the smaller of the predefined sets of filters an optimisation of the geometry cannot be
    read at all when it comes to its final configuration. *)
Definition optimised_file : list str :=
  lns [" Starting LBFGS iteration          1 ..."; "Final energy, E             =  -855.5     eV"; "===="; "  Finished LBFGS"; " Final Configuration:"; " LBFGS: Final Enthalpy     = -1.5 eV"]%string.
Theorem C82_less_is_read_refuted : exists ls v, incl LOW FULL /\ parse_castep_file (fun l => l) FULL ls = Ok v /\ parse_castep_file (fun l => l) LOW ls = Err TypeError.
Proof.
  exists optimised_file. eexists. split; [apply incl_appl, incl_appl, incl_appl, incl_refl|]. split; vm_compute; reflexivity.
Qed.
Print Assumptions C82_less_is_read_refuted.
(** C83.  What is found in a run depends on whether another run follows. *)
Theorem C83_same_but_energies es k v : k <> name "energies" -> In (k, v) (run_of true es) <-> In (k, v) (run_of false es).
Proof. exact (last_entries es k v). Qed.
Print Assumptions C83_same_but_energies.
Example C83_same_but_energies_ex : In (name "forces", VDict true [(name "constrained_symmetrised", VList [value force_effect])]) (run_of true [build_effect; force_effect]).
Proof. right. left. vmr. Qed.
Theorem C83_run_alone_refuted : exists a b r r' rs, parse_castep_file (fun l => l) FULL a = Ok (VList [r]) /\
  parse_castep_file (fun l => l) FULL (a ++ b) = Ok (VList (r' :: rs)) /\ r <> r'.
Proof.
  exists c_second, c_second. eexists _, _, _. split; [vm_compute; reflexivity|]. split; [vm_compute; reflexivity|]. discriminate.
Qed.
Print Assumptions C83_run_alone_refuted.
