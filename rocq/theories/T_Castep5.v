(** Property theorems C86: the blocks of .castep files with lines of several kinds. *)
From Coq Require Import QArith.
From Verif Require Import PyBase PyFacts PyVal Regex CastepRes NumSpec SpecLine SpecTable SpecStr SpecBands SpecDict SpecMd SpecCastep SpecCastep2 SpecCastep3 SpecCastep4 SpecCastep5
  StrUtil BandsFacts TextParsersFacts StrUtilFacts NumProps ColumnFacts MdFacts CastepBlocks CastepNum CastepRows CastepRest CastepFacts Castep2Facts Castep3Facts Castep6Facts
  ExampleTools ExampleTools2.
From Verif Require CellFacts SpecCell.
From Verif Require Import T_Castep T_Castep3.
Local Open Scope list_scope.
Local Open Scope nat_scope.

(** Deciders for the Examples. *)
Lemma species_word_b w : re_match_test SPEC_WORD_RE w = true -> species_word w.
Proof. apply species_word_iff. Qed.
Lemma not_species_word_b w : re_match_test SPEC_WORD_RE w = false -> ~ species_word w.
Proof. intros H C. apply species_word_iff in C. congruence. Qed.
Lemma colons_b l : (count_occ ascii_dec l ":"%char =? 1) = false -> ~ one_colon l.
Proof. intros H C. unfold one_colon in C. rewrite C in H. discriminate H. Qed.
Definition kind_b (i : nat) (l : str) : bool :=
  negb (startswith ($"Taking band from") l) && match nth_error delta_words i with Some w => contains ($w) l | None => true end &&
  forallb (fun w => negb (contains ($w) l)) (firstn i delta_words).
Lemma kind_of_b i l : kind_b i l = true -> delta_kind i l.
Proof.
  intros H. apply andb_true_iff in H as [H H3]. apply andb_true_iff in H as [H1 H2]. apply negb_true_iff in H1. split; [now apply not_begins_of|]. split.
  - intros w E. rewrite E in H2. now apply mentions_of.
  - intros j w Hj E. rewrite forallb_forall in H3. apply not_mentions_of, negb_true_iff, H3. clear -Hj E. revert i j Hj E. generalize delta_words as ws. induction ws as [|x ws IH]; intros [|i] [|j] Hj E; cbn in *; try lia; try discriminate; [injection E as ->; now left|].
    right. apply (IH i j); [lia|exact E].
Qed.
Lemma no_head_b l : startswith ($"*") (lstrip l) = false -> ~ head_line l.
Proof.
  intros H (a & s & t & u & -> & Ha & [S0 Hs] & _). apply blanks_iff in Ha. destruct s as [|y s]; [congruence|]. pose proof (Hs y (or_introl eq_refl)) as ->.
  unfold lstrip, lstrip_by in H. rewrite drop_while_app in H by (assumption || reflexivity). discriminate H.
Qed.
Lemma no_head_re l : re_match GROUP_HEAD_RE l = None -> ~ head_line l.
Proof.
  intros H (a & s & t & u & -> & Ha & Hs & Ht0 & Ht). rewrite <- (take_drop_while (Ascii.eqb "*") u) in H.
  destruct (head_match a s t ("*"%char :: take_while (Ascii.eqb "*") u) (drop_while (Ascii.eqb "*") u)) as (x & E & _); auto.
  - apply stars_of. split; [discriminate|]. exact (take_while_all (Ascii.eqb "*") u).
  - intros r E. pose proof (drop_while_hd (Ascii.eqb "*") u) as D. rewrite E in D. discriminate D.
  - cbn [app] in E. rewrite E in H. discriminate H.
Qed.
Lemma no_unit_b l : startswith ($"output ") (lstrip l) = false \/ contains ($" unit") l = false -> ~ unit_line l.
Proof.
  intros H (a & k & g & v & -> & Ha & _ & _). apply blanks_iff in Ha. destruct H as [H|H].
  - unfold lstrip, lstrip_by in H. rewrite drop_while_app in H by (assumption || reflexivity). discriminate H.
  - apply not_true_iff_false in H. apply H, (mentions_iff " unit"). exists (a ++ text_of "output " ++ k), (g ++ ":"%char :: v). now rewrite <- !app_assoc.
Qed.
Lemma starts_b w : re_match_test NUMBER_RE w = true -> starts_number w.
Proof. apply starts_test. Qed.
Lemma not_starts_b w : re_match_test NUMBER_RE w = false -> ~ starts_number w.
Proof. intros H C. apply starts_test in C. congruence. Qed.

(** C86.  Properties of species: the words of every line that begins with a species,
    whatever the lines. *)
Theorem C86_species_properties ls : laid species_row not_species ls (process_spec_prop ls) /\
  forall rows, laid species_row not_species ls rows -> process_spec_prop ls = rows.
Proof. exact (conj (spec_prop_all ls) (spec_prop_spec ls)). Qed.
Print Assumptions C86_species_properties.
Example C86_species_properties_ex : laid species_row not_species
  (lns ["                           Mass of species in AMU"; "                                    H    1.0079400"; "                                   Ti   47.8670000"; ""]%string)
  [[$"H"; $"1.0079400"]; [$"Ti"; $"47.8670000"]].
Proof.
  apply laid_other; [eapply ns_words; [apply cut_of; vmr|discriminate|apply not_species_word_b; vmr]|].
  do 2 (apply laid_row; [eapply sw_words; [apply cut_of; vmr|discriminate|apply species_word_b; vmr]|]).
  apply laid_other; [apply ns_blank; piece|constructor].
Qed.

(** Dispersion. *)
Theorem C86_dispersion ls rows : laid dispersion_row not_dispersion ls rows -> exists d, process_dftd ls = Ok d /\ dispersion_read rows d.
Proof. exact (dftd_spec ls rows). Qed.
Print Assumptions C86_dispersion.
Example C86_dispersion_ex : laid dispersion_row not_dispersion
  (lns ["                          Dispersion-correction scheme : G06"; "                        Parameter s6 :   0.750000 (default)";
        "        x  Species      C6            R0                                   x"; "        x  H             1.4510       1.0010   (default)                   x"]%string)
  [DKey ($"dispersion_correction_scheme") (VStr ($"G06")); DKey ($"parameter_s6") (SpecCastep.float_of (rd "0.750000")); DSpecies ($"H") (rd "1.4510") (rd "1.0010")].
Proof.
  apply laid_row. { row_as ($"                          Dispersion-correction scheme " ++ ":"%char :: ln " G06"). eapply dr_text; try solve [apply not_in_of; vmr|apply key_named; vmr|apply words_named; vmr|discriminate|apply not_mentions_of; vmr]. }
  apply laid_row. { row_as ($"                        Parameter s6 " ++ ":"%char :: ln "   0.750000 (default)"). eapply (dr_number _ _ _ ($"0.750000 (default)") (rd "0.750000") []);
    try solve [apply not_in_of; vmr|apply key_named; vmr|apply words_named; vmr|discriminate|apply mentions_of; vmr|apply nl_of; vmr|piece]. }
  apply laid_other. { split; [apply colons_b; vmr|apply no_cols_of; vmr]. }
  apply laid_row; [|constructor]. row_as ($"        " ++ "x"%char :: $"  " ++ $"H" ++ $"             1.4510       1.0010" ++ ln "   (default)                   x").
  apply dr_species; try solve [piece|apply colons_b; vmr|apply element_of; vmr].
Qed.
(** A species with a label has a colon of its own: its row is taken for a name and a
    value, so the species is missing and a stray entry is added. *)
Theorem C86_dispersion_label_refuted : exists l sp c6 r0, (exists a g t s, l = a ++ "x"%char :: g ++ sp ++ t ++ s /\ blanks a /\ gap g /\ columns [c6; r0] t /\ all_fit [c6; r0] /\ token_end s) /\
  sp = $"H:tag" /\ process_dftd [l] = Ok [(name "species", VDict false []); (name "x_h", VStr ($"tag 1.4510 1.0010 x"))].
Proof.
  exists (ln "  x  H:tag         1.4510       1.0010   x"), ($"H:tag"), (rd "1.4510"), (rd "1.0010"). split.
  - exists ($"  "), ($"  "), ($"         1.4510       1.0010"), (ln "   x"). split; [vmr|]. repeat (split; [piece|]). piece.
  - split; [reflexivity|vmr].
Qed.
Print Assumptions C86_dispersion_label_refuted.

(** Internal constraints. *)
Theorem C86_internal_constraints h1 h2 h3 ls vs : laid SpecCastep5.constraint_row blanks ls vs -> process_internal_constraints (h1 :: h2 :: h3 :: ls) = Ok vs.
Proof. exact (internal_spec h1 h2 h3 ls vs). Qed.
Print Assumptions C86_internal_constraints.
Lemma defined_1 ns t es : nlb ns = true -> ~ In ")"%char ns -> match map snd (nl_parts ns) with n :: more => is_int n /\ Forall is_int more | [] => False end -> defined t es ->
  defined (ns ++ ")"%char :: t) (match map snd (nl_parts ns) with n :: more => [(KInt (int_value n), VTuple (map (fun n => VInt (int_value n)) more))] | [] => [] end ++ es).
Proof.
  intros H Hn Hi Ht. destruct (map snd (nl_parts ns)) as [|n more] eqn:E; [contradiction|]. destruct Hi as [Hi Hm]. cbn [app]. apply df_cons; auto. rewrite <- E. now apply nl_of.
Qed.
Example C86_internal_constraints_ex : laid SpecCastep5.constraint_row blanks
  (lns ["  1 Bond       2.360 Satisfied   4 ( 0 0 0)  5 ( 0 0-1)"; "  3 Torsion    3.141 99.999   2 ( 1 0 0)"; ""]%string)
  [constraint_value "Bond" None (rd "2.360") [(KInt 4, VTuple [VInt 0; VInt 0; VInt 0]); (KInt 5, VTuple [VInt 0; VInt 0; VInt (-1)])];
   constraint_value "Torsion" (Some (rd "3.141")) (rd "99.999") [(KInt 2, VTuple [VInt 1; VInt 0; VInt 0])]].
Proof.
  apply laid_row.
  { eapply (cn_met _ ($"1") "Bond" (rd "2.360")); [apply cut_of; vmr|cbn; tauto|piece|piece| |].
    - match goal with |- defined ?t _ => refine (eq_rect ($"4 ( 0 0 0" ++ ")"%char :: $" 5 ( 0 0-1" ++ ")"%char :: []) (fun z => defined z _) _ t _); [|vmr] end.
      apply defined_1; [vmr|apply not_in_of; vmr|vm_compute; repeat constructor|]. apply defined_1; [vmr|apply not_in_of; vmr|vm_compute; repeat constructor|]. apply df_end; [intros []|intros c []].
    - exact (merged_dof _). }
  apply laid_row; [|apply laid_other; [piece|constructor]].
  { eapply (cn_open _ ($"3") "Torsion" (rd "3.141") (rd "99.999")); [apply cut_of; vmr|cbn; tauto|piece|piece|piece|piece| |].
    - match goal with |- defined ?t _ => refine (eq_rect ($"2 ( 1 0 0" ++ ")"%char :: []) (fun z => defined z _) _ t _); [|vmr] end.
      apply defined_1; [vmr|apply not_in_of; vmr|vm_compute; repeat constructor|]. apply df_end; [intros []|intros c []].
    - exact (merged_dof _). }
Qed.
(** A row of another kind stops the reading. *)
Theorem C86_internal_constraints_other h1 h2 h3 ls vs l more : laid SpecCastep5.constraint_row blanks ls vs -> bad_constraint l ->
  process_internal_constraints (h1 :: h2 :: h3 :: ls ++ l :: more) = Err AssertionError.
Proof. exact (internal_bad h1 h2 h3 ls vs l more). Qed.
Print Assumptions C86_internal_constraints_other.
Example C86_internal_constraints_other_ex : bad_constraint (ln "  2 Distance   2.360 Satisfied   4 ( 0 0 0)").
Proof. exists ($"2"), ($"Distance"), ($"2.360"), ($"Satisfied"), [$"4"; $"("; $"0"; $"0"; $"0)"]. split; [apply cut_of; vmr|]. intros w Hw. cbn in Hw. destruct Hw as [<-|[<-|[<-|[]]]]; discriminate. Qed.

(** Excited states. *)
Theorem C86_excited_states ls1 ls2 ls3 fs ss rows : laid from_row silent_delta ls1 fs -> all_states ls2 ss -> laid said_row silent_delta ls3 rows ->
  exists d, process_delta_scf (ls1 ++ ls2 ++ ls3) = Ok d /\ delta_read fs ss rows d.
Proof. exact (delta_spec ls1 ls2 ls3 fs ss rows). Qed.
Print Assumptions C86_excited_states.
Example C86_excited_states_ex :
  laid from_row silent_delta (lns ["Taking band from model   N2-base.check"; " "]%string) [$"N2-base.check"] /\
  all_states (lns ["  MODOS state               1"; "  MODOS band  nr.           5"; "  MODOS band has spin       1"; ""]%string) [(5, 1)]%Z /\
  laid said_row silent_delta (lns ["|DeltaSCF| Population of state:     5     1   1.000000"; " Writing file   N-modos.modos_state_5_1"]%string)
    [((5, 1)%Z, (name "pop", SpecCastep.float_of (rd "1.000000"))); ((5, 1)%Z, (name "file", VStr ($"N-modos.modos_state_5_1")))].
Proof.
  split; [|split].
  - apply laid_row; [apply (fr _ [$"Taking"; $"band"; $"from"; $"model"]); [apply begins_b; vmr|apply cut_of; vmr]|]. apply laid_other; [apply kind_of_b; vmr|constructor].
  - apply (as_cons (lns ["  MODOS state               1"; "  MODOS band  nr.           5"; "  MODOS band has spin       1"; ""]%string) []); [|constructor].
    apply (stl (ln "  MODOS state               1") (ln "  MODOS band  nr.           5") (ln "  MODOS band has spin       1") [] [] [ln ""] (rd "5") (rd "1") [] []);
      try solve [constructor|apply kind_of_b; vmr|apply nl_of; vmr|apply int_of; vmr]. constructor; [apply kind_of_b; vmr|constructor].
  - apply laid_row. { apply (sd_pop _ (rd "5") (rd "1") (rd "1.000000") []); try solve [apply kind_of_b; vmr|apply nl_of; vmr|apply int_of; vmr|piece]. }
    apply laid_row; [|constructor]. apply (sd_file _ [] (rd "5") (rd "1") [$"Writing"; $"file"]); try solve [apply kind_of_b; vmr|apply nl_of; vmr|apply int_of; vmr|apply cut_of; vmr].
Qed.
(** A file name with "spin" in it: the line is taken for that of a spin, and the
    first number in the name becomes the spin of the last state. *)
Theorem C86_excited_states_refuted : exists ls ss, all_states ls ss /\ ss = [(5, 1)]%Z /\
  process_delta_scf (ls ++ [ln " Writing file  spin-test.modos_state_5_1"]) = Ok [(name "states", VList [VDict false [(name "band", VInt 5); (name "spin", VInt 5)]])].
Proof.
  exists (lns ["  MODOS state               1"; "  MODOS band  nr.           5"; "  MODOS band has spin       1"; ""]%string), [(5, 1)]%Z.
  split; [exact (proj1 (proj2 C86_excited_states_ex))|]. split; [reflexivity|vmr].
Qed.
Print Assumptions C86_excited_states_refuted.

(** Parameters. *)
Theorem C86_parameters ls its : laid param_row silent_param ls its -> exists d, process_params ls = Ok d /\ options_read its d.
Proof. exact (params_spec ls its). Qed.
Print Assumptions C86_parameters.
Ltac entry_as k v := row_as (joined (text_of ":") [$k] ++ ":"%char :: ln v);
  eapply (pr_entry [$k]); [discriminate|intros p [<-|[]]; apply not_in_of; vmr|apply not_in_of; vmr|apply no_head_b; vmr|apply no_unit_b; solve [left; vmr|right; vmr]|apply not_mentions_of; vmr|
    constructor; [apply words_named; vmr|constructor]|apply trimmed_of; vmr|].
Definition ex_params : list str := (lns [" ***************************** General Parameters ******************************"; " "; " output verbosity                               : normal  (1)";
        " output         length unit                     : A"; " ************************* Constrained DFT - deltaSCF **************************";
        " deltaSCF smearing width                        :     0.0100   eV"; " max. length of mixing history                  :         20";
        " *******************************************************************************"]%string).
Example C86_parameters_ex : laid param_row silent_param ex_params
  [PHead ($"general"); PEntry ($"output verbosity") (VStr ($"normal (1)")); PUnit ($"length") ($"A"); PHead ($"constrained dft - deltascf");
   PEntry ($"deltaSCF smearing width") (VTuple [SpecCastep.float_of (rd "0.0100"); VStr ($"eV")]); PEntry ($"max. length of mixing history") (VInt 20)] /\
  process_params ex_params = Ok [(name "output_units", VDict false [(name "length", VStr ($"A"))]); (name "general", VDict false [(name "output verbosity", VStr ($"normal (1)"))]);
         (name "constrained dft - deltascf", VDict false [(name "deltaSCF smearing width", VTuple [SpecCastep.float_of (rd "0.0100"); VStr ($"eV")]);
            (name "max. length of mixing history", VInt 20)])].
Proof.
  split; [|vmr]. unfold ex_params.
  - apply laid_row. { row_as ($" " ++ $"*****************************" ++ " "%char :: $"General Parameters" ++ " "%char :: $"******************************" ++ [newline]).
      apply (pr_head _ _ _ _ _ ($"General ") ($"General")); try piece; try (split; [discriminate|]; intros c Hc; cbn in Hc; repeat destruct Hc as [<-|Hc]; reflexivity || contradiction).
      all: try solve [discriminate|apply group_all; vmr|intros u Hu; discriminate Hu|apply not_mentions_of; vmr|apply words_named; vmr].
      - change ($"General Parameters") with ($"General " ++ text_of "Parameters" ++ []). change ($"General ") with ($"General " ++ []) at 2. apply rm_next.
        + apply (not_mentions_of "Parameters"). vmr.
        + apply rm_none. apply (not_mentions_of "Parameters" []). vmr.
      }
    apply laid_other. { split; [apply not_mentions_of; vmr|]. split; [apply no_head_b; vmr|apply not_in_of; vmr]. }
    apply laid_row. { entry_as " output verbosity                               "%string " normal  (1)"%string. apply (ov_text _ ($"normal") [$"(1)"]); [apply cut_of; vmr|apply not_starts_b; vmr]. }
    apply laid_row. { row_as ($" " ++ text_of "output " ++ $"        length" ++ text_of " unit" ++ $"                     " ++ ":"%char :: $" A" ++ [newline]).
      apply pr_unit; try solve [piece|apply not_in_of; vmr|now right|apply not_mentions_of; vmr|apply words_named; vmr]. }
    apply laid_row. { row_as ($" " ++ $"*************************" ++ " "%char :: $"Constrained DFT - deltaSCF" ++ " "%char :: $"**************************" ++ [newline]).
      apply (pr_head _ _ _ _ _ ($"Constrained DFT - deltaSCF") ($"Constrained DFT - deltaSCF")); try piece; try (split; [discriminate|]; intros c Hc; cbn in Hc; repeat destruct Hc as [<-|Hc]; reflexivity || contradiction).
      all: try solve [discriminate|apply group_all; vmr|intros u Hu; discriminate Hu|apply not_mentions_of; vmr|apply words_named; vmr].
      - apply rm_none. apply (not_mentions_of "Parameters"). vmr.
      }
    apply laid_row. { entry_as " deltaSCF smearing width                        "%string "     0.0100   eV"%string.
      apply (ov_unit _ ($"0.0100") ($"eV") []); [apply cut_of; vmr|apply starts_b; vmr|apply (SpecCell.sv_num (rd "0.0100")); [piece|apply SpecCell.sn_float; [intros [H _]; discriminate H|piece]]]. }
    apply laid_row. { entry_as " max. length of mixing history                  "%string "         20"%string.
      apply (ov_number _ ($"20")); [apply cut_of; vmr|apply starts_b; vmr|apply (SpecCell.sv_num (rd "20")); [piece|apply SpecCell.sn_int; apply int_of; vmr]]. }
    apply laid_other; [|constructor]. split; [apply not_mentions_of; vmr|]. split; [|apply not_in_of; vmr]. apply no_head_re. vmr.
Qed.
(** A value whose first word only begins like a number stops the reading of the file. *)
Theorem C86_parameters_refuted : exists l, ~ head_line l /\ ~ unit_line l /\ ~ mentions "Developer Code" l /\ l = ln " dispersion scheme : 3-body" /\ process_params [l] = Err ValueError.
Proof.
  eexists. repeat (split; [|]); [| | | reflexivity|vmr]; [apply no_head_b; vmr|apply no_unit_b; left; vmr|apply not_mentions_of; vmr].
Qed.
Print Assumptions C86_parameters_refuted.
