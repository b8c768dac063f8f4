(** Property theorems C91: polarisation reports in .castep files. *)
From Coq Require Import QArith.
From Verif Require Import PyBase PyFacts PyVal Regex CastepRes NumSpec SpecLine SpecTable SpecStr SpecBands SpecDict SpecMd SpecCastep SpecCastep2 SpecCastepRun SpecTree SpecBerry
  StrUtil BandsFacts TextParsersFacts StrUtilFacts NumProps ColumnFacts MdFacts DictUtil CastepBlocks CastepNum CastepRows CastepRest CastepFacts Castep2Facts LangFacts BerryFacts
  ExampleTools ExampleTools2.
From Verif Require CastepFile DictFacts IntStr.
From Verif Require Import T_Castep T_Castep2 T_Castep3 T_CastepFile2.
Local Open Scope list_scope.
Local Open Scope nat_scope.

(** C91.  A report: the parts, and the tables of the ions, of the polarisation and of the
    polarisation of the volume. *)
Theorem C91_polarisation ls es : berry ls es -> process_berry_phase ls = Ok (tree 2 es).
Proof. exact (berry_spec ls es). Qed.
Print Assumptions C91_polarisation.
(** Two reports in one run: what the second says of a key replaces all that the first says under it. *)
Theorem C91_two_reports l1 ls1 es1 l2 ls2 es2 : berry ls1 es1 -> berry ls2 es2 -> exists r1 r2 d,
  CastepFile.extend "berry_phase" process_berry_phase l1 ls1 [] = Ok r1 /\ CastepFile.extend "berry_phase" process_berry_phase l2 ls2 r1 = Ok r2 /\
  dget key_eqb r1 (name "berry_phase") = Some (VDict false (tree 2 es1)) /\ dget key_eqb r2 (name "berry_phase") = Some (VDict false d) /\ merged (tree 2 es1 ++ tree 2 es2) d.
Proof. exact (two_reports l1 ls1 es1 l2 ls2 es2). Qed.
Print Assumptions C91_two_reports.

(** Deciders for the Examples *)
Definition no_partb (l : str) : bool := negb (contains ($"Ionic") l) && negb (contains ($"Elec") l) && negb (contains ($"Total") l).
Lemma no_part_b l : no_partb l = true -> no_part l.
Proof. intros H. apply andb_true_iff in H as [H H3]. apply andb_true_iff in H as [H1 H2]. apply negb_true_iff in H1, H2, H3. right. repeat split; now apply not_mentions_of. Qed.
Lemma other_b l : contains ($contribution) l = false -> no_partb l = true -> existsb (Ascii.eqb "(") l = false -> forall r es, berry r es -> berry (l :: r) es.
Proof.
  intros H1 H2 H3 r es. apply be_other; [now apply not_mentions_of|now apply no_part_b|]. intros k u q _ _ _ ->. rewrite existsb_app in H3. cbn in H3. rewrite orb_true_r in H3. discriminate H3.
Qed.
Lemma title_b a c k u r nm : forallb is_space a = true -> is_word c = true -> forallb is_namec k = true -> normalise_key (c :: k) = nm -> negb (isempty u) && negb (existsb (Ascii.eqb ")") u) = true ->
  titled_unit (a ++ c :: k ++ "("%char :: u ++ ")"%char :: r) nm u.
Proof.
  intros H1 H2 H3 H4 H5. apply andb_true_iff in H5 as [H5 H6]. apply negb_true_iff in H6. apply tu; [now apply blanks_of|now apply word_char_iff| |now apply key_named|].
  - apply Forall_forall. intros x I. apply namec_iff. rewrite forallb_forall in H3. auto.
  - split; [now destruct u|]. intros I. assert (existsb (Ascii.eqb ")") u = true) by (apply existsb_exists; exists ")"%char; split; [exact I|reflexivity]). congruence.
Qed.
Lemma equals_lines ls n : delimb (re_test equals_re) n ls = true -> delimited equals n ls.
Proof. apply delim_b, equals_iff. Qed.

Definition rule : str := ln "==========================".
Definition bp_ions : list str := [ln "   Ionic contribution to polarisation (phase) [-1:1]"; rule; ln "ni nsp  Zion     frac_a1     frac_a2     frac_a3      pol_G1      pol_G2     pol_G3";
  ln "  2 1   6.00    0.500000    0.500000   -0.135200    1.000000    1.000000   -0.811200"; ln " Total ionic polarisation (phase [-1:1])            0.000000    0.000000    0.776400"; rule].
Definition bp_phases : list str := [ln "   Polarisation (phase) [-1:1] in Recip Lattice Basis (G_1, G_2, G_3)"; rule;
  ln "Electronic polarisation     0.000000    0.000000   -0.562849"; ln "Ionic polarisation          0.000000    0.000000    0.776400"; rule].
Definition bp_values : list str := [ln "   Polarisation (e bohr)    in Recip Lattice Basis (G_1, G_2, G_3)"; rule; ln "Electronic polarisation     0.000000    0.000000   -4.411517"; rule].
Definition bp_volume : list str := [ln "  Volume Polarisation (C/m^2)    in Recip Lattice Basis (G_1, G_2, G_3)"; rule; ln "Electronic polarisation     0.000000    0.000000   -0.592464"; rule].
Definition bp_quanta : list str := [ln " Polarisation (C/m^2) in Recip Lattice Basis defined on range [-Quantum/2:Quantum/2]"; ln "   Direction      Electronic   Ionic    Total    (Quantum)"; rule;
  ln " G_3:  (  0.0000,  0.0000,  1.0000   )     -0.5925    0.8173    0.2248 (    2.1052 )"; rule].
Definition bp_parts : list str := [ln " Elec  Polarisation (Cartesian Basis):    0.000000    0.000000   -0.010355 (e/bohr^2)"; ln " Elec  Polarisation (Cartesian Basis):    0.000000    0.000000   -0.592465 (C/m^2)"].
Definition verbose : list str := bp_ions ++ [ln ""; rule] ++ bp_phases ++ [ln ""; rule] ++ bp_values ++ [ln ""; rule] ++ bp_volume.
Definition usual : list str := bp_quanta ++ [ln ""; rule] ++ bp_parts.
Definition v3 (a b c : string) : pyval := vector (nums [a; b; c]).
Definition axis (w a b c : string) : key * pyval := (name w, v3 a b c).
Definition ex_ions : list (key * pyval) :=
  [(KTuple [KInt 1; KInt 2], VDict false [(name "coords", v3 "0.500000" "0.500000" "-0.135200"); (name "polarisation", v3 "1.000000" "1.000000" "-0.811200")])].
Definition ex_ph : list (key * pyval) := [axis "Electronic" "0.000000" "0.000000" "-0.562849"; axis "Ionic" "0.000000" "0.000000" "0.776400"].
Definition ex_val : list (key * pyval) := [axis "Electronic" "0.000000" "0.000000" "-4.411517"].
Definition ex_vol : list (key * pyval) := [axis "Electronic" "0.000000" "0.000000" "-0.592464"].
Definition fl (s : string) : pyval := SpecCastep.float_of (rd s).
Definition kf (s : string) : key := KFloat (FQ (Qreduction.Qred (num_value (rd s)))).
Definition ex_qu : list (key * pyval) := [(KTuple [kf "0.0000"; kf "0.0000"; kf "1.0000"],
  VDict false [(name "elec", fl "-0.5925"); (name "ionic", fl "0.8173"); (name "total", fl "0.2248"); (name "quantum", fl "2.1052"); (name "units", VStr ($"C/m^2"))])].
Definition verbose_said : list said :=
  ([name "ionic_contribution_to_polarisation"], VDict false [(name "units", VStr ($"phase")); (name "total", v3 "0.000000" "0.000000" "0.776400"); (name "ions", VDict false ex_ions)])
  :: values_of "phase" ex_ph ++ ([polarisation; name "units"], VStr ($"e bohr")) :: values_of "val" ex_val ++
  [([name "volume_polarisation"], VDict false ((name "units", VStr ($"C/m^2")) :: ex_vol))].
Definition usual_said : list said := map (fun kv => ([polarisation; fst kv], snd kv)) ex_qu ++
  [([name "elec"], VDict false [(name "units", VStr ($"e/bohr^2")); (name "val", v3 "0.000000" "0.000000" "-0.010355")]);
   ([name "elec"], VDict false [(name "units", VStr ($"C/m^2")); (name "val", v3 "0.000000" "0.000000" "-0.592465")])].
Ltac axis_b := eapply ar; [apply cut_of; vmr|apply nl_of; vmr|apply all_fit_of; vmr].
Ltac skip_b := refine (other_b (ln "") eq_refl eq_refl eq_refl _ _ _); refine (other_b rule eq_refl eq_refl eq_refl _ _ _).
Ltac title_t := split; [apply not_mentions_of; vmr|split; [apply no_part_b; vmr|]].
Lemma all_dict es : NoDup (map (@fst key pyval) es) -> merged es es.
Proof. intros H. rewrite <- (dict_of_nodup key_eqb IntStr.key_eqb_spec es H) at 2. apply DictFacts.merged_dict_of, IntStr.key_eqb_spec. Qed.
Lemma ex_verbose : berry verbose verbose_said.
Proof.
  unfold verbose, verbose_said, bp_ions, bp_phases, bp_values, bp_volume.
  apply (be_ions _ ($"ionic_contribution_to_polarisation") ($"phase") rule _ [_] ex_ions _ (rd "-1") (rd "1") (nums ["0.000000"; "0.000000"; "0.776400"]%string) rule).
  - apply mentions_of; vmr.
  - apply (title_b ($"   ") "I" ($"onic contribution to polarisation ") ($"phase") (ln " [-1:1]")); vmr.
  - discriminate.
  - apply equals_lines; vmr.
  - constructor; [|constructor]. apply (ir _ (rd "2") (rd "1") ($"6.00") (nums ["0.500000"; "0.500000"; "-0.135200"]%string) (nums ["1.000000"; "1.000000"; "-0.811200"]%string)).
    + apply cut_of; vmr.
    + apply wf_of; vmr.
    + apply int_of; vmr.
    + apply wf_of; vmr.
    + apply int_of; vmr.
    + reflexivity.
    + apply (forall_of _ wfb); [exact wf_of|vmr].
    + apply all_fit_of; vmr.
  - apply nl_of; vmr.
  - apply all_fit_of; vmr.
  - apply all_dict. cbn. constructor; [intros []|constructor].
  - cbn [app]. skip_b.
    apply (be_phases _ rule [_; _] ex_ph rule).
    { title_t. apply (title_b ($"   ") "P" ($"olarisation ") ($"phase") (ln " [-1:1] in Recip Lattice Basis (G_1, G_2, G_3)")); vmr. }
    { apply not_mentions_of; vmr. }
    { apply equals_lines; vmr. }
    { constructor; [axis_b|]. constructor; [axis_b|]. constructor. }
    { discriminate. }
    cbn [app]. skip_b.
    apply (be_values _ ($"e bohr") rule [_] ex_val rule).
    { title_t. apply (title_b ($"   ") "P" ($"olarisation ") ($"e bohr") (ln "    in Recip Lattice Basis (G_1, G_2, G_3)")); vmr. }
    { apply not_mentions_of; vmr. }
    { discriminate. }
    { apply equals_lines; vmr. }
    { constructor; [axis_b|]. constructor. }
    { discriminate. }
    cbn [app]. skip_b.
    apply (be_volume _ ($"C/m^2") rule [_] ex_vol rule _ []).
    { title_t. apply (title_b ($"  ") "V" ($"olume Polarisation ") ($"C/m^2") (ln "    in Recip Lattice Basis (G_1, G_2, G_3)")); vmr. }
    { apply equals_lines; vmr. }
    { constructor; [axis_b|]. constructor. }
    { apply all_dict. cbn. constructor; [intros [E|[]]; discriminate E|]. constructor; [intros []|constructor]. }
    constructor.
Qed.
Lemma part_b a w p m t ns g u r : forallb is_space a = true -> part_name w p -> negb (isempty m) && negb (existsb (Ascii.eqb ":") m) = true -> columns ns t -> length ns = 3 -> all_fit ns ->
  gap g -> negb (isempty u) && negb (existsb (Ascii.eqb ")") u) = true -> part_line (a ++ w ++ m ++ ":"%char :: t ++ g ++ "("%char :: u ++ ")"%char :: r) p ns u.
Proof.
  intros H1 H2 H3 H4 H5 H6 H7 H8. apply andb_true_iff in H3 as [H3 H3']. apply andb_true_iff in H8 as [H8 H8']. apply negb_true_iff in H3', H8'.
  assert (X : forall c s, existsb (Ascii.eqb c) s = false -> ~ In c s).
  { intros c s E I. assert (existsb (Ascii.eqb c) s = true) by (apply existsb_exists; exists c; split; [exact I|apply Ascii.eqb_refl]). congruence. }
  apply pl; [now apply blanks_of|exact H2|now destruct m|now apply X|exact H4|exact H5|exact H6|exact H7|]. split; [now destruct u|now apply X].
Qed.
Lemma ex_usual_then r es : berry r es -> berry (usual ++ r) (usual_said ++ es).
Proof.
  intros H. unfold usual, usual_said, bp_quanta, bp_parts.
  apply (be_quanta _ ($"C/m^2") _ rule [_] ex_qu rule).
  - title_t. apply (title_b ($" ") "P" ($"olarisation ") ($"C/m^2") (ln " in Recip Lattice Basis defined on range [-Quantum/2:Quantum/2]")); vmr.
  - apply mentions_of; vmr.
  - apply equals_lines; vmr.
  - constructor; [|constructor]. apply (qr _ _ (rd "3") (nums ["0.0000"; "0.0000"; "1.0000"]%string) (rd "-0.5925") (rd "0.8173") (rd "0.2248") (rd "2.1052")); [apply nl_of; vmr|apply all_fit_of; vmr].
  - discriminate.
  - cbn [app]. skip_b. apply be_part.
    { apply not_mentions_of; vmr. }
    { apply (part_b ($" ") ($"Elec") ($"elec") ($"  Polarisation (Cartesian Basis)") ($"    0.000000    0.000000   -0.010355") _ ($" ") ($"e/bohr^2") (ln "")); [vmr|constructor|vmr|apply columns_of; vmr|reflexivity|apply all_fit_of; vmr|apply gap_b; vmr|vmr]. }
    apply be_part.
    { apply not_mentions_of; vmr. }
    { apply (part_b ($" ") ($"Elec") ($"elec") ($"  Polarisation (Cartesian Basis)") ($"    0.000000    0.000000   -0.592465") _ ($" ") ($"C/m^2") (ln "")); [vmr|constructor|vmr|apply columns_of; vmr|reflexivity|apply all_fit_of; vmr|apply gap_b; vmr|vmr]. }
    exact H.
Qed.
Lemma ex_usual : berry usual usual_said.
Proof. rewrite <- (app_nil_r usual), <- (app_nil_r usual_said). apply ex_usual_then. constructor. Qed.
Example C91_polarisation_ex : berry verbose verbose_said /\ berry usual usual_said /\ process_berry_phase verbose = Ok (tree 2 verbose_said) /\ process_berry_phase usual = Ok (tree 2 usual_said).
Proof. split; [exact ex_verbose|]. split; [exact ex_usual|]. split; [exact (C91_polarisation _ _ ex_verbose)|exact (C91_polarisation _ _ ex_usual)]. Qed.
(** The detailed report and the usual one, which CASTEP writes after it: of the
    polarisation as phases and by axes nothing is left. *)
Theorem C91_details_lost_refuted : exists ls1 ls2 es1 es2 v r1 r2 d f p, berry ls1 es1 /\ berry ls2 es2 /\ In ([polarisation; name "phase"; name "Ionic"], v) es1 /\
  CastepFile.extend "berry_phase" process_berry_phase [] ls1 [] = Ok r1 /\ CastepFile.extend "berry_phase" process_berry_phase [] ls2 r1 = Ok r2 /\
  dget key_eqb r2 (name "berry_phase") = Some (VDict f d) /\ dget key_eqb d polarisation = Some (VDict false p) /\ dget key_eqb p (name "phase") = None.
Proof.
  exists verbose, usual, verbose_said, usual_said, (v3 "0.000000" "0.000000" "0.776400"). do 5 eexists.
  split; [exact ex_verbose|]. split; [exact ex_usual|]. split; [right; right; now left|].
  split; [unfold CastepFile.extend; rewrite (C91_polarisation _ _ ex_verbose); vm_compute; reflexivity|].
  split; [unfold CastepFile.extend; rewrite (C91_polarisation _ _ ex_usual); vm_compute; reflexivity|].
  repeat split; vm_compute; reflexivity.
Qed.
Print Assumptions C91_details_lost_refuted.
