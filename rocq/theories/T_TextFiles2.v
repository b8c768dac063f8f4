(** Property theorems C70 and C71: .elastic and .epme files. *)
From Verif Require Import PyBase PyFacts PyVal Regex NumSpec SpecLine SpecTable SpecStr SpecBands SpecDict DictUtil DictFacts SpecMd SpecCastep SpecFiles SpecFiles2 CastepRes StrUtil StrUtilFacts
  TypeConv Stream Header TextFiles MdFacts NumProps TextParsers TextParsersFacts HeaderFacts BandsFacts FileFacts FileParts FileParts2 ExampleTools T_TextFiles.
From Verif Require T_Castep T_TextParsers.
Local Open Scope list_scope.
Local Open Scope nat_scope.

(** C70.  .elastic files: the header, then blocks of numbers and blocks of internal
    strain. *)
Theorem C70_elastic ls its ps : elastic_file its ps ls -> (atoms its = [] \/ sites its = []) ->
  ~ absent (flat_map item_entry its) (KStr []) ->
  exists es es' d, parse_elastic_file ls = Ok (VDict false d) /\ header_says its es /\ Forall2 elastic_says ps es' /\
    merged (without (KStr []) es ++ es') d.
Proof. exact (elastic_exact ls its ps). Qed.
Print Assumptions C70_elastic.

Definition ex_elastic_tables : list str :=
  lns [" BEGIN Elastic Constants  (GPa)"; "   156.25   86.5"; "   86.5     -.125E+1"; " END Elastic Constants";
       " between"; " BEGIN Internal Strain (eV/A)"; "     1   Al      X    -.125   0.5   0.25   0.0  17.5   -8.0";
       "     1   Al      Y    -8.0   8.0   0.0   17.5   0.0   0.0"; " END Internal Strain";
       " BEGIN Strain  xx yy zz yz zx xy"; "   0.5"; " END"]%string.
Definition ex_al : list ascii * Z := ($"Al", 1%Z).
Definition ex_elastic_parts : list elastic_part :=
  [Tensor ($"elastic_constants") (Some ($"GPa")) [map rd ["156.25"; "86.5"]%string; map rd ["86.5"; "-.125E+1"]%string];
   Strain ($"internal_strain") (Some ($"eV/A"))
     [(ex_al, map rd ["1"; "-.125"; "0.5"; "0.25"; "0.0"; "17.5"; "-8.0"]%string); (ex_al, map rd ["1"; "-8.0"; "8.0"; "0.0"; "17.5"; "0.0"; "0.0"]%string)];
   Tensor ($"strain") None [[rd "0.5"]]].
Lemma ex_numbers s n ps e l : l = $s ++ write_num n ++ glued (map (fun p => ($(fst p), rd (snd p))) ps) e ->
  freeb "0123456789" ($s) && not_lastb "+-." ($s) && okb n && tailb (map (fun p => ($(fst p), rd (snd p))) ps) e = true ->
  forallb fitsb (n :: map (fun p => rd (snd p)) ps) = true ->
  number_row l (n :: map (fun p => rd (snd p)) ps).
Proof.
  intros H1 H2 H3. split; [|now apply T_Castep.all_fit_of]. pose proof (number_line_of _ _ _ _ _ H1 H2) as Q. now rewrite map_map in Q.
Qed.
Lemma ex_no_row l : freeb "0123456789" l = true -> number_row l [].
Proof. intros H. split; [now apply nums_none|constructor]. Qed.
Lemma ex_strain a ds g1 c r g2 d g3 t ns s ms l : l = a ++ write_digits ds ++ g1 ++ (c :: r) ++ g2 ++ d :: g3 ++ t ++ s ->
  forallb is_space (a ++ g1 ++ g2 ++ g3) && negb (isempty g1 || isempty g2 || isempty g3 || isempty ds) && is_upper c && forallb is_lower r &&
  (length r <=? 2) && columnsb ns t && match s with c :: _ => is_space c | [] => true end = true ->
  In d (text_of "XYZ") -> length ns = 6 -> number_row l ms -> strain_row l ((c :: r, decimal ds), ms).
Proof.
  intros E H Hd Hn [Hm Hf]. do 6 (apply andb_true_iff in H as [H ?]). rewrite !forallb_app in H. do 3 (apply andb_true_iff in H as [? H]).
  match goal with K : negb _ = true |- _ => apply negb_true_iff in K; do 3 (apply orb_false_iff in K as [K ?]) end.
  apply (sr a ds g1 (c :: r) g2 d g3 t ns s ms l); try exact E; try (now apply blanks_of); try (now apply columns_of); try assumption.
  - now destruct ds.
  - now destruct g1.
  - apply T_Castep.el_of; auto. now apply Nat.leb_le.
  - now destruct g2.
  - now destruct g3.
  - now apply T_Castep.end_of.
Qed.
Lemma ex_whole t k : normalise_key t = k -> match rev k with c :: _ => Ascii.eqb c "y" | [] => false end = false -> block_name t k.
Proof.
  intros E N. destruct (normalise_key_words t) as (ws & H & _ & E'). rewrite E' in E. rewrite <- E in N |- *. apply bn_whole; [exact H|].
  intros k' E2. change (text_of "_") with ($"_") in E2. rewrite E2, rev_app_distr in N. discriminate.
Qed.
Lemma ex_cut t k : normalise_key t = k ++ components -> block_name t k.
Proof. intros E. destruct (normalise_key_words t) as (ws & H & _ & E'). apply (bn_cut _ ws); [exact H|]. now rewrite <- E. Qed.
Ltac no_mention := apply not_mentions_of; vmr.
Lemma ex_not_in c w : chr_in c w = false -> ~ In c w.
Proof. intros H Hi. unfold chr_in in H. rewrite <- not_true_iff_false, existsb_exists in H. apply H. exists c. split; [exact Hi|apply Ascii.eqb_refl]. Qed.
Example C70_elastic_ex : elastic_file ex_any_items ex_elastic_parts (ex_header [] ++ ex_elastic_tables) /\ atoms ex_any_items = [] /\
  ~ absent (flat_map item_entry ex_any_items) (KStr []).
Proof.
  split; [|split; [reflexivity|intros N; apply N; now left]].
  constructor; [exact ex_any_block|]. unfold ex_elastic_tables, lns. cbn [map].
  eapply (lp_tensor _ ($"Elastic Constants  ") (Some ($"GPa")) _ [_; _] _ [map rd ["156.25"; "86.5"]%string; map rd ["86.5"; "-.125E+1"]%string; []]).
  - no_mention.
  - no_mention.
  - apply (bt_unit [" "%char] ($"Elastic Constants  ") ($"GPa") [newline]); [apply blanks_of; vmr|discriminate|apply ex_not_in; vmr|discriminate|apply ex_not_in; vmr].
  - apply ex_whole; vmr.
  - split; [apply mentions_of; vmr|]. split; [|apply mentions_of; vmr]. repeat constructor; no_mention.
  - constructor; [|constructor; [|constructor; [|constructor]]].
    + apply (ex_numbers "   " (rd "156.25") [("   ", "86.5")]%string [newline]); vmr.
    + apply (ex_numbers "   " (rd "86.5") [("     ", "-.125E+1")]%string [newline]); vmr.
    + apply ex_no_row. vmr.
  - apply lp_other; [no_mention|].
    eapply (lp_strain _ ($"Internal Strain ") (Some ($"eV/A")) _ [_; _] _ [_; _]).
    + no_mention.
    + apply (bt_unit [" "%char] ($"Internal Strain ") ($"eV/A") [newline]); [apply blanks_of; vmr|discriminate|apply ex_not_in; vmr|discriminate|apply ex_not_in; vmr].
    + apply ex_whole; vmr.
    + split; [apply mentions_of; vmr|]. split; [|apply mentions_of; vmr]. repeat constructor; no_mention.
    + constructor; [|constructor; [|constructor]].
      * apply (ex_strain ($"     ") (n_int (rd "1")) ($"   ") "A" ($"l") ($"      ") "X" ($"  ") ($"  -.125   0.5   0.25   0.0  17.5   -8.0")
          (map rd ["-.125"; "0.5"; "0.25"; "0.0"; "17.5"; "-8.0"]%string) [newline]); [vmr|vmr|now left|reflexivity|].
        apply (ex_numbers "     " (rd "1") [("   Al      X    ", "-.125"); ("   ", "0.5"); ("   ", "0.25"); ("   ", "0.0"); ("  ", "17.5"); ("   ", "-8.0")]%string [newline]); vmr.
      * apply (ex_strain ($"     ") (n_int (rd "1")) ($"   ") "A" ($"l") ($"      ") "Y" ($"  ") ($"  -8.0   8.0   0.0   17.5   0.0   0.0")
          (map rd ["-8.0"; "8.0"; "0.0"; "17.5"; "0.0"; "0.0"]%string) [newline]); [vmr|vmr|right; now left|reflexivity|].
        apply (ex_numbers "     " (rd "1") [("   Al      Y    ", "-8.0"); ("   ", "8.0"); ("   ", "0.0"); ("   ", "17.5"); ("   ", "0.0"); ("   ", "0.0")]%string [newline]); vmr.
    + eapply (lp_tensor _ ($"Strain  xx yy zz yz zx xy" ++ [newline]) None _ [_] _ [[rd "0.5"]; []]).
      * no_mention.
      * no_mention.
      * apply (bt_none [" "%char]); [apply blanks_of; vmr|discriminate|apply ex_not_in; vmr].
      * apply ex_cut. vmr.
      * split; [apply mentions_of; vmr|]. split; [|apply mentions_of; vmr]. repeat constructor; no_mention.
      * constructor; [|constructor; [|constructor]]; [|apply ex_no_row; vmr]. apply (ex_numbers "   " (rd "0.5") [] [newline]); vmr.
      * constructor.
Qed.
(** The vectors of internal strain have seven components: the index of the atom comes
    first. *)
Theorem C70_elastic_refuted : exists d t, parse_elastic_file (ex_header [] ++ ex_elastic_tables) = Ok (VDict false d) /\
  dget key_eqb d (kstr "internal_strain") = Some (VDict true t) /\
  dget key_eqb t (SpecDict.atom_key ex_al) = Some (VList [vector (map rd ["1"; "-.125"; "0.5"; "0.25"; "0.0"; "17.5"; "-8.0"]%string);
    vector (map rd ["1"; "-8.0"; "8.0"; "0.0"; "17.5"; "0.0"; "0.0"]%string)]).
Proof. do 2 eexists. split; [vm_compute; reflexivity|]. split; [vm_compute; reflexivity|]. vm_compute. reflexivity. Qed.
Print Assumptions C70_elastic_refuted.

(** C71.  .epme files. *)
Theorem C71_epme h ps ls : epme_file h ps ls -> parse_epme_file ls = Ok (epme_val h ps).
Proof. exact (epme_exact h ps ls). Qed.
Print Assumptions C71_epme.
Definition ex_epme : list str :=
  lns [" Electron-phonon coupling file"; " Version           1"; " All units are atomic units"; " Unit cell volume   264.5"; " Fermi Energy  -6.5E-003";
       " Number of bands:           4"; " Number of phonon branches:           6";
       "Electron-Phonon coupling matrix elements between kpoints (    0.1    0.1    0.1) and (    0.2    0.3    0.4)";
       "Ph index  Band_i  Band_f      ph_freq         E_i         E_f          velocity for band 1    velocity for band 2    EP Matrix Element";
       "  1  1  2   0.000623   -0.416805   -0.365335     0.053174    0.053174    0.053174    0.043401    0.140949    0.247426     0.000142   -0.000604";
       "  1  1  3   0.5   -0.25   -0.125     0.1    0.2    0.3    0.4    0.5    0.6     0.7   -0.8";
       "Electron-Phonon coupling matrix elements between kpoints (    0.5    0.5    0.5) and (    0.0    0.0    0.0)"; "Ph index"]%string.
Definition ex_epme_head : epme_head := {| eh_version := rd "1"; eh_volume := rd "264.5"; eh_fermi := rd "-6.5E-003"; eh_bands := rd "4"; eh_branches := rd "6" |}.
Definition ex_couplings : list coupling :=
  [{| cp_ints := map rd ["1"; "1"; "2"]; cp_energies := map rd ["0.000623"; "-0.416805"]; cp_from := map rd ["-0.365335"; "0.053174"; "0.053174"];
      cp_to := map rd ["0.053174"; "0.043401"; "0.140949"]; cp_re := rd "0.247426"; cp_im := rd "0.000142" |};
   {| cp_ints := map rd ["1"; "1"; "3"]; cp_energies := map rd ["0.5"; "-0.25"]; cp_from := map rd ["-0.125"; "0.1"; "0.2"];
      cp_to := map rd ["0.3"; "0.4"; "0.5"]; cp_re := rd "0.6"; cp_im := rd "0.7" |}]%string.
Lemma ex_last n l w ws : split l = w :: ws ++ [write_num n] -> wfb n = true -> last_number n l.
Proof. intros H1 H2. exists w, ws. split; [now apply cut_of|now apply wf_of]. Qed.
Definition is_intb (n : num) : bool := match n_frac n, n_exp n with None, None => true | _, _ => false end.
Lemma is_int_of n : is_intb n = true -> is_int n.
Proof. unfold is_intb, is_int. destruct (n_frac n), (n_exp n); try discriminate. now split. Qed.
Lemma ex_coupling l c more : split l = map write_num (cp_ints c ++ coupling_floats c) ++ more ->
  length (cp_ints c) = 3 -> length (cp_energies c) = 2 -> length (cp_from c) = 3 -> length (cp_to c) = 3 ->
  forallb (fun n => is_intb n && wfb n) (cp_ints c) && forallb (fun n => wfb n && fitsb n) (coupling_floats c) = true ->
  startswith ($"Electron-Phonon coupling") l = false -> coupling_row l c.
Proof.
  intros H1 H2 H3 H4 H5 H6 H7. apply andb_true_iff in H6 as [H6 H8]. apply (cr l c more); [now apply cut_of|assumption..| | |].
  - revert H6. apply forall_of. intros n Hn. apply andb_true_iff in Hn as [? ?]. split; [now apply is_int_of|now apply wf_of].
  - revert H8. apply forall_of. intros n Hn. apply andb_true_iff in Hn as [? ?]. split; [now apply wf_of|now apply fits_of].
  - rewrite begins_iff. congruence.
Qed.
Example C71_epme_ex : epme_file ex_epme_head
  [(map rd ["0.1"; "0.1"; "0.1"; "0.2"; "0.3"; "0.4"]%string, ex_couplings); (map rd ["0.5"; "0.5"; "0.5"; "0.0"; "0.0"; "0.0"]%string, [])] ex_epme.
Proof.
  unfold ex_epme, lns. cbn [map]. apply ef2.
  - apply (ex_last _ _ ($"Version") []); vmr.
  - apply (ex_last _ _ ($"Unit") [$"cell"; $"volume"]); vmr.
  - apply (ex_last _ _ ($"Fermi") [$"Energy"]); vmr.
  - apply (ex_last _ _ ($"Number") [$"of"; $"bands:"]); vmr.
  - apply (ex_last _ _ ($"Number") [$"of"; $"phonon"; $"branches:"]); vmr.
  - now split.
  - now split.
  - now split.
  - apply T_Castep.all_fit_of. vmr.
  - eapply (em_pair _ _ _ [_; _]); [now apply begins_iff| | | |].
    + apply (proj1 (ex_numbers "Electron-Phonon coupling matrix elements between kpoints (    " (rd "0.1")
        [("    ", "0.1"); ("    ", "0.1"); (") and (    ", "0.2"); ("    ", "0.3"); ("    ", "0.4")]%string (ln ")") _ eq_refl eq_refl eq_refl)).
    + apply T_Castep.all_fit_of. vmr.
    + constructor; [|constructor; [|constructor]].
      * apply (ex_coupling _ _ [$"-0.000604"]); vmr.
      * apply (ex_coupling _ _ [$"-0.8"]); vmr.
    + eapply (em_pair _ _ _ []); [now apply begins_iff| | |constructor|constructor].
      * apply (proj1 (ex_numbers "Electron-Phonon coupling matrix elements between kpoints (    " (rd "0.5")
          [("    ", "0.5"); ("    ", "0.5"); (") and (    ", "0.0"); ("    ", "0.0"); ("    ", "0.0")]%string (ln ")") _ eq_refl eq_refl eq_refl)).
      * apply T_Castep.all_fit_of. vmr.
Qed.
(** The file has fourteen columns: the phonon frequency is read as the first energy,
    and every later column is taken for the one before it. *)
Theorem C71_epme_refuted : exists l,
  last (removelast (removelast ex_epme)) [] = l /\ split l = [$"1"; $"1"; $"3"; $"0.5"; $"-0.25"; $"-0.125"; $"0.1"; $"0.2"; $"0.3"; $"0.4"; $"0.5"; $"0.6"; $"0.7"; $"-0.8"] /\
  exists d, epme_row VNone VNone l = Ok (VDict false d) /\ dget key_eqb d (kstr "e_i") = Some (SpecCastep.float_of (rd "0.5")) /\
    dget key_eqb d (kstr "e_f") = Some (SpecCastep.float_of (rd "-0.25")) /\
    dget key_eqb d (kstr "velocity") = Some (VTuple [vector (map rd ["-0.125"; "0.1"; "0.2"]); vector (map rd ["0.3"; "0.4"; "0.5"])]%string).
Proof. eexists. split; [reflexivity|]. split; [vm_compute; reflexivity|]. eexists. split; [vm_compute; reflexivity|]. vm_compute. repeat split. Qed.
Print Assumptions C71_epme_refuted.
