(** Property theorems C51-C54, C64 and C65: tables of .castep files. *)
From Verif Require BandsFacts.
From Verif Require Import PyBase PyFacts PyVal Regex NumSpec SpecLine SpecTable SpecStr SpecBands SpecDict SpecMd SpecCastep CastepRes StrUtil StrUtilFacts CastepBlocks
  MdFacts CastepFacts PhononFacts NumProps TextParsersFacts ExampleTools.
Local Open Scope list_scope.
Local Open Scope nat_scope.

(** Deciders for the Examples. *)
Definition fitsl (ns : list num) : bool := forallb fitsb ns.
Lemma all_fit_of ns : fitsl ns = true -> all_fit ns.
Proof. apply forall_of. exact fits_of. Qed.
Lemma end_of s : match s with c :: _ => is_space c | [] => true end = true -> token_end s.
Proof. intros H c t ->. now apply blank_iff. Qed.
Lemma el_of c r : is_upper c = true -> forallb is_lower r = true -> length r <= 2 -> species (c :: r).
Proof.
  intros H1 H2 H3. exists (c :: r), [], []. rewrite app_nil_r. split; [reflexivity|]. split; [|split; now left].
  exists c, r. split; [reflexivity|]. split; [now apply capital_iff|]. split; [|exact H3].
  apply Forall_forall. intros x Hx. rewrite forallb_forall in H2. now apply small_iff, H2.
Qed.
Lemma atom_of sp g ds : species sp -> forallb is_space g = true -> isempty g = false -> isempty ds = false ->
  numbered_atom (sp ++ g ++ write_digits ds) (sp, decimal ds).
Proof. intros. constructor; [assumption|now apply blanks_of|now destruct g|now destruct ds]. Qed.
Definition no_capsb (l : str) : bool := forallb (fun c => negb (is_upper c)) l.
Lemma no_caps_of l : no_capsb l = true -> no_capitals l.
Proof.
  intros H c Hc K. unfold no_capsb in H. rewrite forallb_forall in H. specialize (H c Hc). apply capital_iff in K. now rewrite K in H.
Qed.
Lemma edge_of a : match rev a with c :: _ => negb (is_word c) | [] => true end = true -> edge a.
Proof. intros H t c -> K. rewrite rev_app_distr in H. cbn in H. apply word_char_iff in K. now rewrite K in H. Qed.
Lemma gap_of g : forallb is_space g && negb (isempty g) = true -> gap g.
Proof. intros H. apply andb_true_iff in H as [H1 H2]. split; [now apply blanks_of|now apply ne_nil]. Qed.

(** C51.  A table of k-points: the rows with a number of one digit, each with its
    weight and its first, second and again first coordinate. *)
Theorem C51_table ls ks : laid kpt_row not_kpt ls ks ->
  process_kpoint_blocks false ls =
    Ok [(name "points", VList (map kpt_read (filter one_digit ks)));
        (name "num_kpoints", VInt (Z.of_nat (length (filter one_digit ks))))].
Proof. exact (kpt_list ls ks). Qed.
Print Assumptions C51_table.
(** A description of a grid. *)
Theorem C51_grid ls es : all_told kpt_rules ls es ->
  exists d, process_kpoint_blocks true ls = Ok d /\ merged es d.
Proof. exact (kpt_spec ls es). Qed.
Print Assumptions C51_grid.
Definition ex_kpt (no x y z w : string) : kpt :=
  {| kp_no := map digit_of ($no); kp_x := rd x; kp_y := rd y; kp_z := rd z; kp_w := rd w |}.
Definition ex_kpts : list kpt := [ex_kpt "9" "0.25" "-0.5" "0.125" "0.5"; ex_kpt "10" "0.75" "0.5" "0.125" "0.5"].
Definition ex_kpt_lines : list str :=
  lns ["  +  Number       Fractional coordinates        Weight  +";
       "  +   9   0.25  -0.5   0.125   0.5   +"; "  +  10   0.75   0.5   0.125   0.5   +"]%string.
Lemma ex_row9 : kpt_row (ln "  +   9   0.25  -0.5   0.125   0.5   +") (ex_kpt "9" "0.25" "-0.5" "0.125" "0.5").
Proof.
  apply (kr ($"  ") ($"   ") ($"   0.25  -0.5   0.125   0.5") ($"   ") [newline] (ex_kpt "9" "0.25" "-0.5" "0.125" "0.5"));
    try (apply blanks_of; vmr); try discriminate; [apply columns_of|apply all_fit_of]; vmr.
Qed.
Lemma ex_row10 : kpt_row (ln "  +  10   0.75   0.5   0.125   0.5   +") (ex_kpt "10" "0.75" "0.5" "0.125" "0.5").
Proof.
  apply (kr ($"  ") ($"  ") ($"   0.75   0.5   0.125   0.5") ($"   ") [newline] (ex_kpt "10" "0.75" "0.5" "0.125" "0.5"));
    try (apply blanks_of; vmr); try discriminate; [apply columns_of|apply all_fit_of]; vmr.
Qed.
Example C51_table_ex : laid kpt_row not_kpt ex_kpt_lines ex_kpts.
Proof.
  apply laid_other.
  { intros a g d r Ha Hg Hd E. assert (H : In d (ln "  +  Number       Fractional coordinates        Weight  +")).
    { rewrite E. apply in_or_app. right. right. apply in_or_app. right. now left. }
    assert (F : free_of "0123456789" (ln "  +  Number       Fractional coordinates        Weight  +")) by (apply free_of_b; vmr). exact (F d H Hd). }
  exact (laid_row _ _ _ _ _ _ ex_row9 (laid_row _ _ _ _ _ _ ex_row10 (laid_nil _ _))).
Qed.
Example C51_grid_ex : all_told kpt_rules
  (lns ["                  k-Points For BZ Sampling"; " MP grid size for SCF calculation is  4  4  3"; "         with an offset of   0.125  0.000 -0.250";
        " Number of kpoints used =            24"]%string)
  [(name "kpoint_mp_grid", VTuple [VInt 4; VInt 4; VInt 3]); (name "kpoint_mp_offset", vector [rd "0.125"; rd "0.000"; rd "-0.250"]);
   (name "num_kpoints", VInt 24)].
Proof.
  apply at_none. { repeat (apply told_later; [apply not_mentions_of; vmr|]). constructor. }
  apply at_some.
  { apply (told_this _ _ _ _ _ [rd "4"; rd "4"; rd "3"]); [apply mentions_of; vmr| |].
    - apply (number_line_of ($" MP grid size for SCF calculation is  ") (rd "4") [($"  ", rd "4"); ($"  ", rd "3")] [newline]); vmr.
    - apply (kp_ints [rd "4"; rd "4"; rd "3"]). repeat constructor. }
  apply at_some.
  { apply told_later; [apply not_mentions_of; vmr|]. apply (told_this _ _ _ _ _ [rd "0.125"; rd "0.000"; rd "-0.250"]); [apply mentions_of; vmr| |].
    - apply (number_line_of ($"         with an offset of   ") (rd "0.125") [($"  ", rd "0.000"); ($" ", rd "-0.250")] [newline]); vmr.
    - apply kp_floats, all_fit_of; vmr. }
  apply at_some; [|constructor].
  do 2 (apply told_later; [apply not_mentions_of; vmr|]). apply (told_this _ _ _ _ _ [rd "24"]); [apply mentions_of; vmr| |].
  - apply (number_line_of ($" Number of kpoints used =            ") (rd "24") [] [newline]); vmr.
  - apply (kp_int 0 _ (rd "24")); [reflexivity|repeat constructor].
Qed.
(** Each row of the table with all of its coordinates: both parts fail on that table. *)
Definition kpt_meant (k : kpt) : pyval :=
  VDict false [(name "qpt", vector [kp_x k; kp_y k; kp_z k]); (name "weight", float_of (kp_w k))].
Theorem C51_coordinate_refuted : exists ls k, laid kpt_row not_kpt ls [k] /\
  process_kpoint_blocks false ls = Ok [(name "points", VList [kpt_read k]); (name "num_kpoints", VInt 1)] /\ kpt_read k <> kpt_meant k.
Proof.
  exists [ln "  +   9   0.25  -0.5   0.125   0.5   +"], (ex_kpt "9" "0.25" "-0.5" "0.125" "0.5"). split; [|split; [vmr|]].
  - exact (laid_row _ _ _ _ _ _ ex_row9 (laid_nil _ _)).
  - intros E. apply (f_equal (fun v => match v with VDict _ [(_, VTuple [_; _; z]); _] => z | _ => VNone end)) in E. vm_compute in E. discriminate.
Qed.
Theorem C51_tenth_row_refuted : exists ls ks, laid kpt_row not_kpt ls ks /\ length ks = 2 /\
  exists v, process_kpoint_blocks false ls = Ok [(name "points", VList [v]); (name "num_kpoints", VInt 1)].
Proof. exists ex_kpt_lines, ex_kpts. split; [exact C51_table_ex|]. split; [reflexivity|]. eexists. vmr. Qed.

(** C52.  A table of bonds: one entry each, later ones replacing earlier ones of the
    same atoms; the spin is there when it is given and not zero. *)
Theorem C52_bonds ls bs : laid bond_row not_bond ls bs ->
  exists d, process_bond_analysis ls = Ok d /\ merged (map SpecCastep.bond_entry bs) d.
Proof. exact (bonds_block ls bs). Qed.
Print Assumptions C52_bonds.
Definition si := ($"Si", 1%Z).
Definition ox (i : Z) := ($"O", i).
Definition ex_bonds : list bond :=
  [{| b_from := si; b_to := ox 12; b_pop := rd "0.53"; b_spin := Some (rd "-0.02"); b_len := rd "1.61" |};
   {| b_from := si; b_to := ox 2; b_pop := rd "0.50"; b_spin := Some (rd "0.00"); b_len := rd "1.62" |};
   {| b_from := si; b_to := ox 3; b_pop := rd "0.51"; b_spin := None; b_len := rd "1.63" |}].
Definition ex_bond_lines : list str :=
  lns ["           Bond                   Population      Spin       Length (A)";
       "   Si  1  --   O 12     0.53      -0.02      1.61"; "   Si  1  --   O 2      0.50       0.00      1.62";
       "   Si  1  --   O 3      0.51       1.63"]%string.
Lemma ex_si : numbered_atom ($"Si  1") si.
Proof. apply (atom_of ($"Si") ($"  ") [d1]); try reflexivity. apply (el_of "S" ($"i")); [reflexivity..|cbn; lia]. Qed.
Lemma ex_o ds : ds <> [] -> numbered_atom ($"O" ++ $" " ++ write_digits ds) (ox (decimal ds)).
Proof. intros H. apply atom_of; try reflexivity; [|now destruct ds]. apply (el_of "O" []); [reflexivity..|cbn; lia]. Qed.
Example C52_bonds_ex : laid bond_row not_bond ex_bond_lines ex_bonds.
Proof.
  apply laid_other; [left; apply free_of_b; vmr|].
  apply laid_row.
  { apply (br ($"   ") ($"Si  1") ($"  ") ($"   ") ($"O 12") ($"     0.53      -0.02      1.61") [newline]).
    all: try (apply blanks_of; vmr). exact ex_si. apply (ex_o [d1; d2]); discriminate. apply columns_of; vmr. apply all_fit_of; vmr. }
  apply laid_row.
  { apply (br ($"   ") ($"Si  1") ($"  ") ($"   ") ($"O 2") ($"      0.50       0.00      1.62") [newline]).
    all: try (apply blanks_of; vmr). exact ex_si. apply (ex_o [d2]); discriminate. apply columns_of; vmr. apply all_fit_of; vmr. }
  apply laid_row; [|constructor].
  apply (br ($"   ") ($"Si  1") ($"  ") ($"   ") ($"O 3") ($"      0.51       1.63") [newline]).
  all: try (apply blanks_of; vmr). exact ex_si. apply (ex_o [d3]); discriminate. apply columns_of; vmr. apply all_fit_of; vmr.
Qed.
(** A spin that is given but zero is lost. *)
Theorem C52_zero_spin_refuted : exists ls b n, laid bond_row not_bond ls [b] /\ b_spin b = Some n /\
  exists p l, process_bond_analysis ls =
    Ok [(SpecDict.bond_key (b_from b, b_to b), VDict false [(name "population", p); (name "length", l)])].
Proof.
  exists [ln "   Si  1  --   O 2      0.50       0.00      1.62"],
    {| b_from := si; b_to := ox 2; b_pop := rd "0.50"; b_spin := Some (rd "0.00"); b_len := rd "1.62" |}, (rd "0.00").
  split; [|split; [reflexivity|do 2 eexists; vmr]]. apply laid_row; [|constructor].
  apply (br ($"   ") ($"Si  1") ($"  ") ($"   ") ($"O 2") ($"      0.50       0.00      1.62") [newline]).
  all: try (apply blanks_of; vmr). exact ex_si. apply (ex_o [d2]); discriminate. apply columns_of; vmr. apply all_fit_of; vmr.
Qed.

(** C53.  A stress block: its kind, and xx, xy, xz, yy, yz, zz. *)
Theorem C53_stresses l k ls t : title_line "stress tensor" l k -> tensor_lines t ls -> tensor_ok t ->
  process_stresses (l :: ls) = Ok (k, tensor_value t).
Proof. exact (stresses_block l ls k t). Qed.
Print Assumptions C53_stresses.
Definition ex_tensor : tensor :=
  {| t_xx := rd "1.5"; t_xy := rd "0.25"; t_xz := rd "-2.0"; t_yx := rd "0.25"; t_yy := rd "3.0"; t_yz := rd "4.0";
     t_zx := rd "-2.0"; t_zy := rd "4.0"; t_zz := rd "-5.125" |}.
Lemma title_of what a st g nm kw g' st' b : forallb is_space (a ++ g ++ g' ++ b) = true -> isempty st = false -> isempty st' = false ->
  forallb (Ascii.eqb "*") (st ++ st') = true -> forallb (fun c => is_alpha c || Ascii.eqb " " c) nm = true ->
  is_space (hd "x"%char nm) = false -> lower kw = $what -> nm <> [] ->
  title_line what (a ++ st ++ g ++ nm ++ kw ++ g' ++ st' ++ b) (normalise_key nm).
Proof.
  rewrite !forallb_app, !andb_true_iff. intros (Ha & Hg & Hg' & Hb) Hs Hs' (Ht & Ht') Hn Hh Hk H1.
  assert (S : forall u, isempty u = false -> forallb (Ascii.eqb "*") u = true -> SpecCastep.stars u).
  { intros u Hu H. split; [now destruct u|]. intros c Hc. rewrite forallb_forall in H. specialize (H c Hc). apply Ascii.eqb_eq in H. now symmetry. }
  apply tl; try (now apply blanks_of); auto.
  - intros c Hc. rewrite forallb_forall in Hn. specialize (Hn c Hc). apply orb_true_iff in Hn as [Hn|Hn].
    + left. revert Hn. unfold is_alpha, SpecCell.letter. rewrite orb_true_iff. unfold is_upper, is_lower. rewrite !in_range_iff. tauto.
    + right. apply Ascii.eqb_eq in Hn. now symmetry.
  - intros c t ->. cbn in Hh. intros K. apply blank_iff in K. congruence.
  - destruct (normalise_key_words nm) as (ws & H & _ & ->). now constructor.
Qed.
Example C53_stresses_ex :
  title_line "stress tensor" (ln " ****************** Symmetrised Stress Tensor ******************") ($"symmetrised") /\
  tensor_lines ex_tensor
    (lns [" *                 Cartesian components (GPa)                  *"; " *             x             y             z                  *";
          " *  x       1.5         0.25          -2.0        *"; " *  y      0.25          3.0           4.0        *";
          " *  z      -2.0          4.0        -5.125        *"; " *  Pressure:  -0.1     *"]%string) /\ tensor_ok ex_tensor.
Proof.
  split; [|split; [|apply all_fit_of; vmr]].
  - apply (title_of "stress tensor" ($" ") ($"******************") ($" ") ($"Symmetrised ") ($"Stress Tensor") ($" ") ($"******************") [newline]);
      try vmr. discriminate.
  - assert (U : forall l, forallb (fun v => negb (contains ($v) l)) labels = true -> unlabelled l).
    { intros l H v Hv. rewrite forallb_forall in H. apply not_mentions_of, negb_true_iff, H, Hv. }
    assert (O : forall w l, forallb (fun v => Bool.eqb (contains ($v) l) (String.eqb v w)) labels = true -> only_mentions w l).
    { intros w l H v Hv. rewrite forallb_forall in H. specialize (H v Hv). apply eqb_prop in H. rewrite <- String.eqb_eq, <- H.
      split; [apply mentions_iff|apply mentions_of]. }
    apply (tls ex_tensor (lns [" *                 Cartesian components (GPa)                  *"; " *             x             y             z                  *"]%string)
      (ln " *  x       1.5         0.25          -2.0        *") [] (ln " *  y      0.25          3.0           4.0        *") []
      (ln " *  z      -2.0          4.0        -5.125        *") (lns [" *  Pressure:  -0.1     *"]%string)).
    all: try (apply O; vmr). all: try (repeat constructor; apply U; vmr).
    + apply (number_line_of ($" *  x       ") (rd "1.5") [($"         ", rd "0.25"); ($"          ", rd "-2.0")] (ln "        *")); vmr.
    + apply (number_line_of ($" *  y      ") (rd "0.25") [($"          ", rd "3.0"); ($"           ", rd "4.0")] (ln "        *")); vmr.
    + apply (number_line_of ($" *  z      ") (rd "-2.0") [($"          ", rd "4.0"); ($"        ", rd "-5.125")] (ln "        *")); vmr.
Qed.

(** C54.  A table of phonons: every q-point with the columns of its modes, whether
    it was listed before or not. *)
Theorem C54_phonons ls qs : phonon_lines ls qs -> process_phonon ls = Ok (map qpoint qs).
Proof. exact (phonon_block ls qs). Qed.
Print Assumptions C54_phonons.
Definition ex_q : list num := [rd "0.0"; rd "0.0"; rd "0.5"].
Definition ex_mode (no f : string) ir fl : mode :=
  {| m_no := map digit_of ($no); m_freq := rd f; m_irrep := Some "a"%char; m_ir := ir; m_raman := None; m_raman_flag := fl |}.
Definition ex_modes : list mode := [ex_mode "1" "-0.026" (Some (rd "0.5", Some "N"%char)) (Some "Y"%char); ex_mode "12" "514.75" None None].
Definition wordedb (l : str) : bool :=
  match l, drop_while is_space l with
  | x :: _, p :: r => is_space x && Ascii.eqb p "+" && match drop_while is_space r with (c :: _) as w => negb (is_digit c) && negb (startswith ($"q-pt=") w) | [] => false end
  | _, _ => false
  end.
Lemma worded_b l : wordedb l = true -> worded l.
Proof.
  unfold wordedb. destruct l as [|x l]; [discriminate|]. destruct (drop_while is_space (x :: l)) as [|p r] eqn:E; [discriminate|]. intros H. apply andb_true_iff in H as [H H3].
  apply andb_true_iff in H as [H1 H2]. apply Ascii.eqb_eq in H2. subst p. destruct (drop_while is_space r) as [|c w] eqn:E2; [discriminate|]. apply andb_true_iff in H3 as [H3 H4].
  exists (take_while is_space (x :: l)), (take_while is_space r), c, w. split; [now rewrite <- E2, take_drop_while, <- E, take_drop_while|].
  split; [split; [apply blanks_iff, take_while_all|cbn; rewrite H1; discriminate]|]. split; [apply blanks_iff, take_while_all|].
  split; [intros B; apply blank_iff in B; pose proof (drop_while_hd is_space r) as D; rewrite E2 in D; cbn in D; congruence|].
  split; [intros A; apply negb_true_iff in H3; cbn in A; intuition (subst; discriminate)|].
  intros B. apply BandsFacts.begins_iff in B. apply negb_true_iff in H4. congruence.
Qed.
Definition ex_q_lines : list str :=
  lns [" +  q-pt=    1 (  0.0  0.0  0.5)     0.125    +"; " +   Acoustic sum rule correction <  3.7 cm-1   +";
       " +     1     -0.026    a     0.5  N        Y  +"; " +    12     514.75    a        +"]%string.
Lemma fixed_of n : okb n && match n_exp n with None => true | _ => false end && match n_frac n with None => false | _ => true end = true -> fixed n.
Proof.
  intros H. apply andb_true_iff in H as [H H2]. apply andb_true_iff in H as [H H1]. split; [now apply ok_of|].
  split; [now destruct (n_exp n)|now destruct (n_frac n)].
Qed.
Lemma ex_title : qpt_line (ln " +  q-pt=    1 (  0.0  0.0  0.5)     0.125    +") ex_q.
Proof.
  apply (ql ($" ") ($"  ") ($"    ") [d1] ($" ") ($"  0.0  0.0  0.5") ($"     ") (rd "0.125") ($"    ") [newline]).
  all: try (apply gap_of; vmr). all: try (apply blanks_of; vmr). all: try discriminate.
  apply columns_of; vmr. reflexivity. apply all_fit_of; vmr. apply fixed_of; vmr.
Qed.
Lemma ex_mode_lines : laid mode_line not_phonon
  (lns [" +   Acoustic sum rule correction <  3.7 cm-1   +"; " +     1     -0.026    a     0.5  N        Y  +"; " +    12     514.75    a        +"]%string) ex_modes.
Proof.
  apply laid_other. { split; [right; right; apply worded_b; vmr|apply not_mentions_of; vmr]. }
  apply laid_row.
  { apply (mdl ($" ") ($"     ") ($"     ") ($"    ") ($"a     ") ($"0.5  N        ") ($"Y  ") [newline] (ex_mode "1" "-0.026" (Some (rd "0.5", Some "N"%char)) (Some "Y"%char))).
    all: try (apply gap_of; vmr). discriminate. apply fixed_of; vmr. apply fits_of; vmr.
    - apply (if_some "a" ($"     ")); [left; vm_compute; split; discriminate|apply gap_of; vmr].
    - apply (nf_some (rd "0.5") ($"  ") (Some "N"%char) ($"N        ")); [apply fixed_of; vmr|apply fits_of; vmr|apply gap_of; vmr|].
      apply (ff_some "N" ($"        ")); [vm_compute; tauto|apply gap_of; vmr].
    - apply rf_none. apply (ff_some "Y" ($"  ")); [vm_compute; tauto|apply gap_of; vmr].
    - intros _. reflexivity.
    - intros _ _. discriminate.
    - now apply end_of. }
  apply laid_row; [|constructor].
  apply (mdl ($" ") ($"    ") ($"     ") ($"    ") ($"a        ") [] [] [newline] (ex_mode "12" "514.75" None None)).
  all: try (apply gap_of; vmr). discriminate. apply fixed_of; vmr. apply fits_of; vmr.
  - apply (if_some "a" ($"        ")); [left; vm_compute; split; discriminate|apply gap_of; vmr].
  - constructor.
  - constructor. constructor.
  - intros _. reflexivity.
  - intros _ H. now elim H.
  - now apply end_of.
Qed.
Lemma ex_phonons more qs : phonon_lines more qs -> phonon_lines (ex_q_lines ++ more) ((ex_q, ex_modes, []) :: qs).
Proof.
  intros H. exact (phl_q _ _ _ _ _ _ ex_title ex_mode_lines H).
Qed.
Definition ex_table : list str := lns [
  " +  Rep  Mul |    E  2'   2  4                            +"; " +           | ----------------------------------------     +";
  " + a Eu    1 |    2   0  -2  0                            +"; " + b A2u new  12 |    1  -1   1   1                       +";
  " ++ ------------------- +"; " + something else +"; " + ---------------------------------------------------------- +"]%string.
Definition ex_row (cs : list (string * Z)) (mul : Z) (rep : string) (nm : list (key * pyval)) : pyval :=
  VDict false ([(name "chars", VTuple (map (fun x => VTuple [VStr ($(fst x)); VInt (snd x)]) cs)); (name "mul", VInt mul); (name "rep", VStr ($rep))] ++ nm).
Definition ex_rows : list pyval :=
  [ex_row [("E", 2); ("2'", 0); ("2", -2); ("4", 0)]%Z%string 1 "a" [(name "name", VStr ($"Eu"))]; ex_row [("E", 1); ("2'", -1); ("2", 1); ("4", 1)]%Z%string 12 "b" [(name "name", VStr ($"A2u"))]].
Lemma not_stop_b l : char_stop l = false -> ~ table_stop l.
Proof. intros H S. apply stop_iff in S. congruence. Qed.
Lemma not_end_b l : re_test CHAR_END_RE l = false -> ~ table_end l.
Proof. intros H S. apply end_iff in S. congruence. Qed.
Lemma char_as hs l l' v v' : char_line hs l v -> l = l' -> v = v' -> char_line hs l' v'.
Proof. intros H <- <-. exact H. Qed.
Lemma ex_char_lines : char_lines ex_table ex_rows.
Proof.
  apply (cht_table _ [$"E"; $"2'"; $"2"; $"4"; $"+"] _ (lns [" + a Eu    1 |    2   0  -2  0                            +"; " + b A2u new  12 |    1  -1   1   1                       +"]%string) ex_rows
    (lns [" ++ ------------------- +"; " + something else +"]%string)).
  - apply (cht ($" +  ") ($"  ") (ln " |    E  2'   2  4                            +") _ ($"+") ($"Rep") ($"Mul") ($"|")); [right; right; apply worded_b; vmr|vmr|apply gap_of; vmr|apply cut_of; vmr].
  - constructor; [|constructor; [|constructor]].
    + eapply char_as; [apply (chl _ ($" + a Eu    1 ") (ln "    2   0  -2  0                            +") ($"+") ($"a") [$"Eu"] (rd "1") (map rd ["2"; "0"; "-2"; "0"]%string) ($"+"))|vmr|vmr].
      all: try (cbn; intuition discriminate). all: try (apply cut_of; vmr).
      * apply not_stop_b; vmr.
      * apply wf_of; vmr.
      * split; reflexivity.
      * apply (forall_of _ _ _ wf_of); vmr.
      * repeat constructor.
    + eapply char_as; [apply (chl _ ($" + b A2u new  12 ") (ln "    1  -1   1   1                       +") ($"+") ($"b") [$"A2u"; $"new"] (rd "12") (map rd ["1"; "-1"; "1"; "1"]%string) ($"+"))|vmr|vmr].
      all: try (cbn; intuition discriminate). all: try (apply cut_of; vmr).
      * apply not_stop_b; vmr.
      * apply wf_of; vmr.
      * split; reflexivity.
      * apply (forall_of _ _ _ wf_of); vmr.
      * repeat constructor.
  - intros y r E. injection E as <- _. apply stop_iff. vmr.
  - repeat (apply Forall_cons; [apply not_end_b; vmr|]). constructor.
  - apply end_iff. vmr.
Qed.
Example C54_phonons_ex : phonon_lines (ln " title" :: ex_q_lines ++ ex_q_lines) [(ex_q, ex_modes, []); (ex_q, ex_modes, [])].
Proof.
  apply phl_other. { split; [left; apply free_of_b; vmr|apply not_mentions_of; vmr]. }
  apply ex_phonons. rewrite <- (app_nil_r ex_q_lines). apply ex_phonons. constructor.
Qed.
Example C54_tables_ex : phonon_lines (ex_q_lines ++ ex_table ++ ex_q_lines) [(ex_q, ex_modes, ex_rows); (ex_q, ex_modes, [])] /\
  process_phonon (ex_q_lines ++ ex_table ++ ex_q_lines) = Ok (map qpoint [(ex_q, ex_modes, ex_rows); (ex_q, ex_modes, [])]).
Proof.
  assert (H : phonon_lines (ex_q_lines ++ ex_table ++ ex_q_lines) [(ex_q, ex_modes, ex_rows); (ex_q, ex_modes, [])]).
  { apply (phl_table _ _ _ _ _ _ _ _ ex_title ex_mode_lines ex_char_lines). rewrite <- (app_nil_r ex_q_lines). apply ex_phonons. constructor. }
  split; [exact H|exact (C54_phonons _ _ H)].
Qed.
(** A q-point listed twice is returned twice. *)
Theorem C54_repeats_refuted : exists ls b, phonon_lines ls [b; b] /\ process_phonon ls = Ok [qpoint b; qpoint b].
Proof.
  exists (ln " title" :: ex_q_lines ++ ex_q_lines), (ex_q, ex_modes, []). split; [exact C54_phonons_ex|]. exact (C54_phonons _ _ C54_phonons_ex).
Qed.

(** C64.  Positions and velocities: a vector for each atom. *)
Theorem C64_vectors ls rows : laid vector_row plain ls rows ->
  exists d, process_atreg_block ls = Ok d /\ merged (map vector_entry rows) d.
Proof. exact (atreg_block ls rows). Qed.
Print Assumptions C64_vectors.
Example C64_vectors_ex : laid vector_row plain
  (lns ["  x  Element   Atom   Fractional coordinates of atoms  x"; "  x  Si  1     0.25   -1.5  1.0E-3    x"; "xxxxxxxxxxx"]%string)
  [(si, [rd "0.25"; rd "-1.5"; rd "1.0E-3"])].
Proof.
  apply laid_other; [left; apply free_of_b; vmr|]. apply laid_row; [|apply laid_other; [left; apply free_of_b; vmr|constructor]].
  apply (vr ($"  x  ") ($"Si  1") si ($"     0.25   -1.5  1.0E-3") _ (ln "    x")).
  apply no_caps_of; vmr. apply edge_of; vmr. exact ex_si. apply columns_of; vmr. reflexivity. now apply end_of. apply all_fit_of; vmr.
Qed.

(** C65.  Forces: the kind of forces, and a vector for each atom, remarks in
    parentheses left out. *)
Theorem C65_forces l k ls rows : title_line "forces" l k -> laid force_row plain ls rows ->
  exists d, process_forces (l :: ls) = Ok (k, d) /\ merged (map vector_entry rows) d.
Proof. exact (forces_block l ls k rows). Qed.
Print Assumptions C65_forces.
Example C65_forces_ex :
  title_line "forces" (ln " ******* Constrained Symmetrised Forces *******") ($"constrained_symmetrised") /\
  laid force_row plain (lns [" *  Element  Atom   Cartesian components (eV/A)  *"; " *  Si  1   0.5(mixed) -0.25  0.125 (cons'd)  *"]%string)
    [(si, [rd "0.5"; rd "-0.25"; rd "0.125"])].
Proof.
  split.
  - apply (title_of "forces" ($" ") ($"*******") ($" ") ($"Constrained Symmetrised ") ($"Forces") ($" ") ($"*******") [newline]); try vmr. discriminate.
  - apply laid_other; [left; apply free_of_b; vmr|]. apply laid_row; [|constructor].
    apply (fr ($" *  ") ($"Si  1") si ($"   0.5(mixed) -0.25  0.125 (cons'd)") _ (ln "  *")).
    apply no_caps_of; vmr. apply edge_of; vmr. exact ex_si. 2: reflexivity. 2: now apply end_of. 3: apply all_fit_of; vmr.
    + apply (rm_cons ($"   ") (rd "0.5") ($"(mixed)") _ ($" -0.25  0.125 (cons'd)")).
      apply blanks_of; vmr. discriminate. apply ok_of; vmr.
      { right. exists [], ($"mixed"). split; [reflexivity|]. split; [now apply blanks_of|]. split; [discriminate|]. intros K; repeat (destruct K as [K|K]; [discriminate|]); exact K. }
      apply (rm_cons ($" ") (rd "-0.25") [] _ ($"  0.125 (cons'd)")).
      apply blanks_of; vmr. discriminate. apply ok_of; vmr. now left.
      apply (rm_cons ($"  ") (rd "0.125") ($" (cons'd)") _ []).
      apply blanks_of; vmr. discriminate. apply ok_of; vmr.
      { right. exists ($" "), ($"cons'd"). split; [reflexivity|]. split; [now apply blanks_of|]. split; [discriminate|]. intros K; repeat (destruct K as [K|K]; [discriminate|]); exact K. }
      constructor.
    + intros g t E K. assert (In "("%char (ln "  *")) as H by (rewrite E; apply in_or_app; right; now left).
      repeat (destruct H as [H|H]; [discriminate|]). exact H.
Qed.
