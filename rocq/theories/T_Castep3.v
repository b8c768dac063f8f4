(** Property theorems C78: the blocks of .castep files that have a row for every atom. *)
From Verif Require Import PyBase PyFacts PyVal Regex CastepRes NumSpec SpecLine SpecTable SpecStr SpecBands SpecDict SpecMd SpecCastep SpecCastep2 SpecCastep3
  BandsFacts TextParsersFacts StrUtilFacts NumProps ColumnFacts MdFacts CastepBlocks CastepNum CastepRows CastepFacts Castep2Facts Castep3Facts ExampleTools ExampleTools2.
From Verif Require Import T_Castep.
Local Open Scope list_scope.
Local Open Scope nat_scope.

(** Deciders for the Examples. *)
Definition digs (s : string) : list digit := map digit_of (list_ascii_of_string s).
Definition elementb (s : str) : bool := match s with c :: r => is_upper c && (forallb is_lower r && (length r <=? 2)) | [] => false end.
Lemma element_of s : elementb s = true -> species s.
Proof.
  destruct s as [|c r]; [discriminate|]. intros H. apply andb_true_iff in H as [H1 H]. apply andb_true_iff in H as [H2 H3]. apply Nat.leb_le in H3. now apply el_of.
Qed.
Definition at_text (sp g i : string) : str := $sp ++ $g ++ write_digits (digs i).
Definition at_name (sp i : string) : atom := ($sp, decimal (digs i)).
Lemma at_of sp g i : elementb ($sp) && forallb is_space ($g) && negb (isempty ($g)) && negb (isempty (digs i)) = true -> numbered_atom (at_text sp g i) (at_name sp i).
Proof.
  intros H. apply andb_true_iff in H as [H H4]. apply andb_true_iff in H as [H H3]. apply andb_true_iff in H as [H1 H2].
  constructor; [now apply element_of|now apply blanks_of|now apply ne_nil|now apply ne_nil].
Qed.
Lemma plain_b l : freeb "0123456789" l || no_capsb l = true -> plain l.
Proof. intros H. apply orb_true_iff in H as [H|H]; [left; now apply free_of_b|right; now apply no_caps_of]. Qed.
Lemma lacking_b cs l : freeb "0123456789" l || freeb cs l = true -> lacking cs l.
Proof. intros H. apply orb_true_iff in H as [H|H]; [left|right]; now apply free_of_b. Qed.
Lemma words_b ns l : split l = map write_num ns -> forallb okb ns && forallb fitsb ns = true -> words_are ns l.
Proof.
  intros E H. apply andb_true_iff in H as [H1 H2]. split; [now apply cut_of|]. split; [exact (forall_of _ _ _ ok_of H1)|exact (forall_of _ _ _ fits_of H2)].
Qed.
Ltac row_as t := lazymatch goal with |- ?R ?l ?r => refine (eq_rect t (fun z => R z r) _ l _); [|vmr] end.
Ltac item_as t := lazymatch goal with |- ?R ?l ?r => refine (eq_rect t (fun z => R z r) _ l _); [|vmr] end.
Ltac piece := first [apply gap_b; vmr|apply blanks_of; vmr|apply at_of; vmr|apply fixed_of; vmr|apply fits_of; vmr|apply ok_of; vmr|apply fit_of; vmr|apply columns_of; vmr
  |apply end_of; vmr|apply plain_b; vmr|apply lacking_b; vmr|apply nl_of; vmr|apply words_b; vmr|reflexivity|discriminate].

(** C78.  Hirshfeld charges: each row is an atom and its charge. *)
Theorem C78_hirshfeld ls rows : laid charge_row plain ls rows -> exists d, process_hirshfeld ls = Ok d /\ merged (map charge_entry rows) d.
Proof. exact (hirshfeld_spec ls rows). Qed.
Print Assumptions C78_hirshfeld.
Example C78_hirshfeld_ex : laid charge_row plain
  (lns ["     Hirshfeld Analysis"; "Species   Ion     Hirshfeld Charge (e)"; "======================================";
        "  H        1                -1.00"; "  F        12               17.00"; "======"]%string)
  [(at_name "H" "1", rd "-1.00"); (at_name "F" "12", rd "17.00")].
Proof.
  do 3 (apply laid_other; [piece|]).
  apply laid_row. { row_as ($"  " ++ at_text "H" "        " "1" ++ $"                " ++ write_num (rd "-1.00") ++ [newline]). constructor; piece. }
  apply laid_row. { row_as ($"  " ++ at_text "F" "        " "12" ++ $"               " ++ write_num (rd "17.00") ++ [newline]). constructor; piece. }
  apply laid_other; [piece|constructor].
Qed.

(** Initial spins. *)
Theorem C78_initial_spins ls rows : laid SpecCastep3.spin_row (lacking "|") ls rows ->
  exists d, process_initial_spins ls = Ok d /\ merged (map spin_entry rows) d.
Proof. exact (spins_spec ls rows). Qed.
Print Assumptions C78_initial_spins.
Example C78_initial_spins_ex : laid SpecCastep3.spin_row (lacking "|")
  (lns ["         |  Element    Atom         Initial            Initial magnetic       |";
        "         | Cr             1         0.500000              3.000       F       |";
        "         | Cr             2        -0.500000             -3.000       T       |"; "   xxxxx"]%string)
  [(at_name "Cr" "1", rd "0.500000", rd "3.000", false); (at_name "Cr" "2", rd "-0.500000", rd "-3.000", true)].
Proof.
  apply laid_other; [piece|].
  apply laid_row. { refine (spin_ ($"         ") ($" ") (at_text "Cr" "             " "1") (at_name "Cr" "1") ($"         0.500000              3.000") _ _ ($"       ") false ($"       ") [newline] _ _ _ _ _ _ _); piece. }
  apply laid_row. { refine (spin_ ($"         ") ($" ") (at_text "Cr" "             " "2") (at_name "Cr" "2") ($"        -0.500000             -3.000") _ _ ($"       ") true ($"       ") [newline] _ _ _ _ _ _ _); piece. }
  apply laid_other; [piece|constructor].
Qed.

(** Born charges: each atom, with its label, has a row and the two lines after it. *)
Theorem C78_born ls es : in_turn born_item ls es -> exists d, process_born ls = Ok d /\ merged es d.
Proof. exact (born_spec ls es). Qed.
Print Assumptions C78_born.
Definition born_value (xs : list (list string)) : pyval := VTuple (map (fun r => vector (nums r)) xs).
Example C78_born_ex : in_turn born_item
  (lns ["                   Born Effective Charges"; "   Si      1        -2.01676     0.00000    -0.00000 ID=geoff";
        "                     0.00000    -3.01676    -0.00000"; "                     0.00000    -0.00000    -4.01676";
        "   Si      2        -5.01676     0.00000    -0.00000"; "   0.00000    -6.01676    -0.00000"; "  0.00000    -0.00000    -7.01676"]%string)
  [(SpecDict.atom_key ($"Si [geoff]", 1%Z), born_value [["-2.01676"; "0.00000"; "-0.00000"]; ["0.00000"; "-3.01676"; "-0.00000"]; ["0.00000"; "-0.00000"; "-4.01676"]]%string);
   (SpecDict.atom_key ($"Si", 2%Z), born_value [["-5.01676"; "0.00000"; "-0.00000"]; ["0.00000"; "-6.01676"; "-0.00000"]; ["0.00000"; "-0.00000"; "-7.01676"]]%string)].
Proof.
  apply (it_cons _ (lns ["                   Born Effective Charges"]%string) []); [constructor; piece|].
  apply (it_cons _ (lns ["   Si      1        -2.01676     0.00000    -0.00000 ID=geoff";
        "                     0.00000    -3.01676    -0.00000"; "                     0.00000    -0.00000    -4.01676"]%string) [_]).
  { item_as [$"   " ++ at_text "Si" "      " "1" ++ $"        -2.01676     0.00000    -0.00000" ++ ($" " ++ text_of "ID=" ++ $"geoff" ++ [newline]);
             ln "                     0.00000    -3.01676    -0.00000"; ln "                     0.00000    -0.00000    -4.01676"].
    refine (bi_row ($"   ") (at_text "Si" "      " "1") (at_name "Si" "1") _ (nums ["-2.01676"; "0.00000"; "-0.00000"]%string) _ (Some ($"geoff")) _
      (nums ["0.00000"; "-3.01676"; "-0.00000"]%string) _ (nums ["0.00000"; "-0.00000"; "-4.01676"]%string) _ _ _ _ _ _ _ _ _); try piece.
    - repeat constructor; piece.
    - constructor; try piece. intros c Hc B. cbn in Hc. apply blank_iff in B. decompose [or] Hc; subst; try discriminate; tauto. }
  apply (it_cons _ [_; _; _] [_] [] []); [|constructor].
  item_as [$"   " ++ at_text "Si" "      " "2" ++ $"        -5.01676     0.00000    -0.00000" ++ [newline]; ln "   0.00000    -6.01676    -0.00000"; ln "  0.00000    -0.00000    -7.01676"].
  refine (bi_row ($"   ") (at_text "Si" "      " "2") (at_name "Si" "2") _ (nums ["-5.01676"; "0.00000"; "-0.00000"]%string) _ None _
      (nums ["0.00000"; "-6.01676"; "-0.00000"]%string) _ (nums ["0.00000"; "-0.00000"; "-7.01676"]%string) _ _ _ _ _ _ _ _ _); try piece.
  - repeat constructor; piece.
  - constructor; [|piece]. intros g r Hg E. destruct g as [|x [|y g]]; [discriminate E|discriminate E|]. apply (f_equal (@length ascii)) in E. cbn in E. lia.
Qed.

(** Displacements: kept under the temperature, as it is written, and the atom. *)
Theorem C78_displacements ls rows : laid disp_row (no_row 6) ls rows -> exists d, process_atom_disp ls = Ok d /\ nested rows d.
Proof. exact (atom_disp_spec ls rows). Qed.
Print Assumptions C78_displacements.
Definition ex_u (s : string) : list num := nums [s; s; s; "0.000000"; "0.000000"; "-0.000000"]%string.
Example C78_displacements_ex : laid disp_row (no_row 6)
  (lns ["      T(K)  Ion        U11       U22       U33       U23       U31       U12";
        "       0.0  Si 1     0.002399  0.002399  0.002399  0.000000  0.000000 -0.000000";
        "       0.0  Si 2     0.003009  0.003009  0.003009  0.000000  0.000000 -0.000000";
        "     100.0  Si 2     0.005009  0.005009  0.005009  0.000000  0.000000 -0.000000"; " -----"]%string)
  [(KStr (write_num (rd "0.0")), (Some (SpecDict.atom_key (at_name "Si" "1")), vector (ex_u "0.002399")));
   (KStr (write_num (rd "0.0")), (Some (SpecDict.atom_key (at_name "Si" "2")), vector (ex_u "0.003009")));
   (KStr (write_num (rd "100.0")), (Some (SpecDict.atom_key (at_name "Si" "2")), vector (ex_u "0.005009")))].
Proof.
  apply laid_other; [right; apply no_cols_of; vmr|].
  apply laid_row. { refine (dsp ($"       ") (rd "0.0") ($"  ") (at_text "Si" " " "1") (at_name "Si" "1") ($"     0.002399  0.002399  0.002399  0.000000  0.000000 -0.000000") (ex_u "0.002399") [newline] _ _ _ _ _ _ _ _); piece. }
  apply laid_row. { refine (dsp ($"       ") (rd "0.0") ($"  ") (at_text "Si" " " "2") (at_name "Si" "2") ($"     0.003009  0.003009  0.003009  0.000000  0.000000 -0.000000") (ex_u "0.003009") [newline] _ _ _ _ _ _ _ _); piece. }
  apply laid_row. { refine (dsp ($"     ") (rd "100.0") ($"  ") (at_text "Si" " " "2") (at_name "Si" "2") ($"     0.005009  0.005009  0.005009  0.000000  0.000000 -0.000000") (ex_u "0.005009") [newline] _ _ _ _ _ _ _ _); piece. }
  apply laid_other; [left; piece|constructor].
Qed.
(** So the temperatures are not the keys that other tables have: they stay text. *)
Theorem C78_displacements_text ls rows d k v : laid disp_row (no_row 6) ls rows -> process_atom_disp ls = Ok d -> In (k, v) d -> exists n, k = KStr (write_num n).
Proof. exact (atom_disp_text ls rows d k v). Qed.
Print Assumptions C78_displacements_text.

(** Mulliken populations: one line, or one for each spin. *)
Theorem C78_mulliken ls es : in_turn popn_item ls es -> exists d, process_mulliken ls = Ok d /\ merged es d.
Proof. exact (popn_spec ls es). Qed.
Print Assumptions C78_mulliken.
Definition ex_plain : key * pyval := (SpecDict.atom_key (at_name "Si" "1"), VDict false ((name "spin_sep", VBool false) ::
  named_floats shells (nums ["1.319"; "2.681"; "0.000"; "7.000"; "4.000"]%string) ++ [(name "charge", SpecCastep.float_of (rd "0.500")); (name "spin", VNone)])).
Definition ex_split : key * pyval := (SpecDict.atom_key (at_name "Cr" "1"), VDict false ([(name "spin_sep", VBool true); (name "charge", SpecCastep.float_of (rd "-0.125")); (name "spin", SpecCastep.float_of (rd "1.653"))] ++
  named_floats (map (append "up_") shells) (nums ["0.398"; "0.037"; "3.391"; "0.000"; "3.826"]%string) ++
  named_floats (map (append "dn_") shells) (nums ["0.341"; "0.097"; "1.735"; "0.000"; "2.174"]%string) ++ [(name "total", exact (num_value (rd "3.826") + num_value (rd "2.174"))%Q)])).
Example C78_mulliken_ex : in_turn popn_item
  (lns ["Species          Ion Spin      s       p       d       f      Total   Charge(e)   Spin(hbar/2)";
        "  Si              1     1.319   2.681   0.000   7.000   4.000     0.500";
        "  Cr              1   up:     0.398   0.037   3.391   0.000   3.826    -0.125        1.653";
        "                  1   dn:     0.341   0.097   1.735   0.000   2.174"]%string) [ex_plain; ex_split].
Proof.
  apply (it_cons _ [_] []); [constructor; right; apply no_cols_of; vmr|].
  apply (it_cons _ [_] [_]).
  { refine (pi_plain ($"  ") (at_text "Si" "              " "1") (at_name "Si" "1") ($"     1.319   2.681   0.000   7.000   4.000     0.500")
      (nums ["1.319"; "2.681"; "0.000"; "7.000"; "4.000"]%string) (rd "0.500") None [newline] _ _ _ _ _ _); piece. }
  apply (it_cons _ [_; _] [_] [] []); [|constructor].
  refine (pi_split ($"  ") (at_text "Cr" "              " "1") (at_name "Cr" "1") ($"   ") ($"     0.398   0.037   3.391   0.000   3.826    -0.125        1.653")
    (nums ["0.398"; "0.037"; "3.391"; "0.000"; "3.826"]%string) (rd "-0.125") (Some (rd "1.653")) [newline] ($"                  ") (digs "1") ($"   ")
    ($"     0.341   0.097   1.735   0.000   2.174") (nums ["0.341"; "0.097"; "1.735"; "0.000"; "2.174"]%string) [newline] (rd "3.826") (rd "2.174") _ _ _ _ _ _ _ _ _ _ _ _ _ _ _ _); piece.
Qed.

(** Magnetic resonance: each kind of table. *)
Theorem C78_magres task ls rows : laid (SpecCastep3.magres_row task) (not_magres task) ls rows ->
  exists d, parse_magres_block task ls = Ok ((name "task", VStr (text_of (magres_name task))) :: d) /\ merged (map (magres_entry task) rows) d.
Proof. exact (magres_spec task ls rows). Qed.
Print Assumptions C78_magres.
Ltac mgpiece := first [piece|solve [intros c []]|congruence|constructor; [piece|apply (ay_num (rd "0.00")); piece]|constructor; [piece|apply ay_none]|constructor
  |let c := fresh in let Hc := fresh in intros c Hc; cbn in Hc; decompose [or] Hc; subst; first [reflexivity|tauto]].
Example C78_magres_shielding_ex : laid (SpecCastep3.magres_row 0) (not_magres 0)
  (lns ["  |  Species            Ion            Iso(ppm)   Aniso(ppm)  Asym   |";
        "  |    C                1              162.01     175.31      0.00   |"; "  |    C                2              162.00     175.31      N/A    |"]%string)
  [{| mr_atom := at_name "C" "1"; mr_before := nums ["162.01"; "175.31"]%string; mr_asym := Some (Asym (rd "0.00")); mr_after := [] |};
   {| mr_atom := at_name "C" "2"; mr_before := nums ["162.00"; "175.31"]%string; mr_asym := Some NoAsym; mr_after := [] |}].
Proof.
  apply laid_other; [left; piece|].
  apply laid_row. { refine (mgr 0 ($"  ") [] ($"    ") (at_text "C" "                " "1") ($"              162.01     175.31") ($"      " ++ $"0.00") [] ($"   ") [newline]
    {| mr_atom := at_name "C" "1"; mr_before := nums ["162.01"; "175.31"]%string; mr_asym := Some (Asym (rd "0.00")); mr_after := [] |} _ _ _ _ _ _ _ _ _ _ _ _ _); mgpiece. }
  apply laid_row; [|constructor].
  refine (mgr 0 ($"  ") [] ($"    ") (at_text "C" "                " "2") ($"              162.00     175.31") ($"      " ++ $"N/A") [] ($"    ") [newline]
    {| mr_atom := at_name "C" "2"; mr_before := nums ["162.00"; "175.31"]%string; mr_asym := Some NoAsym; mr_after := [] |} _ _ _ _ _ _ _ _ _ _ _ _ _); mgpiece.
Qed.
Example C78_magres_coupling_ex : laid (SpecCastep3.magres_row 3) (not_magres 3)
  (lns ["  |  Species          Ion     FC           SD         PARA       DIA       TOT(Hz) |"; "  |** C                 1     --.--       --.--       --.--      --.--       --.-- |";
        "  |   C                 2    128.25        3.20       -1.22      -0.48      129.75 |"; "  |** H                 2    1.25        3.20       -1.22      -0.48      1.75 |"]%string)
  [{| mr_atom := at_name "C" "2"; mr_before := nums ["128.25"; "3.20"; "-1.22"; "-0.48"; "129.75"]%string; mr_asym := None; mr_after := [] |};
   {| mr_atom := at_name "H" "2"; mr_before := nums ["1.25"; "3.20"; "-1.22"; "-0.48"; "1.75"]%string; mr_asym := None; mr_after := [] |}].
Proof.
  apply laid_other; [left; piece|]. apply laid_other; [right; apply no_cols_of; vmr|].
  apply laid_row. { refine (mgr 3 ($"  ") [] ($"   ") (at_text "C" "                 " "2") ($"    128.25        3.20       -1.22      -0.48      129.75") [] [] ($" ") [newline]
    {| mr_atom := at_name "C" "2"; mr_before := nums ["128.25"; "3.20"; "-1.22"; "-0.48"; "129.75"]%string; mr_asym := None; mr_after := [] |} _ _ _ _ _ _ _ _ _ _ _ _ _); mgpiece. }
  apply laid_row; [|constructor].
  refine (mgr 3 ($"  ") ($"**") ($" ") (at_text "H" "                 " "2") ($"    1.25        3.20       -1.22      -0.48      1.75") [] [] ($" ") [newline]
    {| mr_atom := at_name "H" "2"; mr_before := nums ["1.25"; "3.20"; "-1.22"; "-0.48"; "1.75"]%string; mr_asym := None; mr_after := [] |} _ _ _ _ _ _ _ _ _ _ _ _ _); mgpiece.
Qed.

(** Orbital populations: kept by atom and orbital, beside the totals. *)
Theorem C78_orbitals ls rows : laid orbital_row not_orbital ls rows -> exists d, process_orbital_populations ls = Ok d /\ nested rows d.
Proof. exact (orbitals_spec ls rows). Qed.
Print Assumptions C78_orbitals.
Example C78_orbitals_ex : laid orbital_row not_orbital
  (lns ["     Ion    Atom   Orbital             Charge"; "      N     1      S                    1.390"; "      N     1      Px                   1.329"; "      C     2      S                    3.000";
        "                           Total:      19.999"; "The total projected population is   19.999   0.000"]%string)
  [(SpecDict.atom_key (at_name "N" "1"), (Some (KStr ($"S")), SpecCastep.float_of (rd "1.390"))); (SpecDict.atom_key (at_name "N" "1"), (Some (KStr ($"Px")), SpecCastep.float_of (rd "1.329")));
   (SpecDict.atom_key (at_name "C" "2"), (Some (KStr ($"S")), SpecCastep.float_of (rd "3.000")));
   (name "total", (None, SpecCastep.float_of (rd "19.999"))); (name "total_projected", (None, vector (nums ["19.999"; "0.000"]%string)))].
Proof.
  apply laid_other. { split; [piece|apply not_mentions_of; vmr]. }
  apply laid_row. { refine (obr_orbital ($"      ") (at_text "N" "     " "1") (at_name "N" "1") ($"      ") ($"S") ($"                    ") (rd "1.390") [newline] _ _ _ _ _ _ _ _); try piece.
    exists "S"%char. split; [now left|now left]. }
  apply laid_row. { refine (obr_orbital ($"      ") (at_text "N" "     " "1") (at_name "N" "1") ($"      ") ($"Px") ($"                   ") (rd "1.329") [newline] _ _ _ _ _ _ _ _); try piece.
    exists "P"%char. split; [right; now left|right]. exists "x"%char. split; [now left|reflexivity]. }
  apply laid_row. { refine (obr_orbital ($"      ") (at_text "C" "     " "2") (at_name "C" "2") ($"      ") ($"S") ($"                    ") (rd "3.000") [newline] _ _ _ _ _ _ _ _); try piece.
    exists "S"%char. split; [now left|now left]. }
  apply laid_row. { refine (obr_total ($"                           ") ($"      ") (rd "19.999") [newline] _ _ _ _ _); piece. }
  apply laid_row; [|constructor]. refine (obr_projected [] ($" population is   19.999   0.000" ++ [newline]) (nums ["19.999"; "0.000"]%string) _ _ _); piece.
Qed.
