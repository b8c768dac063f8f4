(** Property theorems C85: the blocks of .castep files whose rows are reports of a calculation. *)
From Coq Require Import QArith.
From Verif Require Import PyBase PyFacts PyVal Regex CastepRes NumSpec SpecLine SpecTable SpecStr SpecBands SpecDict SpecMd SpecCastep SpecCastep2 SpecCastep3 SpecCastep4
  StrUtil BandsFacts TextParsersFacts StrUtilFacts NumProps ColumnFacts MdFacts CastepBlocks CastepNum CastepRows CastepFacts Castep2Facts Castep3Facts Castep4Facts Castep5Facts
  ExampleTools ExampleTools2.
From Verif Require CellFacts.
From Verif Require Import T_Castep T_Castep3.
Local Open Scope list_scope.
Local Open Scope nat_scope.

(** Deciders for the Examples. *)
Fixpoint digit_first (l : str) : bool := match l with [] => false | c :: r => negb (Ascii.eqb c "|") && (is_digit c || digit_first r) end.
Fixpoint digit_bars (l : str) : nat := match l with [] => 0 | c :: r => (if Ascii.eqb c "|" && digit_first r then 1 else 0) + digit_bars r end.
Lemma digit_bars_app a l : digit_bars l <= digit_bars (a ++ l).
Proof. induction a as [|c a IH]; cbn [app digit_bars]; lia. Qed.
Lemma digit_first_app a l : forallb (fun c => negb (Ascii.eqb c "|")) a = true -> existsb is_digit a || digit_first l = true -> digit_first (a ++ l) = true.
Proof.
  induction a as [|c a IH]; cbn; [auto|]. intros H K. apply andb_true_iff in H as [H1 H2]. rewrite H1. cbn.
  apply orb_true_iff in K as [K|K]; [apply orb_true_iff in K as [K|K]|]; [now rewrite K| |];
    apply orb_true_iff; right; apply IH; try assumption; apply orb_true_iff; auto.
Qed.
Lemma write_num_digit n : num_ok n -> exists c, In c (write_num n) /\ is_digit c = true.
Proof.
  intros (H & _). assert (D : forall d : digit, exists c, In c (write_digits [d]) /\ is_digit c = true)
    by (intros d; destruct (write_digits [d]) as [|c t] eqn:E; [discriminate E|]; exists c; split; [now left|]; pose proof (digits_all [d]) as W; rewrite E in W; now apply andb_true_iff in W).
  unfold write_num, frac_digits in *. destruct (n_int n) as [|d ds].
  - destruct (n_frac n) as [[|d ds]|]; cbn in H; try congruence. destruct (D d) as (c & Hc & E). exists c. split; [|exact E].
    apply in_or_app. right. apply in_or_app. right. apply in_or_app. left. right. cbn in Hc |- *. tauto.
  - destruct (D d) as (c & Hc & E). exists c. split; [|exact E]. apply in_or_app. right. apply in_or_app. left. cbn in Hc |- *. tauto.
Qed.
Lemma barred_bars ns t b : barred ns t -> length ns <= digit_bars (t ++ b).
Proof.
  induction 1 as [|g n g' ns t Hg Hn Hg' Ht IH]; cbn [length]; [lia|].
  assert (F : digit_first ((g ++ write_num n ++ g' ++ t) ++ b) = true).
  { rewrite <- !app_assoc. rewrite (app_assoc g). apply digit_first_app.
    - rewrite forallb_app. apply andb_true_iff. split; apply forallb_forall; intros c Hc; apply negb_true_iff, Ascii.eqb_neq; intros ->.
      + unfold blanks in Hg. rewrite Forall_forall in Hg. apply Hg, blank_iff in Hc. discriminate Hc.
      + pose proof (CellFacts.write_num_numchars n) as W. rewrite forallb_forall in W. apply W in Hc. discriminate Hc.
    - destruct (write_num_digit n Hn) as (c & Hc & D). rewrite existsb_app. apply orb_true_iff. left. apply orb_true_iff. right.
      apply existsb_exists. now exists c. }
  change (S (length ns) <= (if Ascii.eqb "|" "|" && digit_first ((g ++ write_num n ++ g' ++ t) ++ b) then 1 else 0) + digit_bars ((g ++ write_num n ++ g' ++ t) ++ b)).
  rewrite F. change (Ascii.eqb "|" "|") with true.
  replace ((g ++ write_num n ++ g' ++ t) ++ b) with ((g ++ write_num n ++ g') ++ t ++ b) by now rewrite <- !app_assoc.
  pose proof (digit_bars_app (g ++ write_num n ++ g') (t ++ b)). cbn [andb]. lia.
Qed.
Lemma no_fields_b k l : (digit_bars l <? k) = true -> ~ has_fields k l.
Proof.
  intros H (a & t & b & ns & -> & B & L). apply Nat.ltb_lt in H. apply (barred_bars _ _ b) in B.
  pose proof (digit_bars_app a (t ++ b)). lia.
Qed.
(** No number comes next. *)
Definition no_num_b (s : str) : bool := match lstrip s with c :: _ => negb (CellFacts.is_numchar c) | [] => true end.
Lemma no_num_of s : no_num_b s = true -> forall g n r, gap g -> num_ok n -> s <> g ++ write_num n ++ r.
Proof.
  intros H g n r [Hg _] Hn ->. apply blanks_iff in Hg. unfold no_num_b, lstrip, lstrip_by in H. rewrite drop_while_app in H by (assumption || now apply num_hd).
  destruct (write_num_digit n Hn) as (d & Hd & _). pose proof (CellFacts.write_num_numchars n) as W. destruct (write_num n) as [|c t]; [destruct Hd|].
  cbn in H, W. apply andb_true_iff in W as [W _]. now rewrite W in H.
Qed.
Lemma none_said_b l : forallb (fun w => negb (contains ($w) l)) scf_words = true -> none_said l.
Proof. intros H w Hw. rewrite forallb_forall in H. apply H, negb_true_iff in Hw. now apply not_mentions_of. Qed.
Lemma first_said_b i l : (match nth_error scf_words i with Some w => contains ($w) l | None => false end) &&
  forallb (fun w => negb (contains ($w) l)) (firstn i scf_words) = true -> first_said i l.
Proof.
  intros H. apply andb_true_iff in H as [H1 H2]. split.
  - destruct (nth_error scf_words i) as [w|]; [|discriminate]. exists w. split; [reflexivity|now apply mentions_of].
  - intros j w Hj E. rewrite forallb_forall in H2. apply not_mentions_of. apply negb_true_iff, H2.
    clear -Hj E. revert i j Hj E. generalize scf_words. induction l as [|x l IH]; intros [|i] [|j] Hj E; cbn in *; try lia; try discriminate.
    + injection E as ->. now left.
    + right. apply (IH i j); [lia|exact E].
Qed.
Definition scf_other_b (l : str) : bool :=
  negb (re_test (labelled_floats (repeat "v"%string 3)) l) && forallb (fun w => negb (contains ($w) l)) scf_words &&
  forallb (fun w => negb (contains ($w) l)) ["init="; "Checking convergence criteria"; " eV"]%string.
Lemma scf_other_of l : scf_other_b l = true -> scf_other l.
Proof.
  intros H. apply andb_true_iff in H as [H H3]. apply andb_true_iff in H as [H1 H2]. apply negb_true_iff in H1.
  rewrite forallb_forall in H3. split; [now apply no_cols_of|]. split; [now apply none_said_b|].
  repeat split; apply not_mentions_of; apply negb_true_iff, H3; cbn; tauto.
Qed.
Lemma term_named k nm : fix_key (normalise_key k) = nm -> term_name k nm.
Proof.
  intros <-. destruct (normalise_key_words k) as (ws & H & _ & E). unfold fix_key.
  destruct (str_eqb (normalise_key k) _) eqn:E1.
  { apply str_eqb_eq in E1. rewrite E in E1. exact (tn_short k ws _ _ H (or_introl eq_refl) E1). }
  destruct (str_eqb (normalise_key k) _) eqn:E2 in |- *.
  { apply str_eqb_eq in E2. rewrite E in E2. exact (tn_short k ws _ _ H (or_intror (or_introl eq_refl)) E2). }
  destruct (str_eqb (normalise_key k) _) eqn:E3 in |- *.
  { apply str_eqb_eq in E3. rewrite E in E3. exact (tn_short k ws _ _ H (or_intror (or_intror (or_introl eq_refl))) E3). }
  rewrite E in E1, E2, E3 |- *. apply tn_same; [exact H|].
  intros a b Hi C. cbn in Hi. destruct Hi as [Hi|[Hi|[Hi|[]]]]; injection Hi as <- <-;
    [apply not_true_iff_false in E1; apply E1|apply not_true_iff_false in E2; apply E2|apply not_true_iff_false in E3; apply E3]; apply str_eqb_eq; exact C.
Qed.
Lemma term_chars_b k : forallb (fun c => is_alpha c || is_digit c || chr_in c ($"() -")) k = true -> forall c, In c k -> term_char c.
Proof.
  intros H c Hc. rewrite forallb_forall in H. apply H in Hc. apply orb_true_iff in Hc as [Hc|Hc].
  - left. apply alnum_iff. unfold alnum_not_sep. clear -Hc. destruct c as [[] [] [] [] [] [] [] []]; (discriminate Hc || reflexivity).
  - right. apply chr_in_iff in Hc. exact Hc.
Qed.
Lemma all_letters_b k : forallb (fun c => is_alpha c || Ascii.eqb c " ") k = true -> forall x, In x k -> SpecCell.letter x \/ x = " "%char.
Proof.
  intros H c Hc. rewrite forallb_forall in H. apply H in Hc. apply orb_true_iff in Hc as [Hc|Hc]; [left; now apply letter_b|right; now apply Ascii.eqb_eq].
Qed.
Lemma words_chars_b w : forallb is_word w = true -> forall c, In c w -> word_char c.
Proof. intros H c Hc. rewrite forallb_forall in H. now apply word_char_iff, H. Qed.
Lemma no_blank_b w : forallb (fun c => negb (is_space c)) w = true -> forall c, In c w -> ~ blank c.
Proof. intros H c Hc B. rewrite forallb_forall in H. apply H in Hc. apply blank_iff in B. now rewrite B in Hc. Qed.
Lemma hd_blank_b w : (match w with c :: _ => negb (is_space c) | [] => true end) = true -> forall c u, w = c :: u -> ~ blank c.
Proof. intros H c u -> B. apply blank_iff in B. now rewrite B in H. Qed.
(** A text of fields, from its own parts. *)
Definition bars_of (ps : list (str * num * str)) : str := flat_map (fun p => let '(g, n, g') := p in "|"%char :: g ++ write_num n ++ g') ps.
Lemma barred_b ps : forallb (fun p => let '(g, n, g') := p in forallb is_space g && okb n && forallb is_space g') ps = true ->
  barred (map (fun p => snd (fst p)) ps) (bars_of ps).
Proof.
  induction ps as [|[[g n] g'] ps IH]; cbn [forallb map]; intros H; [constructor|]. apply andb_true_iff in H as [H H4]. apply andb_true_iff in H as [H H3]. apply andb_true_iff in H as [H1 H2].
  cbn [bars_of flat_map fst snd]. fold (bars_of ps). cbn [app]. rewrite <- !app_assoc. constructor; [now apply blanks_of|now apply ok_of|now apply blanks_of|now apply IH].
Qed.
Definition field (g : string) (n : string) : str * num * str := ($g, rd n, $" ").

(** C85.  Excitations of time-dependent calculations. *)
Theorem C85_excitations ls xs : laid excitation_row not_excitation ls xs -> process_tddft ls = Ok (map excitation_read xs).
Proof. exact (tddft_spec ls xs). Qed.
Print Assumptions C85_excitations.
Definition ex_exc (e d : string) (t : string) : excitation := {| ex_energy := rd e; ex_error := rd d; ex_type := $t |}.
Example C85_excitations_ex : laid excitation_row not_excitation
  (lns ["  +   State number         Energy in   eV     Estimated error         +TDDFT"; "  + ================================================================= +TDDFT";
        "  +         1     5.753504005347331   3.6998800019E-07     spurious   +TDDFT"; "  +         2     6.402101261254828   5.3503385576E-07     Singlet    +TDDFT";
        "  +  TDDFT calculation time:      39.35                               +TDDFT"]%string)
  [ex_exc "5.753504005347331" "3.6998800019E-07" "spurious"; ex_exc "6.402101261254828" "5.3503385576E-07" "Singlet"].
Proof.
  do 2 (apply laid_other; [left; piece|]).
  apply laid_row. { refine (exr ($"  ") ($"         ") (digs "1") ($"     5.753504005347331   3.6998800019E-07") ($"     ") ($"   ") [newline] (ex_exc _ _ "spurious") _ _ _ _ _ _ _ _ _);
    try piece; apply words_chars_b; vmr. }
  apply laid_row. { refine (exr ($"  ") ($"         ") (digs "2") ($"     6.402101261254828   5.3503385576E-07") ($"     ") ($"    ") [newline] (ex_exc _ _ "Singlet") _ _ _ _ _ _ _ _ _);
    try piece; apply words_chars_b; vmr. }
  apply laid_other; [right; apply no_cols_of; vmr|constructor].
Qed.

(** Electron localisation. *)
Theorem C85_electron_localisation ls ns : laid elf_row plain ls ns -> process_elf ls = Ok (map SpecCastep.float_of ns).
Proof. exact (elf_spec ls ns). Qed.
Print Assumptions C85_electron_localisation.
Example C85_electron_localisation_ex : laid elf_row plain
  (lns ["      ELF grid sample"; "-----------------------"; " ELF        1 0.506189"; " ELF       12 0.506191"]%string) [rd "0.506189"; rd "0.506191"].
Proof.
  do 2 (apply laid_other; [piece|]).
  apply laid_row. { refine (elfr ($" ") ($"        ") (digs "1") ($" ") (rd "0.506189") [newline] _ _ _ _ _ _ _); piece. }
  apply laid_row. { refine (elfr ($" ") ($"       ") (digs "12") ($" ") (rd "0.506191") [newline] _ _ _ _ _ _ _); piece. }
  constructor.
Qed.

(** Thermodynamics. *)
Theorem C85_thermodynamics ls1 ls2 zs rows : laid zero_row not_thermo ls1 zs -> laid thermo_row not_thermo ls2 rows ->
  process_thermodynamics (ls1 ++ ls2) = Ok (thermo_read zs rows).
Proof. exact (thermo_spec ls1 ls2 zs rows). Qed.
Print Assumptions C85_thermodynamics.
Example C85_thermodynamics_ex : laid zero_row not_thermo (lns ["                             Thermodynamics"; "            Zero-point energy =         0.125987  eV"]%string) [rd "0.125987"] /\
  laid thermo_row not_thermo
    (lns [" -----------------------"; "       T(K)        E(eV)           F(eV)         S(J/mol/K)      Cv(J/mol/K)";
          "       0.0        0.125987        0.125987           0.000           0.000"; "     100.0        0.131824        0.123323           8.203          14.858"; " -------"]%string)
    [nums ["0.0"; "0.125987"; "0.125987"; "0.000"; "0.000"]; nums ["100.0"; "0.131824"; "0.123323"; "8.203"; "14.858"]]%string.
Proof.
  assert (O : forall l, negb (contains ($"Zero-point energy") l) && negb (re_test (labelled_floats (repeat "v"%string 5)) l) = true -> not_thermo l)
    by (intros l H; apply andb_true_iff in H as [H1 H2]; apply negb_true_iff in H1, H2; split; [now apply not_mentions_of|now apply no_cols_of]).
  split.
  - apply laid_other; [apply O; vmr|]. apply laid_row; [|constructor].
    apply (zrr _ _ []); [apply mentions_of; vmr|apply no_cols_of; vmr|piece|piece].
  - do 2 (apply laid_other; [apply O; vmr|]).
    apply laid_row. { refine (thr ($"       0.0        0.125987        0.125987           0.000           0.000") _ [newline] _ _ _ _ _); try piece. apply not_mentions_of; vmr. }
    apply laid_row. { refine (thr ($"     100.0        0.131824        0.123323           8.203          14.858") _ [newline] _ _ _ _ _); try piece. apply not_mentions_of; vmr. }
    apply laid_other; [apply O; vmr|constructor].
Qed.

(** The summary of a step of molecular dynamics. *)
Theorem C85_md_summary ls rows : laid md_row not_md ls rows -> exists d, process_md_block ls = Ok d /\ md_read rows d.
Proof. exact (md_spec ls rows). Qed.
Print Assumptions C85_md_summary.
Example C85_md_summary_ex : laid md_row not_md
  (lns ["            x                                                            x"; "            x              time :      0.002000                   ps     x";
        "            x   Potential Energy:   -855.432091                   eV     x"; "            xxxx"]%string)
  [($"time", $"time", rd "0.002000"); ($"Potential Energy", $"potential_energy", rd "-855.432091")].
Proof.
  apply laid_other; [apply lacking_b; vmr|].
  apply laid_row. { refine (mdr ($"            ") ($"              ") "t" ($"ime ") ($"      ") (rd "0.002000") ($"                   ps     x" ++ [newline]) _ _ _ _ _ _ _ _ _ _ _ _ _);
    try piece; [apply letter_b; vmr|apply all_letters_b; vmr|apply trimmed_of; vmr|apply key_named; vmr]. }
  apply laid_row. { refine (mdr ($"            ") ($"   ") "P" ($"otential Energy") ($"   ") (rd "-855.432091") ($"                   eV     x" ++ [newline]) _ _ _ _ _ _ _ _ _ _ _ _ _);
    try piece; [apply letter_b; vmr|apply all_letters_b; vmr|apply trimmed_of; vmr|apply key_named; vmr]. }
  apply laid_other; [apply lacking_b; vmr|constructor].
Qed.

(** The tables of optimisations. *)
Theorem C85_geometry_table ls es : laid geom_row not_geom ls es -> exists d, process_geom_table ls = Ok d /\ merged es d.
Proof. exact (geom_spec ls es). Qed.
Print Assumptions C85_geometry_table.
Definition ex_check (v tol : string) (b : bool) : pyval :=
  VDict false [(name "value", SpecCastep.float_of (rd v)); (name "tolerance", SpecCastep.float_of (rd tol)); (name "converged", VBool b)].
Example C85_geometry_table_ex : laid geom_row not_geom
  (lns [" +-----------+-----------------+-----------------+------------+-----+ <-- LBFGS"; " | Parameter |      value      |    tolerance    |    units   | OK? | <-- LBFGS";
        " |  dE/ion   |   0.000000E+000 |   2.500000E-005 |         eV | No  | <-- LBFGS"; " |  |F|max   |   4.266993E-001 |   5.000000E-002 |       eV/A | Yes | <-- LBFGS"]%string)
  [(KStr ($"de_ion"), ex_check "0.000000E+000" "2.500000E-005" false); (KStr ($"f_max"), ex_check "4.266993E-001" "5.000000E-002" true)].
Proof.
  do 2 (apply laid_other; [apply no_fields_b; vmr|]).
  apply laid_row.
  { refine (gm_check ($" ") ($"  ") ($"dE/ion") ($"   ") ($"|   0.000000E+000 |   2.500000E-005 ") ($"         ") ($"eV") ($" ") ($" ") false ($"  ") ($" <-- LBFGS" ++ [newline]) _ (rd "0.000000E+000") (rd "2.500000E-005") _
      _ _ _ _ _ _ _ _ _ _ _ _ _ _ _ _); try piece; try (apply no_blank_b; vmr); try (apply no_fields_b; vmr); [|apply key_named; vmr].
    refine (barred_b [field "   " "0.000000E+000"; field "   " "2.500000E-005"] _); vmr. }
  apply laid_row; [|constructor].
  refine (gm_check ($" ") ($"  ") ($"|F|max") ($"   ") ($"|   4.266993E-001 |   5.000000E-002 ") ($"       ") ($"eV/A") ($" ") ($" ") true ($" ") ($" <-- LBFGS" ++ [newline]) _ (rd "4.266993E-001") (rd "5.000000E-002") _
      _ _ _ _ _ _ _ _ _ _ _ _ _ _ _ _); try piece; try (apply no_blank_b; vmr); try (apply no_fields_b; vmr); [|apply key_named; vmr].
  refine (barred_b [field "   " "4.266993E-001"; field "   " "5.000000E-002"] _); vmr.
Qed.
Definition ex_step (x y z : string) : pyval :=
  VDict false [(name "lambda", SpecCastep.float_of (rd x)); (name "fdelta", SpecCastep.float_of (rd y)); (name "enthalpy", SpecCastep.float_of (rd z))].
Example C85_line_search_ex : laid geom_row not_geom
  (lns [" |    Step    |   lambda    |   F.delta'  |    enthalpy     | <-- min LBFGS"; " |  previous  |    0.000000 |    0.306114 |    -2293.743561 | <-- min LBFGS"]%string)
  [(KStr ($"previous"), ex_step "0.000000" "0.306114" "-2293.743561")].
Proof.
  apply laid_other; [apply no_fields_b; vmr|]. apply laid_row; [|constructor].
  refine (gm_step ($" ") ($"  ") ($"previous  ") ($"|    0.000000 |    0.306114 |    -2293.743561 ") ($" <-- min LBFGS" ++ [newline]) _ (rd "0.000000") (rd "0.306114") (rd "-2293.743561") _ _ _ _ _ _ _ _);
    try piece; [apply free_of_b; vmr|apply hd_blank_b; vmr| |apply words_named; vmr].
  refine (barred_b [field "    " "0.000000"; field "    " "0.306114"; field "    " "-2293.743561"] _); vmr.
Qed.

(** Band structures. *)
Theorem C85_bands os ls bs : Forall not_bands os -> band_lines ls bs -> process_band_structure (os ++ ls) = Ok (map bands_read bs).
Proof. exact (bands_spec os ls bs). Qed.
Print Assumptions C85_bands.
Definition ex_head (sp : string) (ks : list string) (gr : string) : band_head := {| bh_spin := digs sp; bh_k := nums ks; bh_group := digs gr |}.
Example C85_bands_ex : Forall not_bands (lns ["  + ====== +"; "  +   Spin= 1 of  1, K-point=    1 of   10 completed    +"]%string) /\
  band_lines (lns ["  +  Spin=1 kpt=    1 ( -0.375000 -0.375000 -0.125000) kpt-group=  1  +"; "  + ------ +"; "  +           1       -3.923890                                       +"; "  +           2        1.381011                                       +";
                   "  +  Spin=2 kpt=   10 (  0.375000  0.375000  0.375000) kpt-group=  3  +"; "  +           1       -4.014813                                       +"; "  ========"]%string)
    [(ex_head "1" ["-0.375000"; "-0.375000"; "-0.125000"] "1", [(rd "1", rd "-3.923890"); (rd "2", rd "1.381011")]);
     (ex_head "2" ["0.375000"; "0.375000"; "0.375000"] "3", [(rd "1", rd "-4.014813")])]%string.
Proof.
  split. { constructor; [left; apply free_of_b; vmr|]. constructor; [right; split; [apply not_mentions_of; vmr|apply no_cols_of; vmr]|constructor]. }
  apply (bdl_cons _ _ (lns ["  + ------ +"; "  +           1       -3.923890                                       +"; "  +           2        1.381011                                       +"]%string)).
  - refine (bhr ($"  +  ") [] ($" ") ($"    ") (digs "1") ($" ") ($" -0.375000 -0.375000 -0.125000") ($" ") ($"  ") ($"  +" ++ [newline]) (ex_head "1" _ "1") _ _ _ _ _ _ _ _ _ _ _ _ _ _); try piece. apply free_of_b; vmr.
  - apply laid_other; [left; apply free_of_b; vmr|].
    apply laid_row. { refine (bdr ($"  ") ($"           1       -3.923890") ($"                                       +" ++ [newline]) _ _ _ _ _ _ _ _); try piece; [apply int_of; vmr|apply not_mentions_of; vmr]. }
    apply laid_row. { refine (bdr ($"  ") ($"           2        1.381011") ($"                                       +" ++ [newline]) _ _ _ _ _ _ _ _); try piece; [apply int_of; vmr|apply not_mentions_of; vmr]. }
    constructor.
  - apply (bdl_cons _ _ [_; _] _ [] []); [| |constructor].
    + refine (bhr ($"  +  ") [] ($" ") ($"   ") (digs "10") ($" ") ($"  0.375000  0.375000  0.375000") ($" ") ($"  ") ($"  +" ++ [newline]) (ex_head "2" _ "3") _ _ _ _ _ _ _ _ _ _ _ _ _ _); try piece. apply free_of_b; vmr.
    + apply laid_row. { refine (bdr ($"  ") ($"           1       -4.014813") ($"                                       +" ++ [newline]) _ _ _ _ _ _ _ _); try piece; [apply int_of; vmr|apply not_mentions_of; vmr]. }
      apply laid_other; [left; apply free_of_b; vmr|constructor].
Qed.
(** A row of bands before any heading stops the reader. *)
Theorem C85_band_before_heading os l r ls : Forall not_bands os -> band_row l r -> process_band_structure (os ++ l :: ls) = Err KeyError.
Proof. exact (bands_orphan os l r ls). Qed.
Print Assumptions C85_band_before_heading.
Example C85_band_before_heading_ex : Forall not_bands (lns ["  + ====== +"]%string) /\ band_row (ln "  +           1       -3.923890      +") (rd "1", rd "-3.923890").
Proof.
  split; [constructor; [left; apply free_of_b; vmr|constructor]|].
  refine (bdr ($"  ") ($"           1       -3.923890") ($"      +" ++ [newline]) _ _ _ _ _ _ _ _); try piece; [apply int_of; vmr|apply not_mentions_of; vmr].
Qed.

(** Pseudo-atomic energies. *)
Theorem C85_pseudo_atomic sp e ls xs : ps_lines sp e ls xs -> process_ps_energy ls = Ok (sp, ps_read e xs).
Proof. exact (ps_spec sp e ls xs). Qed.
Print Assumptions C85_pseudo_atomic.
Example C85_pseudo_atomic_ex : ps_lines ($"Fe") (rd "-490.5382")
  (lns [" Pseudo atomic calculation performed for Fe 3d6 4s2"; ""; " Converged in 29 iterations to a total energy of -490.5382 eV";
        "Charge spilling parameter for spin component 1 = 0.09%"; ""; "Charge spilling parameter for spin component 2 = 0.10%"]%string) [rd "0.09"; rd "0.10"].
Proof.
  refine (psl _ _ ($" ") ($" 3d6 4s2") [newline] _ (ln " Converged in 29 iterations to a total energy of -490.5382 eV") (rd "29") [] _ _ _ _ _ _ _ _ _ _); try piece.
  - exists "F"%char, ($"e"). repeat split; [discriminate|discriminate|cbn; lia|destruct H as [<-|[]]; discriminate|destruct H as [<-|[]]; discriminate].
  - refine (sht_cons ($" ") ($"3d6") ($" 4s2") _ _ _); [piece|exact (shl (digit_of "3") "d" (digs "6") ltac:(cbn; tauto) ltac:(cbn; lia))|].
    refine (sht_cons ($" ") ($"4s2") [] _ _ _); [piece|exact (shl (digit_of "4") "s" (digs "2") ltac:(cbn; tauto) ltac:(cbn; lia))|constructor].
  - apply laid_row. { split; [apply mentions_of; vmr|]. split; [piece|]. exists [rd "1"]. piece. }
    apply laid_other; [apply not_mentions_of; vmr|].
    apply laid_row. { split; [apply mentions_of; vmr|]. split; [piece|]. exists [rd "2"]. piece. }
    constructor.
Qed.

(** Self-consistent fields: every iteration with what is said of it. *)
Theorem C85_scf ls notes cs : scf_text ls notes cs -> exists out, process_scf ls = Ok out /\ scf_read notes cs out.
Proof. exact (scf_spec ls notes cs). Qed.
Print Assumptions C85_scf.
Definition ex_it (e f : string) (g : option string) (t : string) : iteration :=
  {| it_energy := rd e; it_fermi := rd f; it_gain := option_map rd g; it_time := rd t |}.
Definition ex_ev (a b c : string) : num * num * num := (rd a, rd b, rd c).
Definition ex_said : list SpecCastep4.remark :=
  [RBands 7; RKinetic (rd "0.19929544E+02"); RSweep [ex_ev "-27.89" "-28.57" "0.6761"; ex_ev "-19.95" "-20.19" "0.2477"];
   RTerm ($"hartree_energy") (rd "555.19121174858389622"); RTerm ($"xc_correction") (rd "65.01253419559009217")].
Example C85_scf_ex : scf_text
  (lns ["SCF loop      Energy           Fermi           Energy gain       Timer   <-- SCF"; "------------------------------------------------------------------------ <-- SCF";
        "Initial  -8.45018104E+002  0.00000000E+000                         3.81  <-- SCF"; "Starting SCF cycle     1 of up to    30"; " no. bands in each block=           7";
        "Kinetic eigenvalue #   1 =     0.19929544E+02"; " Diagonalising expanded subspace"; "eigenvalue    1 init= -27.89     fin= -28.57     change= 0.6761";
        "eigenvalue    2 init= -19.95     fin= -20.19     change= 0.2477"; " Checking convergence criteria"; "+Hartree energy                  =       555.19121174858389622 eV";
        "(XC correction to eigenvalue sum =        65.01253419559009217 eV)"; "      1  -8.47768701E+002 -1.09214177E+000   3.05621978E-001       3.84  <-- SCF";
        " Norm of density residual is    9.1451037234902971E-002"; "--------- <-- SCF"]%string) []
  [{| cy_row := ex_it "-8.45018104E+002" "0.00000000E+000" None "3.81"; cy_said := []; cy_notes := [] |};
   {| cy_row := ex_it "-8.47768701E+002" "-1.09214177E+000" (Some "3.05621978E-001"%string) "3.84"; cy_said := ex_said;
      cy_notes := [(name "density_residual", SpecCastep.float_of (rd "9.1451037234902971E-002"))] |}].
Proof.
  assert (T : forall l n k u p t r, l = p ++ k ++ "="%char :: t ++ text_of " eV" ++ r -> (p = ["+"%char] \/ p = ["("%char]) -> u = fix_key (normalise_key k) -> k <> [] ->
     forallb (fun c => is_alpha c || is_digit c || chr_in c ($"() -")) k && (negb (re_test (labelled_floats (repeat "v"%string 3)) l)) &&
     forallb (fun w => negb (contains ($w) l)) (scf_words ++ ["init="; "Checking convergence criteria"]%string) = true -> columns [n] t -> fits (num_value n) -> term_row l (RTerm u n)).
  { intros l n k u p t r -> Hp -> Hk H Hc Hf. apply andb_true_iff in H as [H H3]. apply andb_true_iff in H as [H1 H2]. apply negb_true_iff in H2.
    rewrite forallb_app in H3. apply andb_true_iff in H3 as [H3 H4]. rewrite forallb_forall in H4.
    apply tmr; try assumption; [tauto|now apply term_chars_b|now apply term_named|now apply no_cols_of|now apply none_said_b| |];
      apply not_mentions_of; apply negb_true_iff, H4; cbn; tauto. }
  refine (sr (lns ["SCF loop      Energy           Fermi           Energy gain       Timer   <-- SCF"; "------------------------------------------------------------------------ <-- SCF"]%string) [] [] _ _ _ _ _).
  { do 2 (apply sl_other; [apply scf_other_of; vmr|]). constructor. }
  { intros [|] es b E; discriminate E. }
  refine (sb_cons _ {| cy_row := ex_it "-8.45018104E+002" "0.00000000E+000" None "3.81"; cy_said := []; cy_notes := [] |}
    (lns ["Starting SCF cycle     1 of up to    30"; " no. bands in each block=           7";
        "Kinetic eigenvalue #   1 =     0.19929544E+02"; " Diagonalising expanded subspace"; "eigenvalue    1 init= -27.89     fin= -28.57     change= 0.6761";
        "eigenvalue    2 init= -19.95     fin= -20.19     change= 0.2477"; " Checking convergence criteria"; "+Hartree energy                  =       555.19121174858389622 eV";
        "(XC correction to eigenvalue sum =        65.01253419559009217 eV)"]%string) ex_said _ _ _ _ _ _).
  - refine (lpr [] ($"Initial") ($"  -8.45018104E+002  0.00000000E+000                         3.81") ($"  <-- SCF" ++ [newline]) _ _ _ _ _ _ _); try piece.
    + now left.
    + apply no_num_of; vmr.
  - apply sl_other; [apply scf_other_of; vmr|].
    apply (sl_bands _ _ (rd "7") []); [apply no_cols_of; vmr|apply first_said_b; vmr|piece|apply int_of; vmr|].
    apply (sl_kinetic _ _ (rd "1") _ []); [apply no_cols_of; vmr|apply first_said_b; vmr|piece|piece|].
    refine (sl_sweep _ _ (lns [" Diagonalising expanded subspace"; "eigenvalue    1 init= -27.89     fin= -28.57     change= 0.6761";
        "eigenvalue    2 init= -19.95     fin= -20.19     change= 0.2477"]%string) _ _ _ _ _ _).
    + apply laid_other; [apply scf_other_of; vmr|].
      apply laid_row. { refine (egr ($"    ") (digs "1") ($" ") ($" -27.89     fin= -28.57     change= 0.6761" ++ [newline]) (rd "1") _ _ _ [] _ _ _ _ _ _ _); try piece; [apply no_cols_of; vmr|apply none_said_b; vmr]. }
      apply laid_row. { refine (egr ($"    ") (digs "2") ($" ") ($" -19.95     fin= -20.19     change= 0.2477" ++ [newline]) (rd "2") _ _ _ [] _ _ _ _ _ _ _); try piece; [apply no_cols_of; vmr|apply none_said_b; vmr]. }
      constructor.
    + split; [apply no_cols_of; vmr|]. split; [apply none_said_b; vmr|]. split; [apply not_mentions_of; vmr|apply mentions_of; vmr].
    + apply sl_term. { refine (T _ (rd "555.19121174858389622") ($"Hartree energy                  ") _ ($"+") ($"       555.19121174858389622") [newline] _ (or_introl eq_refl) _ _ _ _ _); try piece; vmr. }
      apply sl_term. { refine (T _ (rd "65.01253419559009217") ($"XC correction to eigenvalue sum ") _ ($"(") ($"        65.01253419559009217") ($")" ++ [newline]) _ (or_intror eq_refl) _ _ _ _ _); try piece; vmr. }
      constructor.
  - intros [|x [|y a]] es b E; try discriminate E. exists (rd "0.19929544E+02"). injection E as _ <- _. right. now left.
  - refine (sb_cons _ {| cy_row := ex_it "-8.47768701E+002" "-1.09214177E+000" (Some "3.05621978E-001"%string) "3.84"; cy_said := ex_said;
      cy_notes := [(name "density_residual", SpecCastep.float_of (rd "9.1451037234902971E-002"))] |}
      (lns [" Norm of density residual is    9.1451037234902971E-002"; "--------- <-- SCF"]%string) [] [] [] _ _ _ _).
    + refine (lpr ($"      ") ($"1") ($"  -8.47768701E+002 -1.09214177E+000   3.05621978E-001       3.84") ($"  <-- SCF" ++ [newline]) _ _ _ _ _ _ _); try piece.
      * right. exists (digs "1"). split; [discriminate|reflexivity].
      * apply no_num_of; vmr.
    + apply sl_note; [|apply sl_other; [apply scf_other_of; vmr|constructor]].
      apply (sn_number _ 0 "density_residual" _ []); [apply no_cols_of; vmr|apply first_said_b; vmr|reflexivity|piece|piece].
    + intros [|] es b E; discriminate E.
    + constructor.
Qed.
