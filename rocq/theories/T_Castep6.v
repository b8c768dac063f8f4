(** Property theorems C88: reports of pseudopotentials, and symmetry and constraints,
    in .castep files. *)
From Coq Require Import QArith.
From Verif Require Import PyBase PyFacts PyVal Regex CastepRes NumSpec SpecLine SpecTable SpecStr SpecBands SpecDict SpecMd SpecCastep SpecCastep2 SpecCastep3 SpecCastep4
  StrUtil BandsFacts TextParsersFacts StrUtilFacts NumProps ColumnFacts MdFacts CastepBlocks CastepNum CastepRows CastepRest CastepFacts Castep2Facts Castep3Facts Castep6Facts Castep7Facts
  ExampleTools ExampleTools2 SpecCastep6.
From Verif Require SpecCell T_CellParam.
From Verif Require Import T_Castep T_Castep3.
Local Open Scope list_scope.
Local Open Scope nat_scope.

(** Deciders for the Examples. *)
Definition barb (a : str) : bool := match lstrip a with c :: v => Ascii.eqb c "|" && forallb is_space v | [] => false end.
Lemma bar_b a : barb a = true -> bar a.
Proof.
  unfold barb, lstrip, lstrip_by. intros H. destruct (drop_while is_space a) as [|c v] eqn:E; [discriminate H|]. apply andb_true_iff in H as [H1 H2]. apply Ascii.eqb_eq in H1. subst c.
  exists (take_while is_space a), v. split; [now rewrite <- E, take_drop_while|]. split; apply blanks_of; [apply take_while_all|exact H2].
Qed.
Lemma words_chars_b w : forallb is_word w = true -> forall c, In c w -> word_char c.
Proof. intros H c Hc. rewrite forallb_forall in H. apply word_char_iff. auto. Qed.
Definition solverb (c : ascii) : bool := is_word c || is_space c || Ascii.eqb c "-".
Lemma solver_iff c : solver_char c <-> solverb c = true.
Proof.
  unfold solver_char, solverb. rewrite !orb_true_iff, word_char_iff, blank_iff, Ascii.eqb_eq. tauto.
Qed.
Definition unlistedb (l : str) : bool :=
  freeb "0123456789" l || match lstrip l with c :: v => Ascii.eqb c "|" && match lstrip v with x :: _ => negb (chr_in x ($"0123456789l")) | [] => false end | [] => false end.
Lemma unlisted_b l : unlistedb l = true -> unlisted l.
Proof.
  unfold unlistedb. intros H. apply orb_true_iff in H as [H|H]; [left; apply (free_of_b _ _ H)|]. right. unfold lstrip, lstrip_by in H.
  destruct (drop_while is_space l) as [|c v] eqn:E; [discriminate H|]. apply andb_true_iff in H as [H1 H]. apply Ascii.eqb_eq in H1. subst c. destruct (drop_while is_space v) as [|y r] eqn:E2; [discriminate H|].
  exists (take_while is_space l ++ "|"%char :: take_while is_space v), y, r. split; [|split].
  - rewrite <- app_assoc. cbn [app]. rewrite <- E2, take_drop_while, <- E, take_drop_while. reflexivity.
  - exists (take_while is_space l), (take_while is_space v). split; [reflexivity|]. split; apply blanks_of, take_while_all.
  - split; [intros B; apply blank_iff in B; pose proof (drop_while_hd is_space v) as D; rewrite E2 in D; cbn in D; congruence|].
    intros A. apply chr_in_among in A. rewrite A in H. discriminate H.
Qed.
Lemma silent_b l : unlistedb l && forallb (fun w => negb (contains ($w) l)) report_words = true -> silent_report l.
Proof.
  intros H. apply andb_true_iff in H as [H1 H2]. split; [now apply unlisted_b|]. intros w Hw. rewrite forallb_forall in H2. apply not_mentions_of, negb_true_iff, H2, Hw.
Qed.

(** C88.  Reports of pseudopotentials: the orbitals and projectors in order, and the
    other entries with the last value of each. *)
Theorem C88_report ls its : laid report_row silent_report ls its -> exists d, process_pspot_report ls = Ok d /\ report_read its d.
Proof. exact (report_spec ls its). Qed.
Print Assumptions C88_report.
Definition ex_report : list str := lns [
  "   ------------------------------------------------------------"; "   | Element: Mn Ionic charge: 15.00 Level of theory: LDA     |"; "   | Atomic Solver: Koelling-Harmon                           |";
  "   |         Orbital         Occupation         Energy        |"; "   |          3s1/2            2.000           -3.132         |";
  "   |        1     0    1   -3.132   1.803     qc     0        |"; "   |       loc    3         0.000   1.803     pn     0        |";
  "   | Augmentation charge Rinner = 0.600                       |"; "   | Partial core correction Rc = 0.600                       |"; "   ============================================================"]%string.

Ltac rpiece := first [piece|solve [apply bar_b; vmr]|solve [apply words_chars_b; vmr]|discriminate].
Lemma ex_report_rows : laid report_row silent_report ex_report
  [OfReport [(name "element", VStr ($"Mn")); (name "ionic_charge", SpecCastep.float_of (rd "15.00")); (name "level_of_theory", VStr ($"LDA"))];
   OfReport [(name "solver", VStr ($"Koelling-Harmon"))];
   OfOrbitals (VDict false [(name "orb", VStr ($"3s1/2")); (name "occupation", SpecCastep.float_of (rd "2.000")); (name "energy", SpecCastep.float_of (rd "-3.132"))]);
   OfProjectors (VDict false [(name "beta", VInt 1); (name "l", VInt 0); (name "j", VInt 1); (name "e", SpecCastep.float_of (rd "-3.132")); (name "Rc", SpecCastep.float_of (rd "1.803"));
     (name "scheme", VStr ($"qc")); (name "norm", VInt 0)]);
   OfProjectors (VDict false [(name "beta", VStr ($"loc")); (name "l", VInt 3); (name "j", VNone); (name "e", SpecCastep.float_of (rd "0.000")); (name "Rc", SpecCastep.float_of (rd "1.803"));
     (name "scheme", VStr ($"pn")); (name "norm", VInt 0)]);
   OfReport [(name "augmentation_charge_rinner", vector [rd "0.600"])]; OfReport [(name "partial_core_correction", vector [rd "0.600"])]].
Proof.
  unfold ex_report. apply laid_other; [apply silent_b; vmr|].
  apply laid_row. { row_as ($"   | " ++ text_of "Element: " ++ $"Mn" ++ $" " ++ text_of "Ionic charge: " ++ write_num (rd "15.00") ++ $" " ++ text_of "Level of theory: " ++ $"LDA" ++ ln "     |").
    apply rp_element; try rpiece; [now apply (T_CellParam.species_of _ "M"%char ($"n")); [|reflexivity|cbn; lia|]|]. intros c t E. injection E as <- _. intros W. apply word_char_iff in W. discriminate W. }
  apply laid_row. { row_as ($"   | " ++ text_of "Atomic Solver:" ++ $" " ++ $"Koelling-Harmon                           " ++ ln "|").
    apply rp_solver; try rpiece; try solve [apply words_named; vmr|apply not_mentions_of; vmr].
    - intros c Hc. apply solver_iff. revert c Hc. apply forallb_forall. vmr.
    - intros c u E. injection E as <- _. intros B. apply blank_iff in B. discriminate B.
    - intros c u E. injection E as <- _. intros B. apply solver_iff in B. discriminate B. }
  apply laid_other; [apply silent_b; vmr|].
  apply laid_row. { row_as ($"   |          " ++ $"3s1/2" ++ $"            2.000           -3.132" ++ $"         " ++ "|"%char :: ln "").
    apply (rp_orbital _ _ _ (rd "2.000") (rd "-3.132")); try rpiece. right. exists ($"3s1"), [d2]. split; [apply (shl d3 "s"%char [d1]); [cbn; tauto|cbn; lia]|]. split; [discriminate|reflexivity]. }
  apply laid_row. { row_as ($"   |        " ++ write_digits [d1] ++ $"     " ++ write_digits [d0] ++ ($"    " ++ write_digits [d1]) ++ $"   -3.132   1.803" ++ $"     " ++ $"qc" ++ $"     " ++ write_digits [d0] ++ $"        " ++ "|"%char :: ln "").
    apply (rp_projector _ _ (VInt (decimal [d1])) _ [d0] _ (VInt (decimal [d1])) _ (rd "-3.132") (rd "1.803") _ _ _ [d0]); try rpiece; [now constructor|now constructor; [piece|]]. }
  apply laid_row. { row_as ($"   |       " ++ text_of "loc" ++ $"    " ++ write_digits [d3] ++ [] ++ $"         0.000   1.803" ++ $"     " ++ $"pn" ++ $"     " ++ write_digits [d0] ++ $"        " ++ "|"%char :: ln "").
    apply (rp_projector _ _ (VStr (text_of "loc")) _ [d3] _ VNone _ (rd "0.000") (rd "1.803") _ _ _ [d0]); try rpiece; [constructor|constructor; piece]. }
  apply laid_row. { row_as ($"   | " ++ text_of "Augmentation charge Rinner" ++ ln " = 0.600                       |").
    apply (rp_augmentation _ _ [rd "0.600"]); try rpiece; try solve [apply not_mentions_of; vmr|apply nl_of; vmr]. }
  apply laid_row. { row_as ($"   | " ++ text_of "Partial core correction Rc" ++ ln " = 0.600                       |").
    apply (rp_core _ _ [rd "0.600"]); try rpiece; try solve [apply not_mentions_of; vmr|apply nl_of; vmr]. }
  apply laid_other; [apply silent_b; vmr|constructor].
Qed.
Example C88_report_ex : (exists its, laid report_row silent_report ex_report its) /\
  process_pspot_report ex_report = Ok
    [(name "reference_electronic_structure", VList [VDict false [(name "orb", VStr ($"3s1/2")); (name "occupation", SpecCastep.float_of (rd "2.000")); (name "energy", SpecCastep.float_of (rd "-3.132"))]]);
     (name "pseudopotential_definition", VList [
        VDict false [(name "beta", VInt 1); (name "l", VInt 0); (name "j", VInt 1); (name "e", SpecCastep.float_of (rd "-3.132")); (name "Rc", SpecCastep.float_of (rd "1.803"));
          (name "scheme", VStr ($"qc")); (name "norm", VInt 0)];
        VDict false [(name "beta", VStr ($"loc")); (name "l", VInt 3); (name "j", VNone); (name "e", SpecCastep.float_of (rd "0.000")); (name "Rc", SpecCastep.float_of (rd "1.803"));
          (name "scheme", VStr ($"pn")); (name "norm", VInt 0)]]);
     (name "element", VStr ($"Mn")); (name "ionic_charge", SpecCastep.float_of (rd "15.00")); (name "level_of_theory", VStr ($"LDA")); (name "solver", VStr ($"Koelling-Harmon"));
     (name "augmentation_charge_rinner", vector [rd "0.600"]); (name "partial_core_correction", vector [rd "0.600"])].
Proof. split; [eexists; exact ex_report_rows|vmr]. Qed.

(** The string that defines the pseudopotential stands in the frame as well, but no
    report of lines in the frame is given a "detail": the pattern for it only
    matches a string that the line begins with. *)
Theorem C88_report_string ls d : Forall in_frame ls -> process_pspot_report ls = Ok d -> dget key_eqb d (name "detail") = None.
Proof. exact (no_detail ls d). Qed.
Print Assumptions C88_report_string.
Definition in_frameb (l : str) : bool := freeb "0123456789" l || match lstrip l with c :: _ => Ascii.eqb c "|" | [] => false end.
Lemma in_frame_b l : in_frameb l = true -> in_frame l.
Proof.
  unfold in_frameb, lstrip, lstrip_by. intros H. apply orb_true_iff in H as [H|H]; [left; apply (free_of_b _ _ H)|]. right.
  destruct (drop_while is_space l) as [|c v] eqn:E; [discriminate H|]. apply Ascii.eqb_eq in H. subst c.
  exists (take_while is_space l ++ ["|"%char]), v. split; [rewrite <- app_assoc; cbn [app]; now rewrite <- E, take_drop_while|]. exists (take_while is_space l), []. split; [reflexivity|]. split; apply blanks_of; [apply take_while_all|reflexivity].
Qed.
Theorem C88_report_string_refuted : exists w d, w = $"3|1.8|1.8|0.6|12|14|16|30U:40:31:32(qc=7)" /\
  Forall in_frame (ex_report ++ [$"   | """ ++ w ++ ln """              |"]) /\ process_pspot_report (ex_report ++ [$"   | """ ++ w ++ ln """              |"]) = Ok d /\ dget key_eqb d (name "detail") = None /\
  exists d' v, process_pspot_report (ex_report ++ [w ++ [newline]]) = Ok d' /\ dget key_eqb d' (name "detail") = Some v.
Proof.
  eexists. eexists. split; [reflexivity|]. split; [apply (forall_of _ in_frameb); [apply in_frame_b|vmr]|]. split; [vmr|]. split; [vmr|]. eexists. eexists. split; vmr.
Qed.
Print Assumptions C88_report_string_refuted.

(** Symmetry and constraints. *)
Theorem C88_symmetry ls its : symmetry_lines ls its -> exists r, process_symmetry ls = Ok r /\ symmetry_read its r.
Proof. exact (symmetry_spec ls its). Qed.
Print Assumptions C88_symmetry.
Definition kindb (i : nat) (l : str) : bool :=
  negb (existsb (Ascii.eqb "="%char) l) && negb (re_match_test ROTATION_RE l) && match nth_error symmetry_words i with Some w => contains ($w) l | None => true end &&
  forallb (fun w => negb (contains ($w) l)) (firstn i symmetry_words).
Lemma kind_b i l : kindb i l = true -> symmetry_kind i l.
Proof.
  unfold kindb. intros H. apply andb_true_iff in H as [H H4]. apply andb_true_iff in H as [H H3]. apply andb_true_iff in H as [H1 H2]. apply negb_true_iff in H1, H2. split; [now apply not_in_of|].
  split; [intros R; apply rotation_iff in R; congruence|]. split; [intros w E; rewrite E in H3; now apply mentions_of|]. intros j w Hj E. apply not_mentions_of, negb_true_iff.
  rewrite forallb_forall in H4. apply H4. clear -Hj E. revert i j Hj E. generalize symmetry_words as ws. induction ws as [|y ws IH]; intros [|i] [|j] Hj E; cbn in *; try lia; try discriminate; [left; congruence|].
  right. apply (IH i j); [lia|exact E].
Qed.
Lemma digits_all_b (nss : list (list digit)) : forallb (fun ds => negb (isempty ds)) nss = true -> Forall (fun ds => ds <> []) nss.
Proof. apply forall_of. intros ds. apply ne_nil. Qed.
Lemma heading_b u c : freeb "0123456789" (u ++ [c]) && negb (existsb (Ascii.eqb "["%char) (u ++ [c])) && chr_in c ($".-") = true -> heading (u ++ [c]).
Proof.
  intros H. apply andb_true_iff in H as [H H3]. apply andb_true_iff in H as [H1 H2]. apply negb_true_iff in H2. right. exists u, c. split; [reflexivity|]. split; [apply (free_of_b _ _ H1)|]. split; [now apply not_in_of|now apply chr_in_among].
Qed.
Definition ex_symmetry : list str := lns [
  "                      Cell is a supercell containing 2 primitive cells"; "                      Maximum deviation from symmetry =  0.00000         ANG"; "";
  "                      Number of symmetry operations   =           1"; "                      Number of ionic constraints     =           3";
  "                      Point group of crystal =     1: C1, 1, 1"; "                      Space group of crystal =   213: P4_132, P 4bd 2ab 3";
  "                    1 rotation"; "                 (   1.00000   0.00000   0.00000 )"; "                 (   0.00000   1.00000  -0.00000 )"; "                 (  -0.00000  -0.00000   1.00000 )";
  "                    1 displacement"; "                 (   0.00000   0.50000  -0.00000 )"; "                      symmetry related atoms:"; "             Br:    1"; "             Se:    1    2"; "";
  "                         Centre of mass is constrained";
  "            x  Species       atom   co-ordinate  constraints....."; "            x--------------------------------...."; "            x Se                1       x       14.2749      0.0000      0.0000";
  "            x Se                1       y            0.0000 14.2749      0.0000"; "            xxxxxxxxxxxxxxxxxxxxxxxxxxxxxxxxx...."; "                         Cell constraints are:  1 2 3 4 5 6"]%string.
Definition ex_operation : pyval := operation_read (nums ["1.00000"; "0.00000"; "0.00000"]%string) (nums ["0.00000"; "1.00000"; "-0.00000"]%string) (nums ["-0.00000"; "-0.00000"; "1.00000"]%string)
  (nums ["0.00000"; "0.50000"; "-0.00000"]%string) [VTuple [VStr ($"Br"); VInt 1]; VTuple [VStr ($"Se"); VInt 1]; VTuple [VStr ($"Se"); VInt 2]].
Definition ex_se : key * pyval := (SpecDict.atom_key ($"Se", 1%Z), VList [vector (nums ["14.2749"; "0.0000"; "0.0000"]%string); vector (nums ["0.0000"; "14.2749"; "0.0000"]%string)]).
Lemma ex_symmetry_lines : exists its, symmetry_lines ex_symmetry its.
Proof.
  eexists. unfold ex_symmetry. cbn [lns map].
  apply sl_row; [eapply (sr_primitives _ (rd "2")); [apply kind_b; vmr|apply nl_of; vmr|apply int_of; vmr]|].
  apply sl_row. { row_as ($"                      Maximum deviation from symmetry " ++ "="%char :: ln "  0.00000         ANG").
    eapply sr_symmetry; [apply not_in_of; vmr|apply not_in_of; vmr|apply key_named; vmr|apply words_named; vmr|apply (sv_deviation _ (rd "0.00000") [$"ANG"]); [apply cut_of; vmr|piece|piece]|apply not_mentions_of; vmr|discriminate]. }
  apply sl_other; [apply kind_b; vmr|].
  apply sl_row. { row_as ($"                      Number of symmetry operations   " ++ "="%char :: ln "           1").
    eapply sr_symmetry; [apply not_in_of; vmr|apply not_in_of; vmr|apply key_named; vmr|apply words_named; vmr|apply (sv_number ($"symmetry_operations") (rd "1")); [piece|apply int_of; vmr]|apply not_mentions_of; vmr|discriminate]. }
  apply sl_row. { row_as ($"                      Number of ionic constraints     " ++ "="%char :: ln "           3").
    eapply sr_constraints; [apply not_in_of; vmr|apply not_in_of; vmr|apply key_named; vmr|apply words_named; vmr|apply (sv_number ($"ionic_constraints") (rd "3")); [piece|apply int_of; vmr]|apply mentions_of; vmr]. }
  apply sl_row. { row_as ($"                      Point group of crystal " ++ "="%char :: ln "     1: C1, 1, 1").
    eapply sr_symmetry; [apply not_in_of; vmr|apply not_in_of; vmr|apply key_named; vmr|apply words_named; vmr| | |];
    [apply (sv_point ($"point_group_of_crystal") [d1] ($" C1") ($" 1") ($" 1")); solve [apply mentions_of; vmr|apply not_mentions_of; vmr|discriminate|apply not_in_of; vmr|apply trimmed_of; vmr]|apply not_mentions_of; vmr|discriminate]. }
  apply sl_row. { row_as ($"                      Space group of crystal " ++ "="%char :: ln "   213: P4_132, P 4bd 2ab 3").
    eapply sr_symmetry; [apply not_in_of; vmr|apply not_in_of; vmr|apply key_named; vmr|apply words_named; vmr| | |];
    [apply (sv_space ($"space_group_of_crystal") [d2; d1; d3] ($" P4_132") ($" P 4bd 2ab 3")); solve [apply mentions_of; vmr|apply not_mentions_of; vmr|discriminate|apply not_in_of; vmr|apply trimmed_of; vmr]|apply not_mentions_of; vmr|discriminate]. }
  apply (sl_operation _ _ (nums ["1.00000"; "0.00000"; "0.00000"]%string) _ (nums ["0.00000"; "1.00000"; "-0.00000"]%string) _ (nums ["-0.00000"; "-0.00000"; "1.00000"]%string) _ _
    (nums ["0.00000"; "0.50000"; "-0.00000"]%string) _ (lns ["             Br:    1"; "             Se:    1    2"]%string)
    [map (fun ds => VTuple [VStr ($"Br"); VInt (decimal ds)]) [[d1]]; map (fun ds => VTuple [VStr ($"Se"); VInt (decimal ds)]) [[d1]; [d2]]] (ln ""));
    [apply not_in_of; vmr|apply rotation_iff; vmr|apply nl_of; vmr|apply nl_of; vmr|apply nl_of; vmr|apply nl_of; vmr|piece|piece|piece|piece| |piece|].
  { constructor; [eapply (rl _ ($"Br") ($"    1") [[d1]])|constructor; [eapply (rl _ ($"Se") ($"    1    2") [[d1]; [d2]])|constructor]];
    solve [apply trimmed_of; vmr|apply not_in_of; vmr|apply digits_all_b; vmr|apply cut_of; vmr]. }
  apply sl_row; [apply sr_held; [apply kind_b; vmr|apply not_mentions_of; vmr]|].
  eapply (sl_constrained _ (lns ["            x--------------------------------...."; "            x Se                1       x       14.2749      0.0000      0.0000";
    "            x Se                1       y            0.0000 14.2749      0.0000"]%string)).
  - apply kind_b. vmr.
  - apply (forall_of _ (fun l => negb (contains ($"x....") l))); [intros l H; apply not_mentions_of; now apply negb_true_iff|vmr].
  - apply mentions_of. vmr.
  - match goal with |- constrained ?t _ => refine (eq_rect (($"            x  Species       atom   co-ordinate  constraints....." ++ [newline; newline] ++ $"            x--------------------------------..." ++ ["."%char]) ++ ([newline; newline] ++ $"            x ") ++ at_text "Se" "                " "1" ++ $"       " ++ "x"%char ::
        $"       14.2749      0.0000      0.0000" ++ ([] ++ ([newline; newline] ++ $"            x ") ++ at_text "Se" "                " "1" ++ $"       " ++ "y"%char :: $"            0.0000 14.2749      0.0000" ++
        ([newline; newline] ++ $"            xxxxxxxxxxxxxxxxxxxxxxxxxxxxxxxxx...." ++ [newline]))) (fun z => constrained z _) _ t _); [|vmr] end.
    eapply (ct_next _ _ _ _ _ _ _ (nums ["14.2749"; "0.0000"; "0.0000"]%string)); [rewrite !app_assoc; apply heading_b; vmr|apply no_caps_of; vmr|apply edge_of; vmr|piece|piece|apply chr_in_among; vmr|piece|reflexivity|piece|piece|].
    eapply (ct_next _ _ _ _ _ _ _ (nums ["0.0000"; "14.2749"; "0.0000"]%string)); [now left|apply no_caps_of; vmr|apply edge_of; vmr|piece|piece|apply chr_in_among; vmr|piece|reflexivity|piece|piece|].
    apply ct_end. apply free_of_b. vmr.
  - apply merged_dof.
  - apply sl_row; [|constructor]. eapply (sr_cell _ (nums ["1"; "2"; "3"; "4"; "5"; "6"]%string)); [apply kind_b; vmr|apply nl_of; vmr|apply (forall_of _ intb); [apply int_of|vmr]].
Qed.
Example C88_symmetry_ex : (exists its, symmetry_lines ex_symmetry its) /\ process_symmetry ex_symmetry = Ok
  ([(name "n_primitives", VInt 2); (name "max_deviation", SpecCastep.float_of (rd "0.00000")); (name "num_symmetry_operations", VInt 1);
    (name "point_group", VDict false [(name "id", VInt 1); (name "schoenflies", VStr ($"C1")); (name "hermann_mauguin", VStr ($"1")); (name "hermann_mauguin_full", VStr ($"1"))]);
    (name "space_group", VDict false [(name "id", VInt 213); (name "international", VStr ($"P4_132")); (name "hall", VStr ($"P 4bd 2ab 3"))]); (name "symop", VList [ex_operation])],
   [(name "num_ionic_constraints", VInt 3); (name "com_constrained", VBool true); (name "ionic_constraints", VDict true [ex_se]);
    (name "cell_constraints", VTuple [VInt 1; VInt 2; VInt 3; VInt 4; VInt 5; VInt 6])]).
Proof. split; [exact ex_symmetry_lines|vmr]. Qed.
