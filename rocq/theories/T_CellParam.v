(** Property theorems C49, C50, C61-C63: .cell and .param files.  [dc] and [sp] stand
    for the parsers of the devel_code and species_pot blocks. *)
From Verif Require Import PyBase PyVal Regex NumSpec SpecLine SpecTable SpecStr SpecType SpecDict SpecMd CastepRes StrUtil TypeConv
  CellParam SpecCell CellFacts CellPosFacts CellBlockFacts NumProps DictFacts IntStr MdFacts ExampleTools.
From Verif Require TypeConvFacts.
Local Open Scope list_scope.
Local Open Scope nat_scope.

(** C49.  A file is read as the assignments it makes, later ones replacing earlier
    ones of the same name. *)
Theorem C49_file dc sp ls asg out : cell_lines ls asg -> merged asg out ->
  parse_cell_param_file dc sp ls = Ok (VList [VDict false out]).
Proof. exact (cell_file_ok dc sp ls asg out). Qed.
Print Assumptions C49_file.
(** Lists that mix integers and other numbers, and lists separated by tabs, raise. *)
Theorem C49_unreadable dc sp ls asg raw h rest : cell_lines ls asg -> code_of raw h -> unreadable_code h ->
  parse_cell_param_file dc sp (ls ++ raw :: rest) = Err ValueError.
Proof. exact (cell_file_unreadable dc sp ls asg raw h rest). Qed.
Print Assumptions C49_unreadable.
(** So does a block without an end. *)
Theorem C49_unclosed dc sp ls asg raw h title rest : cell_lines ls asg -> code_of raw h -> block_head h title ->
  Forall (fun l => ~ end_line l) rest -> parse_cell_param_file dc sp (ls ++ raw :: rest) = Err OSError.
Proof. exact (cell_file_unclosed dc sp ls asg raw h title rest). Qed.
Print Assumptions C49_unclosed.
(** Two blanks before the unit: the value is lost or becomes text. *)
Theorem C49_two_blanks_refuted dc sp :
  parse_cell_param_file dc sp [ln "cut_off_energy: 10  eV"] = Ok (VList [VDict false []]) /\
  parse_cell_param_file dc sp [ln "cut_off_energy : 10  eV"] =
    Ok (VList [VDict false [(KStr ($"cut_off_energy"), VStr ($": 10  eV"))]]).
Proof. split; vmr. Qed.
(** Names with digits are dropped. *)
Theorem C49_digit_name_refuted dc sp : parse_cell_param_file dc sp [ln "sedc_s6_g06 : 0.75"] = Ok (VList [VDict false []]).
Proof. vmr. Qed.

(** C50.  Every line of a positions block gives one atom, numbered within its species. *)
Theorem C50_fractional dc sp w ls body e atoms : In w frac_blocks -> one_block ls ($w) (body ++ [e]) ->
  Forall2 atom_line body atoms -> end_line e ->
  parse_cell_param_file dc sp ls = Ok (VList [VDict false [(KStr ($w), VDict false (numbered None [] atoms))]]).
Proof. exact (fun Hw Hl Ha He => one_block_ok dc sp ls ($w) (body ++ [e]) _ Hl (bm_frac w body e atoms Hw Ha He)). Qed.
Print Assumptions C50_fractional.
Theorem C50_absolute dc sp ls l u body e atoms : one_block ls ($"positions_abs") (l :: body ++ [e]) ->
  unit_line l u -> Forall2 atom_line body atoms -> end_line e ->
  parse_cell_param_file dc sp ls = Ok (VList [VDict false [(KStr ($"positions_abs"), VDict false (numbered (Some u) [] atoms))]]).
Proof. exact (fun Hl Hu Ha He => one_block_ok dc sp ls _ _ _ Hl (bm_abs u l body e atoms Hu Ha He)). Qed.
Print Assumptions C50_absolute.
Theorem C50_absolute_default dc sp ls l body e atoms : one_block ls ($"positions_abs") ((l :: body) ++ [e]) ->
  Forall2 atom_line (l :: body) atoms -> end_line e ->
  parse_cell_param_file dc sp ls =
  Ok (VList [VDict false [(KStr ($"positions_abs"), VDict false (numbered (Some ($"Ang")) [] atoms))]]).
Proof. exact (fun Hl Ha He => one_block_ok dc sp ls _ _ _ Hl (bm_abs_default l body e atoms Ha He)). Qed.
Print Assumptions C50_absolute_default.
(** An atom at a negative ratio, or with a label, is dropped; a mixture introduced by
    a colon and a blank is ignored. *)
Theorem C50_negative_ratio_refuted dc sp :
  parse_cell_param_file dc sp (lns ["%BLOCK positions_frac"; "Si -1/3 0 0"; "%ENDBLOCK positions_frac"]%string) =
  Ok (VList [VDict false [(KStr ($"positions_frac"), VDict false [])]]).
Proof. vmr. Qed.
Theorem C50_label_refuted dc sp :
  parse_cell_param_file dc sp (lns ["%BLOCK positions_frac"; "Fe:a 0 0 0"; "%ENDBLOCK positions_frac"]%string) =
  Ok (VList [VDict false [(KStr ($"positions_frac"), VDict false [])]]).
Proof. vmr. Qed.

(** C61.  Symmetry operations: four rows each, three of the rotation and the shift. *)
Theorem C61_symmetry_ops dc sp ls body e ops : one_block ls ($"symmetry_ops") (body ++ [e]) ->
  rows body (flat_map SpecCell.symop_rows ops) -> end_line e -> free_of "0123456789" e ->
  parse_cell_param_file dc sp ls = Ok (VList [VDict false [(KStr ($"symmetry_ops"), VList (map symop_value ops))]]).
Proof. exact (fun Hl Hr He Hf => one_block_ok dc sp ls _ _ _ Hl (bm_symops body e ops Hr He Hf)). Qed.
Print Assumptions C61_symmetry_ops.
(** A negative ratio becomes two numbers. *)
Theorem C61_negative_ratio_refuted dc sp :
  parse_cell_param_file dc sp (lns ["%BLOCK symmetry_ops"; "1 0 0"; "0 1 0"; "0 0 1"; "-1/3 0 0"; "%ENDBLOCK symmetry_ops"]%string) =
  Ok (VList [VDict false [(KStr ($"symmetry_ops"), VList [VDict false
    [(KStr ($"r"), VList [VTuple [VFloat (FQ 1); VFloat (FQ 0); VFloat (FQ 0)]; VTuple [VFloat (FQ 0); VFloat (FQ 1); VFloat (FQ 0)];
                         VTuple [VFloat (FQ 0); VFloat (FQ 0); VFloat (FQ 1)]]);
     (KStr ($"t"), VTuple [VFloat (FQ (-1)); VFloat (FQ 3); VFloat (FQ 0); VFloat (FQ 0)])]])]]).
Proof. vmr. Qed.

(** C62.  Ionic constraints: the vectors of every atom, in order. *)
Theorem C62_ionic_constraints dc sp ls body e cs : one_block ls ($"ionic_constraints") (body ++ [e]) ->
  Forall2 constraint_line body cs -> end_line e ->
  parse_cell_param_file dc sp ls = Ok (VList [VDict false [(KStr ($"ionic_constraints"),
    VDict false (map (fun k => (k, VList (vectors k cs))) (firsts (map constraint_key cs))))]]).
Proof. exact (fun Hl Hc He => one_block_ok dc sp ls _ _ _ Hl (bm_constraints body e cs Hc He)). Qed.
Print Assumptions C62_ionic_constraints.
(** Constraints from the tenth on are dropped. *)
Theorem C62_tenth_refuted dc sp :
  parse_cell_param_file dc sp (lns ["%BLOCK ionic_constraints"; "10 H 1 0 0 1"; "%ENDBLOCK ionic_constraints"]%string) =
  Ok (VList [VDict false [(KStr ($"ionic_constraints"), VDict false [])]]).
Proof. vmr. Qed.

(** C63.  Other blocks: rows of numbers, or one value for each species. *)
Theorem C63_rows dc sp ls title us u body xss e : one_block ls title (us ++ body ++ [e]) ->
  ~ In title (map list_ascii_of_string own_format) -> unit_lines us u -> rows body xss -> end_line e -> free_of "0123456789#!" e ->
  parse_cell_param_file dc sp ls = Ok (VList [VDict false [(KStr title, with_units u (VList (map row_value xss)))]]).
Proof. exact (fun Hl Ht Hu Hr He Hf => one_block_ok dc sp ls _ _ _ Hl (bm_rows title us u body xss e Ht Hu Hr He Hf)). Qed.
Print Assumptions C63_rows.
Theorem C63_properties dc sp ls title us u body its out e : one_block ls title (us ++ body ++ [e]) ->
  ~ In title (map list_ascii_of_string own_format) -> unit_lines us u -> Forall2 property_line body its -> body <> [] ->
  merged its out -> end_line e -> free_of "0123456789#!" e ->
  parse_cell_param_file dc sp ls = Ok (VList [VDict false [(KStr title, with_units u (VDict false out))]]).
Proof.
  exact (fun Hl Ht Hu Hp H0 Hm He Hf => one_block_ok dc sp ls _ _ _ Hl (bm_properties title us u body its out e Ht Hu Hp H0 Hm He Hf)).
Qed.
Print Assumptions C63_properties.
(** Digits after the end marker become one more row. *)
Theorem C63_end_digits_refuted dc sp :
  parse_cell_param_file dc sp (lns ["%BLOCK lattice_cart"; "1 0 0"; "%ENDBLOCK lattice_cart2"]%string) =
  Ok (VList [VDict false [(KStr ($"lattice_cart"), VDict false [(KStr ($"data"),
    VList [VTuple [VFloat (FQ 1); VFloat (FQ 0); VFloat (FQ 0)]; VTuple [VFloat (FQ 2)]])])]]).
Proof. vmr. Qed.

(** *** Examples *)
Local Definition nl : str := [newline].
Local Definition sp1 : str := $" ".
Lemma sp1_blanks : blanks sp1. Proof. apply blanks_of. reflexivity. Qed.
Lemma nl_blanks : blanks nl. Proof. apply blanks_of. reflexivity. Qed.
Lemma nil_blanks : blanks []. Proof. constructor. Qed.
Lemma key_of k : k <> [] -> forallb (fun c => is_alpha c || Ascii.eqb c "_") k = true -> key_name k.
Proof.
  intros H0 H. split; [exact H0|]. intros c Hc. rewrite forallb_forall in H. specialize (H c Hc). apply orb_true_iff in H as [H|H].
  - left. assert (E : forall c, is_alpha c = true -> is_alpha c = true) by auto.
    unfold letter. unfold is_alpha in H. destruct (is_upper c) eqn:U.
    + left. apply andb_true_iff in U as [A B]. apply N.leb_le in A, B. split; assumption.
    + right. apply andb_true_iff in H as [A B]. apply N.leb_le in A, B. split; assumption.
  - right. now apply Ascii.eqb_eq.
Qed.
Lemma head_of a p b t r : blanks a -> lower p = $"%block " -> blanks b -> t <> [] -> forallb (fun c => negb (is_space c)) t = true ->
  match r with [] => true | c :: _ => is_space c end = true -> block_head (a ++ p ++ b ++ t ++ r) t.
Proof.
  intros Ha Hp Hb H0 Ht Hr. constructor; auto.
  - intros c Hc B. apply blank_iff in B. rewrite forallb_forall in Ht. specialize (Ht c Hc). now rewrite B in Ht.
  - intros c u ->. now apply blank_iff.
Qed.
Lemma ends l : re_test ENDBLOCK_RE l = true -> end_line l. Proof. apply end_line_test. Qed.
Lemma no_ends ls : forallb (fun l => negb (re_test ENDBLOCK_RE l)) ls = true -> Forall (fun l => ~ end_line l) ls.
Proof.
  intros H. apply Forall_forall. intros l Hl E. rewrite forallb_forall in H. specialize (H l Hl). apply end_line_test in E. now rewrite E in H.
Qed.
Lemma here ls h t body e title clean : ls = h :: body ++ [e] -> block_head (uncomment h) t -> lower t = title ->
  forallb (fun l => negb (re_test ENDBLOCK_RE l)) body = true -> re_test ENDBLOCK_RE e = true ->
  strip_comments [$"#"; $"!"] true (body ++ [e]) = clean -> one_block ls title clean.
Proof.
  intros -> Hh Ht Hb He Hs. exists h, (uncomment h), body, e, t. split; [reflexivity|]. split; [apply code_here|]. split; [exact Hh|].
  split; [exact Ht|]. split; [now apply no_ends|]. split; [now apply ends|]. rewrite <- Hs. apply stripped_here.
Qed.
Lemma cnum s : okb (rd s) = true -> fitsb (rd s) = true -> coord_ok (CNum (rd s)).
Proof. intros H F. split; [now apply fits_of|now apply ok_of]. Qed.
Local Definition third : ratio := {| r_sign := NoSign; r_num := [d1]; r_den := [d3] |}.
Lemma third_ok : coord_ok (CRatio third).
Proof. split; [|repeat split; try discriminate]. apply NumVal.fits_dec. vmr. Qed.
Lemma co x xs t : coord_ok x -> coords xs t -> coords (x :: xs) (sp1 ++ coord_text x ++ t).
Proof. intros Hx Ht. constructor; auto; [apply sp1_blanks|discriminate]. Qed.
Lemma species_of s c t : s = c :: t -> is_upper c = true -> length t <= 2 -> forallb is_lower t = true -> SpecCell.species s.
Proof.
  intros -> Hc Hl Ht. exists c, t. split; [reflexivity|]. split; [|split; [exact Hl|]].
  - apply andb_true_iff in Hc as [A B]. apply N.leb_le in A, B. split; assumption.
  - intros x Hx. rewrite forallb_forall in Ht. specialize (Ht x Hx). apply andb_true_iff in Ht as [A B]. apply N.leb_le in A, B. split; assumption.
Qed.

Local Definition pos_lines : list str := lns ["Si 0 0 0"; "O 1/3 0.5 .25 SPIN= 1.0 ! c"; "Si 0.1 -0.2 0.3"]%string.
Local Definition ex_atoms : list atom :=
  [{| at_spec := $"Si"; at_pos := [CNum (rd "0"); CNum (rd "0"); CNum (rd "0")]; at_spin := None; at_mix := None |};
   {| at_spec := $"O"; at_pos := [CRatio third; CNum (rd "0.5"); CNum (rd ".25")]; at_spin := Some (CNum (rd "1.0")); at_mix := None |};
   {| at_spec := $"Si"; at_pos := [CNum (rd "0.1"); CNum (rd "-0.2"); CNum (rd "0.3")]; at_spin := None; at_mix := None |}].
Lemma ex_atom_lines : Forall2 atom_line [$"Si 0 0 0"; $"O 1/3 0.5 .25 SPIN= 1.0"; $"Si 0.1 -0.2 0.3"] ex_atoms.
Proof.
  assert (T : forall a b c, coord_ok a -> coord_ok b -> coord_ok c ->
    coords [a; b; c] (sp1 ++ coord_text a ++ sp1 ++ coord_text b ++ sp1 ++ coord_text c ++ [])).
  { intros a b c Ha Hb Hc. repeat apply co; auto. constructor. }
  repeat constructor.
  - apply (al [] ($"Si") ($" 0 0 0") [] [] (nth 0 ex_atoms (Build_atom [] [] None None))); try apply nil_blanks; try reflexivity.
    + eapply species_of; try reflexivity. cbn. lia.
    + apply (T (CNum (rd "0")) (CNum (rd "0")) (CNum (rd "0"))); apply cnum; vmr.
    + constructor.
  - pose (spin := sp1 ++ $"SPIN" ++ ($"" ++ "="%char :: $" ") ++ write_num (rd "1.0")).
    apply (al [] ($"O") ($" 1/3 0.5 .25") spin [] (nth 1 ex_atoms (Build_atom [] [] None None))); try apply nil_blanks; try reflexivity.
    + eapply species_of; try reflexivity. cbn. lia.
    + apply (T (CRatio third) (CNum (rd "0.5")) (CNum (rd ".25"))); [apply third_ok| |]; apply cnum; vmr.
    + apply ex_spin. apply (st_spin sp1 ($"SPIN") ($"" ++ "="%char :: $" ") (CNum (rd "1.0"))).
      * apply sp1_blanks.
      * discriminate.
      * left. reflexivity.
      * apply sep_mark; [constructor|cbn; tauto|apply sp1_blanks].
      * apply cnum; vmr.
  - apply (al [] ($"Si") ($" 0.1 -0.2 0.3") [] [] (nth 2 ex_atoms (Build_atom [] [] None None))); try apply nil_blanks; try reflexivity.
    + eapply species_of; try reflexivity. cbn. lia.
    + apply (T (CNum (rd "0.1")) (CNum (rd "-0.2")) (CNum (rd "0.3"))); apply cnum; vmr.
    + constructor.
Qed.
Example C50_ex : In "positions_frac"%string frac_blocks /\
  one_block (ln "%BLOCK positions_frac # x" :: pos_lines ++ [ln "%ENDBLOCK positions_frac"]) ($"positions_frac")
    ([$"Si 0 0 0"; $"O 1/3 0.5 .25 SPIN= 1.0"; $"Si 0.1 -0.2 0.3"] ++ [$"%ENDBLOCK positions_frac"]) /\
  Forall2 atom_line [$"Si 0 0 0"; $"O 1/3 0.5 .25 SPIN= 1.0"; $"Si 0.1 -0.2 0.3"] ex_atoms /\ end_line ($"%ENDBLOCK positions_frac") /\
  numbered None [] ex_atoms =
  [(KTuple [KStr ($"Si"); KInt 1], VDict false [(KStr ($"pos"), VTuple [VFloat (FQ 0); VFloat (FQ 0); VFloat (FQ 0)])]);
   (KTuple [KStr ($"O"); KInt 1], VDict false [(KStr ($"pos"), VTuple [VFloat (FQ (1 # 3)); VFloat (FQ (1 # 2)); VFloat (FQ (1 # 4))]);
                                               (KStr ($"spin"), VFloat (FQ 1))]);
   (KTuple [KStr ($"Si"); KInt 2], VDict false [(KStr ($"pos"), VTuple [VFloat (FQ (1 # 10)); VFloat (FQ (-1 # 5)); VFloat (FQ (3 # 10))])])].
Proof.
  split; [now left|]. split.
  { eapply (here _ _ ($"positions_frac")); [reflexivity| |reflexivity|vmr|vmr|vmr].
    change (uncomment (ln "%BLOCK positions_frac # x")) with ([] ++ $"%BLOCK " ++ [] ++ $"positions_frac" ++ $" ").
    apply head_of; try apply nil_blanks; try discriminate; reflexivity. }
  split; [apply ex_atom_lines|]. split; [apply ends; vmr|vmr].
Qed.

(** A whole file. *)
Local Definition ex_file : list str :=
  (ln "%BLOCK positions_frac # x" :: pos_lines ++ ln "%ENDBLOCK positions_frac" :: []) ++
  lns ["# comment"; "kpoint_mp_grid 2 3 4   ! k"; "Cut_off_energy : 300.5 eV"; "fix_all_cell = TRUE"; "CUT_OFF_ENERGY=12"]%string.
Local Definition ex_asg : list (key * pyval) :=
  [(KStr ($"positions_frac"), VDict false (numbered None [] ex_atoms));
   (KStr ($"kpoint_mp_grid"), VTuple [VInt 2; VInt 3; VInt 4]);
   (KStr ($"cut_off_energy"), VTuple [VFloat (FQ (601 # 2)); VStr ($"eV")]);
   (KStr ($"fix_all_cell"), VBool true);
   (KStr ($"cut_off_energy"), VInt 12)].
Lemma kw raw a k sep t v b : uncomment raw = a ++ k ++ sep ++ t ++ b -> blanks a -> key_name k -> separator sep -> not_first ":=" t ->
  value_text t v -> blanks b -> forall ls asg, cell_lines ls asg -> cell_lines (raw :: ls) ((KStr (lower k), v) :: asg).
Proof. intros E Ha Hk Hs Hf Hv Hb ls asg H. eapply cl_keyword; [apply code_here| |exact H]. rewrite E. now constructor. Qed.
Example C49_ex : cell_lines ex_file ex_asg /\
  merged ex_asg [nth 0 ex_asg (KNone, VNone); nth 1 ex_asg (KNone, VNone); (KStr ($"cut_off_energy"), VInt 12); nth 3 ex_asg (KNone, VNone)].
Proof.
  split; [|apply (merged_dict_of key_eqb key_eqb_spec ex_asg)].
  unfold ex_file, ex_asg, pos_lines. cbn [app lns map].
  apply (cl_block (ln "%BLOCK positions_frac # x") ([] ++ $"%BLOCK " ++ [] ++ $"positions_frac" ++ $" ") ($"positions_frac") pos_lines
    (ln "%ENDBLOCK positions_frac") ([$"Si 0 0 0"; $"O 1/3 0.5 .25 SPIN= 1.0"; $"Si 0.1 -0.2 0.3"] ++ [$"%ENDBLOCK positions_frac"])).
  - apply code_here.
  - apply head_of; try apply nil_blanks; try discriminate; reflexivity.
  - apply no_ends. vmr.
  - apply ends. vmr.
  - apply stripped_here.
  - apply (bm_frac "positions_frac"); [now left|apply ex_atom_lines|apply ends; vmr].
  - apply (cl_blank _ []); [apply code_here|constructor|].
    apply (kw _ [] ($"kpoint_mp_grid") ([] ++ [" "%char]) ($"2 3 4") _ ($"   ")).
    { vmr. } { constructor. } { apply key_of; [discriminate|vmr]. } { apply sep_gap; [constructor|now left]. } { apply not_first_b. vmr. }
    { apply vt_num. apply (num_many (rd "2") [rd "3"; rd "4"] ($" 3 4") (VTuple [VInt 2; VInt 3; VInt 4])).
      - apply ok_of. vmr. - apply columns_of. vmr. - now left.
      - apply (nl_int [rd "2"; rd "3"; rd "4"]). repeat constructor. }
    { apply blanks_of. reflexivity. }
    apply (kw _ [] ($"Cut_off_energy") ($" " ++ ":"%char :: $" ") ($"300.5" ++ " "%char :: $"eV") _ nl).
    { vmr. } { constructor. } { apply key_of; [discriminate|vmr]. }
    { apply sep_mark; [apply sp1_blanks|cbn; tauto|apply sp1_blanks]. } { apply not_first_b. vmr. }
    { apply vt_unit.
      - apply (num_one (rd "300.5")); [apply ok_of; vmr|]. apply (sn_float (rd "300.5")); [intros [X _]; discriminate X|apply fits_of; vmr].
      - apply blank_iff. reflexivity.
      - split.
        + intros c Hc B. apply blank_iff in B. destruct Hc as [<-|[<-|[]]]; discriminate.
        + exists "V"%char. split; [right; now left|]. intros A. apply chr_in_among in A. discriminate. }
    { apply nl_blanks. }
    apply (kw _ [] ($"fix_all_cell") ($" " ++ "="%char :: $" ") ($"TRUE") _ nl).
    { vmr. } { constructor. } { apply key_of; [discriminate|vmr]. }
    { apply sep_mark; [apply sp1_blanks|cbn; tauto|apply sp1_blanks]. } { apply not_first_b. vmr. }
    { apply vt_word.
      - split; [discriminate|]. split; [apply not_first_b; vmr|]. split.
        + intros c t E B. apply blank_iff in B. injection E as <- _. discriminate.
        + intros t c E B. apply blank_iff in B. change ($"TRUE") with (($"TRU") ++ ["E"%char]) in E. apply app_inj_tail in E as [_ <-]. discriminate.
      - apply wm_true; exists "true"%string; (split; [right; now left|reflexivity]). }
    { apply nl_blanks. }
    apply (kw _ [] ($"CUT_OFF_ENERGY") ([] ++ "="%char :: []) ($"12") _ nl).
    { vmr. } { constructor. } { apply key_of; [discriminate|vmr]. }
    { apply sep_mark; [constructor|cbn; tauto|constructor]. } { apply not_first_b. vmr. }
    { apply vt_num. apply (num_one (rd "12")); [apply ok_of; vmr|]. apply (sn_int (rd "12")). split; reflexivity. }
    { apply nl_blanks. }
    constructor.
Qed.
Example C49_unreadable_ex : unreadable_code (uncomment (ln "kpoint_mp_grid 2 2.5 1")) /\
  unreadable_code (uncomment (ln "kpoint_mp_grid 2	2")).
Proof.
  split.
  - apply (ur_mixed [] ($"kpoint_mp_grid") ([] ++ [" "%char]) (rd "2") [rd "2.5"; rd "1"] ($" 2.5 1") nl); try apply nil_blanks; try apply nl_blanks.
    + apply key_of; [discriminate|vmr].
    + apply sep_gap; [constructor|now left].
    + apply ok_of. vmr.
    + split; reflexivity.
    + apply columns_of. vmr.
    + now left.
    + left. intros [X _]. discriminate X.
  - apply (ur_tabs [] ($"kpoint_mp_grid") ([] ++ [" "%char]) (rd "2") [rd "2"] ($"	2") nl); try apply nil_blanks; try apply nl_blanks.
    + apply key_of; [discriminate|vmr].
    + apply sep_gap; [constructor|now left].
    + apply ok_of. vmr.
    + apply columns_of. vmr.
    + discriminate.
    + intros [X|[X|[]]]; discriminate X.
Qed.
Local Definition rw (l : str) (xs : list coord) b ls xss x xs' t : xs = x :: xs' -> l = [] ++ coord_text x ++ t -> coord_ok x -> coords xs' t -> blanks b ->
  rows ls xss -> rows ((l ++ b) :: ls) (xs :: xss).
Proof.
  intros -> -> Hx Ht Hb H. constructor; [|exact Hb|exact H]. exists [], x, xs', t. repeat split; auto; try constructor; apply Hx.
Qed.
Example C61_ex :
  let op := {| so_x := [CNum (rd "1"); CNum (rd "0"); CNum (rd "0")]; so_y := [CNum (rd "0"); CNum (rd "-1"); CNum (rd "0")];
               so_z := [CNum (rd "0"); CNum (rd "0"); CNum (rd "1.0")]; so_t := [CRatio third; CNum (rd "0.5"); CNum (rd "0")] |} in
  let body := [$"1 0 0"; $"0 -1 0"; $"0 0 1.0"; $"1/3 0.5 0"] in
  one_block (lns ["%BLOCK SYMMETRY_OPS"; "1 0 0"; "0 -1 0"; "0 0 1.0"; ""; "1/3 0.5 0 ! t"; "%ENDBLOCK symmetry_ops"]%string) ($"symmetry_ops")
    (body ++ [$"%ENDBLOCK symmetry_ops"]) /\
  rows body (flat_map SpecCell.symop_rows [op]) /\ end_line ($"%ENDBLOCK symmetry_ops") /\ free_of "0123456789" ($"%ENDBLOCK symmetry_ops").
Proof.
  cbv zeta. split; [|split; [|split; [apply ends; vmr|apply free_of_b; vmr]]].
  - eapply (here _ (ln "%BLOCK SYMMETRY_OPS") ($"SYMMETRY_OPS") (lns ["1 0 0"; "0 -1 0"; "0 0 1.0"; ""; "1/3 0.5 0 ! t"]%string) (ln "%ENDBLOCK symmetry_ops")); try vmr.
    change (uncomment (ln "%BLOCK SYMMETRY_OPS")) with ([] ++ $"%BLOCK " ++ [] ++ $"SYMMETRY_OPS" ++ nl).
    apply head_of; try apply nil_blanks; try discriminate; reflexivity.
  - cbn [flat_map SpecCell.symop_rows so_x so_y so_z so_t app].
    apply (rw ($"1 0 0") _ [] _ _ (CNum (rd "1")) [CNum (rd "0"); CNum (rd "0")] ($" 0 0")); [reflexivity|reflexivity|apply cnum; vmr| |constructor|].
    { apply (co (CNum (rd "0"))); [apply cnum; vmr|]. apply (co (CNum (rd "0"))); [apply cnum; vmr|]. constructor. }
    apply (rw ($"0 -1 0") _ [] _ _ (CNum (rd "0")) [CNum (rd "-1"); CNum (rd "0")] ($" -1 0")); [reflexivity|reflexivity|apply cnum; vmr| |constructor|].
    { apply (co (CNum (rd "-1"))); [apply cnum; vmr|]. apply (co (CNum (rd "0"))); [apply cnum; vmr|]. constructor. }
    apply (rw ($"0 0 1.0") _ [] _ _ (CNum (rd "0")) [CNum (rd "0"); CNum (rd "1.0")] ($" 0 1.0")); [reflexivity|reflexivity|apply cnum; vmr| |constructor|].
    { apply (co (CNum (rd "0"))); [apply cnum; vmr|]. apply (co (CNum (rd "1.0"))); [apply cnum; vmr|]. constructor. }
    apply (rw ($"1/3 0.5 0") _ [] _ _ (CRatio third) [CNum (rd "0.5"); CNum (rd "0")] ($" 0.5 0")); [reflexivity|reflexivity|apply third_ok| |constructor|constructor].
    { apply (co (CNum (rd "0.5"))); [apply cnum; vmr|]. apply (co (CNum (rd "0"))); [apply cnum; vmr|]. constructor. }
Qed.
Example C62_ex :
  let c n s i v := {| ic_no := n; ic_spec := $s; ic_index := [i]; ic_vec := v |} in
  let cs := [c d1 "H"%string d2 [rd "1"; rd "0"; rd "0"]; c d2 "O"%string d1 [rd "1"; rd "0"; rd "0"]; c d3 "H"%string d2 [rd "0"; rd "1"; rd "0.5"]] in
  let body := [$"1 H 2 1 0 0"; $"2 O 1 1 0 0"; $"3 H 2 0 1 0.5"] in
  one_block (lns ["%BLOCK ionic_constraints"; "1 H 2 1 0 0"; "2 O 1 1 0 0"; "3 H 2 0 1 0.5"; "%ENDBLOCK ionic_constraints"]%string)
    ($"ionic_constraints") (body ++ [$"%ENDBLOCK ionic_constraints"]) /\
  Forall2 constraint_line body cs /\ end_line ($"%ENDBLOCK ionic_constraints") /\
  map (fun k => (k, VList (vectors k cs))) (firsts (map constraint_key cs)) =
  [(KTuple [KStr ($"H"); KInt 2], VList [VTuple [VFloat (FQ 1); VFloat (FQ 0); VFloat (FQ 0)]; VTuple [VFloat (FQ 0); VFloat (FQ 1); VFloat (FQ (1 # 2))]]);
   (KTuple [KStr ($"O"); KInt 1], VList [VTuple [VFloat (FQ 1); VFloat (FQ 0); VFloat (FQ 0)]])].
Proof.
  cbv zeta. split; [|split; [|split; [apply ends; vmr|vmr]]].
  - eapply (here _ (ln "%BLOCK ionic_constraints") ($"ionic_constraints") (lns ["1 H 2 1 0 0"; "2 O 1 1 0 0"; "3 H 2 0 1 0.5"]%string) (ln "%ENDBLOCK ionic_constraints")); try vmr.
    change (uncomment (ln "%BLOCK ionic_constraints")) with ([] ++ $"%BLOCK " ++ [] ++ $"ionic_constraints" ++ nl).
    apply head_of; try apply nil_blanks; try discriminate; reflexivity.
  - assert (S : forall x, is_upper x = true -> SpecMd.species [x]).
    { intros x Hx. exists [x], [], []. split; [reflexivity|]. split; [|split; now left]. exists x, []. apply capital_iff in Hx.
      split; [reflexivity|]. split; [exact Hx|]. split; [constructor|cbn; lia]. }
    repeat constructor.
    + apply (icl [] sp1 sp1 ($" 1 0 0") [] {| ic_no := d1; ic_spec := $"H"; ic_index := [d2]; ic_vec := [rd "1"; rd "0"; rd "0"] |});
        try apply nil_blanks; try apply sp1_blanks; try discriminate; try reflexivity; [now apply S|apply columns_of; vmr|].
      repeat constructor; apply fits_of; vmr.
    + apply (icl [] sp1 sp1 ($" 1 0 0") [] {| ic_no := d2; ic_spec := $"O"; ic_index := [d1]; ic_vec := [rd "1"; rd "0"; rd "0"] |});
        try apply nil_blanks; try apply sp1_blanks; try discriminate; try reflexivity; [now apply S|apply columns_of; vmr|].
      repeat constructor; apply fits_of; vmr.
    + apply (icl [] sp1 sp1 ($" 0 1 0.5") [] {| ic_no := d3; ic_spec := $"H"; ic_index := [d2]; ic_vec := [rd "0"; rd "1"; rd "0.5"] |});
        try apply nil_blanks; try apply sp1_blanks; try discriminate; try reflexivity; [now apply S|apply columns_of; vmr|].
      repeat constructor; apply fits_of; vmr.
Qed.
Example C63_ex :
  one_block (lns ["%BLOCK species_mass"; "amu"; "Si:a 28.5"; "O 16"; "%ENDBLOCK species_mass"]%string) ($"species_mass")
    ([$"amu"] ++ [$"Si:a 28.5"; $"O 16"] ++ [$"%ENDBLOCK species_mass"]) /\
  ~ In ($"species_mass") (map list_ascii_of_string own_format) /\ unit_lines [$"amu"] (Some ($"amu")) /\
  Forall2 property_line [$"Si:a 28.5"; $"O 16"] [(KStr ($"Si:a"), VFloat (FQ (57 # 2))); (KStr ($"O"), VInt 16)].
Proof.
  split; [|split; [|split]].
  - eapply (here _ (ln "%BLOCK species_mass") ($"species_mass") (lns ["amu"; "Si:a 28.5"; "O 16"]%string) (ln "%ENDBLOCK species_mass")); try vmr.
    change (uncomment (ln "%BLOCK species_mass")) with ([] ++ $"%BLOCK " ++ [] ++ $"species_mass" ++ nl).
    apply head_of; try apply nil_blanks; try discriminate; reflexivity.
  - intros H. cbn [own_format map In] in H. repeat (destruct H as [H|H]; [discriminate H|]). exact H.
  - apply (ul_one [] ($"amu")); [constructor|discriminate| |apply free_of_b; vmr|].
    + intros c Hc B. apply blank_iff in B. destruct Hc as [<-|[<-|[<-|[]]]]; discriminate.
    + intros E. apply end_line_test in E. vm_compute in E. discriminate.
  - constructor; [|constructor; [|constructor]].
    + apply (pl [] ($"Si:a") sp1 (write_num (rd "28.5")) _ []); try apply nil_blanks; try apply sp1_blanks; try discriminate.
      * exists ($"Si"), ($":a"). split; [reflexivity|]. split; [eapply species_of; try reflexivity; cbn; lia|]. right. exists ($"a").
        split; [reflexivity|]. split; [discriminate|]. intros c [<-|[]]. now apply word_char_iff.
      * apply (sv_num (rd "28.5")); [apply ok_of; vmr|]. apply (sn_float (rd "28.5")); [intros [X _]; discriminate X|apply fits_of; vmr].
      * apply free_of_b. vmr.
    + apply (pl [] ($"O") sp1 (write_num (rd "16")) _ []); try apply nil_blanks; try apply sp1_blanks; try discriminate.
      * exists ($"O"), []. split; [reflexivity|]. split; [eapply species_of; try reflexivity; cbn; lia|]. now left.
      * apply (sv_num (rd "16")); [apply ok_of; vmr|]. apply (sn_int (rd "16")). split; reflexivity.
      * apply free_of_b. vmr.
Qed.
