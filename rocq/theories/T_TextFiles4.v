(** Property theorem C74: .ts files. *)
From Verif Require Import PyBase PyFacts PyVal Regex NumSpec SpecLine SpecTable SpecStr SpecBands SpecDict DictUtil DictFacts SpecMd SpecCastep SpecFiles SpecFiles4 CastepRes StrUtil StrUtilFacts
  TypeConv Stream Header TextFiles MdFacts NumProps TextParsers TextParsersFacts HeaderFacts BandsFacts FileFacts FileParts FileParts4 ExampleTools T_TextFiles.
From Verif Require T_Castep T_TextParsers T_MdGeom.
Local Open Scope list_scope.
Local Open Scope nat_scope.

(** C74.  .ts files. *)
Theorem C74_ts its ls : ts_file its ls -> exists d, parse_ts_file ls = Ok (VDict true d) /\ ts_says its d.
Proof. exact (ts_exact its ls). Qed.
Print Assumptions C74_ts.

Definition ex_ts : list str :=
  lns [" TSTYPE TSConfirmation"; " REA    1      0.00000000E+000"; "      -1.25E+000     -1.5E+000      <-- E";
       "       7.5E+000      0.0     0.0  <-- h"; "       0.0    7.5E+000      0.0  <-- h";
       " H           1      0.5   0.25  0.0  <-- R"; " H:D    2      0.5   0.25  -1.0E-002  <-- R"; " H      1      1.5   0.25  0.0  <-- F"; "";
       " nothing"; " TST    1      1.125E-001"; "      -1.75E+000     -1.75E+000      <-- E"]%string.
Definition ex_rea : list SpecMd.item :=
  [MRow ($"E") (map rd ["-1.25E+000"; "-1.5E+000"]); MRow ($"h") (map rd ["7.5E+000"; "0.0"; "0.0"]); MRow ($"h") (map rd ["0.0"; "7.5E+000"; "0.0"]);
   MAtom ($"H") 1 ($"R") (rd "0.5") (rd "0.25") (rd "0.0"); MAtom ($"H:D") 2 ($"R") (rd "0.5") (rd "0.25") (rd "-1.0E-002");
   MAtom ($"H") 1 ($"F") (rd "1.5") (rd "0.25") (rd "0.0")]%string.
Definition ex_tst : list SpecMd.item := [MRow ($"E") (map rd ["-1.75E+000"; "-1.75E+000"])]%string.
(** No capital but after a word character *)
Fixpoint no_capb (prev : bool) (l : str) : bool :=
  match l with [] => true | c :: t => (negb (is_upper c) || prev) && no_capb (is_word c) t end.
Lemma no_cap_of body : no_capb false body = true -> no_capital_word body.
Proof.
  intros H a c t -> Hc. apply capital_iff in Hc.
  destruct a as [|d a _] using rev_ind; [cbn in H; rewrite Hc in H; discriminate|]. exists a, d. split; [reflexivity|]. apply word_char_iff.
  rewrite <- app_assoc in H. revert H. generalize false. induction a as [|x a IH]; intros b H; cbn [app no_capb] in H; apply andb_true_iff in H as [_ H].
  - rewrite Hc in H. cbn in H. now destruct (is_word d).
  - exact (IH _ H).
Qed.
Lemma ts_row_of s n ps e body tag g e' l : l = body ++ $"<--" ++ g ++ tag ++ e' -> l = s ++ write_num n ++ glued ps e ->
  freeb "0123456789" s && not_lastb "+-." s && okb n && tailb ps e = true ->
  forallb (fun c => negb (Ascii.eqb c "<")) (body ++ g ++ tag ++ e') && forallb is_space g && negb (isempty tag) && forallb is_word tag &&
    negb (is_word (hd " "%char e')) && T_MdGeom.tagsb tag && negb (str_eqb tag ($"reaction_coordinate")) && no_capb false body = true ->
  forallb fitsb (n :: map snd ps) = true -> ts_row l (Some (MRow tag (n :: map snd ps))).
Proof.
  intros E1 E2 H1 H2 H3. do 7 (apply andb_true_iff in H2 as [H2 ?]). rewrite forallb_app in H2. apply andb_true_iff in H2 as [H2 H2'].
  apply tr_row with body.
  - rewrite E1. apply T_MdGeom.tag_of; auto. now apply negb_true_iff.
  - intros r Er (u & v & C). rewrite E1 in Er. apply app_inv_head in Er. apply (app_inv_head ($"<--")) in Er.
    rewrite Er, C in H2'. rewrite !forallb_app in H2'. apply andb_true_iff in H2' as [_ H2']. discriminate.
  - split; [now apply T_MdGeom.tag_ok_of|]. intros ->. discriminate.
  - eapply number_line_of; eassumption.
  - now apply T_Castep.all_fit_of.
  - now apply no_cap_of.
Qed.
Lemma ts_atom_of l sp i tag x y z : md_line l (Some (MAtom sp i tag x y z)) -> tag <> $"reaction_coordinate" -> ts_row l (Some (MAtom sp i tag x y z)).
Proof.
  intros H Ht. inversion H; subst. eapply tr_atom; try eassumption. now split.
Qed.
Lemma trs_some l it ls its : ts_row l (Some it) -> ts_rows ls its -> ts_rows (l :: ls) (it :: its).
Proof. exact (trs_cons l (Some it) ls its). Qed.
Lemma ts_head_of k rc a g ds t s l : l = a ++ text_of (kind_word k) ++ g ++ write_digits ds ++ t ++ s ->
  forallb is_space a && forallb is_space g && negb (isempty ds) && columnsb [rc] t && fitsb rc && match s with c :: _ => is_space c | [] => true end = true -> ts_head k rc l.
Proof.
  intros -> H. do 5 (apply andb_true_iff in H as [H ?]). constructor.
  - now apply blanks_of.
  - now apply blanks_of.
  - now destruct ds.
  - now apply columns_of.
  - now apply T_Castep.end_of.
  - constructor; [now apply fits_of|constructor].
Qed.
Lemma nonblank_of l : re_test EMPTY l = false -> ~ blanks l.
Proof. intros H C. apply empty_blanks in C. congruence. Qed.
Example C74_ts_ex : ts_file [Confirmation; Structure Reagent (rd "0.00000000E+000") ex_rea; Structure Test (rd "1.125E-001") ex_tst] ex_ts.
Proof.
  unfold ex_ts, lns. cbn [map]. apply tf_confirmation; [apply mentions_of; vmr|].
  apply (tf_structure (Structure Reagent (rd "0.00000000E+000") ex_rea) [_; _; _; _; _; _; _]).
  - constructor.
    + apply (ts_head_of Reagent (rd "0.00000000E+000") ($" ") ($"    ") (n_int (rd "1")) ($"      0.00000000E+000") [newline]); vmr.
    + apply not_mentions_of; vmr.
    + apply not_mentions_of; vmr.
    + repeat (constructor; [apply nonblank_of; vmr|]). constructor.
    + unfold ex_rea. cbn [map].
      apply trs_some. { apply (ts_row_of ($"      ") (rd "-1.25E+000") [($"     ", rd "-1.5E+000")] ($"      <-- E" ++ [newline]) ($"      -1.25E+000     -1.5E+000      ") ($"E") ($" ") [newline]); vmr. }
      apply trs_some. { apply (ts_row_of ($"       ") (rd "7.5E+000") [($"      ", rd "0.0"); ($"     ", rd "0.0")] ($"  <-- h" ++ [newline]) ($"       7.5E+000      0.0     0.0  ") ($"h") ($" ") [newline]); vmr. }
      apply trs_some. { apply (ts_row_of ($"       ") (rd "0.0") [($"    ", rd "7.5E+000"); ($"      ", rd "0.0")] ($"  <-- h" ++ [newline]) ($"       0.0    7.5E+000      0.0  ") ($"h") ($" ") [newline]); vmr. }
      assert (Hs : species ($"H")).
      { exists ($"H"), [], []. split; [reflexivity|]. split; [exists "H"%char, []|split; [now left|now left]].
        split; [reflexivity|]. split; [vm_compute; split; discriminate|]. split; [constructor|vm_compute; lia]. }
      apply trs_some. { apply ts_atom_of; [|discriminate]. apply (T_MdGeom.atom_of ($" ") ($"H") ($"           ") (n_int (rd "1")) ($"      0.5   0.25  0.0") ($"  ") ($"R") (rd "0.5") (rd "0.25") (rd "0.0") ($" ") [newline]); [vmr|exact Hs|vmr|vmr]. }
      apply trs_some. { apply ts_atom_of; [|discriminate]. apply (T_MdGeom.atom_of ($" ") ($"H:D") ($"    ") (n_int (rd "2")) ($"      0.5   0.25  -1.0E-002") ($"  ") ($"R") (rd "0.5") (rd "0.25") (rd "-1.0E-002") ($" ") [newline]); [vmr| |vmr|vmr].
        exists ($"H"), ($":D"), []. split; [reflexivity|]. split; [exists "H"%char, []|split; [right|now left]].
        - split; [reflexivity|]. split; [vm_compute; split; discriminate|]. split; [constructor|vm_compute; lia].
        - exists ($"D"). split; [reflexivity|]. split; [discriminate|]. now apply words_iff. }
      apply trs_some. { apply ts_atom_of; [|discriminate]. apply (T_MdGeom.atom_of ($" ") ($"H") ($"      ") (n_int (rd "1")) ($"      1.5   0.25  0.0") ($"  ") ($"F") (rd "1.5") (rd "0.25") (rd "0.0") ($" ") [newline]); [vmr|exact Hs|vmr|vmr]. }
      constructor.
  - apply blanks_of; vmr.
  - apply tf_other; [repeat (constructor; [apply not_mentions_of; vmr|]); constructor|]. apply tf_last. constructor.
    + apply (ts_head_of Test (rd "1.125E-001") ($" ") ($"    ") (n_int (rd "1")) ($"      1.125E-001") [newline]); vmr.
    + apply not_mentions_of; vmr.
    + apply not_mentions_of; vmr.
    + repeat (constructor; [apply nonblank_of; vmr|]). constructor.
    + apply trs_some; [|constructor].
      apply (ts_row_of ($"      ") (rd "-1.75E+000") [($"     ", rd "-1.75E+000")] ($"      <-- E" ++ [newline]) ($"      -1.75E+000     -1.75E+000      ") ($"E") ($" ") [newline]); vmr.
Qed.
(** The file's first line, "TSTYPE ...", is taken for a structure unless it names a confirmation. *)
Theorem C74_ts_refuted : parse_ts_file (lns [" TSTYPE LSTMaximum"; " REA    1      0.00000000E+000"; ""]%string) = Err TypeError.
Proof. vm_compute. reflexivity. Qed.
Print Assumptions C74_ts_refuted.
