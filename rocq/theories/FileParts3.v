(** Facts about .tddft and .xrd_sf files. *)
From Coq Require Import QArith Qreduction.
From Verif Require Import PyBase PyFacts PyVal Regex RegexFacts RegexComplete CastepRes NumSpec NumFacts NumProps NumVal
  StrUtil SpecStr StrUtilFacts SpecLine SpecType TypeConv TypeConvFacts IntStr DictUtil SpecDict DictFacts Stream StreamFacts
  SpecTable ColumnFacts TextParsers TextParsersFacts Header HeaderFacts SpecMd MdFacts SpecBands BandsFacts NeedFacts SpecCastep CastepBlocks CastepFacts
  SpecFiles SpecFiles2 SpecFiles3 TextFiles FileFacts FileParts FileParts2.
From Verif Require CellFacts CellPosFacts CellBlockFacts.
Local Open Scope list_scope.
Local Open Scope nat_scope.

(** ** .tddft *)
Lemma hd_dash g : forallb is_space g = true -> forall s, hd_not is_digit (g ++ "-"%char :: s).
Proof. intros H s. destruct g as [|y g]; [reflexivity|]. cbn in *. apply andb_true_iff in H as [H _]. now apply space_not_digit. Qed.
Lemma columns_end ns t s : columns ns t -> ns <> [] -> token_end (t ++ s).
Proof. intros H Hn. destruct H as [|g n ns t Hg Hg0 _ _]; [congruence|]. rewrite <- !app_assoc. now apply hd_blanks. Qed.
Lemma overlap_match a ds g1 o g2 g3 u t n s : blanks a -> ds <> [] -> blanks g1 -> g1 <> [] -> o <> [] -> blanks g2 -> blanks g3 -> u <> [] ->
  columns [n] t -> token_end s -> exists x,
  re_match TDDFT_STATE_RE (a ++ write_digits ds ++ g1 ++ write_digits o ++ g2 ++ text_of "-->" ++ g3 ++ write_digits u ++ t ++ s) = Some x /\
  group_s x "overlap" = write_num n /\ group_s x "occ" = write_digits o /\ group_s x "unocc" = write_digits u.
Proof.
  intros Ha Hds Hg1 Hg10 Ho Hg2 Hg3 Hu Ht Hs.
  pose proof (proj1 (blanks_iff _) Ha) as Ha'. pose proof (proj1 (blanks_iff _) Hg1) as Hg1'. pose proof (proj1 (blanks_iff _) Hg2) as Hg2'. pose proof (proj1 (blanks_iff _) Hg3) as Hg3'.
  set (c1 := [("state"%string, write_digits ds)]). set (c2 := ("occ"%string, write_digits o) :: c1). set (c3 := ("unocc"%string, write_digits u) :: c2).
  assert (D : forall ds s, ds <> [] -> hd_not is_space (write_digits ds ++ s)).
  { intros ds' s' H. apply write_digits_hd; [exact H|]. intros c Hc. now apply digit_not_space. }
  assert (F : fp TDDFT_STATE_RE None (a ++ write_digits ds ++ g1 ++ write_digits o ++ g2 ++ $"-->" ++ g3 ++ write_digits u ++ t) s []
    (row_caps ["overlap"%string] [n] c3)).
  { unfold TDDFT_STATE_RE. cbn [RSeqs].
    apply fp_seq with (c1 := []); [apply fp_star_chr; [exact Ha'|]; rewrite <- app_assoc; now apply D|].
    apply fp_seq with (c1 := c1).
    { apply fp_grp, fp_plus_chr; [apply write_digits_all|now destruct ds|]. apply token_end_digit'. rewrite <- app_assoc. now apply hd_blanks. }
    apply fp_seq with (c1 := c1); [apply fp_star_chr; [exact Hg1'|]; rewrite <- app_assoc; now apply D|].
    apply fp_seq with (c1 := c2).
    { apply fp_grp, fp_plus_chr; [apply write_digits_all|now destruct o|]. rewrite <- app_assoc. now apply hd_dash. }
    apply fp_seq with (c1 := c2); [apply fp_star_chr; [exact Hg2'|reflexivity]|].
    apply fp_seq with (c1 := c2); [apply fp_lit|].
    apply fp_seq with (c1 := c2); [apply fp_star_chr; [exact Hg3'|]; rewrite <- app_assoc; now apply D|].
    apply fp_seq with (c1 := c3).
    { apply fp_grp, fp_plus_chr; [apply write_digits_all|now destruct u|]. apply token_end_digit'. apply (columns_end _ _ _ Ht). discriminate. }
    apply fp_ws_labelled; auto. discriminate. }
  unfold re_match. replace (a ++ write_digits ds ++ g1 ++ write_digits o ++ g2 ++ text_of "-->" ++ g3 ++ write_digits u ++ t ++ s) with
    ((a ++ write_digits ds ++ g1 ++ write_digits o ++ g2 ++ $"-->" ++ g3 ++ write_digits u ++ t) ++ s) by (rewrite <- !app_assoc; reflexivity).
  rewrite (fp_match_at _ _ _ _ _ F). eexists. split; [reflexivity|]. repeat split.
Qed.
Lemma overlap_none l : ~ mentions "-->" l -> re_match TDDFT_STATE_RE l = None.
Proof.
  intros H. destruct (re_match TDDFT_STATE_RE l) as [x|] eqn:E; [|reflexivity]. exfalso. apply H.
  unfold re_match, match_at in E. apply m_sound in E as (p' & s' & c' & D & _). unfold TDDFT_STATE_RE in D. cbn [RSeqs] in D.
  destruct D as (p1 & s1 & c1 & D1 & p2 & s2 & c2 & D2 & p3 & s3 & c3 & D3 & p4 & s4 & c4 & D4 & p5 & s5 & c5 & D5 & p6 & s6 & c6 & D6 & _).
  apply den_split in D1 as (w1 & ->). apply den_split in D2 as (w2 & ->). apply den_split in D3 as (w3 & ->). apply den_split in D4 as (w4 & ->). apply den_split in D5 as (w5 & ->).
  apply den_lit in D6 as (-> & _ & _). exists (w1 ++ w2 ++ w3 ++ w4 ++ w5), s6. now rewrite <- !app_assoc.
Qed.
Lemma total_some l : titled "Total overlap for state" l -> exists x, re_match TDDFT_TOTAL_RE l = Some x.
Proof.
  intros (a & e & Ha & ->). apply blanks_iff in Ha.
  assert (F : fp TDDFT_TOTAL_RE None (a ++ $"Total overlap for state") e [] []).
  { apply fp_seq with (c1 := []); [apply fp_star_chr; [exact Ha|reflexivity]|apply fp_lit]. }
  unfold re_match. apply fp_match_at in F. rewrite <- app_assoc in F. unfold text_of. rewrite F. eauto.
Qed.
Lemma total_none l : ~ titled "Total overlap for state" l -> re_match TDDFT_TOTAL_RE l = None.
Proof.
  intros H. destruct (re_match TDDFT_TOTAL_RE l) as [x|] eqn:E; [|reflexivity]. exfalso. apply H.
  unfold re_match, match_at in E. apply m_sound in E as (p' & s' & c' & D & _). destruct D as (p1 & s1 & c1 & D1 & D2).
  apply den_ws in D1 as (w & -> & Hw). apply den_lit in D2 as (-> & _ & _). exists w, s'. split; [now apply blanks_iff|reflexivity].
Qed.
Definition state_step (st : list pyval * dict) (o : option state_item) : list pyval * dict :=
  match o with
  | None => st
  | Some (Overlap o u n) => (fst st, dset key_eqb (snd st) (KTuple [KInt o; KInt u]) (SpecCastep.float_of n))
  | Some (Total n) => (fst st ++ [VDict false (dset key_eqb (snd st) (kstr "total") (SpecCastep.float_of n))], [])
  end.
Lemma state_line_step st l o : state_line l o -> overlap_line st l = Ok (state_step st o).
Proof.
  assert (F : forall n, num_wf n -> all_fit [n] -> TextFiles.float_of (write_num n) = Ok (SpecCastep.float_of n)).
  { intros n Hn Hf. unfold TextFiles.float_of. rewrite builtin_num; [reflexivity|exact Hn|]. now inversion Hf. }
  destruct st as [done curr]. intros [a ds g1 o' g2 g3 u t n s Ha Hds Hg1 Hg10 Ho Hg2 Hg3 Hu Ht Hs Hf|l' ns n T N Hn Hf|l' T N]; unfold overlap_line.
  - destruct (overlap_match a ds g1 o' g2 g3 u t n s) as (x & -> & -> & -> & ->); auto.
    rewrite F; [|pose proof (Forall_wf _ (columns_ok _ _ Ht)) as W; now inversion W|exact Hf]. cbn [bind].
    rewrite !py_int_digits by assumption. reflexivity.
  - rewrite (overlap_none _ N). destruct (total_some _ T) as (x & ->). rewrite (get_numbers_line _ _ Hn), map_app, rev_app_distr. cbn [map rev app].
    rewrite F; [reflexivity| |exact Hf]. pose proof (Forall_wf _ (number_line_ok _ _ Hn)) as W. apply Forall_app in W as [_ W]. now inversion W.
  - rewrite (overlap_none _ N), (total_none _ T). reflexivity.
Qed.
Lemma state_lines_fold ls os : Forall2 state_line ls os -> forall st, foldM overlap_line ls st = Ok (fold_left state_step os st).
Proof.
  induction 1 as [|l o ls os H _ IH]; intros st; [reflexivity|]. cbn [foldM fold_left]. rewrite (state_line_step _ _ _ H). cbn [bind]. apply IH.
Qed.
Lemma state_somes os : forall st, fold_left state_step os st = fold_left (fun st o => state_step st (Some o)) (somes os) st.
Proof. induction os as [|o os IH]; intros st; [reflexivity|]. destruct o; cbn; apply IH. Qed.
Lemma overlaps_fold os : forall done d, fold_left (fun st o => state_step st (Some o)) (map overlap_item os) (done, d) = (done, dupdate key_eqb d (map overlap_entry os)).
Proof. induction os as [|x os IH]; intros done d; [reflexivity|]. cbn [map fold_left]. unfold state_step at 2. cbn [overlap_item fst snd]. rewrite IH. reflexivity. Qed.
Lemma states_fold its sts : states its sts -> forall done, exists d,
  fold_left (fun st o => state_step st (Some o)) its (done, []) = (done ++ map (fun s => VDict false (dict_of key_eqb (state_entries s))) sts, d).
Proof.
  induction 1 as [os|os n its sts _ IH]; intros done.
  - rewrite overlaps_fold. cbn [map]. rewrite app_nil_r. eauto.
  - rewrite fold_left_app, overlaps_fold. cbn [fold_left]. unfold state_step at 2. cbn [fst snd]. destruct (IH (done ++ [VDict false (dict_of key_eqb (state_entries (os, n)))])) as (d & E).
    exists d. rewrite <- app_assoc in E. cbn [app] in E. cbn [map]. etransitivity; [|exact E]. unfold dict_of, state_entries. cbn [fst snd].
    rewrite dupdate_app. reflexivity.
Qed.

(** Spectroscopic data *)
Lemma fp_seq_assoc a b r p t s c c' : fp (RSeq (RSeq a b) r) p t s c c' -> fp (RSeq a (RSeq b r)) p t s c c'.
Proof. intros H R k x Hk. exact (H R k x Hk). Qed.
Lemma word_not_space c : is_word c = true -> is_space c = false.
Proof. intros H. apply not_true_is_false. intros Q. apply space_not_word in Q. congruence. Qed.
Lemma evens_pairs {A} (ps : list (A * A)) : evens (flat_map (fun p => [fst p; snd p]) ps) = map fst ps.
Proof. induction ps as [|p ps IH]; [reflexivity|]. cbn. now rewrite IH. Qed.
Lemma odds_pairs {A} (ps : list (A * A)) : odds (flat_map (fun p => [fst p; snd p]) ps) = map snd ps.
Proof.
  destruct ps as [|p ps]; [reflexivity|]. cbn. f_equal. revert p. induction ps as [|q ps IH]; intros p; [reflexivity|]. cbn. f_equal. now apply (IH q).
Qed.
Lemma pair_map ps : map SpecCastep.float_of (pair_nums ps) = flat_map (fun p => [fst p; snd p]) (map (fun p => (SpecCastep.float_of (fst p), SpecCastep.float_of (snd p))) ps).
Proof. induction ps as [|p ps IH]; [reflexivity|]. cbn [pair_nums flat_map map app fst snd]. unfold pair_nums in IH. now rewrite IH. Qed.
Lemma complexes_pairs ps : complexes (evens (map SpecCastep.float_of (pair_nums ps))) (odds (map SpecCastep.float_of (pair_nums ps))) = Ok (map complex_val ps).
Proof.
  rewrite pair_map, evens_pairs, odds_pairs, !map_map. unfold complexes. cbn [fst snd]. rewrite combine_map_fun. now apply mapM_map.
Qed.
Lemma spectrum_match x a ds t g1 g2 g3 d e : blanks a -> ds <> [] -> columns [ex_energy x] t -> blanks g1 -> g1 <> [] -> word (ex_kind x) -> blanks g2 -> g2 <> [] ->
  blanks g3 -> ~ In newline d -> (e = [] \/ exists e', e = newline :: e') -> (forall c r, d ++ e = c :: r -> ~ blank c) -> exists y,
  re_match TDDFT_SPECTRUM_RE (a ++ write_digits ds ++ t ++ g1 ++ ex_kind x ++ g2 ++ text_of (if ex_done x then "Yes" else "No") ++ g3 ++ d ++ e) = Some y /\
  group_s y "energy" = write_num (ex_energy x) /\ group y "characterisation" = VStr (ex_kind x) /\
  str_eqb (group_s y "converged") ($"Yes") = ex_done x /\ group_s y "dipoles" = d.
Proof.
  intros Ha Hds Ht Hg1 Hg10 [Hw0 Hw] Hg2 Hg20 Hg3 Hd He Hde.
  pose proof (proj1 (blanks_iff _) Ha) as Ha'. pose proof (proj1 (blanks_iff _) Hg1) as Hg1'. pose proof (proj1 (blanks_iff _) Hg2) as Hg2'. pose proof (proj1 (blanks_iff _) Hg3) as Hg3'.
  apply words_iff in Hw. set (yn := if ex_done x then "Yes"%string else "No"%string) in *.
  set (c1 := row_caps ["energy"%string] [ex_energy x] []). set (c2 := ("characterisation"%string, ex_kind x) :: c1). set (c3 := ("converged"%string, $yn) :: c2).
  assert (F : fp TDDFT_SPECTRUM_RE None (a ++ write_digits ds ++ t ++ g1 ++ ex_kind x ++ g2 ++ $yn ++ g3 ++ d) e [] (("dipoles"%string, d) :: c3)).
  { unfold TDDFT_SPECTRUM_RE. cbn [RSeqs]. apply fp_seq with (c1 := []).
    { apply fp_star_chr; [exact Ha'|]. rewrite <- app_assoc. apply write_digits_hd; [exact Hds|]. intros c Hc. now apply digit_not_space. }
    apply fp_seq with (c1 := []).
    { apply fp_plus_chr; [apply write_digits_all|now destruct ds|]. apply token_end_digit'. rewrite <- app_assoc. apply (columns_end _ _ _ Ht). discriminate. }
    apply fp_seq_assoc. apply fp_seq with (c1 := c1).
    { apply fp_ws_labelled; auto; [discriminate|]. rewrite <- app_assoc. now apply hd_blanks. }
    apply fp_seq with (c1 := c1).
    { apply fp_star_chr; [exact Hg1'|]. destruct (ex_kind x) as [|y w]; [congruence|]. cbn in Hw |- *. apply andb_true_iff in Hw as [Hy _]. now apply word_not_space. }
    apply fp_seq with (c1 := c2).
    { apply fp_grp, fp_plus_chr; [exact Hw|exact Hw0|]. destruct g2 as [|y g2]; [congruence|]. cbn in Hg2' |- *. apply andb_true_iff in Hg2' as [Hy _]. now apply space_not_word. }
    apply fp_seq with (c1 := c2); [apply fp_star_chr; [exact Hg2'|]; unfold yn; now destruct (ex_done x)|].
    apply fp_seq with (c1 := c3).
    { apply fp_grp. unfold yn. destruct (ex_done x); [apply fp_alt_l, fp_lit|]. apply fp_alt_r; [|apply fp_lit]. intros R k. reflexivity. }
    apply fp_seq with (c1 := c3).
    { apply fp_star_chr; [exact Hg3'|]. destruct (d ++ e) as [|c r] eqn:E; [exact I|]. cbn. specialize (Hde c r eq_refl). apply not_true_is_false. intros Q. apply Hde. now apply blank_iff. }
    apply fp_grp, fp_star_chr.
    - apply forallb_forall. intros c Hc. apply negb_true_iff. apply Ascii.eqb_neq. intros ->. contradiction.
    - destruct He as [->|(e' & ->)]; [exact I|reflexivity]. }
  unfold re_match. change (text_of yn) with ($yn).
  replace (a ++ write_digits ds ++ t ++ g1 ++ ex_kind x ++ g2 ++ $yn ++ g3 ++ d ++ e) with
    ((a ++ write_digits ds ++ t ++ g1 ++ ex_kind x ++ g2 ++ $yn ++ g3 ++ d) ++ e) by (rewrite <- !app_assoc; reflexivity).
  rewrite (fp_match_at _ _ _ _ _ F). eexists. split; [reflexivity|]. repeat split. unfold yn. now destruct (ex_done x).
Qed.
Lemma spectrum_none l : ~ mentions "Yes" l -> ~ mentions "No" l -> re_match TDDFT_SPECTRUM_RE l = None.
Proof.
  intros H1 H2. destruct (re_match TDDFT_SPECTRUM_RE l) as [x|] eqn:E; [|reflexivity]. exfalso.
  unfold re_match, match_at in E. apply m_sound in E as (p' & s' & c' & D & _). unfold TDDFT_SPECTRUM_RE in D. cbn [RSeqs] in D.
  destruct D as (p1 & s1 & c1 & D1 & p2 & s2 & c2 & D2 & p3 & s3 & c3 & D3 & p4 & s4 & c4 & D4 & p5 & s5 & c5 & D5 & p6 & s6 & c6 & D6 & p7 & s7 & c7 & D7 & p8 & s8 & c8 & D8 & _).
  apply den_split in D1 as (w1 & ->). apply den_split in D2 as (w2 & ->). apply den_split in D3 as (w3 & ->). apply den_split in D4 as (w4 & ->). apply den_split in D5 as (w5 & ->).
  apply den_split in D6 as (w6 & ->). apply den_split in D7 as (w7 & ->).
  destruct D8 as (c9 & [D8|D8] & _); apply den_lit in D8 as (-> & _ & _); [apply H1|apply H2]; exists (w1 ++ w2 ++ w3 ++ w4 ++ w5 ++ w6 ++ w7), s8; now rewrite <- !app_assoc.
Qed.
Lemma spectrum_step done l o : spectrum_row l o -> spectrum_line done l = Ok (done ++ map excitation_val (somes [o])).
Proof.
  intros [x a ds t g1 g2 g3 d e Ha Hds Ht Hg1 Hg10 Hw Hg2 Hg20 Hg3 Hd He Hde Hn Hf|l' N1 N2]; unfold spectrum_line.
  - destruct (spectrum_match x a ds t g1 g2 g3 d e) as (y & -> & -> & -> & -> & ->); auto. inversion_clear Hf as [|? ? Hf1 Hf2].
    unfold TextFiles.float_of. rewrite builtin_num; [|pose proof (Forall_wf _ (columns_ok _ _ Ht)) as W; now inversion W|exact Hf1]. cbn [rmap bind].
    rewrite (get_numbers_line _ _ Hn), floats_of. 2:{ pose proof (Forall_wf _ (number_line_ok _ _ Hn)) as W. unfold all_fit in *. rewrite Forall_forall in *. auto. }
    cbn [bind]. rewrite complexes_pairs. reflexivity.
  - rewrite spectrum_none by assumption. cbn. now rewrite app_nil_r.
Qed.
Lemma spectrum_fold ls os : Forall2 spectrum_row ls os -> forall done, foldM spectrum_line ls done = Ok (done ++ map excitation_val (somes os)).
Proof.
  induction 1 as [|l o ls os H _ IH]; intros done; [cbn; now rewrite app_nil_r|]. cbn [foldM]. rewrite (spectrum_step _ _ _ H). cbn [bind]. rewrite IH.
  unfold somes. cbn [flat_map]. rewrite app_nil_r, map_app, app_assoc. reflexivity.
Qed.
Lemma tddft_parts_loop ls ps : tddft_parts ls ps -> exists es, Forall2 tddft_says ps es /\
  forall n accum, length ls <= n -> file_loop tddft_step n accum ls = Ok (dupdate key_eqb accum es).
Proof.
  induction 1 as [|l ls ps N1 N2 N3 _ IH|l body l' os sts ls ps N1 D F S _ IH|l body l' os ls ps N1 N2 D F _ IH].
  - exists []. split; [constructor|]. intros [|n] accum _; reflexivity.
  - destruct IH as (es & Hes & IH). exists es. split; [exact Hes|]. intros n accum Hn. destruct n as [|n]; [cbn in Hn; lia|]. cbn [file_loop]. unfold tddft_step at 1.
    rewrite if_block_no by exact N1. change ($"BEGIN " ++ $states_title) with ($states_begin). rewrite if_block_no by exact N2. rewrite if_block_no by exact N3.
    cbn [bind]. apply IH. cbn in Hn. lia.
  - destruct IH as (es & Hes & IH). exists (named "overlap" (VList (map (VDict false) (map (fun s => dict_of key_eqb (state_entries s)) sts))) :: es). split.
    { constructor; [|exact Hes]. constructor. clear. induction sts as [|s sts IH]; constructor; [apply merged_dict_of, key_eqb_spec|exact IH]. }
    intros n accum Hn. destruct n as [|n]; [cbn in Hn; lia|]. cbn [file_loop]. unfold tddft_step at 1. rewrite if_block_no by exact N1.
    change ($"BEGIN " ++ $states_title) with ($states_begin). change ($"END " ++ $states_title) with ($states_end).
    rewrite (if_block_yes _ _ _ _ _ _ _ _ D) by discriminate. rewrite (state_lines_fold _ _ F), state_somes.
    destruct (states_fold _ _ S []) as (d & ->). cbn [bind app]. rewrite IH; [|cbn in Hn; rewrite app_length in Hn; cbn in Hn; lia].
    rewrite map_map. reflexivity.
  - destruct IH as (es & Hes & IH). exists (named "spectroscopic_data" (VList (map excitation_val (somes os))) :: es). split; [constructor; [constructor|exact Hes]|].
    intros n accum Hn. destruct n as [|n]; [cbn in Hn; lia|]. cbn [file_loop]. unfold tddft_step at 1. rewrite if_block_no by exact N1.
    change ($"BEGIN " ++ $states_title) with ($states_begin). rewrite if_block_no by exact N2. rewrite (if_block_yes _ _ _ _ _ _ _ _ D) by discriminate.
    rewrite (spectrum_fold _ _ F). cbn [bind app]. rewrite IH; [reflexivity|]. cbn in Hn. rewrite app_length in Hn. cbn in Hn. lia.
Qed.
Theorem tddft_exact ls its ps : tddft_file its ps ls -> one_kind its ->
  exists es es' d, parse_tddft_file ls = Ok (VDict false d) /\ header_says its es /\ Forall2 tddft_says ps es' /\ merged (es ++ es') d.
Proof.
  intros [hd ls' Hh Hp] Hk. destruct (header_block_text _ _ _ Hh) as (l & body & l' & E & D & H).
  destruct (header_exact ["Higest occupied band"%string] _ _ _ ltac:(left; reflexivity) H Hk) as (d0 & es & E0 & Hs & ->).
  destruct (tddft_parts_loop _ _ Hp) as (es' & Hes & L).
  exists es, es', (dict_of key_eqb (es ++ es')). split; [|split; [exact Hs|split; [exact Hes|apply merged_dict_of, key_eqb_spec]]].
  unfold parse_tddft_file, over_file. rewrite E in H, E0 |- *. cbn [app length file_loop]. rewrite <- app_assoc. cbn [app].
  unfold tddft_step at 1. rewrite (if_block_yes _ _ _ _ _ _ _ _ D) by discriminate. rewrite E0. cbn [bind]. rewrite update_nil.
  rewrite L; [|rewrite app_length; cbn; lia]. cbn [rmap]. unfold dict_of. now rewrite dupdate_app.
Qed.

(** ** .xrd_sf *)
Lemma head_word_label w h : head_word w h -> xrd_head w = head_label h.
Proof.
  intros (x & -> & E). unfold xrd_head, head_label. destruct h as [b n]. cbn [fst snd] in *. subst n.
  assert (L : firstn (length (text_of (if b then "Re(" else "Im(") ++ x ++ text_of ")") - 4) (skipn 3 (text_of (if b then "Re(" else "Im(") ++ x ++ text_of ")")) = x).
  { assert (G : forall c1 c2 c3, firstn (length (c1 :: c2 :: c3 :: x ++ [")"%char]) - 4) (skipn 3 (c1 :: c2 :: c3 :: x ++ [")"%char])) = x).
    { intros. cbn [skipn length]. rewrite app_length. cbn [length]. replace (S (S (S (length x + 1))) - 4) with (length x) by lia.
      rewrite firstn_app, Nat.sub_diag, firstn_all. cbn. now rewrite app_nil_r. }
    destruct b; apply G. }
  rewrite L. unfold lower. rewrite !map_app. now destruct b.
Qed.
Lemma in_nub l x : In x (nub l) <-> In x l.
Proof.
  revert x. induction l as [|y l IH]; intros x; cbn; [tauto|]. rewrite filter_In, IH. split; [tauto|]. intros [->|H]; [now left|].
  destruct (str_eqb_spec y x) as [->|N]; [now left|]. right. split; [exact H|]. destruct (str_eqb_spec y x); [contradiction|reflexivity].
Qed.
Lemma nub_nodup l : NoDup (nub l).
Proof.
  induction l as [|y l IH]; cbn; [constructor|]. constructor; [|now apply NoDup_filter]. rewrite filter_In. intros [_ H].
  destruct (str_eqb_spec y y); [discriminate|congruence].
Qed.
Lemma label_name h : firstn (length (head_label h) - 3) (head_label h) = snd h.
Proof.
  unfold head_label. destruct h as [b n]. cbn [fst snd]. rewrite app_length. replace (length n + length (text_of (if b then "_re" else "_im")) - 3) with (length n) by (destruct b; cbn; lia).
  rewrite firstn_app, Nat.sub_diag, firstn_all. cbn. now rewrite app_nil_r.
Qed.
Lemma label_inj h h' : head_label h = head_label h' -> h = h'.
Proof.
  intros E. assert (N : snd h = snd h') by (rewrite <- (label_name h), <- (label_name h'); now rewrite E).
  unfold head_label in E. rewrite N in E. apply app_inv_head in E. destruct h as [[] n], h' as [[] n']; cbn in *; subst; congruence || discriminate.
Qed.
Lemma label_not_qvec h : head_label h <> text_of "qvec".
Proof.
  intros E. apply (f_equal (@rev ascii)) in E. unfold head_label in E. rewrite rev_app_distr in E. destruct h as [[] n]; discriminate.
Qed.
Lemma nodup_map_inj {A B} (f : A -> B) l : (forall x y, f x = f y -> x = y) -> NoDup l -> NoDup (map f l).
Proof. intros Hf Hn. apply FinFun.Injective_map_NoDup; [exact Hf|exact Hn]. Qed.

Lemma int_piece p g i s c : forallb is_space g = true -> is_int i -> num_wf i -> hd_not is_mant s -> (g = [] -> p <> Some "."%char) ->
  fp (RSeq ws_star INTNUMBER_RE) p (g ++ write_num i) s c c.
Proof.
  intros Hg Hi Hw Hs Hp. destruct (int_write _ Hi Hw) as [Ei Hi0]. apply fp_seq with (c1 := c).
  - apply fp_star_chr; [exact Hg|]. apply num_hd. now apply int_num_ok.
  - rewrite Ei. apply fp_INT; [exact Hi0|exact Hs|]. intros _. destruct g as [|y g _] using rev_ind; [now apply Hp|].
    rewrite pa_app. cbn. intros E. injection E as ->. rewrite forallb_app in Hg. apply andb_true_iff in Hg as [_ Hg]. discriminate.
Qed.
Lemma token_end_mant s : token_end s -> hd_not is_mant s.
Proof.
  destruct s as [|y z]; intros H; [exact I|]. specialize (H y z eq_refl). apply blank_iff in H. cbn. pose proof (space_not_mant_e _ H) as Q. apply orb_false_iff in Q. apply Q.
Qed.
Lemma columns_end0 ns t s : columns ns t -> token_end s -> token_end (t ++ s).
Proof. intros H Hs. destruct ns as [|n ns]; [inversion H; subst; exact Hs|]. apply (columns_end _ _ _ H). discriminate. Qed.
Lemma int_pieces js t : columns js t -> Forall (fun n => is_int n /\ num_wf n) js -> exists ts, concat ts = t /\ length ts = length js /\
  forall p s c, token_end s -> fps (RSeq ws_star INTNUMBER_RE) p ts s c c.
Proof.
  induction 1 as [|g n ns t Hg Hg0 Hn Ht IH]; intros H.
  - exists []. repeat split. intros. constructor.
  - inversion_clear H as [|? ? [Hi Hw] H']. destruct (IH H') as (ts & <- & El & F). exists ((g ++ write_num n) :: ts). cbn [concat length]. split; [now rewrite <- app_assoc|].
    split; [now rewrite El|]. intros p s c Hs. apply fps_cons with (c1 := c); [|now apply F].
    apply int_piece; [now apply blanks_iff|exact Hi|exact Hw|apply token_end_mant; exact (columns_end0 _ _ _ Ht Hs)|congruence].
Qed.
Lemma rows_match hs labels l is ns : factor_row hs l (is, ns) -> length labels = length hs -> NoDup ("qvec"%string :: labels) -> exists x t,
  re_match (xrd_re labels) l = Some x /\ group_s x "qvec" = t /\ split t = map write_num is /\
  groupdict (xrd_re labels) x = (kstr "qvec", VStr t) :: combine (map kstr labels) (map (fun n => VStr (write_num n)) ns).
Proof.
  intros H Hl Hnd. remember (is, ns) as r eqn:Er. destruct H as [a i js t1 ns' t2 s Ha Hi Hj H1 H2 Hn Hs Hf]. injection Er as <- ->.
  inversion_clear Hi as [|? ? [Hii Hiw] Hij]. destruct (int_pieces _ _ H1 Hij) as (ts & Et & El & F).
  pose proof (proj1 (blanks_iff _) Ha) as Ha'. set (t := a ++ write_num i ++ t1).
  assert (Q : fp (xrd_re labels) None (t ++ t2) s [] (row_caps labels ns [("qvec"%string, t)])).
  { unfold xrd_re. apply fp_seq with (c1 := [("qvec"%string, t)]).
    - apply fp_grp. replace t with (concat ((a ++ write_num i) :: ts)) by (cbn [concat]; rewrite Et; unfold t; now rewrite app_assoc).
      apply (fp_times (RSeq ws_star INTNUMBER_RE) 3); [cbn; lia|]. pose proof (columns_end0 _ _ _ H2 Hs) as T2. apply fps_cons with (c1 := []); [|now apply F].
      apply int_piece; [exact Ha'|exact Hii|exact Hiw|rewrite Et; apply token_end_mant; exact (columns_end0 _ _ _ H1 T2)|intros _; discriminate].
    - apply fp_labelled; auto. congruence. }
  unfold re_match. replace (a ++ write_num i ++ t1 ++ t2 ++ s) with ((t ++ t2) ++ s) by (unfold t; now rewrite <- !app_assoc).
  rewrite (fp_match_at _ _ _ _ _ Q). eexists _, t. split; [reflexivity|]. inversion_clear Hnd as [|? ? N1 N2].
  assert (C : cap (row_caps labels ns [("qvec"%string, t)]) "qvec" = Some t).
  { revert N1 Hn Hl. clear. intros N1 _ _. assert (G : forall c, cap c "qvec" = Some t -> forall ms, cap (row_caps labels ms c) "qvec" = Some t).
    { induction labels as [|l labels IH]; intros c Hc [|m ms]; cbn [row_caps]; auto. apply IH; [intros Z; apply N1; now right|]. cbn.
      destruct (String.eqb l "qvec") eqn:E; [apply String.eqb_eq in E; subst; exfalso; apply N1; now left|exact Hc]. }
    apply G. reflexivity. }
  split; [unfold group_s; cbn [m_caps]; now rewrite C|]. split.
  - apply split_cut. unfold t. apply cut_cons.
    + intros c Hc Hnb. apply Hnb. unfold blanks in Ha. rewrite Forall_forall in Ha. now apply Ha.
    + intros E. destruct (int_write _ Hii Hiw) as [Ei Hi0]. rewrite Ei in E. destruct (n_sign i), (n_int i); discriminate || congruence.
    + intros c Hc Hb. apply blank_iff in Hb. pose proof (num_chars_nonspace i) as Q'. rewrite forallb_forall in Q'. apply Q' in Hc. rewrite Hb in Hc. discriminate.
    + intros c r E Hnb. apply Hnb. pose proof (columns_end0 _ _ [] H1 ltac:(intros ? ? Z; discriminate)) as T. rewrite app_nil_r in T. exact (T c r E).
    + rewrite <- (app_nil_r t1). apply columns_cut; [exact H1|constructor].
  - unfold groupdict, xrd_re. cbn [group_names]. rewrite group_names_labelled. cbn [app map m_caps]. rewrite C. f_equal.
    rewrite <- (row_groups labels ns [("qvec"%string, t)]) by (auto; congruence). rewrite combine_map_fun. reflexivity.
Qed.
Lemma f2_len {A B} {R : A -> B -> Prop} {l m} : Forall2 R l m -> length l = length m.
Proof. induction 1; cbn; congruence. Qed.
Definition head_labels (hs : list (bool * str)) : list string := map (fun h => string_of_list_ascii (head_label h)) hs.
Lemma head_keys hs : map kstr (head_labels hs) = map (fun h => KStr (head_label h)) hs.
Proof. unfold head_labels. rewrite map_map. apply map_ext. intros h. unfold kstr. now rewrite list_ascii_of_string_of_list_ascii. Qed.
Lemma labels_nodup hs : NoDup hs -> NoDup ("qvec"%string :: head_labels hs).
Proof.
  intros H. constructor.
  - unfold head_labels. rewrite in_map_iff. intros (h & E & _). apply (label_not_qvec h). rewrite <- (list_ascii_of_string_of_list_ascii (head_label h)), E. reflexivity.
  - apply nodup_map_inj; [|exact H]. intros h h' E. apply label_inj. rewrite <- (list_ascii_of_string_of_list_ascii (head_label h)), E. apply list_ascii_of_string_of_list_ascii.
Qed.
Lemma in_combine_ex {A B} (x : A) (l : list A) (m : list B) : In x l -> length l = length m -> exists y, In (x, y) (combine l m).
Proof.
  revert m. induction l as [|z l IH]; intros [|y m] H E; try discriminate; [destruct H|]. destruct H as [->|H]; [exists y; now left|].
  destruct (IH m H) as (w & Hw); [now injection E|]. exists w. now right.
Qed.
Lemma in_combine_map {A B C D} (f : A -> C) (g : B -> D) l m x y : In (x, y) (combine l m) -> In (f x, g y) (combine (map f l) (map g m)).
Proof. revert m. induction l as [|z l IH]; intros [|w m]; cbn; try tauto. intros [E|H]; [injection E as -> ->; now left|right; now apply IH]. Qed.
Lemma mapM_pairs {P : str -> pyval -> Prop} (f : str -> result (key * pyval)) wo : (forall n, In n wo -> exists z, f n = Ok (KStr n, z) /\ P n z) ->
  exists zs, mapM f wo = Ok (combine (map KStr wo) zs) /\ Forall2 P wo zs.
Proof.
  induction wo as [|n wo IH]; intros H; [exists []; split; [reflexivity|constructor]|].
  destruct (H n ltac:(now left)) as (z & E & Hz). destruct IH as (zs & E' & Hzs); [intros m Hm; apply H; now right|].
  exists (z :: zs). split; [|now constructor]. cbn [mapM]. rewrite E. cbn [bind]. rewrite E'. reflexivity.
Qed.
Lemma combine_snoc {A B} (l : list A) (m : list B) x y : length l = length m -> combine (l ++ [x]) (m ++ [y]) = combine l m ++ [(x, y)].
Proof. revert m. induction l as [|z l IH]; intros [|w m] H; try discriminate; [reflexivity|]. cbn. f_equal. apply IH. now injection H. Qed.
Lemma map_fst_combine {A B} (l : list A) (m : list B) : length l = length m -> map fst (combine l m) = l.
Proof. revert m. induction l as [|z l IH]; intros [|w m] H; try discriminate; [reflexivity|]. cbn. f_equal. apply IH. now injection H. Qed.
Lemma ints_tuple is : Forall (fun n => is_int n /\ num_wf n) is -> to_tuple TInt (map write_num is) = Ok (VTuple (map int_val is)).
Proof.
  intros H. unfold to_tuple. cbn [to_type]. rewrite map_map, (mapM_map _ _ int_val); [reflexivity|]. intros n Hn. rewrite Forall_forall in H. apply to_int; now apply H.
Qed.
Definition xrd_keys (wo : list str) : list key := map KStr wo ++ [kstr "qvec"].
Definition names_of (hs : list (bool * str)) (wo : list str) : Prop := NoDup wo /\ forall n, In n wo <-> exists b, In (b, n) hs.
Lemma xrd_line_spec hs wo l row : good_heads hs -> names_of hs wo -> factor_row hs l row -> exists zs, Forall2 (fun n z => factor_of hs n row z) wo zs /\
  forall d, xrd_line (xrd_re (head_labels hs)) wo d l = stack_dict true d (combine (xrd_keys wo) (zs ++ [VTuple (map int_val (fst row))])).
Proof.
  intros (Hn & Hi & Hb) (Wn & Wi) H. destruct row as [is ns].
  destruct (rows_match hs (head_labels hs) l is ns H) as (x & t & E & Eq & Es & Eg); [unfold head_labels; apply map_length|now apply labels_nodup|].
  assert (P : Forall (fun n => is_int n /\ num_wf n) is /\ length ns = length hs /\ Forall (fun n => num_wf n /\ fits (num_value n)) ns).
  { remember (is, ns) as r eqn:Er. destruct H as [a i js t1 ns' t2 s Ha Hi' Hj H1 H2 Hl Hs Hf]. injection Er as <- ->. split; [exact Hi'|]. split; [exact Hl|].
    pose proof (Forall_wf _ (columns_ok _ _ H2)) as W. unfold all_fit in Hf. rewrite Forall_forall in *. auto. }
  destruct P as (Pi & Pl & Pf).
  assert (G : forall b n a, In ((b, n), a) (combine hs ns) ->
    xrd_group (xrd_re (head_labels hs)) x (n ++ text_of (if b then "_re" else "_im")) = Ok (write_num a)).
  { intros b n a Ha. unfold xrd_group. rewrite Eg, head_keys. cbn [dget].
    destruct (key_eqb_spec (kstr "qvec") (KStr (n ++ text_of (if b then "_re" else "_im")))) as [Z|_].
    { exfalso. injection Z as Z. apply (label_not_qvec (b, n)). symmetry. exact Z. }
    rewrite (dget_nodup key_eqb key_eqb_spec _ _ (VStr (write_num a))); [reflexivity| |].
    - rewrite map_fst_combine by (rewrite !map_length; congruence). apply nodup_map_inj; [|exact Hn]. intros h h' Z. injection Z as Z. now apply label_inj.
    - apply (in_combine_map (fun h => KStr (head_label h)) (fun n => VStr (write_num n)) _ _ _ _ Ha). }
  unfold xrd_line. rewrite E, Eq, Es.
  match goal with |- context [mapM ?f wo] => destruct (mapM_pairs (P := fun n z => factor_of hs n (is, ns) z) f wo) as (zs & Em & Hz) end.
  { intros n Hw. apply Wi in Hw as (b & Hw). assert (H1 : In (true, n) hs /\ In (false, n) hs) by (pose proof (Hb _ _ Hw); destruct b; auto).
    destruct H1 as [H1 H2]. destruct (in_combine_ex _ _ ns H1) as (a & Ha); [congruence|]. destruct (in_combine_ex _ _ ns H2) as (a' & Ha'); [congruence|].
    pose proof (G true n a Ha) as G1. pose proof (G false n a' Ha') as G2. change ($"_re") with (text_of (if true then "_re" else "_im")). change ($"_im") with (text_of (if false then "_re" else "_im")).
    rewrite Forall_forall in Pf. destruct (Pf a ltac:(eapply in_combine_r; exact Ha)) as [W1 F1]. destruct (Pf a' ltac:(eapply in_combine_r; exact Ha')) as [W2 F2].
    rewrite G1. cbn [bind]. rewrite (builtin_num _ W1 F1). cbn [bind]. rewrite G2. cbn [bind]. rewrite (builtin_num _ W2 F2). cbn [bind].
    eexists. split; [reflexivity|]. exists a, a'. repeat split; assumption. }
  exists zs. split; [exact Hz|]. intros d. rewrite Em. cbn [bind]. rewrite (ints_tuple _ Pi). cbn [bind]. f_equal.
  unfold xrd_keys. pose proof (f2_len Hz) as L. rewrite combine_snoc by (rewrite map_length; exact L).
  apply (dset_new key_eqb). apply (dget_none key_eqb key_eqb_spec). rewrite map_fst_combine by (rewrite map_length; exact L).
  rewrite in_map_iff. intros (n & Z & Hw). apply Wi in Hw as (b & Hw). injection Z as ->. rewrite Forall_forall in Hi. now apply (proj2 (Hi _ Hw)).
Qed.
Lemma xrd_lines_spec hs wo ls rows : good_heads hs -> names_of hs wo -> Forall2 (factor_row hs) ls rows -> exists zss,
  Forall2 (fun row zs => Forall2 (fun n z => factor_of hs n row z) wo zs) rows zss /\
  forall d, foldM (xrd_line (xrd_re (head_labels hs)) wo) ls d =
    foldM (fun d r => stack_dict true d (combine (xrd_keys wo) r)) (map (fun p => snd p ++ [VTuple (map int_val (fst (fst p)))]) (combine rows zss)) d.
Proof.
  intros Hg Hw. induction 1 as [|l row ls rows H _ IH]; [exists []; split; [constructor|reflexivity]|].
  destruct IH as (zss & Hz & E). destruct (xrd_line_spec _ _ _ _ Hg Hw H) as (zs & Hz1 & E1). exists (zs :: zss). split; [now constructor|].
  intros d. cbn [foldM combine map fst snd]. rewrite E1. destruct (stack_dict true d _) as [d'|e]; [|reflexivity]. cbn [bind]. apply E.
Qed.
Lemma in_combine_cols (ks : list key) {V} (cs : list V) k v : In (k, v) (combine ks cs) -> exists j, nth_error ks j = Some k /\ nth_error cs j = Some v.
Proof.
  revert cs. induction ks as [|k0 ks IH]; intros [|c cs]; cbn; try tauto. intros [E|H]; [injection E as -> ->; exists 0; split; reflexivity|].
  destruct (IH _ H) as (j & H1 & H2). exists (S j). split; assumption.
Qed.
Lemma nth_cols {V} n (rows : list (list V)) j c : nth_error (cols_of n rows) j = Some c -> c = col rows j.
Proof.
  unfold cols_of. rewrite nth_error_map. destruct (nth_error (seq 0 n) j) eqn:E; [|discriminate]. cbn. intros H. injection H as <-. f_equal.
  assert (j < n) by (rewrite <- (seq_length n 0); apply nth_error_Some; congruence). apply nth_error_nth with (d := 0) in E. rewrite seq_nth in E by assumption. now subst.
Qed.
Lemma distinct_labels hs : good_heads hs -> group_labels ($"qvec" :: map head_label hs) = Ok ("qvec"%string :: head_labels hs).
Proof.
  intros (Hn & Hi & _). unfold group_labels. assert (D : NoDup ($"qvec" :: map head_label hs)).
  { constructor; [rewrite in_map_iff; intros (h & E & _); now apply (label_not_qvec h)|]. apply nodup_map_inj; [exact label_inj|exact Hn]. }
  rewrite (distinct_nodup _ D). cbn [forallb]. replace (forallb TextFiles.identifier (map head_label hs)) with true.
  - cbn [andb map]. unfold head_labels. rewrite map_map. reflexivity.
  - symmetry. apply forallb_forall. intros w Hw. apply in_map_iff in Hw as (h & <- & Hh). rewrite Forall_forall in Hi. now apply identifier_true, (Hi h Hh).
Qed.
Theorem xrd_exact iter hs rows ls : (forall l, Permutation.Permutation (iter l) l) -> good_heads hs -> xrd_file hs rows ls ->
  exists d, parse_xrd_sf_file iter ls = Ok (VDict true d) /\ xrd_says hs rows d.
Proof.
  intros Hit Hg [l ls' [w1 w2 w3 ws Hc Hw] Hr]. unfold parse_xrd_sf_file. cbn [next_line bind]. rewrite (split_cut _ _ Hc). cbn [skipn].
  assert (E : map xrd_head ws = map head_label hs).
  { clear -Hw. induction Hw as [|w h ws hs H _ IH]; [reflexivity|]. cbn. now rewrite (head_word_label _ _ H), IH. }
  rewrite E, (distinct_labels _ Hg). cbn [bind List.tl].
  set (wo := iter (nub (map (fun h => firstn (length h - 3) h) (map head_label hs)))).
  assert (W : names_of hs wo).
  { unfold wo. set (u := nub _). split; [apply (Permutation.Permutation_NoDup (Permutation.Permutation_sym (Hit u))); apply nub_nodup|].
    intros n. split.
    - intros H. apply (Permutation.Permutation_in n (Hit u)) in H. unfold u in H. rewrite in_nub, map_map, in_map_iff in H. destruct H as ([b m] & Em & H).
      rewrite label_name in Em. cbn in Em. subst. now exists b.
    - intros (b & H). apply (Permutation.Permutation_in n (Permutation.Permutation_sym (Hit u))). unfold u. rewrite in_nub, map_map, in_map_iff. exists (b, n).
      split; [apply label_name|exact H]. }
  destruct (xrd_lines_spec hs wo ls' rows Hg W Hr) as (zss & Hz & F). rewrite F. pose proof (f2_len Hz) as Lz.
  assert (Kn : NoDup (xrd_keys wo)).
  { unfold xrd_keys. destruct W as [Wn Wi]. apply (Permutation.Permutation_NoDup (Permutation.Permutation_sym (Permutation.Permutation_app_comm (map KStr wo) [kstr "qvec"]))).
    cbn [app]. constructor; [|apply nodup_map_inj; [intros x y Z; now injection Z|exact Wn]].
    rewrite in_map_iff. intros (n & Z & Hn). apply Wi in Hn as (b & Hn). injection Z as ->. destruct Hg as (_ & Hi & _). rewrite Forall_forall in Hi. now apply (proj2 (Hi _ Hn)). }
  rewrite stack_same; [|exact Kn|].
  2:{ apply Forall_forall. intros r Hr'. apply in_map_iff in Hr' as ([row zs] & <- & Hin). cbn [fst snd]. unfold xrd_keys. rewrite !app_length, map_length. cbn. f_equal.
      clear -Hz Hin. induction Hz as [|? ? ? ? H _ IH]; [destruct Hin|]. destruct Hin as [Z|Hin]; [injection Z as -> ->; symmetry; exact (f2_len H)|now apply IH]. }
  cbn [bind]. eexists. split; [reflexivity|].
  destruct rows as [|row0 rows'].
  { destruct zss; [|discriminate]. constructor; [constructor| |intros v []|intros b n v _ []]. intros k. split; [intros []|intros [Z _]; congruence]. }
  destruct zss as [|zs0 zss']; [discriminate|]. set (rows := row0 :: rows') in *. set (zss := zs0 :: zss') in *. set (R := map _ (combine rows zss)).
  assert (RE : exists r0 rs, R = r0 :: rs) by (unfold R; cbn; eauto). destruct RE as (r0 & rs & RE). rewrite RE. rewrite <- RE. clear r0 rs RE.
  rewrite lists_combine.
  assert (Lk : length (xrd_keys wo) = length (map VList (cols_of (length (xrd_keys wo)) R))) by (rewrite map_length, cols_of_len; reflexivity).
  assert (V : forall k v, In (k, v) (combine (xrd_keys wo) (map VList (cols_of (length (xrd_keys wo)) R))) ->
    exists j, nth_error (xrd_keys wo) j = Some k /\ v = VList (col R j)).
  { intros k v H. apply in_combine_cols in H as (j & H1 & H2). exists j. split; [exact H1|]. rewrite nth_error_map in H2.
    destruct (nth_error (cols_of _ _) j) as [c|] eqn:Ec; [|discriminate]. cbn in H2. injection H2 as <-. f_equal. exact (nth_cols _ _ _ _ Ec). }
  constructor.
  - rewrite map_fst_combine by exact Lk. exact Kn.
  - intros k. rewrite map_fst_combine by exact Lk. unfold xrd_keys. rewrite in_app_iff, in_map_iff. destruct W as [_ Wi]. split.
    + intros [(n & <- & Hn)|[<-|[]]]; (split; [discriminate|]); [|now left]. apply Wi in Hn as (b & Hn). right. now exists b, n.
    + intros [_ [E1|(b & n & Hn & ->)]]; [subst k; right; now left|]. left. exists n. split; [reflexivity|]. apply Wi. now exists b.
  - intros v H. apply V in H as (j & Hj & ->). f_equal.
    assert (j = length wo).
    { destruct (lt_eq_lt_dec j (length wo)) as [[Hlt|Heq]|Hgt]; [|exact Heq|].
      - exfalso. unfold xrd_keys in Hj. rewrite nth_error_app1, nth_error_map in Hj by (rewrite map_length; exact Hlt).
        destruct (nth_error wo j) as [n|] eqn:En; [|discriminate]. cbn in Hj. injection Hj as ->. apply nth_error_In in En. destruct W as [_ Wi]. apply Wi in En as (b & Hn).
        destruct Hg as (_ & Hi & _). rewrite Forall_forall in Hi. now apply (proj2 (Hi _ Hn)).
      - exfalso. assert (nth_error (xrd_keys wo) j = None) as Z; [|congruence]. apply nth_error_None. unfold xrd_keys. rewrite app_length, map_length. cbn. lia. }
    subst j. unfold R. clearbody rows zss. clear -Hz Lz. induction Hz as [|row zs rows zss H Hz IH]; [reflexivity|]. cbn [combine map]. unfold col in *. cbn [flat_map fst snd].
    rewrite IH by (now injection Lz). rewrite nth_error_app2 by (rewrite (f2_len H); lia). rewrite (f2_len H), Nat.sub_diag. reflexivity.
  - intros b n v Hn H. apply V in H as (j & Hj & ->). eexists. split; [reflexivity|].
    assert (J : nth_error wo j = Some n).
    { unfold xrd_keys in Hj. destruct (lt_dec j (length wo)) as [Hlt|Hge].
      - rewrite nth_error_app1, nth_error_map in Hj by (rewrite map_length; exact Hlt). destruct (nth_error wo j) as [m|]; [|discriminate]. cbn in Hj. now injection Hj as ->.
      - exfalso. rewrite nth_error_app2 in Hj by (rewrite map_length; lia). rewrite map_length in Hj. destruct (j - length wo) as [|i]; [|destruct i; discriminate]. cbn in Hj.
        injection Hj as <-. destruct Hg as (_ & Hi & _). rewrite Forall_forall in Hi. now apply (proj2 (Hi _ Hn)). }
    unfold R. clearbody rows zss. clear -Hz Lz J. induction Hz as [|row zs rows zss H Hz IH]; [constructor|]. cbn [combine map]. unfold col in *. cbn [flat_map fst snd].
    assert (Z : exists z, nth_error zs j = Some z /\ factor_of hs n row z).
    { clear -H J. revert j J. induction H as [|m z wo zs Hm _ IH]; intros [|j] J; try discriminate; [injection J as ->; exists z; now split|]. now apply IH. }
    destruct Z as (z & Ez & Hz'). rewrite nth_error_app1 by (apply nth_error_Some; congruence). rewrite Ez. cbn [app]. constructor; [exact Hz'|apply IH; now injection Lz].
Qed.
