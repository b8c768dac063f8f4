(** Labelled positions of .castep files. *)
From Verif Require Import PyBase PyVal DictUtil DictFacts PyFacts Regex RegexFacts RegexComplete Stream StreamFacts NeedFacts PhraseFacts TextParsers TextParsersFacts SpecTable
  TextFiles FileParts FileParts4 FileParts5 TypeConv Header NumSpec SpecStr SpecLine NumFacts NumProps SpecMd SpecBands SpecDict
  SpecCastep SpecCastep2 SpecCastep3 CastepFacts PhononFacts Castep2Facts Castep3Facts LangFacts ColumnFacts.
From Verif Require Import HeaderFacts BandsFacts CastepRes CastepBlocks CastepNum CastepRows CastepRest CastepFile SpecCastepFile SpecCastepRun CastepFileFacts QuietFacts CastepRunFacts CastepPieces CastepKinds CastepKinds2 CastepRuns SpecLabelled.
From Verif Require Import MdFacts.
From Verif Require PspotFacts StrUtilFacts TypeConvFacts CellFacts.
Local Open Scope list_scope.
Local Open Scope nat_scope.

Lemma label_match l r : label_row l r -> forall labels ps,
  labelled_line (labels, ps) l = Ok (dset key_eqb labels (fst (label_entry r)) (snd (label_entry r)), dset key_eqb ps (fst (position_entry r)) (snd (position_entry r))).
Proof.
  intros [a u at_ t ns g lab s Ha He Hu Ht Hl Hf Hg Hg5 Hlab H8 Hs] labels ps. apply blanks_iff in Hg.
  assert (Hb : forallb (fun c => negb (is_space c)) lab = true).
  { apply forallb_forall. intros c Hc. apply negb_true_iff. destruct (is_space c) eqn:E; [|reflexivity]. exfalso. apply (Hlab c Hc). now apply blank_iff. }
  assert (Tg : token_end (g ++ lab ++ s)). { apply token_end_hd. destruct g as [|x g]; [discriminate|]. cbn in *. apply andb_true_iff in Hg as [-> _]. reflexivity. }
  destruct (fp_atom (pa None a) u at_ (t ++ g ++ lab ++ s) [] (edge_at a He) Hu) as (ds & F & Hd & Ed).
  { apply token_end_digit. eapply columns_hd; eassumption. }
  set (caps0 := row_caps FST_D ns [("index"%string, write_digits ds); ("spec"%string, fst at_)]).
  destruct (search_hit LABELLED_POS_RE a (concat [u ++ t; g; lab]) s (("label"%string, lab) :: caps0)) as (x & Ex & Ec).
  - apply atom_skips; [reflexivity| |exact Ha]. intros c. unfold LABELLED_POS_RE. cbn [RSeqs]. unfold ATOMIC_DATA_3VEC. cbn. rewrite ?orb_false_r, ?andb_false_r. destruct (is_upper c); [reflexivity|]. cbn. auto.
  - unfold LABELLED_POS_RE. apply fp_seqs. eapply fpl_cons; [|eapply fpl_cons; [|eapply fpl_cons; [|constructor]]].
    + unfold ATOMIC_DATA_3VEC. cbn [concat]. rewrite app_nil_r, <- !app_assoc. apply fp_seq with (c1 := [("index"%string, write_digits ds); ("spec"%string, fst at_)]); [exact F|].
      apply fp_labelled; [exact Ht|now rewrite Hl|exact Tg].
    + apply fp_rep_chr; [exact Hg|lia|left; exact Hg5].
    + apply fp_grp. apply fp_rep_chr; [exact Hb|lia|]. right. cbn [concat app]. apply token_end_hd in Hs. destruct s as [|y s]; [exact I|]. cbn in Hs |- *. exact Hs.
  - cbn [concat] in Ex. rewrite app_nil_r in Ex. rewrite <- !app_assoc in Ex. unfold labelled_line. rewrite Ex.
    destruct ns as [|n1 [|n2 [|n3 [|]]]]; try discriminate.
    assert (G1 : group_s x "index" = write_digits ds) by (unfold group_s; rewrite Ec; reflexivity).
    assert (G2 : group_s x "spec" = fst at_) by (unfold group_s; rewrite Ec; reflexivity).
    assert (G3 : group_s x "label" = lab) by (unfold group_s; rewrite Ec; reflexivity).
    rewrite G1, G2, G3, py_int_digits, Ed by exact Hd. cbn [bind].
    rewrite (floats_groups x [n1; n2; n3]); [|unfold group; rewrite Ec; reflexivity|apply Forall_wf, (CellFacts.columns_ok _ _ Ht)|exact Hf]. cbn [bind].
    assert (S : strip lab = lab).
    { apply trimmed_strip. exists [], []. rewrite app_nil_r. split; [reflexivity|]. split; [constructor|]. split; [constructor|]. split; [intros c w E; apply Hlab; rewrite E; now left|intros w c E; apply Hlab; rewrite E; apply in_or_app; right; now left]. }
    rewrite S. destruct at_ as [sp z]. cbn [fst snd label_entry position_entry]. destruct lab as [|y lab]; cbn [isempty]; reflexivity.
Qed.
Lemma label_other l : plain l -> re_search LABELLED_POS_RE l = None.
Proof. apply plain_search; vm_compute; reflexivity. Qed.
Lemma label_rows ls rows : laid label_row plain ls rows -> forall es0 fs0 labels ps, merged es0 labels -> merged fs0 ps -> exists labels' ps',
  foldM labelled_line ls (labels, ps) = Ok (labels', ps') /\ merged (es0 ++ map label_entry rows) labels' /\ merged (fs0 ++ map position_entry rows) ps'.
Proof.
  induction 1 as [|l r ls rows R H IH|l ls rows O H IH]; intros es0 fs0 labels ps M1 M2.
  - exists labels, ps. cbn [map]. rewrite !app_nil_r. now split.
  - cbn [foldM]. rewrite (label_match _ _ R). cbn [bind]. edestruct IH as (l' & p' & E & N1 & N2); [apply dset_merged, M1|apply dset_merged, M2|].
    exists l', p'. split; [exact E|]. cbn [map]. rewrite <- app_assoc in N1, N2. rewrite <- surjective_pairing in N1, N2. split; [exact N1|exact N2].
  - cbn [foldM]. unfold labelled_line at 1. rewrite (label_other _ O). cbn [bind]. now apply IH.
Qed.
Lemma title_opens l : labelled_title l -> re_test (RSeqs [RLit "Fractional coordinates of atoms"; ws_plus; RLit "User-defined"]) l = true.
Proof.
  intros (a & g & r & Hg & N & ->). apply somewhere_iff; [reflexivity|reflexivity|].
  exists a, (text_of "Fractional coordinates of atoms" ++ g ++ text_of "User-defined"), r. split; [now rewrite <- !app_assoc|]. cbn [RSeqs].
  apply lang_seq. eexists _, _. split; [reflexivity|]. split; [now apply lang_lit|]. apply lang_seq. eexists _, _. split; [reflexivity|]. split; [|now apply lang_lit].
  apply lang_gap. now split.
Qed.
Lemma quiet_loop iter rec F st : forall qs n, Forall quiet qs -> length qs <= n -> file_loop (castep_step iter rec F) n st qs = Ok st.
Proof.
  induction qs as [|q qs IH]; intros n H L; [now destruct n|]. apply Forall_cons_iff in H as [Q H]. destruct n; [cbn in L; lia|]. cbn in L.
  rewrite (loop_step _ _ _ _ _ _ _ _ _ (quiet_line iter rec F st q _ Q)) by lia. apply IH; [exact H|lia].
Qed.
Theorem labelled_file iter F qs l b rows qs' : In F_POSITION F -> Forall quiet qs -> nothing_before "Fractional coordinates of atoms" l -> labelled_title l ->
  delimited (ruled "x") 1 b -> laid label_row plain (l :: b) rows -> Forall quiet qs' ->
  exists ls ps, merged (map label_entry rows) ls /\ merged (map position_entry rows) ps /\
    parse_castep_file iter F (qs ++ l :: b ++ qs') = Ok (VList [VDict true [(SpecCastep.name "labels", VDict true ls); (SpecCastep.name "initial_positions", VDict false ps)]]).
Proof.
  intros A Q N T D R Q'. destruct (label_rows _ _ R [] [] [] [] mg_nil mg_nil) as (ls & ps & E & M1 & M2). exists ls, ps. split; [exact M1|]. split; [exact M2|].
  rewrite quiet_first by exact Q.
  assert (G : forall rec, (st <- over_file (castep_step iter rec F) {| s_runs := []; s_run := []; s_mix := None |} (l :: b ++ qs') ;; close_runs st) =
    Ok [[(SpecCastep.name "labels", VDict true ls); (SpecCastep.name "initial_positions", VDict false ps)]]).
  { intros rec. unfold over_file. cbn [length]. erewrite loop_step; [| |lia].
    2:{ erewrite (block_step iter rec F 34 _ _ _ _ (ruled "x")); [|apply (before_passes _ _ _ "Fractional coordinates of atoms"); [vm_compute; reflexivity|exact N]|reflexivity|now apply title_opens|intros x; apply ruled_iff|exact D].
        rewrite only_on by exact A. unfold to_run, in_run, labelled. cbn [s_run ensure dget dset key_eqb]. change (ensure [] (kstr "labels") (VDict true [])) with [(kstr "labels", VDict true [])].
        change (dget key_eqb [(kstr "labels", VDict true [])] (kstr "labels")) with (Some (VDict true [])). cbv iota beta. rewrite E. cbn [bind]. reflexivity. }
    rewrite quiet_loop; [|exact Q'|rewrite app_length; lia]. reflexivity. }
  unfold parse_castep_file. cbn [length parse_castep]. rewrite G. reflexivity.
Qed.
