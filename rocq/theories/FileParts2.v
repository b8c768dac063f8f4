(** Facts about .elastic and .epme files. *)
From Coq Require Import QArith Qreduction.
From Verif Require Import PyBase PyFacts PyVal Regex RegexFacts RegexComplete CastepRes NumSpec NumFacts NumProps
  StrUtil SpecStr StrUtilFacts SpecLine SpecType TypeConv TypeConvFacts IntStr DictUtil SpecDict DictFacts Stream StreamFacts
  SpecTable ColumnFacts TextParsers TextParsersFacts Header HeaderFacts SpecMd MdFacts SpecBands BandsFacts NeedFacts SpecCastep CastepBlocks CastepFacts
  SpecFiles SpecFiles2 TextFiles FileFacts FileParts.
From Verif Require Import NumVal.
From Verif Require CellFacts CellPosFacts CellBlockFacts.
Local Open Scope list_scope.
Local Open Scope nat_scope.

(** ** .elastic *)
Lemma fp_plus_star f b p y t s c c' : f y = true -> fp (RSeq (RStar (RChr f)) b) (Some y) t s c c' ->
  fp (RSeq (RPlus (RChr f)) b) p (y :: t) s c c'.
Proof.
  intros Hy H R k x Hk. specialize (H R k x Hk). cbn [app].
  change (m (RPlus (RChr f)) p (y :: t ++ s) c (fun p' s' c0 => m b p' s' c0 k) = Some x).
  change (m (RStar (RChr f)) (Some y) (t ++ s) c (fun p' s' c0 => m b p' s' c0 k) = Some x) in H.
  unfold RPlus, RStar in *. rewrite m_rep in *. cbn [rep_lo] in *. now rewrite m_chr, Hy.
Qed.
Lemma fp_wsp_labelled names ns y g t p s c : columns ns t -> length names = length ns -> names <> [] -> token_end s -> blanks (y :: g) ->
  fp (RSeq ws_plus (labelled_floats names)) p (y :: g ++ t) s c (row_caps names ns c).
Proof.
  intros Ht Hl Hn Hs Hb. apply blanks_iff in Hb. cbn in Hb. apply andb_true_iff in Hb as [Hy Hg].
  unfold ws_plus. apply fp_plus_star; [exact Hy|]. apply (fp_ws_labelled names ns (g ++ t)); auto.
  destruct Ht as [|g' n ns t Hg' Hg0 Hn0 Ht]; [destruct names; [congruence|discriminate]|].
  rewrite app_assoc. constructor; auto.
  - apply Forall_app. split; [now apply blanks_iff|exact Hg'].
  - destruct g; [exact Hg0|discriminate].
Qed.
Lemma hd_blanks g s : blanks g -> g <> [] -> token_end (g ++ s).
Proof. intros Hg Hg0 c t E. destruct g as [|y g]; [congruence|]. cbn in E. injection E as <- _. now inversion Hg. Qed.
Lemma token_end_digit' s : token_end s -> hd_not is_digit s.
Proof. destruct s as [|c s]; intros H; [exact I|]. cbn. apply space_not_digit. apply blank_iff. exact (H c s eq_refl). Qed.

Lemma strain_match l r : strain_row l r -> exists x, re_match ELASTIC_INTERNAL_STRAIN_RE l = Some x /\
  atreg_match x = Ok (fst (vector_entry r)) /\ to_tuple TFloat (get_numbers l) = Ok (snd (vector_entry r)).
Proof.
  intros [a ds g1 sp g2 d g3 t ns s ms l' Ha Hds Hg1 Hg10 Hsp Hg2 Hg20 Hd Hg3 Hg30 Ht Hl Hs -> Hn Hf].
  pose proof (proj1 (blanks_iff _) Ha) as Ha'. pose proof (proj1 (blanks_iff _) Hg1) as Hg1'. pose proof (proj1 (blanks_iff _) Hg2) as Hg2'.
  destruct g3 as [|y g3]; [congruence|].
  assert (Hd' : is_space d = false /\ d <> "["%char /\ is_upper d = true).
  { cbn in Hd. destruct Hd as [<-|[<-|[<-|[]]]]; repeat split; (reflexivity || discriminate). }
  set (c1 := [("index"%string, write_digits ds)]). set (c2 := ("spec"%string, sp) :: c1). set (c3 := ("dir"%string, [d]) :: c2).
  assert (F : fp ELASTIC_INTERNAL_STRAIN_RE None (a ++ write_digits ds ++ g1 ++ sp ++ g2 ++ [d] ++ (y :: g3 ++ t)) s [] (row_caps SND_D ns c3)).
  { unfold ELASTIC_INTERNAL_STRAIN_RE. cbn [RSeqs]. apply fp_seq with (c1 := []).
    { apply fp_star_chr; [exact Ha'|]. rewrite <- app_assoc. apply write_digits_hd; [exact Hds|]. intros c Hc. now apply digit_not_space. }
    apply fp_seq with (c1 := c1).
    { apply fp_grp, fp_plus_chr; [apply write_digits_all|destruct ds; [congruence|discriminate]|]. apply token_end_digit'. rewrite <- app_assoc. now apply hd_blanks. }
    apply fp_seq with (c1 := c1).
    { apply fp_plus_chr; [exact Hg1'|exact Hg10|]. rewrite <- app_assoc. apply species_hd; [exact Hsp|]. intros c Hc. now apply upper_not_space. }
    apply fp_seq with (c1 := c2).
    { apply fp_grp. rewrite <- app_assoc. apply fp_atom_name_to; [|exact Hsp|exact Hg2'|exact Hg20|].
      - intros c E. rewrite pa_rev in E. destruct (rev g1) as [|z rr] eqn:Er; [apply (f_equal (@rev ascii)) in Er; rewrite rev_involutive in Er; now subst g1|].
        injection E as ->. apply space_not_word. rewrite forallb_forall in Hg1'. apply Hg1', in_rev. rewrite Er. now left.
      - eexists d, _. split; [reflexivity|]. tauto. }
    apply fp_seq with (c1 := c2); [apply fp_plus_chr; [exact Hg2'|exact Hg20|]; cbn; tauto|].
    apply fp_seq with (c1 := c3).
    { apply fp_grp. apply fp_chr. cbn in Hd. destruct Hd as [<-|[<-|[<-|[]]]]; reflexivity. }
    apply fp_wsp_labelled; [exact Ht|now rewrite Hl|discriminate|exact Hs|exact Hg3]. }
  replace (a ++ write_digits ds ++ g1 ++ sp ++ g2 ++ d :: (y :: g3) ++ t ++ s) with
    ((a ++ write_digits ds ++ g1 ++ sp ++ g2 ++ [d] ++ (y :: g3 ++ t)) ++ s) in * by (rewrite <- !app_assoc; cbn [app]; rewrite <- !app_assoc; reflexivity).
  unfold re_match. rewrite (fp_match_at _ _ _ _ _ F). eexists. split; [reflexivity|]. split.
  - destruct ns as [|n1 [|n2 [|n3 [|n4 [|n5 [|n6 [|]]]]]]]; try discriminate.
    unfold atreg_match. match goal with |- context [group_s ?x "index"] => assert (G1 : group_s x "index" = write_digits ds) by reflexivity;
      assert (G2 : group_s x "spec" = sp) by reflexivity end. rewrite G1, G2, py_int_digits by exact Hds. reflexivity.
  - rewrite (get_numbers_line _ _ Hn). apply to_tuple_nums; [apply Forall_wf, (number_line_ok _ _ Hn)|exact Hf].
Qed.
Lemma strain_lines body rows : Forall2 strain_row body rows -> forall d, foldM strain_line body d = appends d (map vector_entry rows).
Proof.
  induction 1 as [|l r body rows H _ IH]; intros d; [reflexivity|]. cbn [foldM map]. unfold strain_line at 1.
  destruct (strain_match _ _ H) as (x & -> & -> & ->). cbn [bind]. unfold appends. cbn [foldM].
  destruct (append_to d _ _) as [d'|e]; [|reflexivity]. cbn [bind]. apply IH.
Qed.

(** Titles *)
Lemma not_in_notof c w : ~ In c w -> forallb (fun x => negb (chr_in x [c])) w = true.
Proof.
  intros H. apply forallb_forall. intros x Hx. cbn. rewrite orb_false_r. destruct (Ascii.eqb_spec x c) as [->|]; [contradiction|].
  destruct (Ascii.eqb_spec c x); [congruence|reflexivity].
Qed.
Lemma title_groups l t u : block_title l (t, u) -> exists x, re_match ELASTIC_BLOCK_RE l = Some x /\ group_s x "key" = t /\ group x "unit" = unit_val u.
Proof.
  intros H. inversion H as [a t' u' e Ha Ht Htn Hu Hun E1 [E2 E3]|a t' Ha Ht Htn E1 [E2 E3]]; subst; pose proof (proj1 (blanks_iff _) Ha) as Ha'.
  - set (c1 := [("key"%string, t)]). set (c2 := ("unit"%string, u') :: c1).
    assert (F : fp ELASTIC_BLOCK_RE None (a ++ $"BEGIN " ++ t ++ "("%char :: u' ++ [")"%char]) e [] c2).
    { unfold ELASTIC_BLOCK_RE. cbn [RSeqs]. apply fp_seq with (c1 := []); [apply fp_star_chr; [exact Ha'|reflexivity]|].
      apply fp_seq with (c1 := []); [apply fp_lit|]. apply fp_seq with (c1 := c1).
      { apply fp_grp, fp_plus_chr; [exact (not_in_notof _ _ Htn)|exact Ht|reflexivity]. }
      apply fp_opt_some; [discriminate|]. change ("("%char :: u' ++ [")"%char]) with (["("%char] ++ u' ++ [")"%char]).
      apply fp_seq with (c1 := c1); [apply fp_char|]. apply fp_seq with (c1 := c2); [|apply fp_char].
      apply fp_grp, fp_plus_chr; [exact (not_in_notof _ _ Hun)|exact Hu|reflexivity]. }
    replace (a ++ text_of "BEGIN " ++ t ++ "("%char :: u' ++ ")"%char :: e) with ((a ++ $"BEGIN " ++ t ++ "("%char :: u' ++ [")"%char]) ++ e)
      by (unfold text_of; rewrite <- !app_assoc; cbn [app]; rewrite <- !app_assoc; reflexivity).
    unfold re_match. rewrite (fp_match_at _ _ _ _ _ F). eexists. split; [reflexivity|]. split; reflexivity.
  - assert (F : fp ELASTIC_BLOCK_RE None (a ++ $"BEGIN " ++ t ++ []) [] [] [("key"%string, t)]).
    { unfold ELASTIC_BLOCK_RE. cbn [RSeqs]. apply fp_seq with (c1 := []); [apply fp_star_chr; [exact Ha'|reflexivity]|].
      apply fp_seq with (c1 := []); [apply fp_lit|]. apply fp_seq with (c1 := [("key"%string, t)]).
      { apply fp_grp, fp_plus_chr; [exact (not_in_notof _ _ Htn)|exact Ht|exact I]. }
      apply fp_opt_none. apply nomatch_first; [reflexivity|exact I]. }
    unfold re_match. apply fp_match_at in F. rewrite !app_nil_r in F. unfold text_of. rewrite F. eexists. split; [reflexivity|]. split; reflexivity.
Qed.
Lemma removesuffix_cut t s : removesuffix t (s ++ t) = s.
Proof.
  unfold removesuffix. rewrite rev_app_distr. assert (strip_prefix (rev t) (rev t ++ rev s) = Some (rev s)) as ->; [|apply rev_involutive].
  now apply strip_prefix_some.
Qed.
Lemma removesuffix_whole t s : (forall k, s <> k ++ t) -> removesuffix t s = s.
Proof.
  intros H. unfold removesuffix. destruct (strip_prefix (rev t) (rev s)) as [r|] eqn:E; [|reflexivity]. exfalso.
  apply strip_prefix_some in E. apply (H (rev r)). rewrite <- (rev_involutive s), E, rev_app_distr. now rewrite rev_involutive.
Qed.
Lemma head_spec l t u k : block_title l (t, u) -> block_name t k -> elastic_head l = Ok (KStr k, unit_val u).
Proof.
  intros Ht Hk. unfold elastic_head. destruct (title_groups _ _ _ Ht) as (x & -> & -> & ->). do 3 f_equal.
  destruct Hk as [ws k Hc E|ws Hc E]; rewrite (normalise_key_cut _ _ Hc).
  - change ($"_") with (text_of "_"). rewrite E. apply removesuffix_cut.
  - now apply removesuffix_whole.
Qed.
Lemma number_rows_spec ls rows : Forall2 number_row ls rows -> number_rows ls = Ok (map vector (some_numbers rows)).
Proof.
  unfold number_rows. induction 1 as [|l ns ls rows [Hn Hf] _ IH]; [reflexivity|]. cbn [map filter some_numbers]. rewrite (get_numbers_line _ _ Hn).
  destruct ns as [|n ns]; [exact IH|]. cbn [map isempty negb]. cbn [filter mapM map].
  change (write_num n :: map write_num ns) with (map write_num (n :: ns)).
  rewrite to_tuple_nums; [|apply Forall_wf, (number_line_ok _ _ Hn)|exact Hf]. cbn [bind]. unfold some_numbers in IH. now rewrite IH.
Qed.
Lemma skip_first_last l body (l' : str) : l_remove_bounds 1 1 (l :: body ++ [l']) = body.
Proof.
  unfold l_remove_bounds. cbn [skipn length app]. rewrite app_length. cbn [length]. replace (S (length body + 1) - 1) with (S (length body)) by lia. cbn [firstn].
  rewrite firstn_app, Nat.sub_diag, firstn_all. cbn. now rewrite app_nil_r.
Qed.
Lemma elastic_parts_loop ls ps : elastic_parts ls ps -> exists es, Forall2 elastic_says ps es /\
  forall n accum, length ls <= n -> file_loop elastic_step n accum ls = Ok (dupdate key_eqb accum es).
Proof.
  induction 1 as [|l ls ps N _ IH|l t u k body l' rows ls ps N1 Ht Hk D F _ IH|l t u k body l' rows ls ps N1 N2 Ht Hk D F _ IH].
  - exists []. split; [constructor|]. intros [|n] accum _; reflexivity.
  - destruct IH as (es & Hes & IH). exists es. split; [exact Hes|]. intros n accum Hn.
    assert (Q : forall w, ~ mentions (String.append "BEGIN" w) l).
    { intros w (a & b & E). apply N. exists a, (text_of w ++ b). rewrite E. reflexivity. }
    destruct n as [|n]; [cbn in Hn; lia|]. cbn [file_loop]. unfold elastic_step at 1.
    rewrite !if_block_no; [|exact N|exact (Q " Internal Strain"%string)|exact (Q " header"%string)]. cbn [bind]. apply IH. cbn in Hn. lia.
  - destruct IH as (es & Hes & IH). destruct (appends_gathered [(kstr "units", unit_val u)] (map vector_entry rows)) as (d & Ed & Hd).
    { repeat constructor; auto. }
    { intros k0 Hk0. apply in_map_iff in Hk0 as (e & <- & He). apply in_map_iff in He as (r & <- & _). intros [E|[]]. discriminate. }
    exists ((KStr k, VDict true d) :: es). split; [constructor; [constructor; exact Hd|exact Hes]|]. intros n accum Hn.
    destruct n as [|n]; [cbn in Hn; lia|]. cbn [file_loop]. unfold elastic_step at 1.
    rewrite if_block_no by assumption. rewrite (if_block_yes _ _ _ _ _ _ _ _ D) by discriminate.
    unfold elastic_strain. cbn [nthE nth_error bind]. rewrite (head_spec _ _ _ _ Ht Hk). cbn [bind].
    rewrite skip_first_last, (strain_lines _ _ F), Ed. cbn [bind]. rewrite IH; [reflexivity|]. cbn in Hn. rewrite app_length in Hn. cbn in Hn. lia.
  - destruct IH as (es & Hes & IH). exists ((KStr k, VDict false [named "units" (unit_val u); named "val" (VTuple (map vector (some_numbers rows)))]) :: es).
    split; [constructor; [constructor|exact Hes]|]. intros n accum Hn.
    destruct n as [|n]; [cbn in Hn; lia|]. cbn [file_loop]. unfold elastic_step at 1.
    rewrite !if_block_no by assumption. rewrite (if_block_yes _ _ _ _ _ _ _ _ D) by discriminate.
    unfold elastic_block. cbn [nthE nth_error bind]. rewrite (head_spec _ _ _ _ Ht Hk). cbn [bind skipn].
    rewrite (number_rows_spec _ _ F). cbn [bind]. rewrite IH; [reflexivity|]. cbn in Hn. rewrite app_length in Hn. cbn in Hn. lia.
Qed.

(** Leaving out a key *)
Lemma ddel_dset_same (d : dict) k v : ddel key_eqb (dset key_eqb d k v) k = ddel key_eqb d k.
Proof.
  induction d as [|[k0 v0] d IH]; cbn; [destruct (key_eqb_spec k k); congruence|].
  destruct (key_eqb k0 k) eqn:E; cbn; rewrite E; [reflexivity|]. now rewrite IH.
Qed.
Lemma ddel_dset_other (d : dict) k k' v : k' <> k -> ddel key_eqb (dset key_eqb d k' v) k = dset key_eqb (ddel key_eqb d k) k' v.
Proof.
  intros H. induction d as [|[k0 v0] d IH]; cbn.
  - destruct (key_eqb_spec k' k); [congruence|reflexivity].
  - destruct (key_eqb_spec k0 k') as [->|N1].
    + cbn. destruct (key_eqb_spec k' k); [congruence|]. cbn. destruct (key_eqb_spec k' k'); [reflexivity|congruence].
    + cbn. destruct (key_eqb_spec k0 k) as [->|N2].
      * reflexivity.
      * cbn. destruct (key_eqb_spec k0 k'); [congruence|]. now rewrite IH.
Qed.
Lemma dict_of_snoc' (es : dict) k v : dict_of key_eqb (es ++ [(k, v)]) = dset key_eqb (dict_of key_eqb es) k v.
Proof. unfold dict_of. rewrite dupdate_app. reflexivity. Qed.
Lemma ddel_dict_of (es : dict) k : ddel key_eqb (dict_of key_eqb es) k = dict_of key_eqb (without k es).
Proof.
  induction es as [|[k' v] es IH] using rev_ind; [reflexivity|]. rewrite dict_of_snoc'. unfold without. rewrite filter_app. cbn [filter fst].
  destruct (key_eqb_spec k' k) as [->|N]; cbn [negb].
  - rewrite ddel_dset_same, app_nil_r. exact IH.
  - rewrite ddel_dset_other, dict_of_snoc' by exact N. now rewrite IH.
Qed.
Lemma dmem_dict_of (es : dict) k : ~ absent es k -> dmem key_eqb (dict_of key_eqb es) k = true.
Proof.
  intros H. unfold dmem. destruct (dget key_eqb (dict_of key_eqb es) k) eqn:E; [reflexivity|]. exfalso. apply H. intros Hin.
  apply (dget_none key_eqb key_eqb_spec) in E. apply E.
  clear -Hin. induction es as [|[k' v] es IH] using rev_ind; [destruct Hin|]. rewrite dict_of_snoc'. rewrite map_app, in_app_iff in Hin.
  destruct (key_eqb_spec k' k) as [->|N].
  - assert (Q : dget key_eqb (dset key_eqb (dict_of key_eqb es) k v) k = Some v) by (rewrite (dget_dset key_eqb key_eqb_spec); destruct (key_eqb_spec k k); congruence).
    apply (dget_in key_eqb key_eqb_spec) in Q. apply in_map_iff. now exists (k, v).
  - destruct Hin as [Hin|[Hin|[]]]; [|cbn in Hin; congruence]. specialize (IH Hin). apply in_map_iff in IH as ([k0 v0] & E & IH). cbn in E. subst k0.
    apply in_map_iff. exists (k, v0). split; [reflexivity|]. apply dset_in; [apply (dict_of_keys_nodup key_eqb key_eqb_spec)|]. right. split; [congruence|exact IH].
Qed.
Theorem elastic_exact ls its ps : elastic_file its ps ls -> one_kind its -> ~ absent (flat_map item_entry its) (KStr []) ->
  exists es es' d, parse_elastic_file ls = Ok (VDict false d) /\ header_says its es /\ Forall2 elastic_says ps es' /\
    merged (without (KStr []) es ++ es') d.
Proof.
  intros [hd ls' Hh Hp] Hk Hu. destruct (header_block_text _ _ _ Hh) as (l & body & l' & E & D & H).
  destruct (header_exact [] _ _ _ ltac:(right; split; reflexivity) H Hk) as (d0 & es & E0 & Hs & ->).
  destruct (elastic_parts_loop _ _ Hp) as (es' & Hes & L).
  exists es, es', (dict_of key_eqb (without (KStr []) es ++ es')). split; [|split; [exact Hs|split; [exact Hes|apply merged_dict_of, key_eqb_spec]]].
  unfold parse_elastic_file, over_file. rewrite E in H, E0 |- *. cbn [app length file_loop]. rewrite <- app_assoc. cbn [app].
  unfold elastic_step at 1. rewrite (if_block_yes _ _ _ _ _ _ _ _ D) by discriminate. rewrite E0. cbn [bind]. rewrite update_nil.
  rewrite dmem_dict_of; [|intros Q; apply Hu; intros Q'; apply Q; destruct Hs; rewrite map_app, in_app_iff; now left].
  cbn [bind]. rewrite L; [|rewrite app_length; cbn; lia]. cbn [rmap]. rewrite ddel_dict_of. unfold dict_of. now rewrite dupdate_app.
Qed.

(** ** .epme *)
Lemma floats_of ns : Forall (fun n => num_wf n /\ fits (num_value n)) ns -> to_types TFloat (map write_num ns) = Ok (map SpecCastep.float_of ns).
Proof.
  intros H. unfold to_types. apply mapM_map. intros n Hn. rewrite Forall_forall in H. apply to_float; now apply H.
Qed.
Lemma ints_of ns : Forall (fun n => is_int n /\ num_wf n) ns -> to_types TInt (map write_num ns) = Ok (map int_val ns).
Proof.
  intros H. unfold to_types. apply mapM_map. intros n Hn. rewrite Forall_forall in H. apply to_int; now apply H.
Qed.
Lemma last_number_word n l ls : last_number n l -> last_word (l :: ls) = Ok (write_num n, ls).
Proof.
  intros (w & ws & H & _). unfold last_word. cbn [next_line bind]. rewrite (split_cut _ _ H). cbn [rev]. rewrite rev_app_distr. cbn [rev app].
  destruct (rev ws ++ [w]) eqn:E; [destruct (rev ws); discriminate|reflexivity].
Qed.
Lemma last_number_wf n l : last_number n l -> num_wf n.
Proof. now intros (w & ws & _ & H). Qed.
Lemma epme_row_spec ki kf l c : coupling_row l c -> epme_row ki kf l =
  Ok (VDict false ([named "kpt_i" ki; named "kpt_f" kf] ++
    combine (map (fun k => KStr (text_of k)) ["ph_index"; "band_i"; "band_f"]%string) (map int_val (cp_ints c)) ++
    combine (map (fun k => KStr (text_of k)) ["e_i"; "e_f"]%string) (map SpecCastep.float_of (cp_energies c)) ++
    [named "velocity" (VTuple [vector (cp_from c); vector (cp_to c)]);
     named "e_p_matrix" (VComplex (FQ (Qreduction.Qred (num_value (cp_re c)))) (FQ (Qreduction.Qred (num_value (cp_im c)))))])).
Proof.
  intros [l' [is es fr to re im] more Hc L1 L2 L3 L4 Hi Hf _]. unfold coupling_floats in *. cbn [cp_ints cp_energies cp_from cp_to cp_re cp_im] in *.
  unfold epme_row. rewrite (split_cut _ _ Hc).
  destruct is as [|i1 [|i2 [|i3 [|]]]]; try discriminate. destruct es as [|e1 [|e2 [|]]]; try discriminate.
  destruct fr as [|f1 [|f2 [|f3 [|]]]]; try discriminate. destruct to as [|t1 [|t2 [|t3 [|]]]]; try discriminate.
  repeat (rewrite Forall_app in Hf; destruct Hf as [? Hf]).
  cbn [map app firstn skipn].
  pose proof (ints_of [i1; i2; i3] ltac:(assumption)) as Q1. pose proof (floats_of [e1; e2] ltac:(assumption)) as Q2.
  pose proof (floats_of [f1; f2; f3] ltac:(assumption)) as Q3. pose proof (floats_of [t1; t2; t3] ltac:(assumption)) as Q4.
  pose proof (floats_of [re; im] ltac:(assumption)) as Q5. cbn [map] in Q1, Q2, Q3, Q4, Q5.
  rewrite Q1. cbn [bind]. rewrite Q2. cbn [bind]. rewrite Q3. cbn [bind]. rewrite Q4. cbn [bind]. rewrite Q5. reflexivity.
Qed.
Lemma loop_cons {S0} (step : S0 -> str -> list str -> result (S0 * list str)) n st l ls st' ls' :
  step st l ls = Ok (st', ls') -> file_loop step (S n) st (l :: ls) = file_loop step n st' ls'.
Proof. intros H. cbn [file_loop]. now rewrite H. Qed.
Lemma epme_rows body cs ls : Forall2 coupling_row body cs -> forall ks data n, length (body ++ ls) <= n ->
  exists n', length ls <= n' /\
  file_loop epme_step n (vector (firstn 3 ks), vector (skipn 3 ks), data) (body ++ ls) =
  file_loop epme_step n' (vector (firstn 3 ks), vector (skipn 3 ks), data ++ map (coupling_val ks) cs) ls.
Proof.
  induction 1 as [|l c body cs H _ IH]; intros ks data n Hn.
  - exists n. cbn [app map]. rewrite app_nil_r. now split.
  - destruct n as [|n]; [cbn in Hn; lia|]. cbn [app length] in Hn. destruct (IH ks (data ++ [coupling_val ks c]) n ltac:(lia)) as (n' & Hn' & E).
    exists n'. split; [exact Hn'|]. cbn [app]. cbn [file_loop]. unfold epme_step at 1.
    assert (startswith ($"Electron-Phonon coupling") l = false) as ->.
    { apply (not_true _ _ (begins_iff _ _)). now inversion H. }
    rewrite (epme_row_spec _ _ _ _ H). cbn [bind]. etransitivity; [exact E|]. cbn [map]. now rewrite <- app_assoc.
Qed.
Lemma epme_pairs_loop ls ps : epme_pairs ls ps -> forall ki kf data n, length ls <= n -> exists ki' kf',
  file_loop epme_step n (ki, kf, data) ls = Ok (ki', kf', data ++ flat_map (fun p => map (coupling_val (fst p)) (snd p)) ps).
Proof.
  induction 1 as [|l ks x body cs ls ps Hb Hn Hf F _ IH]; intros ki kf data n Hl.
  - exists ki, kf. cbn [flat_map]. rewrite app_nil_r. now destruct n.
  - destruct n as [|n]; [cbn in Hl; lia|].
    destruct (epme_rows _ _ ls F ks data n ltac:(cbn [length app] in Hl; lia)) as (n' & Hn' & E).
    destruct (IH (vector (firstn 3 ks)) (vector (skipn 3 ks)) (data ++ map (coupling_val ks) cs) n' Hn') as (ki' & kf' & E').
    exists ki', kf'. cbn [file_loop]. unfold epme_step at 1. rewrite (proj1 (begins_iff _ _) Hb), (get_numbers_line _ _ Hn).
    rewrite floats_of. 2:{ apply Forall_forall. intros q Hq. split; [exact (proj1 (Forall_forall _ _) (Forall_wf _ (number_line_ok _ _ Hn)) q Hq)|]. exact (proj1 (Forall_forall _ _) Hf q Hq). }
    cbn [bind next_line]. rewrite firstn_map, skipn_map. change (VTuple (map SpecCastep.float_of (firstn 3 ks))) with (vector (firstn 3 ks)).
    change (VTuple (map SpecCastep.float_of (skipn 3 ks))) with (vector (skipn 3 ks)). rewrite E, E'. cbn [flat_map fst snd]. now rewrite <- app_assoc.
Qed.
Theorem epme_exact h ps ls : epme_file h ps ls -> parse_epme_file ls = Ok (epme_val h ps).
Proof.
  intros [l1 l2 l3 l4 l5 l6 l7 ls' H2 H4 H5 H6 H7 I2 I6 I7 Hf Hp]. unfold parse_epme_file, epme_header. cbn [next_line bind].
  assert (F : forall n l, last_number n l -> fits (num_value n) -> TextFiles.float_of (write_num n) = Ok (SpecCastep.float_of n)).
  { intros n l Hn Hfn. unfold TextFiles.float_of. rewrite (builtin_num _ (last_number_wf _ _ Hn) Hfn). reflexivity. }
  inversion_clear Hf as [|? ? Hf1 Hf']. inversion_clear Hf' as [|? ? Hf2 _].
  rewrite (last_number_word _ _ _ H2). cbn [bind]. rewrite (py_int_num _ (last_number_wf _ _ H2) I2). cbn [bind next_line].
  rewrite (last_number_word _ _ _ H4). cbn [bind]. rewrite (F _ _ H4 Hf1). cbn [bind].
  rewrite (last_number_word _ _ _ H5). cbn [bind]. rewrite (F _ _ H5 Hf2). cbn [bind].
  rewrite (last_number_word _ _ _ H6). cbn [bind]. rewrite (py_int_num _ (last_number_wf _ _ H6) I6). cbn [bind].
  rewrite (last_number_word _ _ _ H7). cbn [bind]. rewrite (py_int_num _ (last_number_wf _ _ H7) I7). cbn [bind].
  unfold over_file. destruct (epme_pairs_loop _ _ Hp VNone VNone [] (length ls') ltac:(lia)) as (ki & kf & E). rewrite E. reflexivity.
Qed.
