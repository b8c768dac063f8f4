(** Proofs about the polarisation reports of .castep files. *)
From Coq Require Import QArith Qreduction.
From Verif Require Import PyBase PyFacts PyVal Regex RegexFacts RegexComplete CastepRes NumSpec NumFacts NumProps NumVal
  StrUtil SpecStr StrUtilFacts SpecLine SpecType TypeConv TypeConvFacts DictUtil SpecDict DictFacts Stream StreamFacts TextParsers TextFiles
  SpecTable ColumnFacts Header HeaderFacts SpecMd MdFacts SpecBands NeedFacts SpecCastep SpecCastep2 CastepBlocks CastepFacts PhononFacts
  CastepNum CastepRows TextParsersFacts Castep2Facts Castep3Facts Castep4Facts Castep5Facts Castep6Facts Castep7Facts CastepRest LangFacts CastepPieces SpecCastepRun SpecTree TreeFacts SpecPairs PairFacts SpecFinal FinalFacts SpecBerry.
From Verif Require Import IntStr.
From Verif Require CellFacts CellPosFacts CellBlockFacts FileParts FileParts2 FileParts4 CastepRunFacts.
Local Open Scope list_scope.
Local Open Scope nat_scope.

(** ** Titles *)
Definition is_namec (c : ascii) : bool := is_word c || is_space c.
Lemma namec_iff c : name_char c <-> is_namec c = true.
Proof. unfold name_char, is_namec. rewrite word_char_iff, blank_iff, orb_true_iff. reflexivity. Qed.
Lemma unit_chars u : in_parens u -> forallb (fun c => negb (existsb (Ascii.eqb c) ($")"))) u = true /\ u <> [].
Proof. intros [H1 H2]. split; [|exact H1]. apply forallb_forall. intros x Hx. cbn. destruct (Ascii.eqb_spec x ")") as [->|]; [contradiction|reflexivity]. Qed.
Lemma title_match l nm u : titled_unit l nm u -> exists x, re_match POL_HEADER_RE l = Some x /\ group x "unit" = VStr u /\ group_s x "unit" = u /\ normalise_key (group_s x "key") = nm.
Proof.
  intros [a c k nm0 u0 r Ha Hc Hk Hn Hu]. apply blanks_iff in Ha. apply word_char_iff in Hc. apply unit_chars in Hu as [Hu Hu0].
  assert (Hk' : forallb is_namec k = true) by (revert Hk; apply Forall_forallb, namec_iff).
  replace (a ++ c :: k ++ "("%char :: u0 ++ ")"%char :: r) with (concat [[]; a; c :: k; []; ["("%char]; u0; [")"%char]] ++ r) by (cbn [concat]; tidy; reflexivity).
  destruct (match_hit POL_HEADER_RE (concat [[]; a; c :: k; []; ["("%char]; u0; [")"%char]]) r [("unit"%string, u0); ("key"%string, c :: k)]) as (x & E & Ec).
  { unfold POL_HEADER_RE. apply fp_seqs.
    eapply fpl_cons; [apply fp_bol|].
    eapply fpl_cons; [apply fp_star_chr; [exact Ha|tidy; now apply word_not_space]|].
    eapply fpl_cons; [apply fp_grp, fp_plus_chr; [cbn [forallb]; rewrite Hc; exact Hk'|discriminate|reflexivity]|].
    eapply fpl_cons; [apply fp_star_chr; [reflexivity|reflexivity]|].
    eapply fpl_cons; [apply fp_char|].
    eapply fpl_cons; [apply fp_grp, fp_plus_chr; [exact Hu|exact Hu0|reflexivity]|].
    eapply fpl_cons; [apply fp_char|]. constructor. }
  exists x. split; [exact E|]. unfold group, group_s. rewrite Ec. repeat split. now apply named_key.
Qed.
Lemma title_search l nm u : titled_unit l nm u -> exists x, re_search POL_HEADER_RE l = Some x /\ group x "unit" = VStr u /\ group_s x "unit" = u /\ normalise_key (group_s x "key") = nm.
Proof. intros H. destruct (title_match _ _ _ H) as (x & E & R). exists x. split; [now apply FileParts4.match_search|exact R]. Qed.
Lemma title_test l nm u : titled_unit l nm u -> re_test POL_HEADER_RE l = true.
Proof. intros H. unfold re_test. destruct (title_search _ _ _ H) as (x & -> & _). reflexivity. Qed.
Lemma title_not_blank l nm u : titled_unit l nm u -> ~ blanks l.
Proof. intros [a c k nm0 u0 r _ Hc _ _ _] B. apply Forall_app in B as [_ B]. inversion_clear B as [|? ? B1 _]. apply word_char_iff, word_not_space in Hc. apply blank_iff in B1. congruence. Qed.
Lemma untitled_none l : untitled l -> re_test POL_HEADER_RE l = false.
Proof.
  intros H. apply not_true_iff_false. intros T.
  assert (X : re_test POL_HEADER_RE l = re_test (RSeqs [RBol; RSeqs [ws_star; RGrp "key" (RPlus (RChr (fun c => is_word c || is_space c))); ws_star; RChar "("; RGrp "unit" (RPlus (c_notof ")")); RChar ")"]]) l) by reflexivity.
  rewrite X in T. clear X. apply start_iff in T as (v & b & -> & L); [|reflexivity..]. cbn [RSeqs fold_right] in L.
  destruct L as (a & v1 & -> & L1 & k & v2 & -> & L2 & g & v3 & -> & L3 & o & v4 & -> & L4 & u & cl & -> & L5 & L6).
  apply lang_blanks in L1, L3. apply lang_char in L4, L6. change (lang (RPlus (RChr is_namec)) k) in L2. apply lang_plus in L2 as [L2 Hk]. change (lang (RPlus (c_notof ")")) u) in L5. apply lang_plus in L5 as [L5 Hu]. subst o cl.
  apply (H (a ++ k ++ g) u b).
  - destruct a; [destruct k; [congruence|discriminate]|discriminate].
  - apply Forall_app. split; [revert L1; apply Forall_impl; now right|]. apply Forall_app. split; [|revert L3; apply Forall_impl; now right].
    apply Forall_forall. intros c I. apply namec_iff. rewrite forallb_forall in L2. auto.
  - split; [exact Hu|]. intros I. rewrite forallb_forall in L5. specialize (L5 _ I). discriminate L5.
  - rewrite <- !app_assoc. reflexivity.
Qed.
(** ** Parts *)
Lemma fp_part w nm p s c : part_name w nm -> fp (RAlts [RLit "Ionic"; RLit "Elec"; RLit "Total"]) p w s c c.
Proof.
  intros [| |]; cbn [RAlts].
  - apply fp_alt_l, fp_lit.
  - apply fp_alt_r; [apply nomatch_first; reflexivity|]. apply fp_alt_l, fp_lit.
  - apply fp_alt_r; [apply nomatch_first; reflexivity|]. apply fp_alt_r; [apply nomatch_first; reflexivity|]. apply fp_lit.
Qed.
Lemma not_colon m : ~ In ":"%char m -> forallb (fun c => negb (existsb (Ascii.eqb c) ($":"))) m = true.
Proof. intros H. apply forallb_forall. intros x Hx. cbn. destruct (Ascii.eqb_spec x ":") as [->|]; [contradiction|reflexivity]. Qed.
Lemma part_match l p ns u : part_line l p ns u -> exists x, re_search POL_TABLE_RE l = Some x /\ group x "unit" = VStr u /\ normalise_key (group_s x "key") = p /\
  to_type TFloat (VTuple [group x "a"; group x "b"; group x "c"]) = Ok (vector ns).
Proof.
  intros [a w p0 m t ns0 g u0 r Ha Hw Hm0 Hm Ht Hl Hf Hg Hu]. apply blanks_iff in Ha. apply gap_iff in Hg as [Hg Hg0]. apply unit_chars in Hu as [Hu Hu0].
  destruct ns0 as [|n1 [|n2 [|n3 [|]]]]; try discriminate Hl.
  replace (a ++ w ++ m ++ ":"%char :: t ++ g ++ "("%char :: u0 ++ ")"%char :: r) with (concat [a; w; m; [":"%char]; t; g; ["("%char]; u0; [")"%char]] ++ r) by (cbn [concat]; tidy; reflexivity).
  destruct (match_hit POL_TABLE_RE (concat [a; w; m; [":"%char]; t; g; ["("%char]; u0; [")"%char]]) r (("unit"%string, u0) :: row_caps ["a"; "b"; "c"]%string [n1; n2; n3] [("key"%string, w)])) as (x & E & Ec).
  { unfold POL_TABLE_RE. apply fp_seqs.
    eapply fpl_cons; [apply fp_star_chr; [exact Ha|tidy; destruct Hw; reflexivity]|].
    eapply fpl_cons; [apply fp_grp; eapply fp_part; exact Hw|].
    eapply fpl_cons; [apply fp_plus_chr; [now apply not_colon|exact Hm0|reflexivity]|].
    eapply fpl_cons; [apply fp_char|].
    eapply fpl_cons; [apply fp_labelled; [exact Ht|reflexivity|tidy; now apply gap_token]|].
    eapply fpl_cons; [apply fp_star_chr; [exact Hg|reflexivity]|].
    eapply fpl_cons; [apply fp_char|].
    eapply fpl_cons; [apply fp_grp, fp_plus_chr; [exact Hu|exact Hu0|reflexivity]|].
    eapply fpl_cons; [apply fp_char|]. constructor. }
  exists x. split; [now apply FileParts4.match_search|]. unfold group, group_s. rewrite Ec. split; [reflexivity|]. split; [destruct Hw; reflexivity|].
  pose proof (Forall_wf _ (CellFacts.columns_ok _ _ Ht)) as W. change (to_type TFloat (VTuple (map VStr (map write_num [n1; n2; n3]))) = Ok (vector [n1; n2; n3])).
  rewrite <- (tuple_fit _ W Hf). reflexivity.
Qed.
Lemma part_none l : no_part l -> re_search POL_TABLE_RE l = None.
Proof.
  intros [H|(H1 & H2 & H3)].
  - apply (needs_search (Ascii.eqb ":")); [vm_compute; reflexivity|]. apply forallb_forall. intros x Hx. destruct (Ascii.eqb_spec ":" x) as [<-|]; [contradiction|reflexivity].
  - destruct (re_search POL_TABLE_RE l) as [x|] eqn:E; [|reflexivity]. exfalso.
    assert (T : re_test POL_TABLE_RE l = true) by (unfold re_test; now rewrite E). apply search_test_iff in T; [|reflexivity]. destruct T as (a & b & -> & p' & s' & c' & D).
    unfold POL_TABLE_RE in D. cbn [RSeqs] in D. destruct D as (? & ? & ? & D1 & ? & ? & ? & (? & D2 & _) & _). apply den_consumed in D1 as (g & -> & _). cbn [RAlts] in D2.
    destruct D2 as [D2|[D2|D2]]; apply den_lit in D2 as (-> & _).
    + apply H1. exists (a ++ g). eexists. rewrite <- app_assoc. reflexivity.
    + apply H2. exists (a ++ g). eexists. rewrite <- app_assoc. reflexivity.
    + apply H3. exists (a ++ g). eexists. rewrite <- app_assoc. reflexivity.
Qed.

(** ** Tables *)
Lemma table_taken {B} (startp e : str -> bool) (close : str -> Prop) n eof l b rest (yes : list str -> list str -> result B) no : startp l = true -> ~ blanks l ->
  (forall x, close x <-> e x = true) -> delimited close n b -> if_block l (b ++ rest) startp e n eof yes no = yes (l :: b) rest.
Proof.
  intros Hs Hb He Hd. unfold if_block, l_from_re. rewrite Hs. cbn [negb]. pose proof (delimited_scan close e He n b rest 0 Hd) as S. rewrite Nat.add_0_r in S. rewrite S. cbn [orb].
  unfold l_bool. cbn [existsb]. destruct (isempty (strip l)) eqn:E; [apply strip_empty in E; contradiction|reflexivity].
Qed.
Lemma equals_iff l : equals l <-> re_test equals_re l = true.
Proof.
  unfold equals_re. rewrite somewhere_iff by reflexivity. split.
  - intros H. apply in_split in H as (a & b & ->). exists a, ["="%char], b. split; [reflexivity|]. apply lang_row. now exists 0.
  - intros (a & u & b & -> & L). apply lang_row in L as (n & ->). apply in_app_iff. right. apply in_app_iff. left. now left.
Qed.
Lemma bounds2 (l x e : str) rs : l_remove_bounds 2 1 (l :: x :: rs ++ [e]) = rs.
Proof.
  unfold l_remove_bounds. cbn [length]. rewrite app_length. cbn [length]. replace (S (S (length rs + 1)) - 1) with (S (S (length rs))) by lia. cbn [firstn skipn].
  rewrite firstn_app, Nat.sub_diag, firstn_all. now rewrite app_nil_r.
Qed.
Lemma bounds3 (l x y e t : str) rs : l_remove_bounds 3 1 (l :: x :: y :: rs ++ [t; e]) = rs ++ [t].
Proof.
  change [t; e] with ([t] ++ [e]). rewrite app_assoc. unfold l_remove_bounds. cbn [length]. rewrite app_length. cbn [length]. replace (S (S (S (length (rs ++ [t]) + 1))) - 1) with (S (S (S (length (rs ++ [t]))))) by lia. cbn [firstn skipn].
  rewrite firstn_app, Nat.sub_diag, firstn_all. now rewrite app_nil_r.
Qed.
Lemma ion_read l kv d : ion_row l kv -> pol_ion d l = Ok (dset key_eqb d (fst kv) (snd kv)).
Proof.
  intros [l0 i s z x xs Hc Hi Hii Hs Hsi Hl Hw Hf]. unfold pol_ion. rewrite (split_cut _ _ Hc). destruct x as [|x1 [|x2 [|x3 [|]]]]; try discriminate Hl. cbn [map app].
  rewrite !NumVal.py_int_num by assumption. cbn [bind]. change [write_num x1; write_num x2; write_num x3] with (map write_num [x1; x2; x3]).
  apply Forall_app in Hw as [Hw1 Hw2]. apply Forall_app in Hf as [Hf1 Hf2]. rewrite !tuple_fit by assumption. reflexivity.
Qed.
Lemma ions_read rs ions : Forall2 ion_row rs ions -> forall d, foldM pol_ion rs d = Ok (dupdate key_eqb d ions).
Proof. induction 1 as [|l kv rs ions H _ IH]; intros d; [reflexivity|]. cbn [foldM]. rewrite (ion_read _ _ _ H). cbn [bind]. rewrite IH. now destruct kv. Qed.
Lemma axis_read l kv d : axis_row l kv -> pol_row d l = Ok (dset key_eqb d (fst kv) (snd kv)).
Proof. intros [l0 w ws ns Hc Hn Hf]. unfold pol_row. rewrite (split_cut _ _ Hc). cbn [nthE bind nth_error]. now rewrite (as_floats _ _ Hn Hf). Qed.
Lemma axes_read rs rows : Forall2 axis_row rs rows -> forall d, foldM pol_row rs d = Ok (dupdate key_eqb d rows).
Proof. induction 1 as [|l kv rs rows H _ IH]; intros d; [reflexivity|]. cbn [foldM]. rewrite (axis_read _ _ _ H). cbn [bind]. rewrite IH. now destruct kv. Qed.
Lemma quantum_read u l kv d : quantum_row u l kv -> pol_quantum (VStr u) d l = Ok (dset key_eqb d (fst kv) (snd kv)).
Proof.
  intros [l0 i dir e io t q Hn Hf]. unfold pol_quantum. rewrite (get_numbers_line _ _ Hn), types_floats; [|now apply Forall_wf, (number_line_ok _ _ Hn)|exact Hf]. cbn [bind map].
  rewrite map_app, rev_app_distr. cbn [map rev app]. rewrite rev_involutive.
  assert (M : mapM (fun v => match v with VFloat f => Ok (KFloat f) | _ => Err TypeError end) (map float_of dir) = Ok (map (fun n => KFloat (FQ (Qred (num_value n)))) dir)).
  { clear. induction dir as [|n dir IH]; [reflexivity|]. cbn [map mapM]. rewrite IH. reflexivity. }
  rewrite M. reflexivity.
Qed.
Lemma quanta_read u rs rows : Forall2 (quantum_row u) rs rows -> forall d, foldM (pol_quantum (VStr u)) rs d = Ok (dupdate key_eqb d rows).
Proof. induction 1 as [|l kv rs rows H _ IH]; intros d; [reflexivity|]. cbn [foldM]. rewrite (quantum_read _ _ _ _ H). cbn [bind]. rewrite IH. now destruct kv. Qed.
(** ** Reports *)
Definition shaped (e : said) : Prop :=
  match fst e with
  | [k] => k <> polarisation
  | [k; k'] => k = polarisation /\ k' <> name "val" /\ k' <> name "phase"
  | [k; k'; _] => k = polarisation /\ (k' = name "val" \/ k' = name "phase")
  | _ => False
  end.
Lemma shaped_free es k : Forall shaped es -> k = [polarisation] \/ k = [polarisation; name "val"] \/ k = [polarisation; name "phase"] -> forall v, ~ In (k, v) es.
Proof.
  intros H E v I. rewrite Forall_forall in H. specialize (H _ I). unfold shaped in H. cbn [fst] in H.
  destruct E as [->|[->| ->]]; [now apply H|destruct H as (_ & H & _); now apply H|destruct H as (_ & _ & H); now apply H].
Qed.
Lemma quantum_tuple u rs rows : Forall2 (quantum_row u) rs rows -> Forall (fun kv => exists ks, fst kv = KTuple ks) rows.
Proof. induction 1 as [|l kv rs rows H _ IH]; constructor; [|exact IH]. destruct H. eexists. reflexivity. Qed.
Lemma under_rows k rows : map (under k) (map (fun kv : key * pyval => ([fst kv], snd kv)) rows) = map (fun kv => ([k; fst kv], snd kv)) rows.
Proof. rewrite map_map. reflexivity. Qed.
Lemma pol_under es k rows : here (below (name k) es) = [] -> rows <> [] -> forall rs, (forall d, foldM pol_row rs d = Ok (dupdate key_eqb d rows)) ->
  with_dict false TypeError (tree 1 es) (kstr k) (foldM pol_row rs) = Ok (tree 1 (es ++ map (fun kv => ([name k; fst kv], snd kv)) rows)).
Proof.
  intros H N rs F. rewrite (with_tree TypeError 0 es (kstr k) (foldM pol_row rs) (map (fun kv => ([fst kv], snd kv)) rows)); [now rewrite under_rows|exact H|now destruct rows| |].
  - apply Forall_forall. intros e I. apply in_map_iff in I as (? & <- & _). discriminate.
  - rewrite F. f_equal. apply (update_tree 0).
Qed.
Lemma cons_app_l {A} (a : list A) x b : a ++ x :: b = (a ++ [x]) ++ b.
Proof. now rewrite <- app_assoc. Qed.
Lemma pol_rows (f : key * pyval -> said) rows : Forall (fun kv => shaped (f kv)) rows -> Forall shaped (map f rows).
Proof. induction 1; constructor; auto. Qed.
Lemma berry_loop ls es : berry ls es -> forall n es0, length ls <= n -> Forall shaped es0 -> file_loop berry_step n (tree 2 es0) ls = Ok (tree 2 (es0 ++ es)).
Proof.
  assert (C : forall l, ~ mentions contribution l -> contains ($"Ionic contribution to polarisation") l = false) by (intros l H; now apply not_mentions_b).
  assert (P : forall es0 f ps, Forall shaped es0 -> ps <> [] -> Forall (fun e : said => fst e <> []) ps -> f (tree 1 (below polarisation es0)) = Ok (tree 1 (below polarisation es0 ++ ps)) ->
    with_dict false TypeError (tree 2 es0) polarisation f = Ok (tree 2 (es0 ++ map (under polarisation) ps))).
  { intros es0 f ps S N A F. apply with_tree; [|exact N|exact A|exact F]. apply here_below. apply shaped_free; [exact S|now left]. }
  assert (Hh : forall es0 k, Forall shaped es0 -> k = "val"%string \/ k = "phase"%string -> here (below (name k) (below polarisation es0)) = []).
  { intros es0 k S K. apply here_below. intros v I. apply in_below in I. revert I. apply shaped_free; [exact S|]. destruct K as [->| ->]; auto. }
  induction 1 as [|l nm u x y rs ions t i j ns e d r es Hm Ht Hnm Hd Hi Hn Hf Hg _ IH|l p ns u r es Hm Hp _ IH|l u x rs rows e r es (Hm & Hno & Ht) Hq Hu Hd Hr Hne _ IH
    |l x rs rows e r es (Hm & Hno & Ht) Hq Hd Hr Hne _ IH|l u x y rs rows e r es (Hm & Hno & Ht) Hq Hd Hr Hne _ IH|l u x rs rows e d r es (Hm & Hno & Ht) Hd Hr Hg _ IH
    |l nm u b r es (Hm & Hno & Ht) N1 N2 Hd _ IH|l r es Hm Hno Hu _ IH]; intros n es0 Hlen S.
  - rewrite app_nil_r. now destruct n.
  - destruct n as [|n]; [cbn in Hlen; lia|]. cbn [app file_loop]. unfold berry_step at 1. apply mentions_iff in Hm. unfold contribution in Hm. rewrite Hm.
    change (x :: y :: (rs ++ [t; e]) ++ r) with ((x :: y :: rs ++ [t; e]) ++ r).
    rewrite (table_taken _ _ equals 2 false l _ r); [|exact (title_test _ _ _ Ht)|exact (title_not_blank _ _ _ Ht)|apply equals_iff|exact Hd].
    unfold pol_ions. destruct (title_search _ _ _ Ht) as (z & -> & Gu & _ & Gk). rewrite bounds3. unfold last_item. rewrite rev_app_distr. cbn [rev app bind].
    rewrite (get_numbers_line _ _ Hn). cbn [map skipn]. pose proof (Forall_wf _ (number_line_ok _ _ Hn)) as W. inversion_clear W as [|? ? _ W1]. inversion_clear W1 as [|? ? _ W2].
    rewrite (tuple_fit _ W2 Hf). cbn [bind]. rewrite removelast_app by discriminate. cbn [removelast]. rewrite app_nil_r, (ions_read _ _ Hi). cbn [bind]. rewrite Gu, Gk.
    rewrite set_tree. change (dupdate key_eqb [] ions) with (dict_of key_eqb ions). rewrite <- (merged_fun key_eqb key_eqb_spec _ _ Hg).
    rewrite (cons_app_l es0 _ es). apply IH; [cbn in Hlen; rewrite !app_length in Hlen; cbn in Hlen; lia|]. apply Forall_app. split; [exact S|]. constructor; [|constructor]. cbn. intros E. injection E as E. now apply Hnm.
  - destruct n as [|n]; [cbn in Hlen; lia|]. cbn [file_loop]. unfold berry_step at 1. rewrite (C _ Hm). destruct (part_match _ _ _ _ Hp) as (z & -> & -> & -> & ->). cbn [bind].
    rewrite set_tree, (cons_app_l es0 _ es). apply IH; [cbn in Hlen; lia|]. apply Forall_app. split; [exact S|]. constructor; [|constructor]. cbn. destruct Hp as [? ? ? ? ? ? ? ? ? _ []]; discriminate.
  - destruct n as [|n]; [cbn in Hlen; lia|]. cbn [app file_loop]. unfold berry_step at 1. rewrite (C _ Hm), (part_none _ Hno). change (x :: (rs ++ [e]) ++ r) with ((x :: rs ++ [e]) ++ r).
    rewrite (table_taken _ _ equals 2 true l _ r); [|exact (title_test _ _ _ Ht)|exact (title_not_blank _ _ _ Ht)|apply equals_iff|exact Hd].
    unfold pol_table. destruct (title_search _ _ _ Ht) as (z & -> & -> & -> & ->). rewrite bounds2. cbv zeta. rewrite str_eqb_refl, (not_mentions_b _ _ Hq). cbn [negb].
    destruct (str_eqb_spec u ($"phase")) as [->|_]; [now contradict Hu|].
    change (KStr ($"polarisation")) with polarisation.
    rewrite (P es0 _ (([name "units"], VStr u) :: map (fun kv => ([name "val"; fst kv], snd kv)) rows) S).
    + cbn [bind map]. rewrite map_map. change (map _ rows) with (values_of "val" rows).
      replace (es0 ++ ([polarisation; name "units"], VStr u) :: values_of "val" rows ++ es) with ((es0 ++ ([polarisation; name "units"], VStr u) :: values_of "val" rows) ++ es) by (now rewrite <- app_assoc).
      apply IH; [cbn in Hlen; rewrite !app_length in Hlen; cbn in Hlen; lia|]. apply Forall_app. split; [exact S|]. constructor; [cbn; repeat split; discriminate|].
      apply pol_rows. apply Forall_forall. intros kv _. cbn. auto.
    + discriminate.
    + constructor; [discriminate|]. apply Forall_forall. intros q I. apply in_map_iff in I as (? & <- & _). discriminate.
    + rewrite set_tree. rewrite (pol_under _ "val" rows); [now rewrite <- app_assoc| |exact Hne|now apply axes_read].
      rewrite below_app, here_app, (Hh es0 "val"%string S (or_introl eq_refl)). reflexivity.
  - destruct n as [|n]; [cbn in Hlen; lia|]. cbn [app file_loop]. unfold berry_step at 1. rewrite (C _ Hm), (part_none _ Hno). change (x :: (rs ++ [e]) ++ r) with ((x :: rs ++ [e]) ++ r).
    rewrite (table_taken _ _ equals 2 true l _ r); [|exact (title_test _ _ _ Ht)|exact (title_not_blank _ _ _ Ht)|apply equals_iff|exact Hd].
    unfold pol_table. destruct (title_search _ _ _ Ht) as (z & -> & -> & -> & ->). rewrite bounds2. cbv zeta. rewrite !str_eqb_refl, (not_mentions_b _ _ Hq). cbn [negb].
    change (KStr ($"polarisation")) with polarisation.
    rewrite (P es0 _ (map (fun kv => ([name "phase"; fst kv], snd kv)) rows) S).
    + cbn [bind map]. rewrite map_map. change (map _ rows) with (values_of "phase" rows). rewrite app_assoc.
      apply IH; [cbn in Hlen; rewrite !app_length in Hlen; cbn in Hlen; lia|]. apply Forall_app. split; [exact S|].
      apply pol_rows. apply Forall_forall. intros kv _. cbn. auto.
    + now destruct rows.
    + apply Forall_forall. intros q I. apply in_map_iff in I as (? & <- & _). discriminate.
    + apply (pol_under _ "phase" rows); [now apply Hh; auto|exact Hne|now apply axes_read].
  - destruct n as [|n]; [cbn in Hlen; lia|]. cbn [app file_loop]. unfold berry_step at 1. rewrite (C _ Hm), (part_none _ Hno). change (x :: y :: (rs ++ [e]) ++ r) with ((x :: y :: rs ++ [e]) ++ r).
    rewrite (table_taken _ _ equals 2 true l _ r); [|exact (title_test _ _ _ Ht)|exact (title_not_blank _ _ _ Ht)|apply equals_iff|exact Hd].
    unfold pol_table. destruct (title_search _ _ _ Ht) as (z & -> & -> & _ & ->). change (l :: x :: y :: rs ++ [e]) with (l :: x :: (y :: rs) ++ [e]). rewrite bounds2. cbv zeta. apply mentions_iff in Hq. rewrite !str_eqb_refl, Hq. cbn [negb skipn].
    change (KStr ($"polarisation")) with polarisation.
    rewrite (P es0 _ (map (fun kv => ([fst kv], snd kv)) rows) S).
    + cbn [bind]. rewrite under_rows, app_assoc.
      apply IH; [cbn in Hlen; rewrite !app_length in Hlen; cbn in Hlen; lia|]. apply Forall_app. split; [exact S|].
      apply pol_rows. pose proof (quantum_tuple _ _ _ Hr) as Q. revert Q. apply Forall_impl. intros kv (ks & E). cbn. rewrite E. repeat split; discriminate.
    + now destruct rows.
    + apply Forall_forall. intros q I. apply in_map_iff in I as (? & <- & _). discriminate.
    + rewrite (quanta_read _ _ _ Hr). f_equal. apply (update_tree 1).
  - destruct n as [|n]; [cbn in Hlen; lia|]. cbn [app file_loop]. unfold berry_step at 1. rewrite (C _ Hm), (part_none _ Hno). change (x :: (rs ++ [e]) ++ r) with ((x :: rs ++ [e]) ++ r).
    rewrite (table_taken _ _ equals 2 true l _ r); [|exact (title_test _ _ _ Ht)|exact (title_not_blank _ _ _ Ht)|apply equals_iff|exact Hd].
    unfold pol_table. destruct (title_search _ _ _ Ht) as (z & -> & -> & _ & ->). rewrite bounds2. cbv zeta. change (str_eqb (text_of "volume_polarisation") ($"volume_polarisation")) with true. change (str_eqb (text_of "volume_polarisation") ($"polarisation")) with false. cbv iota.
    rewrite (axes_read _ _ Hr). cbn [bind]. change (dupdate key_eqb [(kstr "units", VStr u)] rows) with (dict_of key_eqb ((name "units", VStr u) :: rows)). rewrite <- (merged_fun key_eqb key_eqb_spec _ _ Hg).
    change (KStr (text_of "volume_polarisation")) with (name "volume_polarisation"). rewrite set_tree, (cons_app_l es0 _ es). apply IH; [cbn in Hlen; rewrite !app_length in Hlen; cbn in Hlen; lia|]. apply Forall_app. split; [exact S|]. constructor; [|constructor]. cbn. discriminate.
  - destruct n as [|n]; [cbn in Hlen; lia|]. cbn [app file_loop]. unfold berry_step at 1. rewrite (C _ Hm), (part_none _ Hno).
    rewrite (table_taken _ _ equals 2 true l _ r); [|exact (title_test _ _ _ Ht)|exact (title_not_blank _ _ _ Ht)|apply equals_iff|exact Hd].
    unfold pol_table. destruct (title_search _ _ _ Ht) as (z & -> & _ & _ & ->). cbv zeta. destruct (str_eqb_spec nm ($"polarisation")) as [E|_]; [now contradict N1|]. destruct (str_eqb_spec nm ($"volume_polarisation")) as [E|_]; [now contradict N2|].
    cbn [bind]. apply IH; [cbn in Hlen; rewrite app_length in Hlen; lia|exact S].
  - destruct n as [|n]; [cbn in Hlen; lia|]. cbn [file_loop]. unfold berry_step at 1. rewrite (C _ Hm), (part_none _ Hno). unfold if_block, l_from_re. rewrite (untitled_none _ Hu). cbn [negb bind]. apply IH; [cbn in Hlen; lia|exact S].
Qed.
Theorem berry_spec ls es : berry ls es -> process_berry_phase ls = Ok (tree 2 es).
Proof. intros H. unfold process_berry_phase, over_file. exact (berry_loop _ _ H (length ls) [] (Nat.le_refl _) (Forall_nil _)). Qed.
(** ** Two reports in one run *)
Lemma tree_nodup n es : NoDup (map fst (tree n es)).
Proof. rewrite tree_nodes, map_map. cbn [fst]. rewrite map_id. apply (CastepRunFacts.first_seen_nodup key_eqb key_eqb_eq). Qed.
Theorem two_reports l1 ls1 es1 l2 ls2 es2 : berry ls1 es1 -> berry ls2 es2 -> exists r1 r2 d,
  CastepFile.extend "berry_phase" process_berry_phase l1 ls1 [] = Ok r1 /\ CastepFile.extend "berry_phase" process_berry_phase l2 ls2 r1 = Ok r2 /\
  dget key_eqb r1 (kstr "berry_phase") = Some (VDict false (tree 2 es1)) /\ dget key_eqb r2 (kstr "berry_phase") = Some (VDict false d) /\ merged (tree 2 es1 ++ tree 2 es2) d.
Proof.
  intros H1 H2. assert (N : forall es, update [] (tree 2 es) = tree 2 es) by (intros es; apply (dict_of_nodup key_eqb key_eqb_spec), tree_nodup).
  exists [(kstr "berry_phase", VDict false (tree 2 es1))], [(kstr "berry_phase", VDict false (update (tree 2 es1) (tree 2 es2)))], (update (tree 2 es1) (tree 2 es2)).
  unfold CastepFile.extend. rewrite (berry_spec _ _ H1), (berry_spec _ _ H2). cbn [dget dset bind]. rewrite key_refl. cbn [bind]. rewrite N. repeat split.
  assert (E : update (tree 2 es1) (tree 2 es2) = dict_of key_eqb (tree 2 es1 ++ tree 2 es2)).
  { unfold dict_of, dupdate. rewrite fold_left_app. change (fold_left _ (tree 2 es1) []) with (update [] (tree 2 es1)). now rewrite N. }
  rewrite E. apply merged_dict_of, key_eqb_spec.
Qed.
