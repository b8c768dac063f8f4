(** Proofs about the pair potentials of .castep files. *)
From Coq Require Import QArith Qreduction.
From Verif Require Import PyBase PyFacts PyVal Regex RegexFacts RegexComplete CastepRes NumSpec NumFacts NumProps NumVal
  StrUtil SpecStr StrUtilFacts SpecLine SpecType TypeConv TypeConvFacts DictUtil SpecDict DictFacts Stream StreamFacts TextParsers TextFiles
  SpecTable ColumnFacts Header HeaderFacts SpecMd MdFacts SpecBands NeedFacts SpecCastep CastepBlocks CastepFacts PhononFacts
  CastepNum CastepRows TextParsersFacts Castep2Facts Castep3Facts Castep4Facts Castep5Facts Castep6Facts Castep7Facts CastepRest LangFacts CastepPieces SpecCastepRun SpecTree TreeFacts SpecPairs.
From Verif Require IntStr CellFacts CellPosFacts CellBlockFacts FileParts.
Local Open Scope list_scope.
Local Open Scope nat_scope.
(** ** Repetitions between two counts *)
Lemma fp_rep a lo hi p ts s c c' : lo <= length ts <= hi -> Forall (fun t => t <> []) ts -> fps a p ts s c c' ->
  (length ts = hi \/ nomatch a (pa p (concat ts)) s c') -> fp (RRep true lo (Some hi) a) p (concat ts) s c c'.
Proof.
  intros Hl Hne F Hs R k x Hk. rewrite m_rep. rewrite <- (firstn_skipn lo ts) in F, Hne, Hk, Hs |- *.
  assert (L1 : length (firstn lo ts) = lo) by (rewrite firstn_length; lia).
  rewrite concat_app, <- app_assoc. rewrite <- L1 at 1.
  assert (G : forall us vs q, fps a q (us ++ vs) s c c' -> exists c1, fps a q us (concat vs ++ s) c c1 /\ fps a (pa q (concat us)) vs s c1 c').
  { clear. intros us. revert c. induction us as [|u us IH]; intros c vs q H.
    - exists c. split; [constructor|exact H].
    - inversion H as [|? ? ? ? ? c1 ? H1 H2]; subst. apply IH in H2 as (c2 & A & B). exists c2. split.
      + econstructor; [|exact A]. rewrite concat_app, <- app_assoc in H1. exact H1.
      + cbn [concat]. now rewrite pa_app. }
  apply G in F as (c1 & F1 & F2). eapply rep_lo_fps; [exact F1|]. apply Forall_app in Hne as [_ Hne].
  rewrite concat_app, pa_app in Hk, Hs. rewrite app_length, L1 in Hs.
  eapply rep_hi_fps; [exact F2|exact Hne|rewrite skipn_length; lia| |exact Hk].
  rewrite skipn_length in *. destruct Hs; [left; lia|now right].
Qed.
Lemma unit_start u : unit_text u -> exists y u', u = y :: u' /\ is_space y = false /\ forall s, start_num (y :: s) = false.
Proof.
  intros (Hu & Hc & Hf). destruct u as [|y u]; [congruence|]. exists y, u. split; [reflexivity|].
  inversion_clear Hc as [|? ? Hy _]. specialize (Hf y u eq_refl).
  assert (Hy' : is_word y || chr_in y ($"^/*") = true).
  { destruct Hy as [Hy|Hy]; [apply word_char_iff in Hy; now rewrite Hy|]. destruct Hy as [<-|[<-|[<-|[]]]]; reflexivity. }
  revert Hy' Hf. clear. unfold among, start_num. cbn. destruct y as [[] [] [] [] [] [] [] []]; cbn; intros Hy Hf; try discriminate Hy; try (split; [reflexivity|intros s; reflexivity]); exfalso; apply Hf; tauto.
Qed.
Lemma no_more p g1 u g2 c : blanks g1 -> unit_text u -> nomatch (RSeqs [lf_sep; NUMBER_RE; REps]) p (g1 ++ u ++ g2) c.
Proof.
  intros Hg Hu. apply nomatch_den. intros p' s' c' D. apply den_col in D as (g & n & Hg2 & Hg20 & Hn & E & _).
  destruct (unit_start u Hu) as (y & u' & -> & Hy & Hs). apply blanks_iff in Hg. cbn [app] in E.
  pose proof (num_hd n s' Hn) as Hd. pose proof (num_start n s' Hn) as Hn'. destruct (write_num n ++ s') as [|z t]; [discriminate Hn'|].
  apply (run_unique is_space) in E as (_ & <- & E); [|assumption|assumption|exact Hy|exact Hd].
  now rewrite Hs in Hn'.
Qed.
Lemma gap_end g s : gap g -> token_end (g ++ s).
Proof. intros [Hg Hg0] c t E. destruct g as [|y g]; [congruence|]. inversion_clear Hg. injection E as <- _. assumption. Qed.
(** The numbers of a line: four at most, or just one *)
Lemma fp_params ns cols g1 u : columns ns cols -> ns <> [] -> length ns <= 4 -> gap g1 -> unit_text u ->
  exists t', columns ns t' /\ forall p c s, fp (RSeq ws_star (labelled_float lf_sep REps ("params"%string, Some (1, 4)))) p cols (g1 ++ u ++ s) c (("params"%string, t') :: c).
Proof.
  intros Hc Hn H4 Hg1 Hu. inversion Hc as [|g n ns' t' Hg Hg0 Hn0 Ht']; subst; [congruence|]. pose proof (proj1 (blanks_iff _) Hg) as Hb.
  destruct g as [|x w _] using rev_ind; [congruence|]. rewrite forallb_app in Hb. cbn in Hb. apply andb_true_iff in Hb as [Hw Hx]. rewrite andb_true_r in Hx.
  exists ([x] ++ write_num n ++ t'). assert (C2 : columns (n :: ns') ([x] ++ write_num n ++ t')) by (apply Forall_app in Hg; constructor; auto; [tauto|discriminate]).
  split; [exact C2|]. intros p c s. rewrite <- app_assoc. cbn [app]. unfold ws_star.
  assert (Hd : hd_not is_space ((write_num n ++ t') ++ g1 ++ u ++ s)) by (rewrite <- app_assoc; now apply num_hd).
  apply CellFacts.fp_star_back1; [exact Hw|exact Hx|exact Hd| |].
  - apply nomatch_den. intros p' s0 c' D. cbn [labelled_float snd fst den] in D. destruct D as (c1 & (m0 & H1 & H2 & H3) & _).
    destruct m0 as [|m0]; [lia|]. cbn [iter_den] in H3. destruct H3 as (p1 & s1 & c2 & D & _). apply den_col in D as (g & m1 & Hg2 & Hg20 & _ & E & _).
    rewrite E in Hd. destruct g as [|y g]; [congruence|]. cbn in Hg2, Hd. apply andb_true_iff in Hg2 as [Hg2 _]. congruence.
  - destruct (columns_fps _ _ C2 (g1 ++ u ++ s) (gap_end _ _ Hg1)) as (ts & Ets & El & Ene & Fs). cbn [app] in Ets. rewrite <- Ets.
    cbn [labelled_float snd fst]. apply fp_grp. apply (fp_rep col_re); [rewrite El; cbn in *; lia|exact Ene|apply Fs|].
    right. apply no_more; [apply Hg1|exact Hu].
Qed.
Lemma fp_param n t g1 s p c : columns [n] t -> gap g1 ->
  fp (RSeq ws_star (labelled_floats ["params"%string])) p t (g1 ++ s) c (("params"%string, write_num n) :: c).
Proof.
  intros Ht Hg. destruct (FileParts.fp_ws_back [n] t (g1 ++ s) p c Ht ltac:(discriminate)) as (w & t2 & -> & Hw & Ht2 & F).
  apply F.
  - intros q s' Hs. apply nomatch_den. intros p' s0 c' D. unfold labelled_floats, labelled_floats_gen in D. cbn [map RSeqs labelled_float snd fst fold_right] in D.
    destruct D as (p1 & s1 & c1 & D & _). apply den_plus_lazy_space in D as (g & -> & Hg0 & Hg2 & _).
    destruct g as [|y g]; [congruence|]. cbn in Hg2, Hs. apply andb_true_iff in Hg2 as [Hg2 _]. congruence.
  - intros q. apply (fp_labelled ["params"%string] [n]); [exact Ht2|reflexivity|now apply gap_end].
Qed.
(** ** Lines with values *)
Definition tag_caps (t : str) : caps := match t with [] => [] | _ => [("tag"%string, t)] end.
Lemma space_word_hd g s : forallb is_space g = true -> hd_not is_word s -> hd_not is_word (g ++ s).
Proof. intros Hg Hs. destruct g as [|y g]; [exact Hs|]. cbn in Hg |- *. apply andb_true_iff in Hg as [Hg _]. now apply space_not_word. Qed.
Lemma word_iff t : word t <-> t <> [] /\ forallb is_word t = true.
Proof. unfold word. split; intros [H1 H2]; (split; [exact H1|now apply words_iff]). Qed.
Lemma fp_tag t s p : word_or_none t -> hd_not is_word s -> fp pair_tag p t s [] (tag_caps t).
Proof.
  intros [->|Ht] Hs; unfold pair_tag.
  - apply fp_opt_none. apply nomatch_first; [reflexivity|]. destruct s as [|y s]; [reflexivity|]. cbn in Hs |- *. now rewrite Hs.
  - apply word_iff in Ht as [H0 H1]. destruct t as [|y t]; [congruence|]. apply fp_opt_some; [discriminate|]. cbn [tag_caps]. apply fp_grp. now apply fp_plus_chr.
Qed.
Lemma word_space w s : word w -> hd_not is_space (w ++ s).
Proof. intros H. apply word_iff in H as [H0 H1]. destruct w as [|y w]; [congruence|]. cbn in H1 |- *. apply andb_true_iff in H1 as [H1 _]. clear H0. revert y H1. apply ascii_imp_not. vm_compute. reflexivity. Qed.
Lemma unit_space u s : unit_text u -> hd_not is_space (u ++ s).
Proof. intros H. destruct (unit_start u H) as (y & u' & -> & Hy & _). exact Hy. Qed.
Lemma gap_hd g s f : gap g -> (forall c, is_space c = true -> f c = false) -> hd_not f (g ++ s).
Proof. intros [Hg Hg0] Hf. destruct g as [|y g]; [congruence|]. apply blanks_iff in Hg. cbn in Hg |- *. apply andb_true_iff in Hg as [Hg _]. now apply Hf. Qed.
Lemma columns_gap ns t : columns ns t -> ns <> [] -> exists g r, gap g /\ t = g ++ r.
Proof. intros [|g n ns' t' Hg Hg0 _ _] H; [congruence|]. exists g, (write_num n ++ t'). repeat split; assumption. Qed.
Lemma word_end_hd r : word_end r -> hd_not is_word r.
Proof. intros H. destruct r as [|y r]; [exact I|]. cbn. destruct (is_word y) eqn:E; [|reflexivity]. exfalso. apply (H y r eq_refl). now apply word_char_iff. Qed.
Lemma fp_value params t a g lab cols ns g1 u g2 g3 g4 typ r t' : word_or_none t -> blanks a -> blanks g -> word lab -> columns ns cols -> ns <> [] ->
  gap g1 -> unit_text u -> gap g2 -> blanks g3 -> blanks g4 -> word typ -> word_end r ->
  (forall p c s, fp (RSeq ws_star params) p cols (g1 ++ u ++ s) c (("params"%string, t') :: c)) ->
  fp (RSeqs (pair_value params)) None (t ++ a ++ "*"%char :: g ++ lab ++ cols ++ g1 ++ u ++ g2 ++ "*"%char :: g3 ++ text_of "<--" ++ g4 ++ typ) r []
    (("type"%string, typ) :: ("params"%string, t') :: ("label"%string, lab) :: tag_caps t).
Proof.
  intros Ht Ha Hg Hl Hc Hn Hg1 Hu Hg2 Hg3 Hg4 Hty Hr F.
  assert (X : fp (RSeqs [pair_tag; ws_star; star; ws_star; RGrp "label" (RPlus c_word); RSeq ws_star params; ws_star; pair_unit; ws_star; star; ws_star;
     RLit "<--"; ws_star; RGrp "type" (RPlus c_word)]) None (concat [t; a; ["*"%char]; g; lab; cols; g1; u; g2; ["*"%char]; g3; text_of "<--"; g4; typ]) r []
    (("type"%string, typ) :: ("params"%string, t') :: ("label"%string, lab) :: tag_caps t)).
  { pose proof Hg1 as [Hg1' Hg10]. pose proof Hg2 as [Hg2' Hg20]. apply blanks_iff in Ha, Hg, Hg1', Hg2', Hg3, Hg4. pose proof Hl as Hl2. pose proof Hty as Hty2. apply word_iff in Hl2 as [Hl0 Hl2]. apply word_iff in Hty2 as [Hty0 Hty2].
    destruct (columns_gap _ _ Hc Hn) as (gc & rc & Hgc & Ec).
    apply fp_seqs.
    eapply fpl_cons; [apply fp_tag; [exact Ht|]; cbn [concat]; rewrite <- !app_assoc; apply space_word_hd; [exact Ha|reflexivity]|].
    eapply fpl_cons; [apply fp_star_chr; [exact Ha|reflexivity]|].
    eapply fpl_cons; [apply fp_char|].
    eapply fpl_cons; [apply fp_star_chr; [exact Hg|]; cbn [concat]; rewrite <- !app_assoc; now apply word_space|].
    eapply fpl_cons; [apply fp_grp; apply fp_plus_chr; [exact Hl2|exact Hl0|]; cbn [concat]; rewrite Ec, <- !app_assoc; apply gap_hd; [exact Hgc|apply space_not_word]|].
    eapply fpl_cons; [cbn [concat]; rewrite <- !app_assoc; apply F|].
    eapply fpl_cons; [apply fp_star_chr; [exact Hg1'|]; cbn [concat]; rewrite <- !app_assoc; now apply unit_space|].
    eapply fpl_cons; [apply fp_plus_chr; [|apply Hu|]|].
    { destruct Hu as (_ & Hu & _). apply forallb_forall. intros y Hy. rewrite Forall_forall in Hu. destruct (Hu y Hy) as [H|H]; [apply word_char_iff in H; now rewrite H|destruct H as [<-|[<-|[<-|[]]]]; reflexivity]. }
    { cbn [concat]; rewrite <- !app_assoc. apply gap_hd; [exact Hg2|]. apply ascii_imp_not. vm_compute. reflexivity. }
    eapply fpl_cons; [apply fp_star_chr; [exact Hg2'|reflexivity]|].
    eapply fpl_cons; [apply fp_char|].
    eapply fpl_cons; [apply fp_star_chr; [exact Hg3|reflexivity]|].
    eapply fpl_cons; [apply fp_lit|].
    eapply fpl_cons; [apply fp_star_chr; [exact Hg4|]; cbn [concat]; rewrite <- !app_assoc; now apply word_space|].
    eapply fpl_cons; [apply fp_grp; apply fp_plus_chr; [exact Hty2|exact Hty0|cbn [concat app]; now apply word_end_hd]|].
    apply fpl_nil. }
  replace (t ++ a ++ "*"%char :: g ++ lab ++ cols ++ g1 ++ u ++ g2 ++ "*"%char :: g3 ++ text_of "<--" ++ g4 ++ typ)
    with (concat [t; a; ["*"%char]; g; lab; cols; g1; u; g2; ["*"%char]; g3; text_of "<--"; g4; typ]) by (cbn [concat app]; now rewrite !app_nil_r).
  exact X.
Qed.
Lemma blanks_word_end r : blanks r -> word_end r.
Proof. intros H c t ->. inversion_clear H as [|? ? Hc _]. intros W. apply word_char_iff in W. apply blank_iff in Hc. rewrite (space_not_word _ Hc) in W. discriminate. Qed.
Lemma value_shape (t a g lab cols g1 u g2 g3 g4 typ r : str) : t ++ a ++ "*"%char :: g ++ lab ++ cols ++ g1 ++ u ++ g2 ++ "*"%char :: g3 ++ text_of "<--" ++ g4 ++ typ ++ r
  = (t ++ a ++ "*"%char :: g ++ lab ++ cols ++ g1 ++ u ++ g2 ++ "*"%char :: g3 ++ text_of "<--" ++ g4 ++ typ) ++ r.
Proof. repeat (rewrite <- !app_assoc; cbn [app]). reflexivity. Qed.
Lemma pair_val_match l t lab ns typ : value_line l t lab ns typ -> length ns <= 4 ->
  all_fit ns /\ Forall num_ok ns /\ exists x t', re_match PAIR_VAL_RE l = Some x /\ columns ns t' /\ m_caps x = ("type"%string, typ) :: ("params"%string, t') :: ("label"%string, lab) :: tag_caps t.
Proof.
  intros [t0 a g lab0 cols ns0 g1 u g2 g3 g4 typ0 r Ht Ha Hg Hl Hc Hn Hf Hg1 Hu Hg2 Hg3 Hg4 Hty Hr] H4. split; [exact Hf|]. split; [exact (columns_ok _ _ Hc)|].
  pose proof (fp_params ns0 cols g1 u Hc Hn H4 Hg1 Hu) as F.
  destruct F as (t' & Ht' & F). rewrite value_shape.
  destruct (match_hit PAIR_VAL_RE _ r _ (fp_value _ t0 a g lab0 cols ns0 g1 u g2 g3 g4 typ0 r t' Ht Ha Hg Hl Hc Hn Hg1 Hu Hg2 Hg3 Hg4 Hty (blanks_word_end _ Hr) F)) as (x & Ex & Ec).
  exists x, t'. auto.
Qed.
Lemma triple_val_match l t lab n typ : value_line l t lab [n] typ ->
  all_fit [n] /\ num_ok n /\ exists x, re_match TRIPLE_VAL_RE l = Some x /\ m_caps x = ("type"%string, typ) :: ("params"%string, write_num n) :: ("label"%string, lab) :: tag_caps t.
Proof.
  intros H. inversion H as [t0 a g lab0 cols ns0 g1 u g2 g3 g4 typ0 r Ht Ha Hg Hl Hc Hn Hf Hg1 Hu Hg2 Hg3 Hg4 Hty Hr]; subst. split; [exact Hf|].
  split; [pose proof (columns_ok _ _ Hc) as K; now inversion_clear K|].
  pose proof (fp_value (labelled_floats ["params"%string]) t a g lab cols [n] g1 u g2 g3 g4 typ r (write_num n) Ht Ha Hg Hl Hc Hn Hg1 Hu Hg2 Hg3 Hg4 Hty (blanks_word_end _ Hr)) as F.
  rewrite value_shape. apply match_hit. change TRIPLE_VAL_RE with (RSeq RBol (RSeqs (pair_value (labelled_floats ["params"%string])))).
  match goal with |- fp _ _ ?T _ _ _ => change T with ([] ++ T) end. apply fp_seq with (c1 := []); [apply fp_bol|].
  apply F. intros p c s. now apply fp_param.
Qed.
Lemma mentions_after w (a : str) s : mentions w s -> mentions w (a ++ s).
Proof. intros (x & y & ->). exists (a ++ x), y. now rewrite <- app_assoc. Qed.
Lemma no_arrow params l : ~ mentions "<--" l -> re_match (RSeqs (pair_value params)) l = None /\ re_match (RSeqs (RBol :: pair_value params)) l = None.
Proof.
  intros H. assert (X : forall p s c p' s' c', den (RSeqs (pair_value params)) p s c p' s' c' -> mentions "<--" s).
  { intros p s c p' s' c' D. unfold pair_value in D. cbn [RSeqs] in D.
    do 12 (let D1 := fresh "D" in destruct D as (? & ? & ? & D1 & D); apply den_consumed in D1 as (? & ? & _)).
    destruct D as (? & ? & ? & D1 & D). apply den_lit in D1 as (E & _). subst.
    do 12 apply mentions_after. now eexists [], _. }
  split; apply no_match_of; intros p' s' c' D.
  - apply X in D. contradiction.
  - cbn [RSeqs] in D. destruct D as (? & ? & ? & (_ & <- & <- & <-) & D). apply X in D. contradiction.
Qed.
(** ** Names of species *)
Definition plain_end (u : str) : Prop := hd_not is_word u /\ hd_not (Ascii.eqb ":") u /\ forall g z, u = g ++ "["%char :: z -> ~ blanks g.
Lemma fp_symbol p s u c : at_edge p -> symbol s -> plain_end u -> fp ATOM_NAME_RE p s u c c.
Proof.
  intros Hp (x & r & -> & Hx & Hr & Hl) (Hu1 & Hu2 & Hu3). unfold ATOM_NAME_RE. cbn [RSeqs].
  apply capital_iff in Hx. assert (Hr' : forallb is_lower r = true) by (revert Hr; apply Forall_forallb, small_iff).
  assert (Hw : forallb is_word (x :: r) = true).
  { cbn. rewrite (upper_word _ Hx). apply forallb_forall. intros y Hy. apply lower_word. rewrite forallb_forall in Hr'. auto. }
  assert (W : word_boundary (pa p (x :: r)) u = true).
  { rewrite pa_rev. destruct (rev (x :: r)) as [|y q] eqn:E; [apply (f_equal (@rev ascii)) in E; rewrite rev_involutive in E; discriminate|].
    assert (Hy : is_word y = true) by (rewrite forallb_forall in Hw; apply Hw, in_rev; rewrite E; now left).
    unfold word_boundary. cbv beta iota zeta. rewrite Hy. destruct u as [|z u]; [reflexivity|]. cbn in Hu1 |- *. now rewrite Hu1. }
  change (x :: r) with ([] ++ (x :: r)). apply fp_seq with (c1 := c).
  { apply fp_wordb. unfold word_boundary. cbn [app hd_error]. rewrite (upper_word _ Hx). destruct p as [q|]; [|reflexivity]. now rewrite (Hp q eq_refl). }
  cbn [pa]. rewrite <- (app_nil_r (x :: r)). apply fp_seq with (c1 := c).
  { unfold SPECIES_RE. change (x :: r) with ([x] ++ r). apply fp_seq with (c1 := c); [now apply fp_chr|].
    apply fp_rep_chr; [exact Hr'|lia|]. right. cbn [app]. destruct u as [|y u]; [exact I|]. cbn in Hu1 |- *. destruct (is_lower y) eqn:E; [apply lower_word in E; congruence|reflexivity]. }
  change (@nil ascii) with (@nil ascii ++ []). apply fp_seq with (c1 := c).
  { apply fp_opt_none. apply nomatch_first; [reflexivity|]. cbn [app]. destruct u as [|y u]; [reflexivity|]. cbn in Hu2 |- *. now rewrite Hu2. }
  change (@nil ascii) with (@nil ascii ++ []). apply fp_seq with (c1 := c).
  { apply fp_wordb. exact W. }
  apply fp_opt_none. apply nomatch_den. intros p' s' c' D. cbn [RSeqs app] in D. destruct D as (? & ? & ? & D1 & ? & ? & ? & D2 & _).
  unfold ws_star, RStar in D1. apply den_rep_chr in D1 as (g & -> & _ & _ & Hg & _). apply den_char in D2 as (-> & _). apply (Hu3 _ _ eq_refl). now apply blanks_iff.
Qed.
Lemma plain_end_gap g s : blanks g -> hd_not is_word s -> hd_not (Ascii.eqb ":") s -> hd_not (Ascii.eqb "[") s -> hd_not is_space s -> plain_end (g ++ s).
Proof.
  intros Hg H1 H2 H3 H4. apply blanks_iff in Hg. split; [now apply space_word_hd|]. split.
  - destruct g as [|y g]; [exact H2|]. cbn in Hg |- *. apply andb_true_iff in Hg as [Hg _]. revert y Hg. apply ascii_imp_not. vm_compute. reflexivity.
  - intros g' z E Hg'. apply blanks_iff in Hg'. destruct s as [|y s].
    + rewrite app_nil_r in E. rewrite E, forallb_app in Hg. apply andb_true_iff in Hg as [_ Hg]. discriminate Hg.
    + apply (run_unique is_space) in E as (_ & -> & _); [|assumption|assumption|exact H4|reflexivity]. cbn in H3. rewrite Ascii.eqb_refl in H3. discriminate.
Qed.
Lemma symbol_hd s u : symbol s -> hd_not is_space (s ++ u) /\ hd_not (Ascii.eqb ":") (s ++ u) /\ hd_not (Ascii.eqb "[") (s ++ u).
Proof.
  intros (x & r & -> & Hx & _). apply capital_iff in Hx. cbn.
  destruct x as [[] [] [] [] [] [] [] []]; try discriminate Hx; repeat split; reflexivity.
Qed.
Lemma plain_end_name g s u : gap g -> symbol s -> plain_end (g ++ s ++ u).
Proof.
  intros Hg Hs. destruct (symbol_hd s u Hs) as (H1 & H2 & H3). split; [apply gap_hd; [exact Hg|apply space_not_word]|]. split.
  - apply gap_hd; [exact Hg|]. apply ascii_imp_not. vm_compute. reflexivity.
  - intros g' z E Hg'. destruct Hg as [Hg _]. apply blanks_iff in Hg, Hg'. destruct Hs as (x & r & -> & Hs). cbn [app] in E, H1, H3.
    apply (run_unique is_space) in E as (_ & -> & _); [|assumption|assumption|exact H1|reflexivity]. cbn in H3. discriminate.
Qed.
(** ** What the patterns of the species match *)
Lemma atom_text p s c p' s' c' : den ATOM_NAME_RE p s c p' s' c' ->
  exists x w lb, s = x :: w ++ lb ++ s' /\ is_upper x = true /\ (forall y, In y w -> is_word y = true \/ y = ":"%char) /\ (exists z, last (x :: w) x = z /\ is_word z = true) /\
    (lb = [] \/ exists b, lb = b ++ ["]"%char] /\ In "["%char lb).
Proof.
  intros D. unfold ATOM_NAME_RE, SPECIES_RE in D. cbn [RSeqs] in D.
  destruct D as (? & ? & ? & D2 & D1). destruct D2 as (_ & _ & <- & _).
  destruct D1 as (? & s3 & ? & D2 & D1). destruct D2 as (? & ? & ? & D3 & D2). destruct D3 as (ch & -> & Hx & _ & _).
  unfold c_lower in D2. apply rep_chars in D2 as (w & -> & Hw). destruct D1 as (? & s2 & ? & D2 & D1). destruct D1 as (? & ? & ? & D3 & D1). destruct D3 as (_ & _ & <- & _).
  assert (Hw' : forallb is_word w = true) by (apply forallb_forall; intros y Hy; apply lower_word; rewrite forallb_forall in Hw; auto).
  assert (Lw : forall z v, forallb is_word v = true -> is_word z = true -> is_word (last v z) = true).
  { clear. intros z v. revert z. induction v as [|y v IH]; intros z H Hz; [exact Hz|]. cbn in H. apply andb_true_iff in H as [H1 H2]. destruct v as [|y2 v]; [exact H1|]. exact (IH z H2 Hz). }
  assert (L : exists l, s3 = l ++ s2 /\ (forall y, In y l -> is_word y = true \/ y = ":"%char) /\ (l = [] \/ is_word (last l ch) = true)).
  { apply den_opt in D2 as [(_ & -> & _)|D2]; [exists []; split; [reflexivity|]; split; [intros y []|now left]|]. destruct D2 as (? & ? & ? & D3 & D2). apply den_char in D3 as (-> & _). unfold RPlus, c_word in D2.
    apply den_rep_chr in D2 as (l & -> & Hl0 & _ & Hl & _). exists (":"%char :: l). split; [reflexivity|]. split.
    - intros y [<-|I]; [now right|]. left. rewrite forallb_forall in Hl. auto.
    - right. destruct l as [|y l]; [cbn in Hl0; lia|]. change (last (":"%char :: y :: l) ch) with (last (y :: l) ch). apply Lw; [exact Hl|now apply upper_word]. }
  destruct L as (l & -> & Hl & Hll). clear D2.
  assert (B : exists lb, s2 = lb ++ s' /\ (lb = [] \/ exists b, lb = b ++ ["]"%char] /\ In "["%char lb)).
  { apply den_opt in D1 as [(_ & -> & _)|D1]; [exists []; split; [reflexivity|now left]|].
    destruct D1 as (? & ? & ? & D2 & D1). unfold ws_star, RStar in D2. apply rep_chars in D2 as (g & -> & _).
    destruct D1 as (? & ? & ? & D2 & D1). apply den_char in D2 as (-> & _).
    destruct D1 as (? & ? & ? & D2 & D1). apply den_consumed in D2 as (v & -> & _). apply den_char in D1 as (-> & _).
    exists ((g ++ "["%char :: v) ++ ["]"%char]). split; [now repeat (rewrite <- !app_assoc; cbn [app])|]. right. exists (g ++ "["%char :: v). split; [reflexivity|]. rewrite !in_app_iff. cbn. tauto. }
  destruct B as (lb & -> & Hb). exists ch, (w ++ l), lb. split; [now rewrite <- !app_assoc|]. split; [exact Hx|]. split; [|split; [|exact Hb]].
  - intros y I. apply in_app_iff in I as [I|I]; [left; rewrite forallb_forall in Hw'; auto|auto].
  - eexists. split; [reflexivity|]. destruct Hll as [->|Hll].
    + rewrite app_nil_r. destruct w as [|y w]; [now apply upper_word|]. change (last (ch :: y :: w) ch) with (last (y :: w) ch). apply Lw; [exact Hw'|now apply upper_word].
    + destruct l as [|y l _] using rev_ind; [|]. { cbn in Hll. rewrite app_nil_r. destruct w as [|y w]; [exact Hll|]. change (last (ch :: y :: w) ch) with (last (y :: w) ch). apply Lw; [exact Hw'|now apply upper_word]. }
      rewrite app_comm_cons, app_assoc, last_last. now rewrite last_last in Hll.
Qed.
Lemma atom_last p s c p' s' c' : den ATOM_NAME_RE p s c p' s' c' -> exists a y, s = a ++ y :: s' /\ (word_char y \/ y = "]"%char).
Proof.
  intros D. apply atom_text in D as (x & w & lb & -> & _ & _ & (z & Ez & Hz) & [->|(b & -> & _)]).
  - destruct w as [|y w _] using rev_ind.
    + exists [], x. split; [reflexivity|]. left. cbn in Ez. subst. now apply word_char_iff.
    + rewrite app_comm_cons, last_last in Ez. subst. exists (x :: w), z. split; [cbn [app]; now rewrite <- app_assoc|]. left. now apply word_char_iff.
  - exists (x :: w ++ b), "]"%char. split; [cbn [app]; now rewrite <- !app_assoc|now right].
Qed.
Lemma atom_hd p s c p' s' c' : den ATOM_NAME_RE p s c p' s' c' -> exists x t, s = x :: t /\ capital x.
Proof. intros D. apply atom_text in D as (x & w & lb & -> & Hx & _). eexists _, _. split; [reflexivity|now apply capital_iff]. Qed.
Lemma unpaired_none l : unpaired l -> re_test PAIR_SPEC_RE l = false.
Proof.
  intros H. destruct (re_test PAIR_SPEC_RE l) eqn:E; [|reflexivity]. exfalso. apply search_test_iff in E; [|reflexivity].
  destruct E as (a & b & -> & p' & s' & c' & D). unfold PAIR_SPEC_RE in D. cbn [RSeqs] in D.
  destruct D as (? & ? & ? & D1 & D). destruct D1 as (? & D1 & _). apply atom_last in D1 as (u & y & -> & Hy).
  destruct D as (? & ? & ? & D2 & D). unfold ws_star, RStar in D2. apply rep_chars in D2 as (g & -> & Hg).
  destruct D as (? & ? & ? & D2 & D). apply den_char in D2 as (-> & _). destruct D as (? & ? & ? & D2 & D). unfold ws_star, RStar in D2. apply rep_chars in D2 as (g' & -> & Hg').
  destruct D as (? & D & _). apply atom_hd in D as (d & t & -> & Hd). apply blanks_iff in Hg, Hg'.
  apply (H (a ++ u) y g g' d t Hy Hg Hg' Hd). now rewrite <- app_assoc.
Qed.
Lemma fp_pair p s1 g g' s2 r : at_edge p -> symbol s1 -> blanks g -> blanks g' -> symbol s2 -> plain_end r ->
  fp PAIR_SPEC_RE p (s1 ++ g ++ "-"%char :: g' ++ s2) r [] [("spec2"%string, s2); ("spec1"%string, s1)].
Proof.
  intros Hp H1 Hg Hg' H2 Hr. replace (s1 ++ g ++ "-"%char :: g' ++ s2) with (concat [s1; g; ["-"%char]; g'; s2]) by (cbn; now rewrite app_nil_r).
  unfold PAIR_SPEC_RE. apply fp_seqs.
  eapply fpl_cons; [apply fp_grp; apply fp_symbol; [exact Hp|exact H1|]; cbn [concat]; rewrite <- !app_assoc; now apply plain_end_gap|]. apply blanks_iff in Hg.
  eapply fpl_cons; [apply fp_star_chr; [exact Hg|reflexivity]|].
  eapply fpl_cons; [apply fp_char|].
  eapply fpl_cons; [apply fp_star_chr; [now apply blanks_iff|]; cbn [concat]; rewrite <- !app_assoc; apply (symbol_hd s2 _ H2)|].
  eapply fpl_cons; [apply fp_grp; apply fp_symbol; [|exact H2|exact Hr]|apply fpl_nil].
  rewrite <- !pa_app. apply edge_after; [|destruct s1, g; discriminate].
  intros a c E. destruct g' as [|y g' _] using rev_ind.
  - rewrite app_nil_r, app_assoc in E. apply app_inj_tail in E as [_ <-]. intros W. apply word_char_iff in W. discriminate W.
  - rewrite !app_assoc in E. apply app_inj_tail in E as [_ <-]. apply Forall_app in Hg' as [_ Hg']. inversion_clear Hg' as [|? ? Hb _]. intros W. apply word_char_iff in W. apply blank_iff in Hb. rewrite (space_not_word _ Hb) in W. discriminate.
Qed.
Lemma pair_first r c : first (RSeq (RGrp "spec1" ATOM_NAME_RE) r) c = true -> is_upper c = true.
Proof. cbn. rewrite ?orb_false_r, ?andb_false_r. destruct (is_upper c); [reflexivity|]. cbn. auto. Qed.
Lemma no_capital_pair t p : no_capitals t -> search_from PAIR_SPEC_RE p t = None.
Proof.
  intros H. apply search_from_none; [|apply nomatch_den; intros p' s' c' (? & ? & ? & (? & D & _) & _); apply atom_hd in D as (? & ? & E & _); discriminate].
  apply capital_skips; [reflexivity|apply pair_first|exact H].
Qed.
Lemma pairs_found l ps : pairs l ps -> forall fuel p, length l < fuel -> (p = None \/ l = [] \/ exists x l', l = x :: l' /\ blank x) ->
  map (fun x => KTuple [KStr (group_s x "spec1"); KStr (group_s x "spec2")]) (map snd (iter_from fuel PAIR_SPEC_RE p l)) = map pair_key ps.
Proof.
  induction 1 as [t H|a s1 g g' s2 r ps Ha He H1 Hg Hg' H2 Hr1 Hr2 Hr3 _ IH]; intros fuel p Hf Hp.
  - destruct fuel; [lia|]. cbn [iter_from]. now rewrite no_capital_pair.
  - destruct fuel as [|fuel]; [lia|]. cbn [iter_from].
    assert (At : at_edge (pa p a)).
    { destruct Hp as [->|Hp]; [now apply edge_at|]. destruct a as [|y a]; [|apply edge_after; [exact He|discriminate]].
      destruct H1 as (x & q & -> & Hx & _). cbn [app] in Hp. destruct Hp as [Hp|(y & l' & Hp & Hy)]; [discriminate|]. injection Hp as -> _.
      apply capital_iff in Hx. apply blank_iff in Hy. revert Hx Hy. clear. destruct y as [[] [] [] [] [] [] [] []]; cbn; discriminate. }
    assert (Pe : plain_end r).
    { split; [|split].
      - destruct Hr2 as [->|(y & r' & -> & Hy)]; [exact I|]. apply blank_iff in Hy. now apply space_not_word.
      - destruct Hr2 as [->|(y & r' & -> & Hy)]; [exact I|]. apply blank_iff in Hy. revert Hy. clear. destruct y as [[] [] [] [] [] [] [] []]; intros Hy; (reflexivity || discriminate Hy).
      - intros g0 z -> _. apply Hr3. rewrite in_app_iff. right. now left. }
    replace (a ++ s1 ++ g ++ "-"%char :: g' ++ s2 ++ r) with (a ++ (s1 ++ g ++ "-"%char :: g' ++ s2) ++ r) by now repeat (rewrite <- !app_assoc; cbn [app]).
    erewrite search_from_pre; [|apply capital_skips; [reflexivity|apply pair_first|exact Ha]|now apply fp_pair].
    cbn [m_text m_prev m_rest]. destruct (s1 ++ g ++ "-"%char :: g' ++ s2) as [|z q] eqn:E; [destruct s1; [destruct g; discriminate E|discriminate E]|].
    cbn [map snd]. rewrite IH; [reflexivity| |now right].
    apply (f_equal (@length ascii)) in E. rewrite !app_length in *. cbn in *. rewrite !app_length in *. cbn in *. lia.
Qed.
Lemma pairs_some l p ps : pairs l (p :: ps) -> re_test PAIR_SPEC_RE l = true.
Proof.
  intros H. pose proof (pairs_found _ _ H (S (length l)) None (Nat.lt_succ_diag_r _) (or_introl eq_refl)) as F. cbn [iter_from] in F.
  unfold re_test, re_search. destruct (search_from PAIR_SPEC_RE None l) as [[? ?]|]; [reflexivity|]. discriminate F.
Qed.
(** ** Lines with species *)
Lemma star_edge p a g : blanks g -> at_edge (pa p (a ++ "*"%char :: g)).
Proof.
  intros Hg. apply edge_after; [|destruct a; discriminate]. intros b c E. destruct g as [|y g _] using rev_ind.
  - apply app_inj_tail in E as [_ <-]. intros W. apply word_char_iff in W. discriminate W.
  - rewrite app_comm_cons, app_assoc in E. apply app_inj_tail in E as [_ <-]. apply Forall_app in Hg as [_ Hg]. inversion_clear Hg as [|? ? Hb _]. intros W. apply word_char_iff in W. apply blank_iff in Hb. rewrite (space_not_word _ Hb) in W. discriminate.
Qed.
Lemma one_match l s : one_line l s -> exists x, re_match PAIR_ONE_RE l = Some x /\ group_s x "spec" = s.
Proof.
  intros [t a g s0 g1 g2 Ht Ha Hg Hs Hg1 Hg2].
  assert (F : fp PAIR_ONE_RE None (concat [[]; t; a; ["*"%char]; g; s0; g1; ["*"%char]; g2; []]) [] [] (("spec"%string, s0) :: tag_caps t)).
  { unfold PAIR_ONE_RE. apply fp_seqs. eapply fpl_cons; [apply fp_bol|].
    eapply fpl_cons; [apply fp_tag; [exact Ht|]; cbn [concat]; rewrite <- !app_assoc; apply space_word_hd; [now apply blanks_iff|reflexivity]|].
    eapply fpl_cons; [apply fp_star_chr; [now apply blanks_iff|reflexivity]|].
    eapply fpl_cons; [apply fp_char|].
    eapply fpl_cons; [apply fp_star_chr; [now apply blanks_iff|]; cbn [concat]; rewrite <- !app_assoc; apply (symbol_hd s0 _ Hs)|].
    eapply fpl_cons; [apply fp_grp; apply fp_symbol; [|exact Hs|]|].
    { rewrite <- !pa_app. replace ([] ++ t ++ a ++ ["*"%char] ++ g) with ((t ++ a) ++ "*"%char :: g) by (cbn [app]; rewrite <- !app_assoc; reflexivity). now apply star_edge. }
    { cbn [concat]. rewrite <- !app_assoc. now apply plain_end_gap. }
    eapply fpl_cons; [apply fp_star_chr; [now apply blanks_iff|reflexivity]|].
    eapply fpl_cons; [apply fp_char|].
    eapply fpl_cons; [apply fp_star_chr; [now apply blanks_iff|reflexivity]|].
    eapply fpl_cons; [apply fp_eol; reflexivity|]. apply fpl_nil. }
  replace (concat [[]; t; a; ["*"%char]; g; s0; g1; ["*"%char]; g2; []]) with (t ++ a ++ "*"%char :: g ++ s0 ++ g1 ++ "*"%char :: g2) in F by (cbn [concat app]; now rewrite !app_nil_r).
  apply match_hit in F as (x & Ex & Ec). rewrite app_nil_r in Ex. exists x. split; [exact Ex|]. unfold group_s. now rewrite Ec.
Qed.
Definition one_char (c : ascii) : bool := is_word c || is_space c || Ascii.eqb c "*".
Lemma one_chars l s : one_line l s -> forallb one_char l = true.
Proof.
  assert (W : forall u, forallb is_word u = true -> forallb one_char u = true) by (intros u H; apply forallb_forall; intros y Hy; rewrite forallb_forall in H; unfold one_char; now rewrite (H y Hy)).
  assert (B : forall u, blanks u -> forallb one_char u = true) by (intros u H; apply blanks_iff in H; apply forallb_forall; intros y Hy; rewrite forallb_forall in H; unfold one_char; rewrite (H y Hy); apply orb_true_iff; left; apply orb_true_r).
  intros [t a g s0 g1 g2 Ht Ha Hg Hs Hg1 Hg2]. repeat (rewrite forallb_app; cbn [forallb]). rewrite !(B a), !(B g), !(B g1), !(B g2) by assumption.
  rewrite (W t), (W s0); [reflexivity| |destruct Ht as [->|Ht]; [reflexivity|now apply word_iff]].
  destruct Hs as (x & r & -> & Hx & Hr & _). apply capital_iff in Hx. cbn. rewrite (upper_word _ Hx). apply (forallb_forall is_word). intros y Hy. apply lower_word. rewrite Forall_forall in Hr. now apply small_iff, Hr.
Qed.
Lemma one_no_dash l s : one_line l s -> ~ In "-"%char l.
Proof. intros H I. apply one_chars in H. rewrite forallb_forall in H. apply H in I. discriminate I. Qed.
Lemma one_unpaired l s : one_line l s -> unpaired l.
Proof. intros H a c g g' d b _ _ _ _ ->. apply one_no_dash in H. apply H. rewrite in_app_iff. right. right. rewrite in_app_iff. right. now left. Qed.
Lemma one_unvalued l s : one_line l s -> ~ mentions "<--" l.
Proof. intros H (a & b & ->). apply one_no_dash in H. apply H. rewrite !in_app_iff. right. left. cbn. tauto. Qed.
Lemma end_blanks s : at_end s = true -> blanks s.
Proof. destruct s as [|y [|z s]]; [constructor| |discriminate]. intros H. apply Ascii.eqb_eq in H. subst. apply blanks_iff. reflexivity. Qed.
(** The tag and the first star *)
Lemma head_den p s c p' s' c' r : den (RSeq pair_tag (RSeq ws_star (RSeq star (RSeq ws_star r)))) p s c p' s' c' ->
  exists t a g s1 q c0, s = t ++ a ++ "*"%char :: g ++ s1 /\ word_or_none t /\ blanks a /\ blanks g /\ den r q s1 c0 p' s' c'.
Proof.
  intros (? & s0 & ? & D1 & ? & ? & ? & D2 & ? & ? & ? & D3 & ? & ? & ? & D4 & D).
  unfold ws_star, RStar in D2, D4. apply den_char in D3 as (-> & _). apply rep_chars in D4 as (g & -> & Hg). apply rep_chars in D2 as (a & -> & Ha). apply blanks_iff in Ha, Hg.
  assert (T : exists t, s = t ++ a ++ "*"%char :: g ++ x8 /\ word_or_none t).
  { unfold pair_tag in D1. apply den_opt in D1 as [(_ & -> & _)|D1]; [exists []; split; [reflexivity|now left]|]. destruct D1 as (? & D1 & _). unfold RPlus, c_word in D1. apply den_rep_chr in D1 as (t & -> & Hl & _ & Hw & _).
    exists t. split; [reflexivity|]. right. apply word_iff. split; [|exact Hw]. intros ->. cbn in Hl. lia. }
  destruct T as (t & -> & Ht). exists t, a, g, x8. eexists _, _. repeat (split; [first [reflexivity|assumption]|]). exact D.
Qed.
Lemma one_none l : ~ In "["%char l -> ~ one_like l -> re_match PAIR_ONE_RE l = None.
Proof.
  intros Hb Hn. apply no_match_of. intros p' s' c' D. unfold PAIR_ONE_RE in D. cbn [RSeqs] in D. destruct D as (? & ? & ? & (_ & <- & <- & <-) & D).
  apply head_den in D as (t & a & g & s1 & q & c0 & -> & Ht & Ha & Hg & D). destruct D as (? & ? & ? & (? & D1 & _) & D).
  apply atom_text in D1 as (y & w & lb & -> & Hy & Hw & _ & Hlb). destruct D as (? & ? & ? & D2 & D). unfold ws_star, RStar in D2. apply rep_chars in D2 as (g1 & -> & Hg1).
  destruct D as (? & ? & ? & D2 & D). apply den_char in D2 as (-> & _). destruct D as (? & ? & ? & D2 & (E & _)). unfold ws_star, RStar in D2. apply rep_chars in D2 as (g2 & -> & Hg2). apply blanks_iff in Hg1, Hg2.
  assert (lb = []) as ->. { destruct Hlb as [->|(b & _ & I)]; [reflexivity|]. exfalso. apply Hb. rewrite !in_app_iff. right. right. right. rewrite !in_app_iff. right. right. rewrite !in_app_iff. tauto. }
  apply Hn. eexists t, a, g, y, w, g1, (g2 ++ _). split; [reflexivity|]. repeat (split; [assumption|]). split; [now apply capital_iff|]. split; [|split; [assumption|]].
  - intros z I B. apply blank_iff in B. destruct (Hw z I) as [W| ->]; [rewrite (space_not_word _ B) in W; discriminate|discriminate B].
  - apply Forall_app. split; [exact Hg2|now apply end_blanks].
Qed.
Lemma fp_atom_gap p s g u c : at_edge p -> symbol s -> blanks g -> hd_not is_space u -> plain_end (g ++ u) -> fp (RSeq ATOM_NAME_RE ws_star) p (s ++ g) u c c.
Proof.
  intros Hp Hs Hg Hu Hpe. apply fp_seq with (c1 := c); [now apply fp_symbol|]. apply fp_star_chr; [now apply blanks_iff|exact Hu].
Qed.
Lemma triple_match l ss : SpecPairs.triple_line l ss -> exists x, re_match TRIPLE_SPEC_RE l = Some x /\ split (group_s x "spec") = ss.
Proof.
  intros [t a g s1 g1 s2 g2 s3 g3 g4 Ht Ha Hg H1 Hg1 H2 Hg2 H3 Hg3 Hg4].
  assert (F : fp TRIPLE_SPEC_RE None (concat [[]; t; a; ["*"%char]; g; concat [s1 ++ g1; s2 ++ g2; s3 ++ g3]; []; ["*"%char]; g4; []]) [] [] (("spec"%string, concat [s1 ++ g1; s2 ++ g2; s3 ++ g3]) :: tag_caps t)).
  { unfold TRIPLE_SPEC_RE. apply fp_seqs. eapply fpl_cons; [apply fp_bol|].
    eapply fpl_cons; [apply fp_tag; [exact Ht|]; cbn [concat]; rewrite <- !app_assoc; apply space_word_hd; [now apply blanks_iff|reflexivity]|].
    eapply fpl_cons; [apply fp_star_chr; [now apply blanks_iff|reflexivity]|].
    eapply fpl_cons; [apply fp_char|].
    eapply fpl_cons; [apply fp_star_chr; [now apply blanks_iff|]; cbn [concat]; rewrite <- !app_assoc; apply (symbol_hd s1 _ H1)|].
    eapply fpl_cons; [apply fp_grp; apply fp_times; [reflexivity|]|].
    { assert (G : forall q v w s, gap v -> at_edge (pa q ((w : str) ++ v)) /\ (symbol s -> True)).
      { intros q v w s [Hv Hv0]. split; [|auto]. apply edge_after; [|destruct w, v; congruence || discriminate]. intros b c E. destruct v as [|y v _] using rev_ind; [congruence|].
        rewrite app_assoc in E. apply app_inj_tail in E as [_ <-]. apply Forall_app in Hv as [_ Hv]. inversion_clear Hv as [|? ? Hb _]. intros W. apply word_char_iff in W. apply blank_iff in Hb. rewrite (space_not_word _ Hb) in W. discriminate. }
      eapply fps_cons; [apply fp_atom_gap; [|exact H1|apply Hg1| |]|].
      - rewrite <- !pa_app. replace ([] ++ t ++ a ++ ["*"%char] ++ g) with ((t ++ a) ++ "*"%char :: g) by (cbn [app]; rewrite <- !app_assoc; reflexivity). now apply star_edge.
      - cbn [concat]. rewrite <- !app_assoc. apply (symbol_hd s2 _ H2).
      - cbn [concat]. rewrite <- !app_assoc. now apply plain_end_name.
      - eapply fps_cons; [apply fp_atom_gap; [apply (G _ g1 s1 s1 Hg1)|exact H2|apply Hg2| |]|].
        + cbn [concat]. rewrite <- !app_assoc. apply (symbol_hd s3 _ H3).
        + cbn [concat]. rewrite <- !app_assoc. now apply plain_end_name.
        + eapply fps_cons; [apply fp_atom_gap; [apply (G _ g2 s2 s2 Hg2)|exact H3|exact Hg3| |]|apply fps_nil].
          * reflexivity.
          * cbn [concat app]. now apply plain_end_gap. }
    eapply fpl_cons; [apply fp_star_chr; reflexivity|].
    eapply fpl_cons; [apply fp_char|].
    eapply fpl_cons; [apply fp_star_chr; [now apply blanks_iff|reflexivity]|].
    eapply fpl_cons; [apply fp_eol; reflexivity|]. apply fpl_nil. }
  replace (concat [[]; t; a; ["*"%char]; g; concat [s1 ++ g1; s2 ++ g2; s3 ++ g3]; []; ["*"%char]; g4; []]) with (t ++ a ++ "*"%char :: g ++ s1 ++ g1 ++ s2 ++ g2 ++ s3 ++ g3 ++ "*"%char :: g4) in F
    by (cbn [concat app]; repeat (rewrite <- ?app_assoc, ?app_nil_r; cbn [app]); reflexivity).
  apply match_hit in F as (x & Ex & Ec). rewrite app_nil_r in Ex. exists x. split; [exact Ex|]. unfold group_s. rewrite Ec. cbn [cap String.eqb Ascii.eqb Bool.eqb].
  assert (Hns : forall s, symbol s -> s <> [] /\ forall c, In c s -> ~ blank c).
  { intros s (y & r & -> & Hy & Hr & _). split; [discriminate|]. intros c I B. apply blank_iff in B. assert (W : is_word c = true).
    { destruct I as [<-|I]; [now apply upper_word, capital_iff|]. rewrite Forall_forall in Hr. now apply lower_word, small_iff, Hr. }
    rewrite (space_not_word _ B) in W. discriminate. }
  cbn [concat]. rewrite app_nil_r, <- !app_assoc. apply split_cut.
  assert (Cut : forall s g r ws, symbol s -> gap g \/ (blanks g /\ r = []) -> cut nonblank ws (g ++ r) -> cut nonblank (s :: ws) (s ++ g ++ r)).
  { intros s k r ws Hs Hgr Hc. apply (cut_cons nonblank [] s (k ++ r) ws); [intros c []|apply (Hns s Hs)|apply (Hns s Hs)| |exact Hc].
    intros c z E N. apply N. destruct k as [|y k].
    - destruct Hgr as [[_ Hgr]|[_ ->]]; [congruence|discriminate E].
    - cbn in E. injection E as <- _. destruct Hgr as [[Hgr _]|[Hgr _]]; now inversion_clear Hgr. }
  assert (Lead : forall (g r : str) ws, blanks g -> cut nonblank ws r -> cut nonblank ws (g ++ r)).
  { clear. intros g r ws Hg Hc. assert (Hg' : forall c, In c g -> ~ nonblank c) by (intros c I N; apply N; unfold blanks in Hg; rewrite Forall_forall in Hg; auto).
    destruct Hc as [g' H|g' w s ws H H1 H2 H3 H4].
    - constructor. intros c I. apply in_app_iff in I as [I|I]; auto.
    - rewrite app_assoc. constructor; auto. intros c I. apply in_app_iff in I as [I|I]; auto. }
  apply Cut; [exact H1|now left|]. apply Lead; [apply Hg1|]. apply Cut; [exact H2|now left|]. apply Lead; [apply Hg2|].
  rewrite <- (app_nil_r g3). apply Cut; [exact H3|right; now split|]. apply Lead; [exact Hg3|]. constructor. intros c [].
Qed.
Lemma few_none l : few_capitals l -> re_match TRIPLE_SPEC_RE l = None.
Proof.
  intros H. apply no_match_of. intros p' s' c' D. unfold TRIPLE_SPEC_RE in D. cbn [RSeqs] in D. destruct D as (? & ? & ? & (_ & <- & <- & <-) & D).
  apply head_den in D as (t & a & g & s1 & q & c0 & -> & Ht & Ha & Hg & D). destruct D as (? & ? & ? & (? & D1 & _) & D). destruct D1 as (n & Hn1 & Hn2 & D1). assert (n = 3) by lia. subst n.
  cbn [iter_den] in D1. destruct D1 as (? & ? & ? & (? & ? & ? & A1 & B1) & ? & ? & ? & (? & ? & ? & A2 & B2) & ? & ? & ? & (? & ? & ? & A3 & B3) & (-> & -> & ->)).
  apply atom_text in A1 as (u1 & w1 & l1 & -> & X1 & _). apply atom_text in A2 as (u2 & w2 & l2 & -> & X2 & _). apply atom_text in A3 as (u3 & w3 & l3 & -> & X3 & _).
  apply den_consumed in B1 as (b1 & -> & _). apply den_consumed in B2 as (b2 & -> & _). apply capital_iff in X1, X2, X3.
  eapply (H (t ++ a ++ "*"%char :: g) (w1 ++ l1 ++ b1) (w2 ++ l2 ++ b2) _ u1 u2 u3 X1 X2 X3). repeat (rewrite <- ?app_assoc; cbn [app]). reflexivity.
Qed.
Definition ends_star (s : str) : Prop := exists pre e, s = pre ++ "*"%char :: e /\ blanks e.
Lemma ends_after (a : str) s : ends_star s -> ends_star (a ++ s).
Proof. intros (x & e & -> & H). exists (a ++ x), e. now rewrite <- app_assoc. Qed.
Lemma triple_ends l x : re_match TRIPLE_SPEC_RE l = Some x -> ends_star l.
Proof.
  intros H. destruct (re_match TRIPLE_SPEC_RE l) eqn:E0; [|discriminate]. clear H. assert (D0 : exists p' s' c', den TRIPLE_SPEC_RE None l [] p' s' c').
  { unfold re_match, match_at in E0. apply m_sound in E0 as (p' & s' & c' & D & _). eauto. }
  destruct D0 as (p' & s' & c' & D). unfold TRIPLE_SPEC_RE in D. cbn [RSeqs] in D.
  destruct D as (? & ? & ? & D1 & D). apply den_consumed in D1 as (? & -> & _). apply ends_after.
  destruct D as (? & ? & ? & D1 & D). apply den_consumed in D1 as (? & -> & _). apply ends_after.
  destruct D as (? & ? & ? & D1 & D). apply den_consumed in D1 as (? & -> & _). apply ends_after.
  destruct D as (? & ? & ? & D1 & D). apply den_consumed in D1 as (? & -> & _). apply ends_after.
  destruct D as (? & ? & ? & D1 & D). apply den_consumed in D1 as (? & -> & _). apply ends_after.
  destruct D as (? & ? & ? & D1 & D). apply den_consumed in D1 as (? & -> & _). apply ends_after.
  destruct D as (? & ? & ? & D1 & D). apply den_consumed in D1 as (? & -> & _). apply ends_after.
  destruct D as (? & ? & ? & D1 & D). apply den_char in D1 as (-> & _). destruct D as (? & ? & ? & D2 & (E & _)). unfold ws_star, RStar in D2. apply rep_chars in D2 as (g5 & -> & Hg5). apply end_blanks in E.
  eexists [], (g5 ++ _). split; [reflexivity|]. apply Forall_app; split; [now apply blanks_iff|exact E].
Qed.
Lemma value_no_triple l t lab ns typ : value_line l t lab ns typ -> re_match TRIPLE_SPEC_RE l = None.
Proof.
  intros [t0 a g lab0 cols ns0 g1 u g2 g3 g4 typ0 r Ht Ha Hg Hl Hc Hn Hf Hg1 Hu Hg2 Hg3 Hg4 Hty Hr]. destruct (re_match TRIPLE_SPEC_RE _) eqn:E0; [|reflexivity]. exfalso. apply triple_ends in E0 as (pre & e & X & He).
  clear -X He Hty Hr.
  apply word_iff in Hty as [H0 H1]. destruct typ0 as [|y w _] using rev_ind; [congruence|]. rewrite forallb_app in H1. apply andb_true_iff in H1 as [_ H1]. cbn in H1. rewrite andb_true_r in H1.
  assert (X2 : exists q, q ++ [y] ++ r = pre ++ "*"%char :: e).
  { exists (t0 ++ a ++ "*"%char :: g ++ lab0 ++ cols ++ g1 ++ u ++ g2 ++ "*"%char :: g3 ++ text_of "<--" ++ g4 ++ w). rewrite <- X. repeat (rewrite <- !app_assoc; cbn [app]). reflexivity. }
  clear X. destruct X2 as (q & X). apply (f_equal (@rev ascii)) in X. rewrite !rev_app_distr in X. cbn [rev app] in X. rewrite <- !app_assoc in X. cbn [app] in X.
  assert (R : forall v, blanks v -> forallb is_space (rev v) = true) by (intros v Hv; apply forallb_forall; intros z I; apply in_rev in I; apply blanks_iff in Hv; rewrite forallb_forall in Hv; auto).
  apply (run_unique is_space) in X as (_ & -> & _); [discriminate H1|now apply R|now apply R| |reflexivity].
  clear -H1. revert y H1. apply ascii_imp_not. vm_compute. reflexivity.
Qed.
(** ** The lines of the blocks *)
Lemma starred_iff l : starred l <-> re_test (RSeqs [RBol; RStar c_word; ws_star; stars; ws_star; REol]) l = true.
Proof.
  assert (A : re_test (RSeqs [RBol; RStar c_word; ws_star; stars; ws_star; REol]) l = re_test (RSeqs [RBol; RSeqs [RStar c_word; ws_star; stars; ws_star]; REol]) l).
  { apply eq_true_iff_eq. rewrite !search_test_iff by reflexivity. cbn [RSeqs]. split; intros (a & b & H & p & s & c & D); exists a, b; (split; [exact H|]); exists p, s, c.
    - destruct D as (? & ? & ? & D1 & ? & ? & ? & D2 & ? & ? & ? & D3 & ? & ? & ? & D4 & ? & ? & ? & D5 & D6).
      eexists _, _, _. split; [exact D1|]. eexists _, _, _. split; [|exact D6]. eexists _, _, _. split; [exact D2|]. eexists _, _, _. split; [exact D3|]. eexists _, _, _. split; [exact D4|exact D5].
    - destruct D as (? & ? & ? & D1 & ? & ? & ? & (? & ? & ? & D2 & ? & ? & ? & D3 & ? & ? & ? & D4 & D5) & D6).
      eexists _, _, _. split; [exact D1|]. eexists _, _, _. split; [exact D2|]. eexists _, _, _. split; [exact D3|]. eexists _, _, _. split; [exact D4|]. eexists _, _, _. split; [exact D5|exact D6]. }
  rewrite A, whole_iff by reflexivity. cbn [RSeqs]. unfold starred, ruled. split.
  - intros (t & g & -> & Ht & a & n & b & Ha & Hb & ->). exists (t ++ a ++ repeat "*"%char (S n) ++ b), []. split; [now rewrite app_nil_r|]. split; [|now left].
    apply lang_seq. exists t, (a ++ repeat "*"%char (S n) ++ b). split; [reflexivity|]. split; [apply lang_star; destruct Ht as [->|Ht]; [reflexivity|now apply word_iff]|].
    apply lang_seq. exists a, (repeat "*"%char (S n) ++ b). split; [reflexivity|]. split; [now apply lang_blanks|]. apply lang_seq. exists (repeat "*"%char (S n)), b. split; [reflexivity|]. split; [apply lang_row; now exists n|now apply lang_blanks].
  - intros (u & e & -> & L & He). apply lang_seq in L as (t & v & -> & Lt & L). apply lang_seq in L as (a & v' & -> & La & L). apply lang_seq in L as (m & b & -> & Lm & Lb).
    apply lang_star in Lt. apply lang_blanks in La, Lb. apply lang_row in Lm as (n & ->). exists t, (a ++ repeat "*"%char (S n) ++ b ++ e). split; [now rewrite <- !app_assoc|]. split.
    + destruct t as [|y t]; [now left|right]. apply word_iff. now split.
    + exists a, n, (b ++ e). split; [exact La|]. split; [apply blanks_app; split; [exact Lb|now apply newline_blanks]|reflexivity].
Qed.
Lemma stars_iff l : ruled "*" l <-> re_test (RSeqs [RBol; ws_star; stars; ws_star; REol]) l = true.
Proof.
  assert (A : re_test (RSeqs [RBol; ws_star; stars; ws_star; REol]) l = re_test (RSeqs [RBol; RSeqs [ws_star; stars; ws_star]; REol]) l).
  { apply eq_true_iff_eq. rewrite !search_test_iff by reflexivity. cbn [RSeqs]. split; intros (a & b & H & p & s & c & D); exists a, b; (split; [exact H|]); exists p, s, c.
    - destruct D as (? & ? & ? & D1 & ? & ? & ? & D3 & ? & ? & ? & D4 & ? & ? & ? & D5 & D6).
      eexists _, _, _. split; [exact D1|]. eexists _, _, _. split; [|exact D6]. eexists _, _, _. split; [exact D3|]. eexists _, _, _. split; [exact D4|exact D5].
    - destruct D as (? & ? & ? & D1 & ? & ? & ? & (? & ? & ? & D3 & ? & ? & ? & D4 & D5) & D6).
      eexists _, _, _. split; [exact D1|]. eexists _, _, _. split; [exact D3|]. eexists _, _, _. split; [exact D4|]. eexists _, _, _. split; [exact D5|exact D6]. }
  rewrite A, whole_iff by reflexivity. cbn [RSeqs]. unfold ruled. split.
  - intros (a & n & b & Ha & Hb & ->). exists (a ++ repeat "*"%char (S n) ++ b), []. split; [now rewrite app_nil_r|]. split; [|now left].
    apply lang_seq. exists a, (repeat "*"%char (S n) ++ b). split; [reflexivity|]. split; [now apply lang_blanks|]. apply lang_seq. exists (repeat "*"%char (S n)), b. split; [reflexivity|]. split; [apply lang_row; now exists n|now apply lang_blanks].
  - intros (u & e & -> & L & He). apply lang_seq in L as (a & v' & -> & La & L). apply lang_seq in L as (m & b & -> & Lm & Lb).
    apply lang_blanks in La, Lb. apply lang_row in Lm as (n & ->). exists a, n, (b ++ e). split; [exact La|]. split; [apply blanks_app; split; [exact Lb|now apply newline_blanks]|now rewrite <- !app_assoc].
Qed.
(** A block that is taken *)
Lemma block_taken {B} (startp e : str -> bool) (close : str -> Prop) n l b rest (yes : list str -> list str -> result B) no : startp l = true -> ~ blanks l ->
  (forall x, close x <-> e x = true) -> delimited close n b -> if_block l (b ++ rest) startp e n false yes no = yes (l :: b) rest.
Proof.
  intros Hs Hb He Hd. unfold if_block, l_from_re. rewrite Hs. cbn [negb]. pose proof (delimited_scan close e He n b rest 0 Hd) as S. rewrite Nat.add_0_r in S. rewrite S. cbn [orb].
  unfold l_bool. cbn [existsb]. destruct (isempty (strip l)) eqn:E; [apply strip_empty in E; contradiction|reflexivity].
Qed.
Lemma mention_not_blank w l : mentions w l -> strip (text_of w) <> [] -> ~ blanks l.
Proof.
  intros (a & b & ->) H Hb. apply Forall_app in Hb as [_ Hb]. apply Forall_app in Hb as [Hb _]. apply H. apply (proj2 (strip_empty _)) in Hb. change (list_ascii_of_string w) with (text_of w) in Hb.
  destruct (strip (text_of w)); [reflexivity|discriminate Hb].
Qed.
Lemma type_is x t typ rest : m_caps x = ("type"%string, typ) :: rest ++ tag_caps t -> ~ In "tag"%string (map fst rest) -> pair_type x = potential t typ.
Proof.
  intros E H. unfold pair_type, group_s. rewrite E. change (cap (("type"%string, typ) :: rest ++ tag_caps t) "type") with (Some typ). cbn [cap String.eqb Ascii.eqb Bool.eqb].
  assert (C : cap (rest ++ tag_caps t) "tag" = match t with [] => None | _ => Some t end).
  { clear E. induction rest as [|[k v] rest IH]; [destruct t; reflexivity|]. cbn [app cap]. destruct (String.eqb_spec k "tag") as [->|N]; [exfalso; apply H; now left|]. apply IH. intros I. apply H. now right. }
  rewrite C. unfold potential. destruct t as [|y t]; [reflexivity|]. change ($"_" ++ typ) with ("_"%char :: typ). reflexivity.
Qed.
Lemma zipped {A C} (ks : list A) (f : num -> C) : forall ns, length ks = length ns -> zip_strict ks (map f ns) = Ok (map (fun x => (fst x, f (snd x))) (combine ks ns)).
Proof. induction ks as [|k ks IH]; intros [|n ns] E; try discriminate E; [reflexivity|]. cbn [map zip_strict combine fst snd]. injection E as E. now rewrite (IH ns E). Qed.
Lemma add_tree es x pot lab items : pair_type x = pot -> group_s x "label" = lab -> items <> [] ->
  (forall v, ~ In ([pot], v) es) -> (forall v, ~ In ([pot; KStr lab], v) es) ->
  add_pair (tree 2 es) x items = Ok (tree 2 (es ++ map (fun kv => ([pot; KStr lab; fst kv], snd kv)) items)).
Proof.
  intros <- <- Hi H1 H2. unfold add_pair.
  erewrite (with_tree TypeError 1 es (pair_type x) _ (map (under (KStr (group_s x "label"))) (map (fun kv => ([fst kv], snd kv)) items))).
  - now rewrite !map_map.
  - now apply here_below.
  - now destruct items.
  - apply Forall_forall. intros e I. apply in_map_iff in I as (? & <- & _). discriminate.
  - apply with_tree; [apply here_below; intros v I; apply in_below in I; now apply H2 in I|now destruct items|apply Forall_forall; intros e I; apply in_map_iff in I as (? & <- & _); discriminate|].
    now rewrite update_tree.
Qed.
Lemma set_in_tree es k1 k2 v : (forall w, ~ In ([k1], w) es) -> set_in (tree 2 es) k1 k2 v = Ok (tree 2 (es ++ [([k1; k2], v)])).
Proof.
  intros H. pose proof (with_tree TypeError 1 es k1 (fun d => Ok (dset key_eqb d k2 v)) [([k2], v)] (here_below _ _ H) ltac:(discriminate) ltac:(repeat constructor; discriminate)) as W.
  cbn [map] in W. change (under k1 ([k2], v)) with ([k1; k2], v) in W. rewrite <- W; [|now rewrite set_tree]. unfold set_in, with_dict. destruct (dget key_eqb (tree 2 es) k1) as [[]|]; reflexivity.
Qed.
Lemma entry_free es p q v rest : q <> [] -> orderly (es ++ (p ++ q, v) :: rest) -> forall w, ~ In (p, w) es.
Proof.
  intros Hq O w I. apply in_split in I as (a & b & ->). apply Hq. apply (O a p w b q v rest). now rewrite <- app_assoc.
Qed.
Lemma two_loop ks ls es ks' : two_lines ks ls es ks' -> forall es0, orderly (es0 ++ es) -> foldM pair_line ls (tree 2 es0, ks) = Ok (tree 2 (es0 ++ es), ks').
Proof.
  induction 1 as [ks|ks l p ps ls es ks' H _ IH|ks l s ls es ks' H _ IH|ks l t lab ns typ ls es ks' Hu H H4 Hl _ IH|ks l ls es ks' H1 H2 H3 H4 _ IH]; intros es0 O; cbn [foldM].
  - now rewrite app_nil_r.
  - unfold pair_line at 1. rewrite (pairs_some _ _ _ H). unfold finditer. rewrite (pairs_found _ _ H _ None (Nat.lt_succ_diag_r _) (or_introl eq_refl)). cbn [bind]. now apply IH.
  - unfold pair_line at 1. rewrite (unpaired_none _ (one_unpaired _ _ H)). unfold PAIR_VAL_RE. rewrite (proj1 (no_arrow _ _ (one_unvalued _ _ H))). destruct (one_match _ _ H) as (x & -> & ->). cbn [bind]. now apply IH.
  - unfold pair_line at 1. rewrite (unpaired_none _ Hu). destruct (pair_val_match _ _ _ _ _ H H4) as (Hf & Hn & x & t' & -> & Ht & Ec). cbn [bound bind].
    assert (G1 : group_s x "params" = t') by (unfold group_s; now rewrite Ec). assert (G2 : group_s x "label" = lab) by (unfold group_s; now rewrite Ec).
    rewrite G1, (FileParts.columns_split _ _ Ht), (types_floats _ (Forall_wf _ Hn) Hf). cbn [bind]. rewrite (zipped _ float_of _ Hl). cbn [bind].
    assert (Hne : ns <> []) by (destruct H; assumption). destruct ks as [|k ks]; [destruct ns; [congruence|discriminate Hl]|]. destruct ns as [|n ns]; [congruence|].
    rewrite (add_tree es0 x (potential t typ) lab); [|apply (type_is x t typ [("params"%string, t'); ("label"%string, lab)]); [exact Ec|cbn; intuition discriminate]|exact G2|discriminate| |].
    + cbn [rmap bind]. rewrite map_map. change (map _ (combine (k :: ks) (n :: ns))) with (values (potential t typ) lab (k :: ks) (n :: ns)) at 1. rewrite app_assoc. apply IH. now rewrite <- app_assoc.
    + apply (entry_free es0 [potential t typ] [KStr lab; k] (float_of n) (values (potential t typ) lab ks ns ++ es)); [discriminate|exact O].
    + apply (entry_free es0 [potential t typ; KStr lab] [k] (float_of n) (values (potential t typ) lab ks ns ++ es)); [discriminate|exact O].
  - unfold pair_line at 1. rewrite (unpaired_none _ H1). unfold PAIR_VAL_RE. rewrite (proj1 (no_arrow _ _ H2)), (one_none _ H3 H4). cbn [bind]. now apply IH.
Qed.
Lemma three_loop ks ls es ks' : three_lines ks ls es ks' -> forall es0, orderly (es0 ++ es) -> foldM CastepRest.triple_line ls (tree 2 es0, ks) = Ok (tree 2 (es0 ++ es), ks').
Proof.
  induction 1 as [ks|ks l ss ls es ks' H _ IH|k ks l t lab n typ ls es ks' H _ IH|ks l ls es ks' H1 H2 _ IH]; intros es0 O; cbn [foldM].
  - now rewrite app_nil_r.
  - unfold CastepRest.triple_line at 1. destruct (triple_match _ _ H) as (x & -> & ->). cbn [bind]. now apply IH.
  - unfold CastepRest.triple_line at 1. rewrite (value_no_triple _ _ _ _ _ H). destruct (triple_val_match _ _ _ _ _ H) as (Hf & Hn & x & -> & Ec). cbn [bound bind].
    assert (G1 : group_s x "params" = write_num n) by (unfold group_s; now rewrite Ec). assert (G2 : group_s x "label" = lab) by (unfold group_s; now rewrite Ec).
    assert (Sp : split (write_num n) = map write_num [n]). { rewrite <- (app_nil_r (write_num n)) at 1. apply (CellBlockFacts.nonspace_split [] _ []); auto using CellBlockFacts.num_nonspace. now apply write_num_nonempty. }
    rewrite G1, Sp, (types_floats [n]); [|apply Forall_wf; now constructor|exact Hf]. cbn [bind map combine].
    replace (combine ks []) with (@nil (key * pyval)) by now destruct ks.
    rewrite (add_tree es0 x (potential t typ) lab); [|apply (type_is x t typ [("params"%string, write_num n); ("label"%string, lab)]); [exact Ec|cbn; intuition discriminate]|exact G2|discriminate| |].
    + cbn [rmap bind map fst snd]. replace (es0 ++ ([potential t typ; KStr lab; k], float_of n) :: es) with ((es0 ++ [([potential t typ; KStr lab; k], float_of n)]) ++ es) by now rewrite <- app_assoc. apply IH. now rewrite <- app_assoc.
    + apply (entry_free es0 [potential t typ] [KStr lab; k] (float_of n) es); [discriminate|exact O].
    + apply (entry_free es0 [potential t typ; KStr lab] [k] (float_of n) es); [discriminate|exact O].
  - unfold CastepRest.triple_line at 1. rewrite (few_none _ H2). unfold TRIPLE_VAL_RE. rewrite (proj2 (no_arrow _ _ H1)). cbn [bind]. now apply IH.
Qed.
Lemma report_loop ks ls es : pair_report ks ls es -> forall n es0, length ls <= n -> orderly (es0 ++ es) -> exists ks', file_loop pair_params_step n (tree 2 es0, ks) ls = Ok (tree 2 (es0 ++ es), ks').
Proof.
  induction 1 as [ks|ks ks' l b es r es' Hm Hd Ht _ IH|ks ks' l b es r es' Hm2 Hm Hd Ht _ IH|ks l t lab n typ r es H2 H3 H _ IH|ks l r es H2 H3 H _ IH]; intros m es0 Hlen O.
  - exists ks. rewrite app_nil_r. now destruct m.
  - destruct m as [|m]; [cbn in Hlen; lia|]. cbn [file_loop]. unfold pair_params_step at 1.
    rewrite (block_taken _ _ starred 1 l b r); [|now apply mentions_iff|now apply (mention_not_blank _ _ Hm)|apply starred_iff|exact Hd].
    rewrite app_assoc in O. rewrite (two_loop _ _ _ _ Ht _ (orderly_less _ _ O)). cbn [bind]. destruct (IH m (es0 ++ es)) as (k2 & E); [cbn in Hlen; rewrite app_length in Hlen; lia|exact O|]. exists k2. rewrite E. now rewrite <- app_assoc.
  - destruct m as [|m]; [cbn in Hlen; lia|]. cbn [file_loop]. unfold pair_params_step at 1. rewrite FileParts.if_block_no by exact Hm2.
    rewrite (block_taken _ _ (ruled "*") 1 l b r); [|now apply mentions_iff|now apply (mention_not_blank _ _ Hm)|apply stars_iff|exact Hd].
    rewrite app_assoc in O. rewrite (three_loop _ _ _ _ Ht _ (orderly_less _ _ O)). cbn [bind]. destruct (IH m (es0 ++ es)) as (k2 & E); [cbn in Hlen; rewrite app_length in Hlen; lia|exact O|]. exists k2. rewrite E. now rewrite <- app_assoc.
  - destruct m as [|m]; [cbn in Hlen; lia|]. cbn [file_loop]. unfold pair_params_step at 1. rewrite !FileParts.if_block_no by assumption.
    destruct (triple_val_match _ _ _ _ _ H) as (Hf & Hn & x & -> & Ec).
    assert (G1 : group x "params" = VStr (write_num n)) by (unfold group; now rewrite Ec). assert (G2 : group_s x "label" = lab) by (unfold group_s; now rewrite Ec).
    rewrite G1, G2, to_float; [|pose proof (Forall_wf [n] ltac:(now constructor)) as W; now inversion_clear W|unfold all_fit in Hf; now inversion_clear Hf]. cbn [bind fst snd].
    rewrite (type_is x t typ [("params"%string, write_num n); ("label"%string, lab)]); [|exact Ec|cbn; intuition discriminate].
    rewrite set_in_tree; [|apply (entry_free es0 [potential t typ] [KStr lab] (float_of n) es); [discriminate|exact O]]. cbn [bind].
    replace (es0 ++ ([potential t typ; KStr lab], float_of n) :: es) with ((es0 ++ [([potential t typ; KStr lab], float_of n)]) ++ es) in * by now rewrite <- app_assoc.
    apply IH; [cbn in Hlen; lia|exact O].
  - destruct m as [|m]; [cbn in Hlen; lia|]. cbn [file_loop]. unfold pair_params_step at 1. rewrite !FileParts.if_block_no by assumption. unfold TRIPLE_VAL_RE. rewrite (proj2 (no_arrow _ _ H)). cbn [bind]. apply IH; [cbn in Hlen; lia|exact O].
Qed.
Theorem pair_params_spec ls es : pair_report None ls es -> orderly es -> process_pair_params ls = Ok (tree 2 es).
Proof.
  intros H O. destruct (report_loop _ _ _ H (length ls) [] (Nat.le_refl _) O) as (ks & E). unfold process_pair_params, over_file. change (tree 2 []) with (@nil (key * pyval)) in E. rewrite E. reflexivity.
Qed.
