(** Proofs about the final configurations in .castep files. *)
From Coq Require Import QArith Qreduction.
From Verif Require Import PyBase PyFacts PyVal Regex RegexFacts RegexComplete CastepRes NumSpec NumFacts NumProps NumVal
  StrUtil SpecStr StrUtilFacts SpecLine SpecType TypeConv TypeConvFacts DictUtil SpecDict DictFacts Stream StreamFacts TextParsers TextFiles
  SpecTable ColumnFacts Header HeaderFacts SpecMd MdFacts SpecBands NeedFacts SpecCastep SpecCastep2 CastepBlocks CastepFacts PhononFacts
  CastepNum CastepRows TextParsersFacts Castep2Facts Castep3Facts Castep4Facts Castep5Facts Castep6Facts Castep7Facts CastepRest LangFacts CastepPieces SpecCastepRun SpecTree TreeFacts SpecPairs PairFacts SpecFinal.
From Verif Require Import IntStr CastepFile.
From Verif Require CellFacts CellPosFacts CellBlockFacts FileParts FileParts4.
Local Open Scope list_scope.
Local Open Scope nat_scope.

(** ** Numbers with a decimal point or an exponent *)
Lemma fp_EXPF n p s c : num_ok n -> pointed n -> follow_ok n s -> prev_ok p n -> fp EXPFNUMBER_RE p (write_num n) s c c.
Proof.
  intros Hn Hp Hs Hq. rewrite write_num_split. unfold EXPFNUMBER_RE. pose proof (num_ok_mant n Hn) as Hm. unfold follow_ok in Hs. unfold pointed in Hp.
  destruct Hn as (_ & _ & He). destruct (n_exp n) as [e|]; cbn [exp_txt].
  - apply fp_alt_l. apply fp_EXP; auto. destruct e as [[? ?] ?]; exact He.
  - rewrite app_nil_r. apply fp_alt_r.
    + rewrite <- app_assoc. now apply nomatch_EXP_plain.
    + destruct (n_frac n) as [f|]; [|destruct Hp; congruence]. destruct Hm as [H1 _]. apply fp_FNUMBER; [exact H1|]. now apply hd_not_or_l, hd_not_mant_digit in Hs.
Qed.
(** ** Minimisers *)
Lemma fp_minimiser t p s c : minimiser t -> fp MINIMISERS_I_RE p t s c c.
Proof.
  intros (m & Hm & E). unfold MINIMISERS_I_RE, MINIMISERS. cbn [map RAlts].
  assert (L : lower (t ++ s) = lower (text_of m) ++ lower s) by (unfold lower in *; now rewrite map_app, E).
  assert (N : forall w, startswith (lower w) (lower (text_of m) ++ lower s) = false -> nomatch (RLitI_l w) p (t ++ s) c) by (intros w Hw; apply CellPosFacts.litI_nomatch; now rewrite L).
  cbn in Hm. repeat (destruct Hm as [<-|Hm]; [repeat first [apply fp_alt_l; apply CellFacts.fp_litI; exact E|apply fp_alt_r; [apply N; reflexivity|]|apply CellFacts.fp_litI; exact E]|]).
  destruct Hm.
Qed.
Lemma den_minimiser p s c p' s' c' : den MINIMISERS_I_RE p s c p' s' c' -> exists t, s = t ++ s' /\ minimiser t.
Proof.
  unfold MINIMISERS_I_RE, MINIMISERS. cbn [map RAlts]. intros D.
  repeat (destruct D as [D|D]; [apply CellFacts.den_litI in D as (w & -> & E & _); exists w; split; [reflexivity|]; eexists; split; [|exact E]; cbn; tauto|]).
  apply CellFacts.den_litI in D as (w & -> & E & _). exists w. split; [reflexivity|]. exists "DI"%string. split; [cbn; tauto|exact E].
Qed.
Lemma not_eq_chars k : ~ In "="%char k -> forallb (fun c => negb (existsb (Ascii.eqb c) ($"="))) k = true.
Proof.
  intros H. apply forallb_forall. intros x Hx. cbn. destruct (Ascii.eqb_spec x "=") as [->|]; [contradiction|reflexivity].
Qed.
Lemma minimiser_hd t : minimiser t -> exists x r, t = x :: r /\ is_space x = false.
Proof.
  intros (m & Hm & E). destruct t as [|x r]; [cbn in Hm; repeat (destruct Hm as [<-|Hm]; [discriminate E|]); destruct Hm|].
  exists x, r. split; [reflexivity|]. destruct (is_space x) eqn:S; [|reflexivity]. exfalso.
  assert (L : lower_c x = x) by (clear -S; destruct x as [[] [] [] [] [] [] [] []]; first [reflexivity|discriminate S]).
  cbn in Hm. unfold lower in E. cbn [map] in E. rewrite L in E. repeat (destruct Hm as [<-|Hm]; [injection E as E _; subst x; discriminate S|]). destruct Hm.
Qed.
Lemma any_run r : exists u s, r = u ++ s /\ forallb (fun c => negb (Ascii.eqb c newline)) u = true /\ hd_not (fun c => negb (Ascii.eqb c newline)) s.
Proof.
  induction r as [|x r (u & s & -> & Hu & Hs)]; [now exists [], []|]. destruct (Ascii.eqb x newline) eqn:E.
  - exists [], (x :: u ++ s). repeat split. cbn. now rewrite E.
  - exists (x :: u), s. repeat split; [|exact Hs]. cbn. now rewrite E.
Qed.
Lemma minim_match l nm n : minim_value l nm n -> exists x, re_match FINAL_RE l = Some x /\ group x "value" = VStr (write_num n) /\ normalise_key (group_s x "key") = nm.
Proof.
  intros [a t k g n0 r nm0 Ha Ht Hk He Hnm Hg Hn Hp Hf Hr]. destruct (minimiser_hd _ Ht) as (x0 & t' & Et & Hx0).
  apply blanks_iff in Ha. apply blanks_iff in Hg. destruct (any_run r) as (u & s & -> & Hu & Hs).
  replace (a ++ t ++ ":"%char :: k ++ "="%char :: g ++ write_num n0 ++ u ++ s) with (concat [[]; a; t; [":"%char]; k; ["="%char]; g; write_num n0; u] ++ s)
    by (cbn [concat]; tidy; reflexivity).
  destruct (match_hit FINAL_RE (concat [[]; a; t; [":"%char]; k; ["="%char]; g; write_num n0; u]) s [("value"%string, write_num n0); ("key"%string, k)]) as (x & E & Ec).
  { unfold FINAL_RE. apply fp_seqs.
    eapply fpl_cons; [apply fp_bol|].
    eapply fpl_cons; [apply fp_star_chr; [exact Ha|tidy; rewrite Et; exact Hx0]|].
    eapply fpl_cons; [now apply fp_minimiser|].
    eapply fpl_cons; [now apply fp_chr|].
    eapply fpl_cons; [apply fp_grp, fp_plus_chr; [now apply not_eq_chars|exact Hk|reflexivity]|].
    eapply fpl_cons; [now apply fp_chr|].
    eapply fpl_cons; [apply fp_star_chr; [exact Hg|tidy; apply num_hd, Hn]|].
    eapply fpl_cons; [apply fp_grp, fp_EXPF; [exact Hn|exact Hp|tidy; now apply token_end_follow|]|].
    { apply CellPosFacts.prev_plain_ok. destruct g as [|y g]; [cbn; split; [reflexivity|discriminate]|]. now apply CellPosFacts.prev_plain_space. }
    eapply fpl_cons; [apply fp_star_chr; [exact Hu|exact Hs]|]. constructor. }
  exists x. split; [exact E|]. unfold group, group_s. rewrite Ec. split; [reflexivity|]. now apply named_key.
Qed.
Lemma minim_none l : no_value l -> re_match FINAL_RE l = None.
Proof.
  intros [H|H].
  - apply (needs_match (Ascii.eqb "=")); [reflexivity|]. apply forallb_forall. intros x Hx. destruct (Ascii.eqb_spec "=" x) as [<-|]; [contradiction|reflexivity].
  - apply no_match_of. intros p' s' c' D. unfold FINAL_RE in D. cbn [RSeqs] in D.
    destruct D as (? & ? & ? & (_ & <- & <- & <-) & ? & ? & ? & D1 & ? & ? & ? & D2 & ? & ? & ? & D3 & _).
    unfold ws_star, RStar in D1. apply den_rep_chr in D1 as (a & -> & _ & _ & Ha & _). apply den_minimiser in D2 as (t & -> & Ht). apply den_char in D3 as (-> & _).
    eapply (H a t); [now apply blanks_iff|exact Ht|reflexivity].
Qed.
Lemma cell_start l : re_test (RSeqs [ws_star; RLit "Unit Cell"; ws_star]) l = true <-> mentions "Unit Cell" l.
Proof.
  rewrite somewhere_iff by reflexivity. split.
  - intros (a & u & b & -> & v & w & -> & _ & x & y & -> & H & _). apply lang_lit in H. subst x. exists (a ++ v), (y ++ b). now rewrite <- !app_assoc.
  - intros (a & b & ->). exists a, (text_of "Unit Cell"), b. split; [reflexivity|]. exists [], (text_of "Unit Cell"). split; [reflexivity|]. split; [apply lang_blanks; constructor|].
    exists (text_of "Unit Cell"), []. split; [now rewrite app_nil_r|]. split; [apply lang_lit; reflexivity|apply lang_blanks; constructor].
Qed.
Lemma heading_mentions t l : heading t l -> mentions t l.
Proof. intros (a & b & _ & _ & ->). now exists a, b. Qed.
Lemma final_piece b fs : final_item b fs -> exists l r, b = l :: r /\ forall st more, final_step st l (r ++ more) = Ok (dupdate key_eqb st fs, more).
Proof.
  intros [l b0 rows Hm Hd Hl|l b0 rows d Hc Hh Hd Hl Hg|l nm n [Hc Hh] Hv|l [Hc Hh] Hv].
  - exists l, b0. split; [reflexivity|]. intros st more. unfold final_step.
    rewrite (block_taken _ _ blanks 3 l b0 more); [|now apply cell_start|now apply (mention_not_blank _ _ Hm)|apply FileParts4.empty_blanks|exact Hd].
    rewrite (unit_cell_spec _ _ Hl). reflexivity.
  - exists l, b0. split; [reflexivity|]. intros st more. unfold final_step. unfold if_block at 1, l_from_re. rewrite (not_true _ _ (iff_sym (cell_start l)) Hc). cbn [negb].
    rewrite (block_taken _ _ (ruled "x") 2 l b0 more); [|now apply heading_iff|now apply (mention_not_blank _ _ (heading_mentions _ _ Hh))|apply ruled_iff|exact Hd].
    destruct (atreg_block _ _ Hl) as (d' & -> & M). rewrite (merged_fun key_eqb key_eqb_spec _ _ Hg), (merged_fun key_eqb key_eqb_spec _ _ M). reflexivity.
  - exists l, []. split; [reflexivity|]. intros st more. unfold final_step. unfold if_block at 1, l_from_re. rewrite (not_true _ _ (iff_sym (cell_start l)) Hc). cbn [negb].
    unfold if_block, l_from_re. change (re_test (table_re (Some (RLit "Cell Contents")) ws_star) l) with (CastepFile.titled "Cell Contents" l). rewrite (not_true _ _ (heading_iff _ l) Hh). cbn [negb].
    destruct (minim_match _ _ _ Hv) as (x & -> & -> & ->). destruct Hv. rewrite type_float; [reflexivity|now apply num_ok_wf|assumption].
  - exists l, []. split; [reflexivity|]. intros st more. unfold final_step. unfold if_block at 1, l_from_re. rewrite (not_true _ _ (iff_sym (cell_start l)) Hc). cbn [negb].
    unfold if_block, l_from_re. change (re_test (table_re (Some (RLit "Cell Contents")) ws_star) l) with (CastepFile.titled "Cell Contents" l). rewrite (not_true _ _ (heading_iff _ l) Hh). cbn [negb].
    now rewrite (minim_none _ Hv).
Qed.
Theorem final_spec ls es : in_turn final_item ls es -> exists d, process_final_config ls = Ok d /\ merged es d.
Proof. apply turn_merged, final_piece. Qed.
(** ** Lines after the block *)
Lemma lower_space x : is_space (lower_c x) = is_space x.
Proof. destruct x as [[] [] [] [] [] [] [] []]; reflexivity. Qed.
Lemma lower_cut ws s : cut nonblank ws s -> cut nonblank (map lower ws) (lower s).
Proof.
  assert (B : forall c, ~ nonblank (lower_c c) <-> ~ nonblank c).
  { intros c. unfold nonblank. rewrite !blank_iff, lower_space. tauto. }
  assert (Q : forall c, nonblank c -> nonblank (lower_c c)).
  { intros c. unfold nonblank. rewrite !blank_iff, lower_space. tauto. }
  induction 1 as [g Hg|g w s ws Hg Hn Hw Hs _ IH].
  - constructor. intros c I. apply in_map_iff in I as (x & <- & I). apply B. auto.
  - unfold lower. rewrite !map_app. cbn [map]. apply cut_cons; [|now destruct w| | |exact IH].
    + intros c I. apply in_map_iff in I as (x & <- & I). apply B. auto.
    + intros c I. apply in_map_iff in I as (x & <- & I). apply Q. auto.
    + intros c t E. destruct s as [|x s]; [discriminate E|]. injection E as <- _. apply B. now apply (Hs x s).
Qed.
Lemma words_key k nm : words_name k nm -> join ($"_") (split (lower (normalise_string k))) = nm.
Proof.
  intros (ws & H & ->). rewrite (normalise_string_cut _ _ H). pose proof (normalise_string_cut _ _ (lower_cut _ _ H)) as E.
  assert (L : lower (joined ($" ") ws) = joined ($" ") (map lower ws)).
  { clear. induction ws as [|w [|w' ws] IH]; [reflexivity|reflexivity|]. change (joined ($" ") (w :: w' :: ws)) with (w ++ $" " ++ joined ($" ") (w' :: ws)).
    unfold lower in *. rewrite !map_app, IH. reflexivity. }
  rewrite L, (split_joined _ _ (lower_cut _ _ H)). apply join_joined.
Qed.
Lemma final_hd f : lower f = $"final " -> exists x r, f = x :: r /\ is_space x = false.
Proof.
  intros E. destruct f as [|x r]; [discriminate E|]. exists x, r. split; [reflexivity|]. injection E as E _. rewrite <- lower_space, E. reflexivity.
Qed.
Lemma final_match l nm n : final_value l nm n -> exists x, re_match FINAL_LINE_RE l = Some x /\ group x "value" = VStr (write_num n) /\
  join ($"_") (split (lower (normalise_string (group_s x "key")))) = nm.
Proof.
  intros [a t g0 f k g n0 r nm0 Ha Ht Hg0 Hfi Hk He Hnm Hg Hn Hp Hf Hr]. destruct (minimiser_hd _ Ht) as (x0 & t' & Et & Hx0). destruct (final_hd _ Hfi) as (y0 & f' & Ef & Hy0).
  apply blanks_iff in Ha. apply blanks_iff in Hg. apply blanks_iff in Hg0. destruct (any_run r) as (u & s & -> & Hu & Hs).
  replace (a ++ t ++ ":"%char :: g0 ++ f ++ k ++ "="%char :: g ++ write_num n0 ++ u ++ s) with (concat [[]; a; t; [":"%char]; g0; f ++ k; ["="%char]; g; write_num n0; u] ++ s)
    by (cbn [concat]; tidy; reflexivity).
  destruct (match_hit FINAL_LINE_RE (concat [[]; a; t; [":"%char]; g0; f ++ k; ["="%char]; g; write_num n0; u]) s [("value"%string, write_num n0); ("key"%string, f ++ k)]) as (x & E & Ec).
  { unfold FINAL_LINE_RE. apply fp_seqs.
    eapply fpl_cons; [apply fp_bol|].
    eapply fpl_cons; [apply fp_star_chr; [exact Ha|tidy; rewrite Et; exact Hx0]|].
    eapply fpl_cons; [now apply fp_minimiser|].
    eapply fpl_cons; [now apply fp_chr|].
    eapply fpl_cons; [apply fp_star_chr; [exact Hg0|tidy; rewrite Ef; exact Hy0]|].
    eapply fpl_cons; [apply fp_grp; eapply fp_seq; [now apply CellFacts.fp_litI|apply fp_plus_chr; [now apply not_eq_chars|exact Hk|reflexivity]]|].
    eapply fpl_cons; [now apply fp_chr|].
    eapply fpl_cons; [apply fp_star_chr; [exact Hg|tidy; apply num_hd, Hn]|].
    eapply fpl_cons; [apply fp_grp, fp_EXPF; [exact Hn|exact Hp|tidy; now apply token_end_follow|]|].
    { apply CellPosFacts.prev_plain_ok. destruct g as [|y g]; [cbn; split; [reflexivity|discriminate]|]. now apply CellPosFacts.prev_plain_space. }
    eapply fpl_cons; [apply fp_star_chr; [exact Hu|exact Hs]|]. constructor. }
  exists x. split; [exact E|]. unfold group, group_s. rewrite Ec. split; [reflexivity|]. now apply words_key.
Qed.
Lemma final_none l : no_final l -> re_match FINAL_LINE_RE l = None.
Proof.
  intros [H|H].
  - apply (needs_match (Ascii.eqb "=")); [reflexivity|]. apply forallb_forall. intros x Hx. destruct (Ascii.eqb_spec "=" x) as [<-|]; [contradiction|reflexivity].
  - apply no_match_of. intros p' s' c' D. unfold FINAL_LINE_RE in D. cbn [RSeqs] in D.
    destruct D as (? & ? & ? & (_ & <- & <- & <-) & ? & ? & ? & D1 & ? & ? & ? & D2 & ? & ? & ? & D3 & ? & ? & ? & D4 & ? & ? & ? & (? & (? & ? & ? & D5 & _) & _) & _).
    unfold ws_star, RStar in D1, D4. apply den_rep_chr in D1 as (a & -> & _ & _ & Ha & _). apply den_minimiser in D2 as (t & -> & Ht). apply den_char in D3 as (-> & _).
    apply den_rep_chr in D4 as (g & -> & _ & _ & Hg & _). apply CellFacts.den_litI in D5 as (w & -> & E & _).
    eapply (H a t g w); [now apply blanks_iff|exact Ht|now apply blanks_iff|exact E|reflexivity].
Qed.
Theorem final_line_spec l nm n rest r f g f' c : final_value l nm n -> dget key_eqb r (kstr "geom_opt") = Some (VDict f g) -> dget key_eqb g (kstr "final_configuration") = Some (VDict f' c) ->
  final_line l rest r = Ok (dset key_eqb r (kstr "geom_opt") (VDict f (dset key_eqb g (kstr "final_configuration") (VDict f' (dset key_eqb c (KStr nm) (float_of n)))))).
Proof.
  intros H E1 E2. unfold final_line. destruct (final_match _ _ _ H) as (x & -> & -> & ->). destruct H. rewrite type_float; [|now apply num_ok_wf|assumption]. cbn [bind]. now rewrite E1, E2.
Qed.
Theorem final_line_other l rest r : no_final l -> final_line l rest r = Ok r.
Proof. intros H. unfold final_line. now rewrite (final_none _ H). Qed.
Theorem final_in_run l b r es : in_turn final_item b es ->
  match dget key_eqb r (kstr "geom_opt") with
  | Some (VDict f g) => exists d, merged es d /\ final_config l b r = Ok (dset key_eqb r (kstr "geom_opt") (VDict f (dset key_eqb g (kstr "final_configuration") (VDict false d))))
  | _ => final_config l b r = Err TypeError
  end.
Proof.
  intros H. destruct (final_spec _ _ H) as (d & E & M). unfold final_config. destruct (dget key_eqb r (kstr "geom_opt")) as [[]|]; rewrite ?E; try reflexivity. exists d. split; [exact M|reflexivity].
Qed.
