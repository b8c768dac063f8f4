(** Proofs about blocks of .castep files of mixed lines. *)
From Coq Require Import QArith Qreduction.
From Verif Require Import PyBase PyFacts PyVal Regex RegexFacts RegexComplete CastepRes NumSpec NumFacts NumProps NumVal
  StrUtil SpecStr StrUtilFacts SpecLine SpecType TypeConv TypeConvFacts IntStr DictUtil SpecDict DictFacts Stream StreamFacts TextParsers TextFiles
  SpecTable ColumnFacts Header HeaderFacts SpecMd MdFacts SpecBands NeedFacts SpecCastep CastepBlocks CastepFacts PhononFacts
  SpecCastep2 CastepNum Castep2Facts SpecCastep3 CastepRows Castep3Facts SpecCastep4 BandsFacts TextParsersFacts Castep4Facts Castep5Facts CastepRest Pspot CellParam SpecCastep5.
From Verif Require Import PhraseFacts.
From Verif Require CellFacts CellPosFacts CellBlockFacts FileParts FileParts3.
Local Open Scope list_scope.
Local Open Scope nat_scope.

(** ** Properties of species *)
Lemma species_word_iff w : re_match_test SPEC_WORD_RE w = true <-> species_word w.
Proof.
  rewrite match_test_iff by reflexivity. split.
  - intros (p' & s' & c' & p1 & s1 & c1 & D & (B & _)).
    destruct D as (p4 & s4 & c5 & (x & -> & Hx & E1 & E2) & D5). subst p4 c5. apply den_rep_chr in D5 as (t & -> & _ & Hl & Hw & -> & E3). subst c1.
    exists (x :: t), s1. split; [reflexivity|]. split.
    + exists x, t. apply capital_iff in Hx. repeat split; [apply Hx|apply Hx|cbn in Hl; lia| |]; intros; rewrite forallb_forall in Hw; apply Hw, small_iff in H; apply H.
    + intros c r -> C. apply word_char_iff in C.
      assert (F : forallb is_word (x :: t) = true).
      { cbn. rewrite (upper_word _ Hx). apply forallb_forall. intros y Hy. apply lower_word. rewrite forallb_forall in Hw. auto. }
      revert B. change (pa (Some x) t) with (pa None (x :: t)). rewrite pa_rev. destruct (rev (x :: t)) as [|y u] eqn:E; [now apply (f_equal (@rev ascii)) in E; rewrite rev_involutive in E|].
      assert (Hy : is_word y = true) by (rewrite forallb_forall in F; apply F, in_rev; rewrite E; now left).
      unfold word_boundary. cbn [hd_error]. rewrite Hy, C. discriminate.
  - intros (sp & r & -> & Hs & Hr). exists (pa None sp), r, []. exists (pa None sp), r, []. split; [now apply CellBlockFacts.den_species|].
    split; [|auto]. destruct Hs as (x & t & -> & Hx & _ & Ht).
    assert (F : forallb is_word (x :: t) = true).
    { cbn. rewrite upper_word by now apply capital_iff. apply forallb_forall. intros y Hy. apply lower_word, small_iff, Ht, Hy. }
    rewrite pa_rev. destruct (rev (x :: t)) as [|y u] eqn:E; [now apply (f_equal (@rev ascii)) in E; rewrite rev_involutive in E|].
    assert (Hy : is_word y = true) by (rewrite forallb_forall in F; apply F, in_rev; rewrite E; now left).
    unfold word_boundary. cbn [hd_error]. rewrite Hy. destruct r as [|c r]; [reflexivity|]. cbn [hd_error].
    destruct (is_word c) eqn:W; [|reflexivity]. exfalso. now apply (Hr c r eq_refl), word_char_iff.
Qed.
Lemma spec_prop_spec ls rows : laid species_row not_species ls rows -> process_spec_prop ls = rows.
Proof.
  unfold process_spec_prop. intros H. induction H as [|l r ls rs H _ IH|l ls rs H _ IH]; [reflexivity| |]; cbn [map concat]; rewrite IH; unfold spec_prop_line.
  - destruct H as [l ws w Hc Hl|l ws w Hc Hl Hw]; rewrite (split_cut _ _ Hc).
    + rewrite Hl. change (str_eqb on_the_fly ($"on-the-fly")) with true. reflexivity.
    + destruct (str_eqb _ _) eqn:E; [apply str_eqb_eq in E; now elim Hl|]. apply species_word_iff in Hw. now rewrite Hw.
  - destruct H as [l Hb|l ws w Hc Hl Hw].
    + assert (C : cut nonblank [] l) by (constructor; intros c Hc N; apply N; unfold blanks in Hb; rewrite Forall_forall in Hb; auto). now rewrite (split_cut _ _ C).
    + rewrite (split_cut _ _ Hc). destruct (str_eqb _ _) eqn:E; [apply str_eqb_eq in E; now elim Hl|].
      destruct (re_match_test SPEC_WORD_RE w) eqn:E2; [apply species_word_iff in E2; contradiction|reflexivity].
Qed.
(** Every block is of this form. *)
Lemma spec_prop_all ls : laid species_row not_species ls (process_spec_prop ls).
Proof.
  induction ls as [|l ls IH]; [constructor|]. unfold process_spec_prop in *. cbn [map concat]. unfold spec_prop_line at 1.
  destruct (normalise_string_words l) as (ws & H & _). rewrite (split_cut _ _ H). destruct ws as [|w ws].
  - apply laid_other; [|exact IH]. apply ns_blank. inversion H as [g Hg|]; subst. apply Forall_forall. intros c Hc. destruct (is_space c) eqn:E; [now apply blank_iff|].
    exfalso. apply (Hg c Hc). intros B. apply blank_iff in B. congruence.
  - destruct (str_eqb _ _) eqn:E.
    + apply str_eqb_eq in E. rewrite E. apply laid_row; [|exact IH]. now apply (sw_fly l ws).
    + assert (N : last (w :: ws) [] <> on_the_fly) by (intros C; rewrite C in E; discriminate).
      destruct (re_match_test SPEC_WORD_RE w) eqn:E2.
      * apply laid_row; [|exact IH]. apply sw_words; [exact H|exact N|now apply species_word_iff].
      * apply laid_other; [|exact IH]. apply (ns_words _ ws w H N). intros C. apply species_word_iff in C. congruence.
Qed.

(** ** Dispersion *)
Lemma one_colon_split l : ~ one_colon l -> forall a b, split_chr ":" l <> [a; b].
Proof. intros H a b E. apply H. unfold one_colon. pose proof (split_chr_len ":" l) as L. rewrite E in L. cbn in L. lia. Qed.
Lemma not_two {A} (ps : list str) (f : str -> str -> A) (g : A) : (forall a b, ps <> [a; b]) -> match ps with [a; b] => f a b | _ => g end = g.
Proof. intros H. destruct ps as [|a [|b [|c ps]]]; try reflexivity. now elim (H a b). Qed.
Lemma num_unlabelled n u : num_ok n -> unlabelled_start (write_num n ++ u).
Proof.
  intros H. pose proof (num_hd n u H) as S. pose proof (CellFacts.write_num_numchars n) as W. pose proof (write_num_nonempty n H) as N. destruct (write_num n) as [|c t]; [congruence|].
  exists c, (t ++ u). split; [reflexivity|]. split; [exact S|]. intros ->. discriminate W.
Qed.
Lemma dftd_match a g sp t s c6 r0 : blanks a -> gap g -> species sp -> columns [c6; r0] t -> token_end s ->
  exists x, re_match DFTD_RE (a ++ "x"%char :: g ++ sp ++ t ++ s) = Some x /\ m_caps x = row_caps ["C6"; "R0"]%string [c6; r0] [("spec"%string, sp)].
Proof.
  intros Ha Hg Hsp Ht Hs. apply blanks_iff in Ha. apply gap_iff in Hg as [Hg Hg0].
  assert (Hsp0 : hd_not is_space (sp ++ t ++ s)).
  { destruct Hsp as (s1 & s2 & s3 & -> & (x & r & -> & Hx & _) & _). cbn. apply capital_iff in Hx. revert Hx. clear. revert x. apply ascii_imp_not. vm_compute. reflexivity. }
  destruct (match_hit DFTD_RE (a ++ ["x"%char] ++ g ++ sp ++ t) s (row_caps ["C6"; "R0"]%string [c6; r0] [("spec"%string, sp)])) as (x & M & C).
  - unfold DFTD_RE. cbn [RSeqs]. eapply fp_seq; [apply fp_star_chr; [exact Ha|reflexivity]|]. eapply fp_seq; [apply fp_char|].
    eapply fp_seq; [apply fp_star_chr; [exact Hg|rewrite <- ?app_assoc; exact Hsp0]|].
    eapply fp_seq; [|now apply fp_ws_labelled].
    apply fp_grp. inversion Ht as [|g1 n ns u G1 G2 Hn Hu]; subst. rewrite <- !app_assoc. apply fp_atom_name_to; [now apply edge_gap|exact Hsp|now apply blanks_iff|exact G2|].
    now apply num_unlabelled.
  - exists x. split; [|exact C]. rewrite <- M. f_equal. rewrite <- ?app_assoc. cbn [app]. now rewrite <- ?app_assoc.
Qed.
Lemma dftd_none l : ~ has_columns 2 l -> re_match DFTD_RE l = None.
Proof. apply (no_columns_match [ws_star; RChar "x"; ws_star; RGrp "spec" ATOM_NAME_RE; ws_star] ["C6"; "R0"]%string []). Qed.
Definition dftd_state (sp ks : dict) : dict := (kstr "species", VDict false sp) :: ks.
Lemma other_key k nm : nm <> text_of k -> key_eqb (kstr k) (KStr nm) = false.
Proof. intros H. destruct (key_eqb_spec (kstr k) (KStr nm)) as [E|]; [elim H; unfold kstr in E; now injection E|reflexivity]. Qed.
Lemma dftd_row l r sp ks : dispersion_row l r ->
  dftd_line (dftd_state sp ks) l = Ok (dftd_state (dupdate key_eqb sp (dispersion_species [r])) (dupdate key_eqb ks (dispersion_keys [r]))).
Proof.
  intros [k v nm t Hk Hv Hn Hs Hw Hp|k v nm t n ns Hk Hv Hn Hs Hw Hp Hl Hf|a g s t z c6 r0 Ha Hg Hsp Ht Hf Hz H1]; unfold dftd_line.
  - rewrite (split_chr_cut _ _ _ Hk), (split_chr_free _ _ Hv), (words_string _ _ Hw), (named_key _ _ Hn), (not_mentions_b _ _ Hp). cbn [bind].
    unfold dftd_state. cbn [dset]. rewrite other_key by exact Hs. reflexivity.
  - rewrite (split_chr_cut _ _ _ Hk), (split_chr_free _ _ Hv), (words_string _ _ Hw), (named_key _ _ Hn). apply mentions_iff in Hp. rewrite Hp, (at_float _ _ 0 n Hl eq_refl Hf). cbn [bind].
    unfold dftd_state. cbn [dset]. rewrite other_key by exact Hs. reflexivity.
  - rewrite not_two by now apply one_colon_split. destruct (dftd_match a g s t z c6 r0 Ha Hg Hsp Ht Hz) as (x & M & C). rewrite M.
    pose proof (Forall_wf _ (columns_ok _ _ Ht)) as W. inversion W as [|? ? W1 W2]; inversion W2 as [|? ? W3 _]; inversion Hf as [|? ? F1 F2]; inversion F2 as [|? ? F3 _]; subst.
    rewrite (group_float x c6 "C6"), (group_float x r0 "R0"); [|rewrite C; reflexivity|assumption|assumption|rewrite C; reflexivity|assumption|assumption].
    cbn [bind]. unfold set_in, dftd_state. cbn [dget dset]. replace (key_eqb (kstr "species") (kstr "species")) with true by reflexivity. unfold group_s. rewrite C. reflexivity.
Qed.
Lemma dftd_other l d : not_dispersion l -> dftd_line d l = Ok d.
Proof. intros [H1 H2]. unfold dftd_line. rewrite not_two by now apply one_colon_split. now rewrite dftd_none. Qed.
Lemma dftd_rows ls rows : laid dispersion_row not_dispersion ls rows -> forall sp ks,
  foldM dftd_line ls (dftd_state sp ks) = Ok (dftd_state (dupdate key_eqb sp (dispersion_species rows)) (dupdate key_eqb ks (dispersion_keys rows))).
Proof.
  induction 1 as [|l r ls rs H _ IH|l ls rs H _ IH]; intros sp ks; [reflexivity| |]; cbn [foldM].
  - rewrite (dftd_row _ _ _ _ H). cbn [bind]. rewrite IH. unfold dispersion_species, dispersion_keys. cbn [flat_map]. rewrite !app_nil_r. now rewrite !upd_app.
  - rewrite (dftd_other _ _ H). cbn [bind]. apply IH.
Qed.
Lemma dftd_spec ls rows : laid dispersion_row not_dispersion ls rows -> exists d, process_dftd ls = Ok d /\ dispersion_read rows d.
Proof.
  intros H. unfold process_dftd. change [(kstr "species", VDict false [])] with (dftd_state [] []). rewrite (dftd_rows _ _ H). eexists. split; [reflexivity|].
  eexists _, _. split; [|split; [|reflexivity]]; apply (merged_dict_of key_eqb key_eqb_spec).
Qed.

(** ** Internal constraints *)
Lemma no_numbers t : no_digits t -> get_numbers t = [].
Proof. intros H. apply (get_numbers_line [] t). now constructor. Qed.
Lemma constraint_parts t es : defined t es -> forall d, foldM constraint_part (split_chr ")" t) d = Ok (dupdate key_eqb d es).
Proof.
  induction 1 as [t H H0|p t es Hp H0 _ IH|p n ns t es Hp Hn Hi His _ IH]; intros d.
  - rewrite (split_chr_free _ _ H). cbn [foldM]. unfold constraint_part. rewrite (no_numbers _ H0). reflexivity.
  - rewrite (split_chr_cut _ _ _ Hp). cbn [foldM]. unfold constraint_part at 1. rewrite (no_numbers _ H0). cbn [to_types mapM bind]. apply IH.
  - rewrite (split_chr_cut _ _ _ Hp). cbn [foldM]. unfold constraint_part at 1. rewrite (get_numbers_line _ _ Hn).
    rewrite types_ints; [|exact (Forall_wf _ (number_line_ok _ _ Hn))|now constructor]. cbn [bind map]. rewrite IH. reflexivity.
Qed.
Lemma as_float_num n : num_ok n -> fits (num_value n) -> as_float (write_num n) = Ok (SpecCastep.float_of n).
Proof. intros H Hf. unfold as_float. rewrite builtin_num; [reflexivity|now apply num_ok_wf|exact Hf]. Qed.
Lemma constraint_kind k : In k constraint_kinds -> existsb (str_eqb ($k)) [$"Bond"; $"Angle"; $"Torsion"] = true.
Proof. intros [<-|[<-|[<-|[]]]]; reflexivity. Qed.
Lemma not_satisfied n : str_eqb (write_num n) ($"Satisfied") = false.
Proof.
  destruct (str_eqb _ _) eqn:E; [|reflexivity]. apply str_eqb_eq in E. pose proof (CellFacts.write_num_numchars n) as W. rewrite E in W. discriminate W.
Qed.
Lemma constraint_row_read l v : SpecCastep5.constraint_row l v -> CastepNum.constraint_row l = Ok v.
Proof.
  intros [l' i k n defs es d Hc Hk Hn Hf Hd Hm|l' i k t n defs es d Hc Hk Ht Hn Hft Hf Hd Hm]; unfold CastepNum.constraint_row; rewrite (split_cut _ _ Hc).
  - change (text_of k) with ($k). rewrite (constraint_kind _ Hk). cbn [negb]. change (str_eqb (text_of "Satisfied") ($"Satisfied")) with true. cbn [negb].
    rewrite (as_float_num _ Hn Hf). cbn [bind]. change (join ($" ") defs) with (join (text_of " ") defs). rewrite join_joined, (constraint_parts _ _ Hd). cbn [bind].
    unfold constraint_value. rewrite (merged_fun key_eqb key_eqb_spec _ _ Hm). reflexivity.
  - change (text_of k) with ($k). rewrite (constraint_kind _ Hk). cbn [negb]. rewrite not_satisfied.
    rewrite (as_float_num _ Hn Hf), (as_float_num _ Ht Hft). cbn [bind]. change (join ($" ") defs) with (join (text_of " ") defs). rewrite join_joined, (constraint_parts _ _ Hd). cbn [bind].
    unfold constraint_value. rewrite (merged_fun key_eqb key_eqb_spec _ _ Hm). reflexivity.
Qed.
Lemma constraint_not_blank l v : SpecCastep5.constraint_row l v -> isempty (strip l) = false.
Proof.
  intros H. destruct (isempty (strip l)) eqn:E; [|reflexivity]. apply strip_empty in E.
  assert (C : cut nonblank [] l) by (constructor; intros c Hc N; apply N; unfold blanks in E; rewrite Forall_forall in E; auto).
  apply split_cut in C. destruct H as [l' i k n defs es d Hc|l' i k t n defs es d Hc]; apply split_cut in Hc; congruence.
Qed.
Lemma constraint_rows ls vs : laid SpecCastep5.constraint_row blanks ls vs -> mapM CastepNum.constraint_row (filter (fun l => negb (isempty (strip l))) ls) = Ok vs.
Proof.
  induction 1 as [|l r ls rs H _ IH|l ls rs H _ IH]; [reflexivity| |]; cbn [filter].
  - rewrite (constraint_not_blank _ _ H). cbn [negb mapM]. rewrite (constraint_row_read _ _ H). cbn [bind]. now rewrite IH.
  - apply strip_empty in H. rewrite H. cbn [negb]. exact IH.
Qed.
Lemma internal_spec h1 h2 h3 ls vs : laid SpecCastep5.constraint_row blanks ls vs -> process_internal_constraints (h1 :: h2 :: h3 :: ls) = Ok vs.
Proof. apply constraint_rows. Qed.
Lemma internal_bad h1 h2 h3 ls vs l more : laid SpecCastep5.constraint_row blanks ls vs -> bad_constraint l ->
  process_internal_constraints (h1 :: h2 :: h3 :: ls ++ l :: more) = Err AssertionError.
Proof.
  intros H (i & k & t & n & defs & Hc & Hk). unfold process_internal_constraints. cbn [skipn]. rewrite filter_app, mapM_app, (constraint_rows _ _ H). cbn [bind filter].
  destruct (isempty (strip l)) eqn:E.
  { apply strip_empty in E. assert (C : cut nonblank [] l) by (constructor; intros c Hc' N; apply N; unfold blanks in E; rewrite Forall_forall in E; auto).
    apply split_cut in C, Hc. congruence. }
  cbn [negb mapM]. unfold CastepNum.constraint_row at 1. rewrite (split_cut _ _ Hc).
  destruct (existsb (str_eqb k) _) eqn:X; [|reflexivity]. exfalso. apply existsb_exists in X as (w & Hw & X). apply str_eqb_eq in X. subst w.
  cbn in Hw. destruct Hw as [<-|[<-|[<-|[]]]]; [apply (Hk "Bond"%string)|apply (Hk "Angle"%string)|apply (Hk "Torsion"%string)]; cbn; auto.
Qed.

(** ** Excited states *)
Lemma kind_test i l : delta_kind i l -> startswith ($"Taking band from") l = false /\
  forall j w, nth_error delta_words j = Some w -> j < i -> contains ($w) l = false.
Proof.
  intros (H & _ & H2). split; [now apply not_begins_b|]. intros j w E L. apply not_mentions_b. eauto.
Qed.
Lemma kind_hit i l w : delta_kind i l -> nth_error delta_words i = Some w -> contains ($w) l = true.
Proof. intros (_ & H & _) E. now apply mentions_iff, H. Qed.
Ltac kinds H := let B := fresh in let K := fresh in destruct (kind_test _ _ H) as [B K]; unfold delta_line; rewrite B;
  rewrite ?(K 0 _ eq_refl), ?(K 1 _ eq_refl), ?(K 2 _ eq_refl), ?(K 3 _ eq_refl), ?(K 4 _ eq_refl) by lia; try rewrite (kind_hit _ _ _ H eq_refl).
Lemma delta_silent l st : silent_delta l -> delta_line st l = Ok st.
Proof. intros H. destruct st as [f ss]. kinds H. reflexivity. Qed.
Lemma delta_silents ls st : Forall silent_delta ls -> foldM delta_line ls st = Ok st.
Proof. induction 1 as [|l ls H _ IH]; [reflexivity|]. cbn [foldM]. rewrite (delta_silent _ _ H). cbn [bind]. exact IH. Qed.
Lemma py_int_num n : num_wf n -> is_int n -> py_int (write_num n) = Ok (int_value n).
Proof. apply py_int_num. Qed.
Lemma first_int l n ns : number_line (n :: ns) l -> is_int n -> (s <- nthE (get_numbers l) 0 ;; py_int s) = Ok (int_value n).
Proof.
  intros H Hi. rewrite (get_numbers_line _ _ H). cbn [map nthE nth_error bind]. apply py_int_num; [|exact Hi]. pose proof (Forall_wf _ (number_line_ok _ _ H)) as W. now inversion W.
Qed.
Lemma set_last_snoc k l n ns ss s : number_line (n :: ns) l -> is_int n -> set_last k l (ss ++ [s]) = Ok (ss ++ [dset key_eqb s k (VInt (int_value n))]).
Proof.
  intros H Hi. unfold set_last. pose proof (first_int _ _ _ H Hi) as F. destruct (nthE (get_numbers l) 0) as [w|e]; [|discriminate F]. cbn [bind] in *. rewrite F. cbn [bind].
  rewrite rev_app_distr. cbn [rev app]. now rewrite rev_involutive.
Qed.
Definition new_state (bs : Z * Z) : dict := [(kstr "band", VInt (fst bs)); (kstr "spin", VInt (snd bs))].
Lemma delta_state ls bs f ss : state_lines ls bs -> foldM delta_line ls (f, ss) = Ok (f, ss ++ [new_state bs]).
Proof.
  intros [l1 l2 l3 o1 o2 o3 b s bs' ss' H1 Ho1 H2 Hb Hbi Ho2 H3 Hs Hsi Ho3]. cbn [foldM].
  replace (delta_line (f, ss) l1) with (Ok (f, ss ++ [[]]) : result (option pyval * list dict)) by (kinds H1; reflexivity). cbn [bind].
  rewrite foldM_app, (delta_silents _ _ Ho1). cbn [bind foldM].
  replace (delta_line (f, ss ++ [[]]) l2) with (Ok (f, ss ++ [dset key_eqb [] (kstr "band") (VInt (int_value b))]) : result (option pyval * list dict)).
  2:{ kinds H2. now rewrite (set_last_snoc _ _ _ _ _ _ Hb Hbi). } cbn [bind].
  rewrite foldM_app, (delta_silents _ _ Ho2). cbn [bind foldM].
  replace (delta_line (f, ss ++ [dset key_eqb [] (kstr "band") (VInt (int_value b))]) l3) with (Ok (f, ss ++ [new_state (int_value b, int_value s)]) : result (option pyval * list dict)).
  2:{ kinds H3. rewrite (set_last_snoc _ _ _ _ _ _ Hs Hsi). reflexivity. } cbn [bind].
  apply (delta_silents _ _ Ho3).
Qed.
Lemma delta_states ls bs : all_states ls bs -> forall f ss, foldM delta_line ls (f, ss) = Ok (f, ss ++ map new_state bs).
Proof.
  induction 1 as [|ls more s ss' H _ IH]; intros f ss; [now rewrite app_nil_r|]. rewrite foldM_app, (delta_state _ _ _ _ H). cbn [bind]. rewrite IH, <- app_assoc. reflexivity.
Qed.
Definition state_dict (rows : list ((Z * Z) * (key * pyval))) (bs : Z * Z) : dict := dupdate key_eqb (new_state bs) (said_of bs rows).
Definition late (r : (Z * Z) * (key * pyval)) : Prop := fst (snd r) = kstr "pop" \/ fst (snd r) = kstr "file".
Lemma late_said l r : said_row l r -> late r.
Proof. intros [|]; [left|right]; reflexivity. Qed.
Lemma late_get rows bs k : Forall late rows -> (k = kstr "band" \/ k = kstr "spin") -> dget key_eqb (state_dict rows bs) k = dget key_eqb (new_state bs) k.
Proof.
  intros H Hk. unfold state_dict. induction rows as [|r rows IH] using rev_ind; [reflexivity|]. apply Forall_app in H as [H H2]. inversion H2 as [|? ? L _]; subst.
  unfold said_of. rewrite flat_map_app, upd_app. cbn [flat_map]. rewrite app_nil_r. fold (said_of bs rows).
  destruct (_ && _)%bool; [|now apply IH]. destruct r as [b [k' v]]. cbn [snd fst] in *. change (dupdate key_eqb ?d [(k', v)]) with (dset key_eqb d k' v).
  rewrite set_get. destruct (key_eqb_spec k' k) as [E|]; [|now apply IH]. exfalso. unfold late in L. cbn in L. subst. destruct Hk as [->| ->], L as [L|L]; discriminate L.
Qed.
Lemma states_set rows b s k v ss : Forall late rows -> set_states b s k v (map (state_dict rows) ss) = Ok (map (state_dict (rows ++ [((b, s), (k, v))])) ss).
Proof.
  intros H. unfold set_states. induction ss as [|x ss IH]; [reflexivity|]. cbn [map mapM]. unfold same_state at 1, dgetE.
  rewrite !late_get by auto. unfold new_state at 1 2. cbn [dget].
  replace (key_eqb (kstr "band") (kstr "band")) with true by reflexivity. replace (key_eqb (kstr "band") (kstr "spin")) with false by reflexivity.
  replace (key_eqb (kstr "spin") (kstr "spin")) with true by reflexivity. cbn [bind is_int_val].
  assert (E : state_dict (rows ++ [(b, s, (k, v))]) x = if ((fst x =? b) && (snd x =? s))%Z%bool then dset key_eqb (state_dict rows x) k v else state_dict rows x).
  { unfold state_dict, said_of. rewrite flat_map_app, upd_app. cbn [flat_map fst snd]. rewrite app_nil_r, (Z.eqb_sym b), (Z.eqb_sym s). destruct (_ && _)%bool; reflexivity. }
  rewrite E. destruct (fst x =? b)%Z; cbn [bind andb]; [destruct (snd x =? s)%Z|]; cbn [bind]; rewrite IH; reflexivity.
Qed.
Lemma delta_said ls more : laid said_row silent_delta ls more -> forall f rows ss, Forall late rows ->
  foldM delta_line ls (f, map (state_dict rows) ss) = Ok (f, map (state_dict (rows ++ more)) ss).
Proof.
  induction 1 as [|l r ls rs H _ IH|l ls rs H _ IH]; intros f rows ss L; [now rewrite app_nil_r| |]; cbn [foldM].
  - assert (E : delta_line (f, map (state_dict rows) ss) l = Ok (f, map (state_dict (rows ++ [r])) ss)).
    { destruct H as [l b s p ns Hk Hn Hb Hs Hp|l ns b s ws w Hk Hn Hb Hs Hw]; pose proof (Forall_wf _ (number_line_ok _ _ Hn)) as W; kinds Hk; rewrite ?(get_numbers_line _ _ Hn).
      - inversion W as [|? ? W1 W2]; inversion W2 as [|? ? W3 W4]; subst. cbn [map nthE nth_error bind]. rewrite !py_int_num by assumption. cbn [bind].
        rewrite (at_builtin _ _ 2 p Hn eq_refl Hp). cbn [bind]. now rewrite states_set.
      - apply Forall_app in W as [_ W]. inversion W as [|? ? W1 W2]; inversion W2 as [|? ? W3 W4]; subst.
        rewrite map_app, app_length, skipn_app, map_length. cbn [map length].
        replace (length ns + 2 - 2) with (length ns) by lia. rewrite skipn_all2 by (rewrite map_length; lia). rewrite Nat.sub_diag. cbn [skipn app].
        rewrite !py_int_num by assumption. cbn [bind]. rewrite (split_cut _ _ Hw). destruct (ws ++ [w]) as [|x xs] eqn:Ew; [now destruct ws|]. rewrite <- Ew, last_last. now rewrite states_set. }
    rewrite E. cbn [bind]. rewrite IH; [|apply Forall_app; split; [exact L|constructor; [now apply (late_said l)|constructor]]]. now rewrite <- app_assoc.
  - rewrite (delta_silent _ _ H). cbn [bind]. now apply IH.
Qed.
Definition last_file (fs : list str) : option pyval := match rev fs with w :: _ => Some (VStr w) | [] => None end.
Lemma delta_from ls fs : laid from_row silent_delta ls fs -> forall gs, foldM delta_line ls (last_file gs, []) = Ok (last_file (gs ++ fs), []).
Proof.
  induction 1 as [|l r ls rs H _ IH|l ls rs H _ IH]; intros gs; [now rewrite app_nil_r| |]; cbn [foldM].
  - destruct H as [l ws w Hb Hc]. unfold delta_line at 1. apply begins_iff in Hb. rewrite Hb, (split_cut _ _ Hc). unfold last_item. rewrite rev_app_distr. cbn [rev app bind].
    specialize (IH (gs ++ [w])). rewrite <- app_assoc in IH. cbn [app] in IH. rewrite <- IH. unfold last_file. rewrite rev_app_distr. reflexivity.
  - rewrite (delta_silent _ _ H). cbn [bind]. apply IH.
Qed.
Lemma delta_spec ls1 ls2 ls3 fs ss rows : laid from_row silent_delta ls1 fs -> all_states ls2 ss -> laid said_row silent_delta ls3 rows ->
  exists d, process_delta_scf (ls1 ++ ls2 ++ ls3) = Ok d /\ delta_read fs ss rows d.
Proof.
  intros H1 H2 H3. unfold process_delta_scf. rewrite foldM_app. pose proof (delta_from _ _ H1 []) as E. cbn [last_file rev app] in E. rewrite E. cbn [bind].
  rewrite foldM_app, (delta_states _ _ H2). cbn [bind app]. pose proof (delta_said _ _ H3 (last_file fs) [] ss (Forall_nil _)) as E2.
  assert (M : map (state_dict []) ss = map new_state ss) by reflexivity. rewrite M in E2. rewrite E2. cbn [bind app]. eexists. split; [reflexivity|].
  exists (map (VDict false) (map (state_dict rows) ss)). split.
  - clear. induction ss as [|x ss IH]; constructor; [|exact IH]. exists (state_dict rows x). split; [reflexivity|]. unfold state_dict.
    change (new_state x) with (dupdate key_eqb [] [(name "band", VInt (fst x)); (name "spin", VInt (snd x))]). rewrite <- upd_app. apply (merged_dict_of key_eqb key_eqb_spec).
  - unfold last_file. destruct (rev fs); reflexivity.
Qed.

(** ** Parameters *)
Lemma strip_prefix_none w s : ~ (exists v, s = w ++ v) -> strip_prefix w s = None.
Proof.
  intros H. destruct (strip_prefix w s) as [v|] eqn:E; [|reflexivity]. exfalso. apply H. exists v. revert s E H. induction w as [|x w IH]; intros [|y s] E H; cbn in *; try discriminate; try (injection E as <-; reflexivity).
  destruct (Ascii.eqb_spec x y) as [->|]; [|discriminate]. f_equal. apply IH; [exact E|]. intros (v' & E'). apply H. exists v'. now rewrite E'.
Qed.
Lemma strip_prefix_app w v : strip_prefix w (w ++ v) = Some v.
Proof. induction w as [|x w IH]; cbn; [reflexivity|]. now rewrite Ascii.eqb_refl. Qed.
Lemma remove_none w : forall t f, length t < f -> ~ (exists u v, t = u ++ w ++ v) -> remove_all f w t = t.
Proof.
  induction t as [|c t IH]; intros f Hf H; (destruct f as [|f]; [lia|]); cbn [remove_all]; rewrite strip_prefix_none.
  - reflexivity.
  - intros (v & E). apply H. exists [], v. exact E.
  - f_equal. apply IH; [cbn in Hf; lia|]. intros (u & v & ->). apply H. now exists (c :: u), v.
  - intros (v & E). apply H. now exists [], v.
Qed.
(** The first letter of the word is nowhere else in it. *)
Lemma remove_next x w u v v' : ~ In x w -> ~ (exists a b, u = a ++ (x :: w) ++ b) ->
  (forall f, length v < f -> remove_all f (x :: w) v = v') ->
  forall f, length (u ++ (x :: w) ++ v) < f -> remove_all f (x :: w) (u ++ (x :: w) ++ v) = u ++ v'.
Proof.
  intros Hx. induction u as [|c u IH]; intros H Hv f Hf; (destruct f as [|f]; [lia|]); cbn [remove_all].
  - cbn [app]. change (x :: w ++ v) with ((x :: w) ++ v). rewrite strip_prefix_app. apply Hv. cbn [app] in Hf. cbn [length] in Hf. rewrite app_length in Hf. lia.
  - rewrite strip_prefix_none.
    + cbn [app]. f_equal. apply IH; [|exact Hv|cbn [app length] in Hf |- *; lia]. intros (a & b & ->). apply H. now exists (c :: a), b.
    + intros (r & E). destruct (app_eq_app _ _ _ _ E) as (l & [[E1 E2]|[E1 E2]]).
      * apply H. exists [], l. exact E1.
      * cbn in E1. injection E1 as -> ->. destruct l as [|y l].
        -- apply H. exists [], []. now rewrite !app_nil_r.
        -- cbn in E2. injection E2 as <- _. apply Hx. apply in_or_app. right. now left.
Qed.
Lemma remove_spec t t' : removed (text_of "Parameters") t t' -> str_remove ($"Parameters") t = t'.
Proof.
  intros H. unfold str_remove. assert (G : forall f, length t < f -> remove_all f ($"Parameters") t = t').
  { induction H as [t H|u v v' H _ IH]; intros f Hf; [now apply remove_none|].
    apply (remove_next "P"%char (text_of "arameters")); auto. cbn. intros I. repeat destruct I as [I|I]; try discriminate I. contradiction. }
  apply G. lia.
Qed.
Definition is_group (c : ascii) : bool := is_alpha c || Ascii.eqb c " " || Ascii.eqb c "-".
Lemma group_iff c : is_group c = true <-> group_char c.
Proof.
  unfold is_group, group_char. rewrite !orb_true_iff, !Ascii.eqb_eq. split.
  - intros [[H|H]|H]; auto. left. revert H. unfold is_alpha, is_upper, is_lower, in_range, ord. rewrite orb_true_iff, !andb_true_iff, !N.leb_le. unfold SpecCell.letter. tauto.
  - intros [H|[H|H]]; auto. left. left. now apply letter_alpha.
Qed.
Lemma group_all t : (forall c, In c t -> group_char c) <-> forallb is_group t = true.
Proof. rewrite forallb_forall. split; intros H c Hc; apply group_iff; auto. Qed.
Lemma star_not_group : is_group "*" = false. Proof. reflexivity. Qed.
Lemma stars_of s : SpecCastep.stars s <-> s <> [] /\ forallb (Ascii.eqb "*") s = true.
Proof. split; [apply stars_iff|]. intros [H1 H2]. split; [exact H1|]. intros c Hc. rewrite forallb_forall in H2. apply H2 in Hc. now apply Ascii.eqb_eq in Hc. Qed.
Lemma no_match_of r l : (forall p' s' c', ~ den r None l [] p' s' c') -> re_match r l = None.
Proof. intros H. apply nomatch_match_at, nomatch_den. exact H. Qed.
Lemma head_none l : ~ head_line l -> re_match GROUP_HEAD_RE l = None.
Proof.
  intros H. apply no_match_of. intros p' s' c' D. apply H. unfold GROUP_HEAD_RE in D. cbn [RSeqs] in D.
  destruct D as (? & ? & ? & D1 & D). unfold ws_star, RStar in D1. apply den_rep_chr in D1 as (a & -> & _ & _ & Ha & -> & <-).
  destruct D as (? & ? & ? & D1 & D). unfold CastepBlocks.stars, RPlus, RChar in D1. apply den_rep_chr in D1 as (st & -> & Hl & _ & Hst & -> & <-).
  destruct D as (? & ? & ? & D1 & D). apply den_char in D1 as (-> & -> & ->).
  destruct D as (? & ? & ? & (c0 & D1 & ->) & D). unfold RPlus in D1. apply den_rep_chr in D1 as (t & -> & Hl2 & _ & Ht & -> & <-).
  destruct D as (? & ? & ? & D1 & D). apply den_char in D1 as (-> & -> & ->).
  unfold CastepBlocks.stars, RPlus, RChar in D. apply den_rep_chr in D as (s2 & -> & Hl3 & _ & Hs2 & -> & <-).
  destruct s2 as [|x s2]; [cbn in Hl3; lia|]. cbn in Hs2. apply andb_true_iff in Hs2 as [Hx Hs2]. apply Ascii.eqb_eq in Hx. subst x.
  exists a, st, t, (s2 ++ s'). split; [reflexivity|]. split; [now apply blanks_iff|]. split; [apply stars_of; split; [destruct st; cbn in Hl; [lia|discriminate]|exact Hst]|].
  split; [destruct t; cbn in Hl2; [lia|discriminate]|]. now apply group_all.
Qed.
Definition is_any (c : ascii) : bool := negb (Ascii.eqb c newline).
Lemma one_any k : ~ In newline k <-> forallb is_any k = true.
Proof.
  rewrite forallb_forall. split.
  - intros H c Hc. unfold is_any. destruct (Ascii.eqb_spec c newline) as [->|]; [contradiction|reflexivity].
  - intros H Hc. apply H in Hc. discriminate Hc.
Qed.
Lemma unit_den p l c p' s' c' : den OUTPUT_UNIT_RE p l c p' s' c' -> unit_line l.
Proof.
  intros D. unfold OUTPUT_UNIT_RE in D. cbn [RSeqs] in D.
  destruct D as (? & ? & ? & D1 & D). unfold ws_star, RStar in D1. apply den_rep_chr in D1 as (a & -> & _ & _ & Ha & -> & <-).
  destruct D as (? & ? & ? & D1 & D). apply den_lit in D1 as (-> & -> & ->).
  destruct D as (? & ? & ? & (c0 & D1 & ->) & D). unfold RStar in D1. apply den_rep_chr in D1 as (k & -> & _ & _ & Hk & -> & <-).
  destruct D as (? & ? & ? & D1 & D). apply den_lit in D1 as (-> & -> & ->).
  destruct D as (? & ? & ? & D1 & D). unfold ws_star, RStar in D1. apply den_rep_chr in D1 as (g & -> & _ & _ & Hg & -> & <-).
  destruct D as (? & ? & ? & D1 & D). apply den_char in D1 as (-> & -> & ->).
  eexists a, k, g, _. split; [reflexivity|]. split; [now apply blanks_iff|]. split; [now apply one_any|now apply blanks_iff].
Qed.
Lemma unit_none l : ~ unit_line l -> re_match OUTPUT_UNIT_RE l = None.
Proof. intros H. apply no_match_of. intros p' s' c' D. apply H. now apply unit_den in D. Qed.
Lemma head_match a s t s2 r : blanks a -> SpecCastep.stars s -> t <> [] -> (forall c, In c t -> group_char c) -> SpecCastep.stars s2 -> (forall u, r <> "*"%char :: u) ->
  exists x, re_match GROUP_HEAD_RE (a ++ s ++ " "%char :: t ++ " "%char :: s2 ++ r) = Some x /\ group_s x "1" = t.
Proof.
  intros Ha Hs Ht0 Ht Hs2 Hr. apply blanks_iff in Ha. apply group_all in Ht. pose proof (proj1 (stars_iff _ Hs)) as S0. pose proof (proj1 (stars_iff _ Hs2)) as S20.
  assert (F : fp GROUP_HEAD_RE None (a ++ s ++ [" "%char] ++ t ++ [" "%char] ++ s2) r [] [("1"%string, t)]).
  { unfold GROUP_HEAD_RE. cbn [RSeqs]. apply fp_seq with (c1 := []).
    - apply fp_star_chr; [exact Ha|]. destruct s as [|y s]; [congruence|]. destruct Hs as [_ Hs]. rewrite (Hs y (or_introl eq_refl)). reflexivity.
    - apply fp_seq with (c1 := []); [apply fp_stars; [exact Hs|reflexivity]|]. apply fp_seq with (c1 := []); [apply fp_char|].
      apply fp_grp_plus; [exact Ht0|exact Ht| |].
      + intros u v q c0 E Hu Hf. apply nomatch_den. intros p' s' c' D. destruct D as (? & ? & ? & D1 & D). apply den_char in D1 as (-> & -> & ->).
        destruct u as [|y u]; [congruence|]. cbn [app] in E. injection E as <- E. cbn in Hf.
        destruct s2 as [|z s2]; [congruence|]. destruct Hs2 as [_ Hs2]. rewrite (Hs2 z (or_introl eq_refl)) in E.
        destruct u as [|y u]; cbn [app] in E; [discriminate E|]. injection E as <- E. discriminate Hf.
      + apply fp_seq with (c1 := [("1"%string, t)]); [apply fp_char|]. apply fp_stars; [exact Hs2|]. destruct r as [|y r]; [exact I|]. cbn. destruct (Ascii.eqb_spec "*" y) as [<-|]; [now elim (Hr r)|reflexivity]. }
  replace (a ++ s ++ " "%char :: t ++ " "%char :: s2 ++ r) with ((a ++ s ++ [" "%char] ++ t ++ [" "%char] ++ s2) ++ r) by (rewrite <- !app_assoc; reflexivity).
  destruct (match_hit _ _ _ _ F) as (x & E & Ec). exists x. split; [exact E|]. unfold group_s. rewrite Ec. reflexivity.
Qed.
Lemma unit_tail u g v g' r : forallb is_space g = true -> forallb is_space g' = true -> ~ In ":"%char v -> u <> [] ->
  text_of " unit" ++ g ++ ":"%char :: v <> u ++ text_of " unit" ++ g' ++ ":"%char :: r.
Proof.
  intros Hg Hg' Hv Hu E.
  assert (N : forall w, forallb is_space w = true -> ~ In ":"%char w) by (intros w H I; rewrite forallb_forall in H; apply H in I; discriminate I).
  assert (E2 : text_of " unit" ++ g = u ++ text_of " unit" ++ g').
  { rewrite !app_assoc in E. rewrite <- !app_assoc in E. replace (text_of " unit" ++ g ++ ":"%char :: v) with ((text_of " unit" ++ g) ++ ":"%char :: v) in E by now rewrite <- app_assoc.
    replace (u ++ text_of " unit" ++ g' ++ ":"%char :: r) with ((u ++ text_of " unit" ++ g') ++ ":"%char :: r) in E by now rewrite <- !app_assoc.
    assert (N1 : ~ In ":"%char (text_of " unit" ++ g)). { intros I. apply in_app_or in I as [I|I]; [|now apply (N g)]. cbn in I. repeat destruct I as [I|I]; try discriminate I; contradiction. }
    destruct (app_eq_app _ _ _ _ E) as (l & [[E1 E3]|[E1 E3]]); (destruct l as [|y l]; [now rewrite app_nil_r in E1|]); cbn in E3; injection E3 as <- E3.
    - exfalso. apply N1. rewrite E1. apply in_or_app. right. now left.
    - exfalso. apply Hv. rewrite E3. apply in_or_app. right. now left. }
  assert (L : length (filter (fun c => negb (is_space c)) (text_of " unit" ++ g)) = length (filter (fun c => negb (is_space c)) (u ++ text_of " unit" ++ g'))) by now rewrite E2.
  assert (F : forall w, forallb is_space w = true -> filter (fun c => negb (is_space c)) w = []).
  { induction w as [|x w IH]; intros H; [reflexivity|]. cbn in *. apply andb_true_iff in H as [-> H]. now apply IH. }
  rewrite !filter_app, !app_length, !(F g), !(F g') in L by assumption. cbn in L. destruct u as [|x u]; [congruence|]. cbn in E2. injection E2 as <- E2. cbn in L.
  destruct u as [|y u]; [discriminate E2|]. cbn in E2. injection E2 as <- _. cbn in L. lia.
Qed.
Lemma unit_value v e : forallb is_any v = true -> e = [] \/ e = [newline] ->
  exists b w1 w2, v ++ e = b ++ w1 ++ w2 /\ forallb is_space b = true /\ hd_not is_space (w1 ++ w2) /\ forallb is_any w1 = true /\ hd_not is_any w2 /\ split w1 = split v.
Proof.
  intros Hv He. pose proof (take_drop_while is_space v) as E. pose proof (take_while_all is_space v) as Hb. pose proof (drop_while_hd is_space v) as Hd.
  set (b := take_while is_space v) in *. set (w := drop_while is_space v) in *. clearbody b w. subst v. rewrite forallb_app in Hv. apply andb_true_iff in Hv as [_ Hv]. destruct w as [|x w].
  - exists ((b ++ []) ++ e), [], []. rewrite !app_nil_r. split; [reflexivity|]. split; [rewrite forallb_app, Hb; now destruct He as [->| ->]|]. split; [exact I|]. split; [reflexivity|]. split; [exact I|].
    pose proof (split_ws_app b [] Hb) as P. now rewrite app_nil_r in P.
  - exists b, (x :: w), e. rewrite <- app_assoc. split; [reflexivity|]. split; [exact Hb|]. split; [exact Hd|]. split; [exact Hv|]. split; [destruct He as [->| ->]; [exact I|reflexivity]|].
    symmetry. now apply split_ws_app.
Qed.
Lemma unit_match a k g v e : blanks a -> ~ In newline k -> blanks g -> ~ In newline v -> ~ In ":"%char v -> e = [] \/ e = [newline] ->
  exists x, re_match OUTPUT_UNIT_RE (a ++ text_of "output " ++ k ++ text_of " unit" ++ g ++ ":"%char :: v ++ e) = Some x /\ group_s x "key" = k /\ split (group_s x "val") = split v.
Proof.
  intros Ha Hk Hg Hv Hc He. apply blanks_iff in Ha, Hg. apply one_any in Hk, Hv.
  assert (Hce : ~ In ":"%char (v ++ e)). { intros I. apply in_app_or in I as [I|I]; [contradiction|]. destruct He as [->| ->]; [destruct I|]. destruct I as [I|[]]. discriminate I. }
  destruct (unit_value v e Hv He) as (b & w1 & w2 & Eb & Hb & Hw & H1 & H2 & Hsp).
  assert (F : fp OUTPUT_UNIT_RE None (a ++ text_of "output " ++ k ++ text_of " unit" ++ g ++ [":"%char] ++ b ++ w1) w2 [] [("val"%string, w1); ("key"%string, k)]).
  { unfold OUTPUT_UNIT_RE. cbn [RSeqs]. apply fp_seq with (c1 := []); [apply fp_star_chr; [exact Ha|reflexivity]|]. apply fp_seq with (c1 := []); [apply fp_lit|].
    apply fp_grp_star; [exact Hk| |].
    - intros u z q c0 E Hu Hf. apply nomatch_den. intros p' s' c' D. destruct D as (? & ? & ? & D1 & D). apply den_lit in D1 as (-> & -> & ->).
      destruct D as (? & ? & ? & D1 & D). unfold ws_star, RStar in D1. apply den_rep_chr in D1 as (g' & -> & _ & _ & Hg' & -> & <-).
      destruct D as (? & ? & ? & D1 & D). apply den_char in D1 as (-> & -> & ->).
      rewrite <- !app_assoc in E. cbn [app] in E. rewrite <- Eb in E. now apply unit_tail in E.
    - apply fp_seq with (c1 := [("key"%string, k)]); [apply fp_lit|]. apply fp_seq with (c1 := [("key"%string, k)]); [apply fp_star_chr; [exact Hg|reflexivity]|].
      apply fp_seq with (c1 := [("key"%string, k)]); [apply fp_char|]. apply fp_seq with (c1 := [("key"%string, k)]); [apply fp_star_chr; [exact Hb|exact Hw]|].
      apply fp_grp. apply fp_star_chr; [exact H1|exact H2]. }
  replace (a ++ text_of "output " ++ k ++ text_of " unit" ++ g ++ ":"%char :: v ++ e) with ((a ++ text_of "output " ++ k ++ text_of " unit" ++ g ++ [":"%char] ++ b ++ w1) ++ w2).
  2:{ rewrite <- !app_assoc. cbn [app]. now rewrite <- Eb. }
  destruct (match_hit _ _ _ _ F) as (x & E & Ec). exists x. split; [exact E|]. split; [unfold group_s; rewrite Ec; reflexivity|].
  assert (G : group_s x "val" = w1) by (unfold group_s; rewrite Ec; reflexivity). now rewrite G.
Qed.
Lemma starts_test w : re_match_test NUMBER_RE w = true <-> starts_number w.
Proof.
  rewrite match_test_iff by reflexivity. split.
  - intros (p' & s' & c' & D). apply den_NUMBER in D as (n & Hn & -> & _). now exists n, s'.
  - intros (n & r & Hn & ->). destruct (den_NUMBER_prefix n None r [] Hn (fun _ _ => ltac:(discriminate))) as (p' & s' & D). eauto.
Qed.
Lemma not_starts w : ~ starts_number w -> re_match_test NUMBER_RE w = false.
Proof. intros H. destruct (re_match_test NUMBER_RE w) eqn:E; [|reflexivity]. now apply starts_test in E. Qed.
Lemma joined_split ws : Forall (fun w => w <> [] /\ forall c, In c w -> is_space c = false) ws -> split (joined ($" ") ws) = ws.
Proof.
  induction 1 as [|w ws [H0 H] _ IH]; [reflexivity|]. assert (W : PyFacts.word w) by (split; [exact H0|]; apply forallb_forall; intros c Hc; now rewrite H).
  destruct ws as [|v ws]; [cbn [joined]; now apply split_word_end|]. rewrite joined_cons2. rewrite split_word_ws; [now rewrite IH|exact W|reflexivity|discriminate].
Qed.
Lemma split_joined ws v : cut nonblank ws v -> split (joined ($" ") ws) = ws.
Proof. intros H. apply joined_split. exact (cut_words _ _ H). Qed.
Lemma option_read v x : option_value v x -> param_value (normalise_string v) = Ok x.
Proof.
  intros H. destruct H as [v H|v w ws H Hn|v w x H Hs Hv|v w u us x H Hs Hv].
  - apply blanks_iff in H. unfold normalise_string. rewrite split_strip, split_all_ws by exact H. reflexivity.
  - rewrite (normalise_string_cut _ _ H). unfold param_value. rewrite (split_joined _ _ H), (not_starts _ Hn). reflexivity.
  - rewrite (normalise_string_cut _ _ H). unfold param_value. rewrite (split_joined _ _ H). apply starts_test in Hs. rewrite Hs, (CellBlockFacts.single_auto _ _ Hv). reflexivity.
  - rewrite (normalise_string_cut _ _ H). unfold param_value. rewrite (split_joined _ _ H). apply starts_test in Hs. rewrite Hs, (CellBlockFacts.single_auto _ _ Hv). reflexivity.
Qed.
Lemma split_parts c parts v : parts <> [] -> (forall p, In p parts -> ~ In c p) -> ~ In c v -> split_chr c (joined [c] parts ++ c :: v) = parts ++ [v].
Proof.
  intros H0 H Hv. induction parts as [|p parts IH]; [congruence|]. destruct parts as [|q parts].
  - cbn [joined app]. rewrite split_chr_cut by (apply H; now left). now rewrite split_chr_free.
  - change (joined [c] (p :: q :: parts)) with (p ++ [c] ++ joined [c] (q :: parts)). rewrite <- !app_assoc. cbn [app]. rewrite split_chr_cut by (apply H; now left).
    rewrite IH; [reflexivity|discriminate|]. intros p' Hp. apply H. now right.
Qed.
Lemma unit_not_head l : unit_line l -> ~ head_line l.
Proof.
  intros (a & k & g & v & -> & Ha & _ & _) (a' & s & t & u & E & Ha' & Hs & _). apply blanks_iff in Ha, Ha'. pose proof (stars_iff _ Hs) as [S0 _]. destruct s as [|y s]; [congruence|].
  destruct Hs as [_ Hs]. pose proof (Hs y (or_introl eq_refl)) as ->. cbn in E. apply (run_unique is_space) in E as (_ & E & _); auto. discriminate E.
Qed.
Definition item_step (st : pparams) (i : param_item) : result pparams :=
  match i with
  | PHead g => Ok {| o_opt := close_group st; o_curr := []; o_group := g |}
  | PUnit k v => opt <- set_in (o_opt st) (kstr "output_units") (KStr k) (VStr v) ;; Ok {| o_opt := opt; o_curr := o_curr st; o_group := o_group st |}
  | PEntry k v => Ok {| o_opt := o_opt st; o_curr := dset key_eqb (o_curr st) (KStr k) v; o_group := o_group st |}
  end.
Lemma param_line l i : param_row l i -> forall st rest, params_step st l rest = (st' <- item_step st i ;; Ok (st', rest)).
Proof.
  intros H st rest. unfold params_step. destruct H as [a s t s2 r t' nm Ha Hs Ht0 Ht Hs2 Hr Hm Hrm Hw|a k g v e kn vn Ha Hk Hg Hv Hc He Hm Hkn Hvn|parts names nm v x Hp0 Hp Hv Hh Hu Hm Hn Ht Hx];
    rewrite (FileParts.if_block_no "Developer Code"%string) by exact Hm.
  - destruct (head_match a s t s2 r Ha Hs Ht0 Ht Hs2 Hr) as (x & E & G). rewrite E, G, (remove_spec _ _ Hrm), (words_string _ _ Hw). reflexivity.
  - rewrite head_none. 2:{ apply unit_not_head. now exists a, k, g, (v ++ e). } destruct (unit_match a k g v e Ha Hk Hg Hv Hc He) as (x & E & G1 & G2). rewrite E, G1.
    assert (N : normalise_string (group_s x "val") = vn). { rewrite <- (words_string _ _ Hvn). unfold normalise_string. now rewrite !split_strip, G2. }
    rewrite N, (words_string _ _ Hkn). unfold item_step. destruct (set_in _ _ _ _); reflexivity.
  - rewrite (head_none _ Hh), (unit_none _ Hu). change (text_of ":") with [":"%char]. rewrite split_parts by assumption.
    destruct parts as [|p parts]; [congruence|]. cbn [app]. destruct (parts ++ [v]) as [|y ys] eqn:Ey; [destruct parts; discriminate Ey|]. rewrite <- Ey.
    unfold last_of. rewrite map_cons, map_app, <- app_comm_cons || rewrite map_cons, map_app. cbn [map]. change (normalise_string p :: map normalise_string parts ++ [normalise_string v]) with ((map normalise_string (p :: parts)) ++ [normalise_string v]).
    rewrite rev_app_distr. cbn [rev app]. rewrite <- map_cons, rev_involutive || rewrite rev_involutive. cbn [bind]. rewrite (option_read _ _ Hx). cbn [bind].
    assert (N : map normalise_string (p :: parts) = names). { clear -Hn. induction Hn as [|a b la lb H _ IH]; [reflexivity|]. cbn [map]. now rewrite IH, (words_string _ _ H). }
    rewrite N, join_joined. change ($" ") with (text_of " "). rewrite (trimmed_strip _ _ Ht). reflexivity.
Qed.
Lemma param_silent l st rest : silent_param l -> params_step st l rest = Ok (st, rest).
Proof.
  intros (Hm & Hh & Hc). unfold params_step. rewrite (FileParts.if_block_no "Developer Code"%string) by exact Hm. rewrite (head_none _ Hh), unit_none, split_chr_free; [reflexivity|exact Hc|].
  intros (a & k & g & v & -> & _). apply Hc. rewrite !in_app_iff. right. right. right. right. right. now left.
Qed.
Lemma params_loop ls its : laid param_row silent_param ls its -> forall n st st', length ls <= n -> foldM item_step its st = Ok st' -> file_loop params_step n st ls = Ok st'.
Proof.
  induction 1 as [|l i ls its H _ IH|l ls its H _ IH]; intros n st st' Hn E.
  - destruct n; exact E.
  - destruct n as [|n]; [cbn in Hn; lia|]. cbn [file_loop]. rewrite (param_line _ _ H). cbn [foldM] in E. destruct (item_step st i) as [st1|]; [|discriminate E]. cbn [bind] in *. apply IH; [cbn in Hn; lia|exact E].
  - destruct n as [|n]; [cbn in Hn; lia|]. cbn [file_loop]. rewrite (param_silent _ _ _ H). cbn [bind]. apply IH; [cbn in Hn; lia|exact E].
Qed.
Definition head_ok (i : param_item) : Prop := forall g, i = PHead g -> g <> text_of "output_units".
Lemma removed_in w t t' c : removed w t t' -> In c t' -> In c t.
Proof.
  induction 1 as [t H|u v v' H _ IH]; intros Hc; [exact Hc|]. rewrite !in_app_iff in *. destruct Hc as [Hc|Hc]; auto.
Qed.
Lemma cut_in P ws s c : cut P ws s -> In c (concat ws) -> In c s.
Proof.
  induction 1 as [g Hg|g w s ws Hg Hw0 Hw Hs _ IH]; intros Hc; [destruct Hc|]. cbn [concat] in Hc. rewrite !in_app_iff in *. tauto.
Qed.
Lemma joined_in sep ws c : In c (joined sep ws) -> In c sep \/ In c (concat ws).
Proof.
  induction ws as [|w ws IH]; intros H; [destruct H|]. destruct ws as [|v ws]; [cbn in *; rewrite in_app_iff; auto|].
  rewrite joined_cons2, !in_app_iff in H. cbn [concat] in *. rewrite in_app_iff. destruct H as [H|[H|H]]; auto. apply IH in H. tauto.
Qed.
Lemma row_head_ok l i : param_row l i -> head_ok i.
Proof.
  intros H g E. destruct H as [a s t s2 r t' nm Ha Hs Ht0 Ht Hs2 Hr Hm Hrm Hw|a k g0 v e kn vn Ha Hk Hg Hv Hc He Hm Hkn Hvn|parts names nm v x Hp0 Hp Hv Hh Hu Hm Hn Htr Hx]; try discriminate E.
  injection E as <-. intros E. assert (I : In "_"%char (lower nm)) by (rewrite E; cbn; tauto). unfold lower in I. apply in_map_iff in I as (c & Ec & Hc).
  assert (G : is_group c = true \/ c = " "%char).
  { destruct Hw as (ws & Hcut & ->). apply joined_in in Hc as [Hc|Hc]; [cbn in Hc; destruct Hc as [<-|[]]; auto|]. left. apply group_iff, Ht. eapply removed_in; [exact Hrm|]. eapply cut_in; [exact Hcut|exact Hc]. }
  destruct G as [G| ->]; [|discriminate Ec].
  assert (N : Ascii.eqb (lower_c c) "_" = false) by (revert c G Ec Hc; intros c G _ _; revert c G; apply ascii_imp_not; vm_compute; reflexivity). rewrite Ec in N. discriminate N.
Qed.
Lemma rows_head_ok ls its : laid param_row silent_param ls its -> Forall head_ok its.
Proof. induction 1 as [|l i ls its H _ IH|l ls its H _ IH]; [constructor| |exact IH]. constructor; [now apply (row_head_ok l)|exact IH]. Qed.
Notation dof := (dupdate key_eqb []).
Lemma dof_snoc (es : dict) k v : dof (es ++ [(k, v)]) = dset key_eqb (dof es) k v.
Proof. now rewrite upd_app. Qed.
Lemma dset_ne (d : dict) k v : dset key_eqb d k v <> [].
Proof. destruct d as [|[k' v'] d]; cbn; [discriminate|]. destruct (key_eqb k' k); discriminate. Qed.
Lemma dof_ne (es : dict) : es <> [] -> dof es <> [].
Proof. intros H. destruct (exists_last H) as (es' & [k v] & ->). rewrite dof_snoc. apply dset_ne. Qed.
Lemma merged_dof (es : dict) : merged es (dof es).
Proof. apply (merged_dict_of key_eqb key_eqb_spec). Qed.
Definition units_are (d us : dict) : Prop := dget key_eqb d (kstr "output_units") = match us with [] => None | _ => Some (VDict false (dof us)) end.
Lemma close_dof st g es : o_curr st = dof es -> o_group st = g -> es <> [] -> close_group st = dset key_eqb (o_opt st) (KStr g) (VDict false (dof es)).
Proof. intros H <- H0. unfold close_group. rewrite H. pose proof (dof_ne es H0). now destruct (dof es). Qed.
Lemma params_told its : Forall head_ok its -> forall st us g es, o_curr st = dof es -> o_group st = g -> g <> text_of "output_units" -> units_are (o_opt st) us ->
  exists st' out, foldM item_step its st = Ok st' /\ options_told us g es its out /\ close_group st' = dupdate key_eqb (o_opt st) out.
Proof.
  induction 1 as [|i its Hi _ IH]; intros st us g es He Hg Hn Hu.
  - destruct es as [|e es]; [exists st, []|exists st, [(KStr g, VDict false (dof (e :: es)))]]; (split; [reflexivity|]).
    + split; [constructor|]. unfold close_group. now rewrite He.
    + split; [constructor; [discriminate|apply merged_dof]|]. now rewrite (close_dof st g (e :: es)).
  - cbn [foldM]. destruct i as [h|k v|k v]; cbn [item_step].
    + cbn [bind]. assert (Hh : h <> text_of "output_units") by now apply Hi.
      destruct es as [|e es].
      * assert (C : close_group st = o_opt st) by (unfold close_group; now rewrite He). rewrite C.
        destruct (IH {| o_opt := o_opt st; o_curr := []; o_group := h |} us h [] eq_refl eq_refl Hh Hu) as (st' & out & E & T & R).
        exists st', out. split; [exact E|]. split; [now constructor|exact R].
      * pose proof (close_dof st g (e :: es) He Hg ltac:(discriminate)) as C. rewrite C.
        assert (Hu' : units_are (dset key_eqb (o_opt st) (KStr g) (VDict false (dof (e :: es)))) us).
        { unfold units_are. rewrite set_get. destruct (key_eqb_spec (KStr g) (kstr "output_units")) as [E|]; [|exact Hu]. injection E as ->. now elim Hn. }
        destruct (IH {| o_opt := dset key_eqb (o_opt st) (KStr g) (VDict false (dof (e :: es))); o_curr := []; o_group := h |} us h [] eq_refl eq_refl Hh Hu') as (st' & out & E & T & R).
        exists st', ((KStr g, VDict false (dof (e :: es))) :: out). split; [exact E|]. split; [apply ot_close; [discriminate|apply merged_dof|exact T]|]. rewrite R. reflexivity.
    + assert (E : set_in (o_opt st) (kstr "output_units") (KStr k) (VStr v) = Ok (dset key_eqb (o_opt st) (kstr "output_units") (VDict false (dof (us ++ [(KStr k, VStr v)]))))).
      { unfold set_in. rewrite Hu, dof_snoc. now destruct us. }
      rewrite E. cbn [bind]. set (d2 := dset key_eqb (o_opt st) (kstr "output_units") (VDict false (dof (us ++ [(KStr k, VStr v)])))).
      assert (Hu' : units_are d2 (us ++ [(KStr k, VStr v)])). { unfold units_are, d2. rewrite set_get. replace (key_eqb (kstr "output_units") (kstr "output_units")) with true by reflexivity. now destruct us. }
      destruct (IH {| o_opt := d2; o_curr := o_curr st; o_group := o_group st |} (us ++ [(KStr k, VStr v)]) g es He Hg Hn Hu') as (st' & out & E2 & T & R).
      exists st', ((name "output_units", VDict false (dof (us ++ [(KStr k, VStr v)]))) :: out). split; [exact E2|]. split; [constructor; [apply merged_dof|exact T]|]. rewrite R. reflexivity.
    + cbn [bind]. destruct (IH {| o_opt := o_opt st; o_curr := dset key_eqb (o_curr st) (KStr k) v; o_group := o_group st |} us g (es ++ [(KStr k, v)])) as (st' & out & E2 & T & R); auto.
      { cbn [o_curr]. now rewrite dof_snoc, He. }
      exists st', out. split; [exact E2|]. split; [now constructor|exact R].
Qed.
Lemma params_spec ls its : laid param_row silent_param ls its -> exists d, process_params ls = Ok d /\ options_read its d.
Proof.
  intros H. destruct (params_told its (rows_head_ok _ _ H) {| o_opt := []; o_curr := []; o_group := [] |} [] [] [] eq_refl eq_refl ltac:(discriminate) eq_refl) as (st & out & E & T & R).
  exists (dof out). split; [|exists out; split; [exact T|apply merged_dof]]. unfold process_params, over_file. rewrite (params_loop _ _ H _ _ _ (le_n _) E). cbn [rmap]. now rewrite R.
Qed.
