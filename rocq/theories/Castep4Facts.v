(** Facts about the blocks of .castep files whose rows are reports of a calculation. *)
From Coq Require Import QArith Qreduction.
From Verif Require Import PyBase PyFacts PyVal Regex RegexFacts RegexComplete CastepRes NumSpec NumFacts NumProps NumVal
  StrUtil SpecStr StrUtilFacts SpecLine SpecType TypeConv TypeConvFacts IntStr DictUtil SpecDict DictFacts Stream StreamFacts TextParsers TextFiles
  SpecTable ColumnFacts Header HeaderFacts SpecMd MdFacts SpecBands NeedFacts SpecCastep CastepBlocks CastepFacts PhononFacts
  SpecCastep2 CastepNum Castep2Facts SpecCastep3 CastepRows Castep3Facts SpecCastep4 BandsFacts TextParsersFacts.
From Verif Require Import PhraseFacts.
From Verif Require CellFacts CellPosFacts CellBlockFacts FileParts FileParts3.
Local Open Scope list_scope.
Local Open Scope nat_scope.

Lemma digits_hd f ds s : ds <> [] -> (forall c, is_digit c = true -> f c = false) -> hd_not f (write_digits ds ++ s).
Proof. destruct ds as [|d ds]; [congruence|]. intros _ H. cbn. apply H, digit_char_digit. Qed.
Lemma digits_all ds : forallb is_digit (write_digits ds) = true.
Proof. induction ds as [|d ds IH]; [reflexivity|]. cbn. now rewrite digit_char_digit. Qed.
Lemma words_all w : (forall c, In c w -> word_char c) -> forallb is_word w = true.
Proof. intros H. apply forallb_forall. intros c Hc. now apply word_char_iff, H. Qed.
Lemma space_not_mant c : is_space c = true -> is_mant c = false.
Proof. revert c. ascii_dec. Qed.
Lemma word_not_space c : is_word c = true -> is_space c = false.
Proof. revert c. ascii_dec. Qed.
(** A pattern that asks for columns. *)
Lemma den_seqs_columns names rest : forall pre p s c p' s' c', den (RSeqs (pre ++ labelled_floats names :: rest)) p s c p' s' c' -> has_columns (length names) s.
Proof.
  assert (L : forall p s c p' s' c', den (labelled_floats names) p s c p' s' c' -> forall a r, s = a -> has_columns (length names) (r ++ a)).
  { intros p s c p' s' c' D a r <-. apply den_labelled in D as (ns & t & Ht & Hl & -> & _). exists r, t, s', ns. auto. }
  induction pre as [|r pre IH]; intros p s c p' s' c' D.
  - cbn [app] in D. destruct rest as [|r0 rest]; cbn [RSeqs] in D; [now apply (L _ _ _ _ _ _ D s [])|].
    destruct D as (p1 & s1 & c1 & D & _). now apply (L _ _ _ _ _ _ D s []).
  - assert (E : RSeqs ((r :: pre) ++ labelled_floats names :: rest) = RSeq r (RSeqs (pre ++ labelled_floats names :: rest))) by (destruct pre; reflexivity).
    rewrite E in D. destruct D as (p1 & s1 & c1 & D1 & D2). apply den_split in D1 as (w & ->). apply IH in D2 as (a & t & b & ns & -> & Ht & Hl).
    exists (w ++ a), t, b, ns. rewrite <- app_assoc. auto.
Qed.
Lemma no_columns_match pre names rest l : ~ has_columns (length names) l -> re_match (RSeqs (pre ++ labelled_floats names :: rest)) l = None.
Proof. intros H. apply nomatch_match_at, nomatch_den. intros p' s' c' D. apply H. eapply den_seqs_columns. exact D. Qed.
Lemma among_one x c : Ascii.eqb x c = true -> In c [x].
Proof. intros H. apply Ascii.eqb_eq in H. now left. Qed.

(** ** Excitations *)
Lemma excitation_match l x : excitation_row l x -> exists m, re_match TDDFT_RE l = Some m /\
  (e <- float_group m "energy" ;; r <- float_group m "error" ;;
   Ok (VDict false [(kstr "energy", e); (kstr "error", r); (kstr "type", group m "type")])) = Ok (excitation_read x).
Proof.
  intros [a g ds t g2 g3 r x' Ha Hg Hd Ht Hf Hg2 Hw0 Hw Hg3]. apply gap_iff in Hg2 as [Hg2 Hg20]. apply blanks_iff in Ha, Hg, Hg3. apply words_all in Hw.
  destruct (match_hit TDDFT_RE (concat [a; ["+"%char]; g; write_digits ds; t; g2; ex_type x'; g3; $"+TDDFT"]) r
     (("type"%string, ex_type x') :: row_caps ["energy"; "error"]%string [ex_energy x'; ex_error x'] [])) as (m & Em & Ec).
  { unfold TDDFT_RE. apply fp_seqs.
    eapply fpl_cons; [apply fp_star_chr; [exact Ha|tidy; reflexivity]|].
    eapply fpl_cons; [apply fp_char|].
    eapply fpl_cons; [apply fp_star_chr; [exact Hg|tidy; apply digits_hd; [exact Hd|exact digit_not_space]]|].
    eapply fpl_cons; [apply (fp_INT NoSign); [exact Hd|tidy; eapply columns_gap; [exact Ht|exact space_not_mant|]; apply hd_gap; auto using space_not_mant|]|].
    { intros _. rewrite pa_rev. destruct (rev g) as [|y q] eqn:E; [discriminate|]. intros Z. injection Z as ->.
      rewrite forallb_forall in Hg. assert (Hi : In "."%char g) by (apply in_rev; rewrite E; now left). specialize (Hg _ Hi). discriminate. }
    eapply fpl_cons; [apply fp_labelled; [exact Ht|reflexivity|tidy; now apply gap_token]|].
    eapply fpl_cons; [apply fp_star_chr; [exact Hg2|tidy]|].
    { destruct (ex_type x') as [|y w]; [congruence|]. cbn in Hw |- *. apply andb_true_iff in Hw as [Hw _]. now apply word_not_space. }
    eapply fpl_cons; [apply fp_grp, fp_plus_chr; [exact Hw|exact Hw0|tidy; apply hd_blanks; [exact space_not_word|exact Hg3|reflexivity]]|].
    eapply fpl_cons; [apply fp_star_chr; [exact Hg3|tidy; reflexivity]|].
    eapply fpl_cons; [apply fp_lit|]. constructor. }
  exists m. split; [revert Em; tidy; auto|].
  pose proof (Forall_wf _ (CellFacts.columns_ok _ _ Ht)) as W. inversion W as [|? ? W1 W']; subst. inversion W' as [|? ? W2 _]; subst.
  inversion Hf as [|? ? F1 F']; subst. inversion F' as [|? ? F2 _]; subst.
  rewrite (group_float m (ex_energy x')), (group_float m (ex_error x')); try (rewrite Ec; reflexivity); auto. cbn [bind].
  unfold group. rewrite Ec. reflexivity.
Qed.
Lemma excitation_other l : not_excitation l -> re_match TDDFT_RE l = None.
Proof.
  intros [H|H]; [revert H; apply (lacking_match (Ascii.eqb "+")); [vm_compute; reflexivity..|exact (among_one "+")]|].
  now apply (no_columns_match [ws_star; RChar "+"; ws_star; INTNUMBER_RE] ["energy"; "error"]%string).
Qed.
Lemma tddft_spec ls xs : laid excitation_row not_excitation ls xs -> process_tddft ls = Ok (map excitation_read xs).
Proof. apply rows_laid; [exact excitation_match|exact excitation_other]. Qed.

(** ** Electron localisation *)
Lemma elf_match l n : elf_row l n -> exists m, re_match ELF_RE l = Some m /\ float_group m "1" = Ok (float_of n).
Proof.
  intros [a g ds g2 n' s Ha Hg Hd Hg2 Hn Hf Hs]. apply gap_iff in Ha as [Ha Ha0], Hg as [Hg Hg0], Hg2 as [Hg2 Hg20].
  destruct (match_hit ELF_RE (concat [a; $"ELF"; g; write_digits ds; g2; write_num n']) s [("1"%string, write_num n')]) as (m & Em & Ec).
  { unfold ELF_RE. apply fp_seqs.
    eapply fpl_cons; [apply fp_plus_chr; [exact Ha|exact Ha0|tidy; reflexivity]|].
    eapply fpl_cons; [apply fp_lit|].
    eapply fpl_cons; [apply fp_plus_chr; [exact Hg|exact Hg0|tidy; apply digits_hd; [exact Hd|exact digit_not_space]]|].
    eapply fpl_cons; [apply fp_plus_chr; [apply digits_all|destruct ds; [congruence|discriminate]|tidy; apply hd_gap; auto using space_not_digit]|].
    eapply fpl_cons; [apply fp_plus_chr; [exact Hg2|exact Hg20|tidy; apply num_hd, fixed_ok, Hn]|].
    eapply fpl_cons; [apply fp_grp, fixed_fp; [exact Hn|tidy; now apply token_end_digit]|]. constructor. }
  exists m. split; [revert Em; tidy; auto|]. apply group_float; [rewrite Ec; reflexivity|apply num_ok_wf, fixed_ok, Hn|exact Hf].
Qed.
Lemma elf_spec ls ns : laid elf_row plain ls ns -> process_elf ls = Ok (map float_of ns).
Proof. apply rows_laid; [exact elf_match|]. intros l. apply plain_match; vm_compute; reflexivity. Qed.

(** ** Thermodynamics *)
Definition thermo_raw (z : option num) (rows : list (list num)) : dict :=
  match z with Some n => [(kstr "zero_point_energy", float_of n)] | None => [] end ++
  match rows with
  | [] => []
  | _ => map (fun p => (kstr (snd p), VList (map (fun n => VStr (write_num n)) (nth_column (fst p) rows)))) (combine (seq 0 5) thermo_cols)
  end.
Lemma zero_line z l n : zero_row l n -> thermo_line (thermo_raw z []) l = Ok (thermo_raw (Some n) []).
Proof.
  intros [l' n' ns Hm Hc Hl Hf]. unfold thermo_line. apply mention_contains in Hm. rewrite Hm.
  rewrite (at_builtin l' (n' :: ns) 0 n' Hl eq_refl Hf). cbn [bind].
  unfold THERMODYNAMICS_DATA_RE. rewrite (FileParts.match_labelled_none thermo_cols l' Hc). destruct z; reflexivity.
Qed.
Lemma thermo_skip d l : not_thermo l -> thermo_line d l = Ok d.
Proof.
  intros [H1 H2]. unfold thermo_line. rewrite (not_mentions_b _ _ H1). cbn [bind].
  unfold THERMODYNAMICS_DATA_RE. now rewrite (FileParts.match_labelled_none thermo_cols l H2).
Qed.
Lemma five_list {A} (l : list A) : length l = 5 -> exists a b c d e, l = [a; b; c; d; e].
Proof. destruct l as [|a [|b [|c [|d [|e [|]]]]]]; try discriminate. intros _. now exists a, b, c, d, e. Qed.
Lemma nth_column_app {A} j (r1 r2 : list (list A)) : nth_column j (r1 ++ r2) = nth_column j r1 ++ nth_column j r2.
Proof. apply flat_map_app. Qed.
Lemma thermo_row_line z rows l r : thermo_row l r -> thermo_line (thermo_raw z rows) l = Ok (thermo_raw z (rows ++ [r])).
Proof.
  intros [t ns s Ht Hl Hf Hs Hm]. unfold thermo_line. rewrite (not_mentions_b _ _ Hm). cbn [bind].
  destruct (match_hit THERMODYNAMICS_DATA_RE t s (row_caps thermo_cols ns [])) as (m & -> & Ec).
  { apply fp_labelled; auto. }
  destruct (five_list ns Hl) as (n1 & n2 & n3 & n4 & n5 & ->).
  assert (E : groupdict THERMODYNAMICS_DATA_RE m = combine (map kstr thermo_cols) (map (fun n => VStr (write_num n)) [n1; n2; n3; n4; n5])).
  { unfold groupdict. rewrite Ec. reflexivity. }
  rewrite E. unfold thermo_raw, thermo_cols. cbn [seq combine map fst snd]. rewrite !nth_column_app. destruct rows as [|r0 rows], z; cbn [app]; rewrite ?map_app; reflexivity.
Qed.
Lemma zero_lines ls zs : laid zero_row not_thermo ls zs -> forall z, foldM thermo_line ls (thermo_raw z []) =
  Ok (thermo_raw (match last_one zs with n :: _ => Some n | [] => z end) []).
Proof.
  induction 1 as [|l n ls zs Hr _ IH|l ls zs Ho _ IH]; intros z; [reflexivity| |].
  - cbn [foldM]. rewrite (zero_line z l n Hr). cbn [bind]. rewrite IH. unfold last_one. cbn [rev]. destruct (rev zs); reflexivity.
  - cbn [foldM]. rewrite (thermo_skip _ _ Ho). apply IH.
Qed.
Lemma thermo_rows ls rows : laid thermo_row not_thermo ls rows -> forall z r0, foldM thermo_line ls (thermo_raw z r0) = Ok (thermo_raw z (r0 ++ rows)).
Proof.
  induction 1 as [|l r ls rows Hr _ IH|l ls rows Ho _ IH]; intros z r0; [now rewrite app_nil_r| |].
  - cbn [foldM]. rewrite (thermo_row_line z r0 l r Hr). cbn [bind]. rewrite IH, <- app_assoc. reflexivity.
  - cbn [foldM]. rewrite (thermo_skip _ _ Ho). apply IH.
Qed.
Lemma floats_column ns : Forall num_wf ns -> all_fit ns -> to_type TFloat (VList (map (fun n => VStr (write_num n)) ns)) = Ok (vector ns).
Proof.
  intros W F. cbn [to_type]. enough (E : mapM (to_type TFloat) (map (fun n => VStr (write_num n)) ns) = Ok (map float_of ns)) by (rewrite E; reflexivity).
  induction W as [|n ns Hn W IH]; [reflexivity|]. inversion F as [|? ? Hf F']; subst. cbn [map mapM]. rewrite (type_float n Hn Hf). cbn [bind]. now rewrite IH.
Qed.
Lemma column_in {A} (P : A -> Prop) j rows : Forall (Forall P) rows -> Forall P (nth_column j rows).
Proof.
  intros H. apply Forall_forall. intros x Hx. apply in_flat_map in Hx as (r & Hr & Hx). rewrite Forall_forall in H. specialize (H r Hr).
  rewrite Forall_forall in H. apply H. destruct (nth_error r j) eqn:E; [|contradiction]. destruct Hx as [<-|[]]. now apply nth_error_In in E.
Qed.
Lemma thermo_wf ls rows : laid thermo_row not_thermo ls rows -> Forall (Forall num_wf) rows /\ Forall all_fit rows.
Proof.
  induction 1 as [|l r ls rows Hr _ [IH1 IH2]|]; [split; constructor| |assumption]. destruct Hr as [t ns s Ht Hl Hf Hs Hm].
  split; constructor; auto. now apply Forall_wf, (CellFacts.columns_ok _ _ Ht).
Qed.
Lemma thermo_spec ls1 ls2 zs rows : laid zero_row not_thermo ls1 zs -> laid thermo_row not_thermo ls2 rows ->
  process_thermodynamics (ls1 ++ ls2) = Ok (thermo_read zs rows).
Proof.
  intros H1 H2. unfold process_thermodynamics. rewrite foldM_app. change (@nil (key * pyval)) with (thermo_raw None []).
  rewrite (zero_lines _ _ H1). cbn [bind]. rewrite (thermo_rows _ _ H2). cbn [bind app]. destruct (thermo_wf _ _ H2) as [W F].
  assert (C : forall j, to_type TFloat (VList (map (fun n => VStr (write_num n)) (nth_column j rows))) = Ok (vector (nth_column j rows))).
  { intros j. apply floats_column; [now apply column_in|now apply (column_in (fun n => fits (num_value n)))]. }
  unfold thermo_read. set (z := match last_one zs with n :: _ => Some n | [] => None end).
  assert (Ez : map (fun n => (name "zero_point_energy", float_of n)) (last_one zs) = match z with Some n => [(kstr "zero_point_energy", float_of n)] | None => [] end).
  { unfold z, last_one. destruct (rev zs); reflexivity. }
  rewrite Ez. unfold thermo_raw, as_floats, thermo_cols, quantities. destruct rows as [|r0 rows].
  - destruct z; reflexivity.
  - cbn [seq combine map fst snd]. destruct z as [n|]; cbn [app].
    all: do 5 (erewrite fix_step; [|reflexivity|apply C]); reflexivity.
Qed.

(** ** Molecular dynamics *)
Lemma md_letters k : (forall x, In x k -> SpecCell.letter x \/ x = " "%char) -> forallb (fun c => is_alpha c || Ascii.eqb c " ") k = true.
Proof. intros H. apply forallb_forall. intros x Hx. destruct (H x Hx) as [L| ->]; [|reflexivity]. now rewrite (letter_alpha _ L). Qed.
Lemma alpha_not_space c : is_alpha c = true -> is_space c = false.
Proof. revert c. ascii_dec. Qed.
Lemma md_match l r : md_row l r -> exists m, re_search MD_RE l = Some m /\
  (v <- float_group m "val" ;; Ok (KStr (strip (group_s m "key")), v)) = Ok (KStr (fst (fst r)), float_of (snd r)) /\ normalise_key (fst (fst r)) = snd (fst r).
Proof.
  intros [a g c k g2 n s raw nm Ha Hg Hc Hk0 Hk Hg2 Hn Hf Hs Ht Hnm]. apply gap_iff in Hg as [Hg Hg0]. apply blanks_iff in Ha, Hg2. apply md_letters in Hk. apply letter_alpha in Hc.
  destruct (search_hit MD_RE a (concat [["x"%char]; g; c :: k; [":"%char]; g2; write_num n]) s [("val"%string, write_num n); ("key"%string, c :: k)]) as (m & Em & Ec).
  { apply skips_first; [reflexivity|]. revert Ha. apply forallb_imp. intros x Hx. revert x Hx. ascii_dec. }
  { unfold MD_RE. apply fp_seqs.
    eapply fpl_cons; [apply fp_char|].
    eapply fpl_cons; [apply fp_plus_chr; [exact Hg|exact Hg0|tidy; now apply alpha_not_space]|].
    eapply fpl_cons; [apply fp_grp; change (c :: k) with ([c] ++ k); eapply fp_seq; [now apply fp_chr|apply fp_plus_chr; [exact Hk|exact Hk0|tidy; reflexivity]]|].
    eapply fpl_cons; [apply fp_char|].
    eapply fpl_cons; [apply fp_star_chr; [exact Hg2|tidy; apply num_hd, fixed_ok, Hn]|].
    eapply fpl_cons; [apply fp_grp, fixed_fp; [exact Hn|tidy; now apply token_end_digit]|]. constructor. }
  exists m. split; [revert Em; tidy; auto|]. cbn [fst snd]. split; [|now apply named_key].
  rewrite (group_float m n); [|rewrite Ec; reflexivity|apply num_ok_wf, fixed_ok, Hn|exact Hf]. cbn [bind].
  assert (G : group_s m "key" = c :: k) by (unfold group_s; rewrite Ec; reflexivity). rewrite G, (trimmed_strip _ _ Ht). reflexivity.
Qed.
Lemma md_spec ls rows : laid md_row not_md ls rows -> exists d, process_md_block ls = Ok d /\ md_read rows d.
Proof.
  intros H. unfold process_md_block, dict_rows.
  rewrite (rows_laid md_row not_md _ _ (fun r => (KStr (fst (fst r)), float_of (snd r))) ls rows); [| | |exact H].
  2:{ intros l r Hr. destruct (md_match l r Hr) as (m & E & V & _). eauto. }
  2:{ intros l. intros Hl. destruct Hl as [Hl|Hl]; [apply (needs_search is_digit); [vm_compute; reflexivity|now apply lacks_digits]|].
      apply (needs_search (Ascii.eqb ":")); [vm_compute; reflexivity|]. apply (lacks_free ":"); [exact Hl|]. exact (among_one ":"). }
  cbn [rmap bind]. eexists. split; [reflexivity|].
  set (f := fun r : list ascii * list ascii * num => let '(raw, nm, n) := r in (KStr raw, (nm, n))).
  assert (E : map (fun r : list ascii * list ascii * num => (KStr (fst (fst r)), float_of (snd r))) rows = map (fun kv => (fst kv, float_of (snd (snd kv)))) (map f rows)).
  { rewrite map_map. apply map_ext. intros [[raw nm] n]. reflexivity. }
  rewrite E, (dict_of_mapv (fun v => float_of (snd v))). exists (dict_of key_eqb (map f rows)). split; [apply merged_dict_of, key_eqb_spec|].
  rewrite map_map. cbn [fst snd].
  assert (N : forall e, In e (dict_of key_eqb (map f rows)) -> exists raw nm n, e = (KStr raw, (nm, n)) /\ normalise_key raw = nm).
  { intros e He. assert (Hi : In e (map f rows)). { destruct e as [ke ve]. now apply (in_dict_of key_eqb key_eqb_spec). }
    apply in_map_iff in Hi as ([[raw nm] n] & <- & Hi). destruct (laid_in _ _ _ _ _ H Hi) as (l & Hr). exists raw, nm, n. split; [reflexivity|].
    destruct (md_match _ _ Hr) as (m & _ & _ & Z). exact Z. }
  assert (M : map (fun x : key * (list ascii * num) => (match fst x with KStr s => KStr (normalise_key s) | k => k end, float_of (snd (snd x)))) (dict_of key_eqb (map f rows)) =
              map (fun e => (KStr (fst (snd e)), float_of (snd (snd e)))) (dict_of key_eqb (map f rows))).
  { apply map_ext_in. intros e He. destruct (N e He) as (raw & nm & n & -> & Z). cbn [fst snd]. now rewrite Z. }
  rewrite M. apply merged_dict_of, key_eqb_spec.
Qed.

(** ** Fields between bars *)
Lemma bar_follow n g s : forallb is_space g = true -> follow_ok n (g ++ "|"%char :: s).
Proof.
  intros Hg. unfold follow_ok, follow_plain. destruct g as [|x g]; [destruct (n_exp n); reflexivity|]. cbn in Hg. apply andb_true_iff in Hg as [Hx _].
  destruct (n_exp n); cbn; [now apply space_not_digit|now apply space_not_mant_e].
Qed.
Lemma bar_prev p g n : forallb is_space g = true -> prev_ok (pa p ("|"%char :: g)) n.
Proof.
  intros Hg _ _. rewrite pa_rev. cbn [rev]. destruct (rev g) as [|y q] eqn:E; [discriminate|]. intros Z. injection Z as ->.
  rewrite forallb_forall in Hg. assert (Hi : In "."%char g) by (apply in_rev; rewrite E; now left). specialize (Hg _ Hi). discriminate.
Qed.
Definition bars (names : list string) : re := labelled_floats_gen bar REps (map (fun n => (n, None)) names).
Lemma fp_bar_field l p h g n s c : forallb is_space h = true -> forallb is_space g = true -> num_ok n -> follow_ok n s ->
  fp (labelled_float bar REps (l, None)) p (h ++ "|"%char :: g ++ write_num n) s c ((l, write_num n) :: c).
Proof.
  intros Hh Hg Hn Hs. cbn [labelled_float fst snd RSeqs].
  replace (h ++ "|"%char :: g ++ write_num n) with ((h ++ "|"%char :: g) ++ write_num n ++ []) by (rewrite app_nil_r, <- app_assoc; reflexivity).
  eapply fp_seq; [apply fp_bar; [exact Hh|exact Hg|rewrite app_nil_r; now apply num_hd]|].
  eapply fp_seq; [|apply fp_eps]. apply fp_grp. apply fp_NUMBER; [exact Hn|exact Hs|]. rewrite pa_app. now apply bar_prev.
Qed.
(** Fields, the last without the blanks after it. *)
Lemma fp_bars names : forall ns t h p s c, barred ns t -> length names = length ns -> names <> [] -> forallb is_space h = true ->
  exists u e, h ++ t = u ++ e /\ forallb is_space e = true /\ u <> [] /\ fp (bars names) p u (e ++ "|"%char :: s) c (row_caps names ns c).
Proof.
  induction names as [|l names IH]; intros ns t h p s c Ht Hl H0 Hh; [congruence|].
  destruct Ht as [|g n g' ns t Hg Hn Hg' Ht]; [discriminate|]. apply blanks_iff in Hg, Hg'. cbn [length] in Hl. injection Hl as Hl.
  destruct names as [|l' names].
  - destruct Ht; [|discriminate]. exists (h ++ "|"%char :: g ++ write_num n), g'. rewrite app_nil_r. split; [rewrite <- !app_assoc; cbn [app]; now rewrite <- app_assoc|]. split; [exact Hg'|].
    split; [destruct h; discriminate|]. apply fp_bar_field; auto. now apply bar_follow.
  - destruct (IH ns t g' (pa p (h ++ "|"%char :: g ++ write_num n)) s ((l, write_num n) :: c) Ht Hl) as (u & e & E & He & Hu & F); [discriminate|exact Hg'|].
    exists ((h ++ "|"%char :: g ++ write_num n) ++ u), e. split; [rewrite <- !app_assoc; cbn [app]; rewrite <- !app_assoc; now rewrite E|]. split; [exact He|].
    split; [destruct h; discriminate|]. unfold bars, labelled_floats_gen. cbn [map RSeqs]. eapply fp_seq; [|exact F]. apply fp_bar_field; auto.
    assert (Z : u ++ e ++ "|"%char :: s = g' ++ t ++ "|"%char :: s) by (rewrite app_assoc, <- E, <- app_assoc; reflexivity). rewrite Z.
    destruct Ht as [|g0 n0 g0' ns t Hg0 Hn0 Hg0' Ht]; [discriminate|]. cbn [app]. now apply bar_follow.
Qed.
Lemma den_bars names : forall p s c p' s' c', names <> [] -> den (bars names) p s c p' s' c' -> exists w t ns, s = w ++ t ++ s' /\ barred ns t /\ length ns = length names /\ forallb is_space w = true.
Proof.
  assert (One : forall l p s c p' s' c', den (labelled_float bar REps (l, None)) p s c p' s' c' ->
    exists h g n, forallb is_space h = true /\ forallb is_space g = true /\ num_ok n /\ s = h ++ "|"%char :: g ++ write_num n ++ s').
  { intros l p s c p' s' c' H. cbn [labelled_float snd fst RSeqs] in H. destruct H as (p1 & s1 & c1 & H1 & p2 & s2 & c2 & H2 & H3).
    cbn [den] in H3. destruct H3 as (-> & -> & ->). destruct H2 as (c3 & H2 & _). apply den_NUMBER in H2 as (n & Hn & -> & _).
    unfold bar in H1. cbn [RSeqs] in H1. destruct H1 as (p4 & s4 & c4 & H4 & p5 & s5 & c5 & H5 & H6). apply den_ws in H4 as (h & -> & Hh). apply den_ws in H6 as (g & -> & Hg).
    destruct H5 as (x & -> & Hx & _). apply Ascii.eqb_eq in Hx. subst x. exists h, g, n. auto. }
  induction names as [|l names IH]; intros p s c p' s' c' H0 D; [congruence|]. unfold bars, labelled_floats_gen in D. destruct names as [|l' names].
  - cbn [map RSeqs] in D. apply One in D as (h & g & n & Hh & Hg & Hn & ->). exists h, ("|"%char :: g ++ write_num n ++ [] ++ []), [n].
    split; [cbn [app]; rewrite <- app_assoc, app_nil_r; reflexivity|]. split; [|auto]. constructor; auto using bd_nil; [now apply blanks_iff|constructor].
  - cbn [map] in D. change (RSeqs (?a :: ?b :: ?l)) with (RSeq a (RSeqs (b :: l))) in D. destruct D as (p1 & s1 & c1 & D1 & D2).
    apply One in D1 as (h & g & n & Hh & Hg & Hn & ->). apply (IH p1 s1 c1) in D2 as (w & t & ns & -> & Ht & Hl & Hw); [|discriminate].
    exists h, ("|"%char :: g ++ write_num n ++ w ++ t), (n :: ns). split; [cbn [app]; rewrite <- !app_assoc; reflexivity|]. split; [|cbn [length]; auto].
    constructor; auto; now apply blanks_iff.
Qed.
Lemma den_seqs_fields names rest : names <> [] -> forall pre p s c p' s' c', den (RSeqs (pre ++ bars names :: rest)) p s c p' s' c' -> has_fields (length names) s.
Proof.
  intros H0. assert (L : forall p s c p' s' c', den (bars names) p s c p' s' c' -> has_fields (length names) s).
  { intros p s c p' s' c' D. apply den_bars in D as (w & t & ns & -> & Ht & Hl & _); [|exact H0]. exists w, t, s', ns. auto. }
  induction pre as [|r pre IH]; intros p s c p' s' c' D.
  - cbn [app] in D. destruct rest as [|r0 rest]; cbn [RSeqs] in D; [eauto|]. destruct D as (p1 & s1 & c1 & D & _). eauto.
  - assert (E : RSeqs ((r :: pre) ++ bars names :: rest) = RSeq r (RSeqs (pre ++ bars names :: rest))) by (destruct pre; reflexivity).
    rewrite E in D. destruct D as (p1 & s1 & c1 & D1 & D2). apply den_split in D1 as (w & ->). apply IH in D2 as (a & t & b & ns & -> & Ht & Hl).
    exists (w ++ a), t, b, ns. rewrite <- app_assoc. auto.
Qed.
Lemma no_fields_match pre names rest l : names <> [] -> ~ has_fields (length names) l -> re_match (RSeqs (pre ++ bars names :: rest)) l = None.
Proof. intros H0 H. apply nomatch_match_at, nomatch_den. intros p' s' c' D. apply H. eapply den_seqs_fields; [exact H0|exact D]. Qed.
Lemma barred_ok ns t : barred ns t -> Forall num_ok ns.
Proof. induction 1; constructor; auto. Qed.
Lemma nonblank_all w : (forall c, In c w -> ~ blank c) -> forallb (fun c => negb (is_space c)) w = true.
Proof. intros H. apply forallb_forall. intros c Hc. apply negb_true_iff. destruct (is_space c) eqn:E; [|reflexivity]. exfalso. apply (H c Hc). now apply blank_iff. Qed.
Lemma nonblank_hd w s : w <> [] -> (forall c, In c w -> ~ blank c) -> hd_not is_space (w ++ s).
Proof. intros H0 H. apply nonblank_all in H. destruct w as [|x w]; [congruence|]. cbn in H |- *. apply andb_true_iff in H as [H _]. now apply negb_true_iff. Qed.
Definition YES_RE : re := RAlt (RLit "No") (RLit "Yes").
Lemma fp_yes (b : bool) p s c : fp YES_RE p ($(if b then "Yes" else "No")) s c c.
Proof.
  destruct b; [|apply fp_alt_l, fp_lit]. apply fp_alt_r; [|apply fp_lit]. apply nomatch_den. intros p' s' c' D. apply den_lit in D as (E' & _). discriminate E'.
Qed.
Lemma step_match a g st t r x y z : blanks a -> blanks g -> free_of "|" st -> st <> [] -> (forall c u, st = c :: u -> ~ blank c) -> barred [x; y; z] t ->
  exists m, re_match GEOMOPT_MIN_TABLE_RE (a ++ "|"%char :: g ++ st ++ t ++ "|"%char :: r) = Some m /\
    m_caps m = row_caps ["lambda"; "fdelta"; "enthalpy"]%string [x; y; z] [("step"%string, st)].
Proof.
  intros Ha Hg Hst Hst0 Hhd Ht. apply blanks_iff in Ha, Hg.
  destruct (fp_bars ["lambda"; "fdelta"; "enthalpy"]%string _ t [] (pa (pa (pa (pa None a) ["|"%char]) g) st) r [("step"%string, st)] Ht) as (u & e & E & He & Hu & F); [reflexivity|discriminate|reflexivity|].
  cbn [app] in E. subst t.
  destruct (match_hit GEOMOPT_MIN_TABLE_RE (concat [a; ["|"%char]; g; st; u; e; ["|"%char]]) r (row_caps ["lambda"; "fdelta"; "enthalpy"]%string [x; y; z] [("step"%string, st)])) as (m & Em & Ec).
  { unfold GEOMOPT_MIN_TABLE_RE. apply fp_seqs.
    eapply fpl_cons; [apply fp_star_chr; [exact Ha|tidy; reflexivity]|].
    eapply fpl_cons; [apply fp_char|].
    eapply fpl_cons; [apply fp_star_chr; [exact Hg|tidy]|].
    { destruct st as [|q st]; [congruence|]. cbn. destruct (is_space q) eqn:B; [|reflexivity]. exfalso. apply (Hhd q st eq_refl). now apply blank_iff. }
    eapply fpl_cons; [apply fp_grp, fp_plus_chr; [|exact Hst0|tidy]|].
    { apply forallb_forall. intros q Hq. apply negb_true_iff. destruct (chr_in q (list_ascii_of_string "|")) eqn:B; [|reflexivity]. exfalso. apply (Hst q Hq).
      apply existsb_exists in B as (q' & Hq' & B). apply Ascii.eqb_eq in B. subst q'. exact Hq'. }
    { inversion Ht; subst. destruct u as [|q u]; [congruence|]. match goal with H : _ :: _ = (_ :: _) ++ _ |- _ => cbn [app] in H; injection H as <- _ end. reflexivity. }
    eapply fpl_cons; [tidy; exact F|].
    eapply fpl_cons; [apply fp_star_chr; [exact He|tidy; reflexivity]|].
    eapply fpl_cons; [apply fp_char|]. constructor. }
  exists m. split; [revert Em; tidy; auto|exact Ec].
Qed.
Lemma check_match a g par h t g2 unit g3 g4 (b : bool) g5 r v tol : blanks a -> blanks g -> par <> [] -> (forall c, In c par -> ~ blank c) -> gap h -> barred [v; tol] t ->
  blanks g2 -> unit <> [] -> (forall c, In c unit -> ~ blank c) -> gap g3 -> blanks g4 -> blanks g5 ->
  exists m, re_match GEOMOPT_TABLE_RE (a ++ "|"%char :: g ++ par ++ h ++ t ++ "|"%char :: g2 ++ unit ++ g3 ++ "|"%char :: g4 ++ $(if b then "Yes" else "No") ++ g5 ++ "|"%char :: r) = Some m /\
    m_caps m = ("converged"%string, $(if b then "Yes" else "No")) :: row_caps ["value"; "tolerance"]%string [v; tol] [("parameter"%string, par)].
Proof.
  intros Ha Hg Hp0 Hp Hh Ht Hg2 Hu0 Hu Hg3 Hg4 Hg5. apply gap_iff in Hh as [Hh Hh0], Hg3 as [Hg3 Hg30]. apply blanks_iff in Ha, Hg, Hg2, Hg4, Hg5.
  set (w := $(if b then "Yes" else "No")).
  set (rest := g2 ++ unit ++ g3 ++ "|"%char :: g4 ++ w ++ g5 ++ "|"%char :: r).
  destruct (fp_bars ["value"; "tolerance"]%string _ t h (pa (pa (pa (pa None a) ["|"%char]) g) par) rest [("parameter"%string, par)] Ht) as (u & e & E & He & Hu' & F); [reflexivity|discriminate|exact Hh|].
  assert (Hw : hd_not is_space (w ++ g5 ++ "|"%char :: r)) by (unfold w; destruct b; reflexivity).
  destruct (match_hit GEOMOPT_TABLE_RE (concat [a; ["|"%char]; g; par; u; e ++ "|"%char :: g2; unit; g3 ++ "|"%char :: g4; w; g5; ["|"%char]]) r
     (("converged"%string, w) :: row_caps ["value"; "tolerance"]%string [v; tol] [("parameter"%string, par)])) as (m & Em & Ec).
  { unfold GEOMOPT_TABLE_RE. apply fp_seqs.
    eapply fpl_cons; [apply fp_star_chr; [exact Ha|tidy; reflexivity]|].
    eapply fpl_cons; [apply fp_char|].
    eapply fpl_cons; [apply fp_star_chr; [exact Hg|tidy; now apply nonblank_hd]|].
    eapply fpl_cons; [apply fp_grp, fp_plus_chr; [now apply nonblank_all|exact Hp0|tidy]|].
    { rewrite app_assoc, <- E, <- app_assoc. apply hd_gap; [intros c ->; reflexivity|exact Hh|exact Hh0]. }
    eapply fpl_cons; [tidy; exact F|].
    eapply fpl_cons; [apply fp_bar; [exact He|exact Hg2|tidy; now apply nonblank_hd]|].
    eapply fpl_cons; [apply fp_plus_chr; [now apply nonblank_all|exact Hu0|tidy; apply hd_gap; [intros c ->; reflexivity|exact Hg3|exact Hg30]]|].
    eapply fpl_cons; [apply fp_bar; [exact Hg3|exact Hg4|tidy; exact Hw]|].
    eapply fpl_cons; [apply fp_grp; exact (fp_yes b _ _ _)|].
    eapply fpl_cons; [apply fp_star_chr; [exact Hg5|tidy; reflexivity]|].
    eapply fpl_cons; [apply fp_char|]. constructor. }
  exists m. split; [|exact Ec]. assert (Z : h ++ t ++ "|"%char :: rest = u ++ e ++ "|"%char :: rest) by (rewrite app_assoc, E, <- app_assoc; reflexivity).
  rewrite Z. unfold rest. revert Em. tidy. auto.
Qed.
Lemma geom_row_line l e d : geom_row l e -> geom_line d l = Ok (dupdate key_eqb d [e]).
Proof.
  intros [a g st t r nm x y z Ha Hg Hst Hst0 Hhd Ht Hf Hn|a g par h t g2 unit g3 g4 b g5 r nm v tol l' El Ha Hg Hp0 Hp Hh Ht Hf Hg2 Hu0 Hu Hg3 Hg4 Hg5 Hn Hno].
  - destruct (step_match a g st t r x y z Ha Hg Hst Hst0 Hhd Ht) as (m & Em & Ec). unfold geom_line. rewrite Em.
    assert (E : groupdict GEOMOPT_MIN_TABLE_RE m = (kstr "step", VStr st) :: combine (map kstr ["lambda"; "fdelta"; "enthalpy"]%string) (map (fun n => VStr (write_num n)) [x; y; z])).
    { unfold groupdict. rewrite Ec. reflexivity. }
    rewrite E. assert (G : group_s m "step" = st) by (unfold group_s; rewrite Ec; reflexivity). rewrite G, (words_string _ _ Hn).
    pose proof (Forall_wf _ (barred_ok _ _ Ht)) as W. inversion W as [|? ? W1 W']; subst. inversion W' as [|? ? W2 W'']; subst. inversion W'' as [|? ? W3 _]; subst.
    inversion Hf as [|? ? F1 F']; subst. inversion F' as [|? ? F2 F'']; subst. inversion F'' as [|? ? F3 _]; subst.
    unfold as_floats. cbn [map combine].
    rewrite (fix_step _ _ _ _ (VStr (write_num x)) (float_of x)); [|reflexivity|now apply type_float].
    rewrite (fix_step _ _ _ _ (VStr (write_num y)) (float_of y)); [|reflexivity|now apply type_float].
    rewrite (fix_step _ _ _ _ (VStr (write_num z)) (float_of z)); [|reflexivity|now apply type_float]. reflexivity.
  - unfold geom_line. assert (N : re_match GEOMOPT_MIN_TABLE_RE l' = None).
    { apply (no_fields_match [ws_star; RChar "|"; ws_star; RGrp "step" (RPlus (c_notof "|"))] ["lambda"; "fdelta"; "enthalpy"]%string); [discriminate|exact Hno]. }
    rewrite N. destruct (check_match a g par h t g2 unit g3 g4 b g5 r v tol Ha Hg Hp0 Hp Hh Ht Hg2 Hu0 Hu Hg3 Hg4 Hg5) as (m & Em & Ec).
    unfold text_of in El. rewrite <- El in Em. rewrite Em.
    assert (E : groupdict GEOMOPT_TABLE_RE m = [(kstr "parameter", VStr par); (kstr "value", VStr (write_num v)); (kstr "tolerance", VStr (write_num tol)); (kstr "converged", VStr ($(if b then "Yes" else "No")))]).
    { unfold groupdict. rewrite Ec. reflexivity. }
    rewrite E. assert (G : group_s m "parameter" = par) by (unfold group_s; rewrite Ec; reflexivity).
    assert (G' : group_s m "converged" = $(if b then "Yes" else "No")) by (unfold group_s; rewrite Ec; reflexivity). rewrite G, G', (named_key _ _ Hn).
    pose proof (Forall_wf _ (barred_ok _ _ Ht)) as W. inversion W as [|? ? W1 W']; subst. inversion W' as [|? ? W2 _]; subst.
    inversion Hf as [|? ? F1 F']; subst. inversion F' as [|? ? F2 _]; subst.
    unfold as_floats. cbn [map].
    rewrite (fix_step _ _ _ _ (VStr (write_num v)) (float_of v)); [|reflexivity|now apply type_float].
    rewrite (fix_step _ _ _ _ (VStr (write_num tol)) (float_of tol)); [|reflexivity|now apply type_float]. destruct b; reflexivity.
Qed.
Lemma barred_first k ns t : barred ns t -> length ns = S k -> exists ns1 t1 t2, t = t1 ++ t2 /\ barred ns1 t1 /\ length ns1 = k.
Proof.
  intros H. revert k. induction H as [|g n g' ns t Hg Hn Hg' Ht IH]; intros k Hk; [discriminate|]. cbn [length] in Hk. injection Hk as Hk. destruct k as [|k].
  - exists [], [], ("|"%char :: g ++ write_num n ++ g' ++ t). repeat split. constructor.
  - destruct (IH k Hk) as (ns1 & t1 & t2 & -> & H1 & H2). exists (n :: ns1), ("|"%char :: g ++ write_num n ++ g' ++ t1), t2.
    split; [cbn [app]; now rewrite <- !app_assoc|]. split; [now constructor|cbn; congruence].
Qed.
Lemma geom_other l d : not_geom l -> geom_line d l = Ok d.
Proof.
  intros H. unfold geom_line.
  assert (N1 : re_match GEOMOPT_MIN_TABLE_RE l = None).
  { apply (no_fields_match [ws_star; RChar "|"; ws_star; RGrp "step" (RPlus (c_notof "|"))] ["lambda"; "fdelta"; "enthalpy"]%string); [discriminate|].
    intros (a & t & b & ns & -> & Ht & Hl). destruct (barred_first 2 ns t Ht Hl) as (ns1 & t1 & t2 & -> & H1 & H2). apply H.
    exists a, t1, (t2 ++ b), ns1. rewrite <- app_assoc. auto. }
  assert (N2 : re_match GEOMOPT_TABLE_RE l = None).
  { apply (no_fields_match [ws_star; RChar "|"; ws_star; RGrp "parameter" (RPlus c_nspace)] ["value"; "tolerance"]%string); [discriminate|exact H]. }
  now rewrite N1, N2.
Qed.
Lemma geom_spec ls es : laid geom_row not_geom ls es -> exists d, process_geom_table ls = Ok d /\ merged es d.
Proof.
  intros H. destruct (laid_merged geom_row not_geom geom_line (fun e => [e]) ls es) as (d & E & M); [intros l a d; apply geom_row_line|intros l d; apply geom_other|exact H|].
  exists d. split; [exact E|]. now rewrite flat_one in M.
Qed.

(** ** Band structures *)
Lemma fp_labelled_any names : forall ns t p s c, columns ns t -> length names = length ns -> (forall n, follow_ok n s) -> fp (labelled_floats names) p t s c (row_caps names ns c).
Proof.
  induction names as [|l names IH]; intros ns t p s c Ht Hl Hs.
  - destruct Ht; [|discriminate]. apply fp_eps.
  - destruct Ht as [|g n ns t Hg Hg0 Hn Ht]; [discriminate|]. apply blanks_iff in Hg. cbn [length] in Hl. injection Hl as Hl.
    unfold labelled_floats, labelled_floats_gen. destruct names as [|l' names].
    + destruct Ht; [|discriminate]. cbn [map RSeqs]. rewrite app_nil_r. apply fp_labelled1; auto.
    + cbn [map RSeqs]. rewrite app_assoc. eapply fp_seq; [|apply (IH ns t); auto]. apply fp_labelled1; auto.
      destruct Ht as [|g0 n0 ns t Hg1 Hg10 Hn0 Ht]; [discriminate|]. apply blanks_iff in Hg1. rewrite <- app_assoc. now apply token_end_follow, gap_token.
Qed.
Lemma prev_digit p g w : forallb is_space g = true -> last w "."%char <> "."%char -> w <> [] -> pa (pa p w) g <> Some "."%char.
Proof.
  intros Hg Hw H0. rewrite pa_rev. destruct (rev g) as [|y q] eqn:E.
  - rewrite pa_rev. destruct w as [|x w _] using rev_ind; [congruence|]. rewrite rev_app_distr. cbn [rev app]. rewrite last_last in Hw. congruence.
  - intros Z. injection Z as ->. rewrite forallb_forall in Hg. assert (Hi : In "."%char g) by (apply in_rev; rewrite E; now left). specialize (Hg _ Hi). discriminate.
Qed.
Lemma paren_follow n s : follow_ok n (")"%char :: s).
Proof. unfold follow_ok, follow_plain. destruct (n_exp n); reflexivity. Qed.
Lemma hd_mant_blanks g x s : forallb is_space g = true -> is_mant x = false -> hd_not is_mant (g ++ x :: s).
Proof. intros. apply hd_blanks; auto using space_not_mant. Qed.
Lemma head_match l h : head_row l h -> exists m, re_search BS_RE l = Some m /\
  m_caps m = ("kpgrp"%string, write_digits (bh_group h)) :: row_caps ["kx"; "ky"; "kz"]%string (bh_k h) [("spin"%string, write_digits (bh_spin h))].
Proof.
  intros [a g1 g2 g3 kd g4 t g5 g6 s h' Ha Hg1 Hs1 Hg2 Hg3 Hk Hg4 Ht Hl Hf Hg5 Hg6 Hs2 Hs]. apply blanks_iff in Hg1, Hg2, Hg3, Hg4, Hg5, Hg6.
  destruct (search_hit BS_RE a (concat [$"Spin="; g1; write_digits (bh_spin h'); g2; $"kpt="; g3; write_digits kd; g4; ["("%char]; t; [")"%char]; g5; $"kpt-group="; g6; write_digits (bh_group h')]) s
    (("kpgrp"%string, write_digits (bh_group h')) :: row_caps ["kx"; "ky"; "kz"]%string (bh_k h') [("spin"%string, write_digits (bh_spin h'))])) as (m & Em & Ec).
  { apply skips_first; [reflexivity|]. apply forallb_forall. intros c Hc. apply negb_true_iff. destruct (first BS_RE c) eqn:E; [|reflexivity]. exfalso. apply (Ha c Hc).
    assert (G : forall c, first BS_RE c = true -> Ascii.eqb c "S"%char = true) by ascii_dec. apply G, Ascii.eqb_eq in E. subst c. now left. }
  { unfold BS_RE. apply fp_seqs.
    eapply fpl_cons; [apply fp_lit|].
    eapply fpl_cons; [apply fp_star_chr; [exact Hg1|tidy; apply digits_hd; [exact Hs1|exact digit_not_space]]|].
    eapply fpl_cons; [apply fp_grp, (fp_INT NoSign); [exact Hs1|tidy; now apply hd_mant_blanks|intros _; apply prev_digit; [exact Hg1|discriminate|discriminate]]|].
    eapply fpl_cons; [apply fp_star_chr; [exact Hg2|tidy; reflexivity]|].
    eapply fpl_cons; [apply fp_lit|].
    eapply fpl_cons; [apply fp_star_chr; [exact Hg3|tidy; apply digits_hd; [exact Hk|exact digit_not_space]]|].
    eapply fpl_cons; [apply (fp_INT NoSign); [exact Hk|tidy; now apply hd_mant_blanks|intros _; apply prev_digit; [exact Hg3|discriminate|discriminate]]|].
    eapply fpl_cons; [apply fp_star_chr; [exact Hg4|tidy; reflexivity]|].
    eapply fpl_cons; [apply fp_char|].
    eapply fpl_cons; [apply fp_labelled_any; [exact Ht|now rewrite Hl|tidy; intros n; apply paren_follow]|].
    eapply fpl_cons; [apply fp_char|].
    eapply fpl_cons; [apply fp_star_chr; [exact Hg5|tidy; reflexivity]|].
    eapply fpl_cons; [apply fp_lit|].
    eapply fpl_cons; [apply fp_star_chr; [exact Hg6|tidy; apply digits_hd; [exact Hs2|exact digit_not_space]]|].
    eapply fpl_cons; [apply fp_grp, (fp_INT NoSign); [exact Hs2|tidy|intros _; apply prev_digit; [exact Hg6|discriminate|discriminate]]|constructor].
    destruct s as [|x s]; [reflexivity|]. apply space_not_mant, blank_iff. now apply (Hs x s). }
  exists m. split; [revert Em; tidy; auto|exact Ec].
Qed.
Lemma den_band p s c p' s' c' : den BAND_RE p s c p' s' c' -> exists g n g2 n2, forallb is_space g = true /\ g <> [] /\ num_ok n /\ forallb is_space g2 = true /\ g2 <> [] /\ num_ok n2 /\
  s = g ++ write_num n ++ g2 ++ write_num n2 ++ s'.
Proof.
  intros D. unfold BAND_RE, labelled_floats_gen in D. cbn [map RSeqs labelled_float fst snd] in D.
  destruct D as (p1 & s1 & c1 & (p2 & s2 & c2 & D1 & p3 & s3 & c3 & (c4 & D2 & _) & D3) & p5 & s5 & c5 & D4 & p6 & s6 & c6 & (c7 & D5 & _) & D6).
  cbn [den] in D3, D6. destruct D3 as (-> & -> & ->), D6 as (-> & -> & ->).
  apply den_rep_chr in D1 as (g & -> & Hg0 & _ & Hg & _), D4 as (g2 & -> & Hg20 & _ & Hg2 & _). apply den_NUMBER in D2 as (n & Hn & -> & _), D5 as (n2 & Hn2 & -> & _).
  assert (H1 : g <> []) by (intros ->; cbn in Hg0; lia). assert (H2 : g2 <> []) by (intros ->; cbn in Hg20; lia). exists g, n, g2, n2. auto 10.
Qed.
Lemma band_none l : ~ has_columns 2 l -> re_search BAND_RE l = None.
Proof.
  intros H. destruct (re_search BAND_RE l) as [x|] eqn:E; [|reflexivity]. exfalso. apply H. unfold re_search in E. destruct (search_from BAND_RE None l) as [[pre y]|] eqn:E'; [|discriminate].
  apply search_sound in E' as (s0 & El & -> & D).
  apply den_band in D as (g & n & g2 & n2 & Hg & Hg0 & Hn & Hg2 & Hg20 & Hn2 & Z). exists pre, (g ++ write_num n ++ g2 ++ write_num n2 ++ []), (m_rest y), [n; n2].
  split; [rewrite El, Z, app_nil_r, <- !app_assoc; reflexivity|]. split; [|reflexivity]. apply blanks_iff in Hg, Hg2. constructor; auto. constructor; auto. constructor.
Qed.
Lemma bare_plus n g s s' : num_ok n -> forallb is_space g = true -> g <> [] -> write_num n ++ s <> "+"%char :: g ++ s'.
Proof.
  intros Hn Hg Hg0 E. destruct g as [|y g]; [congruence|]. cbn in Hg. apply andb_true_iff in Hg as [Hy _].
  destruct Hn as [Hw [Hw' _]]. destruct n as [sg i f e]. cbn in Hw, Hw'. unfold write_num in E. cbn [n_sign n_int n_frac n_exp] in E.
  destruct sg; cbn [write_sign app] in E; try discriminate.
  - destruct i as [|d i]; cbn [write_digits map app] in E; [|injection E as E _; destruct d; discriminate]. destruct f as [f|]; cbn [app] in E; [discriminate|]. now destruct Hw'.
  - injection E as E. destruct i as [|d i]; cbn [write_digits map app] in E; [|injection E as E _; subst y; destruct d; discriminate]. destruct f as [f|]; cbn [app] in E; [injection E as E _; subst y; discriminate|]. now destruct Hw'.
Qed.
Lemma band_skips g s : forallb is_space g = true -> g <> [] -> forall a p, forallb is_space a = true -> skips BAND_RE p (a ++ ["+"%char]) (g ++ s).
Proof.
  intros Hg Hg0. induction a as [|x a IH]; intros p Ha.
  - cbn [app skips]. split; [|exact I]. apply nomatch_den. intros p' s' c' D. apply den_band in D as (g1 & n & g2 & n2 & Hg1 & Hg10 & _ & _ & _ & _ & E).
    destruct g1 as [|y g1]; [congruence|]. injection E as E _. subst y. discriminate.
  - cbn in Ha. apply andb_true_iff in Ha as [Hx Ha]. cbn [app skips]. split; [|now apply IH]. apply nomatch_den. intros p' s' c' D.
    apply den_band in D as (g1 & n & g2 & n2 & Hg1 & Hg10 & Hn & Hg2 & Hg20 & Hn2 & E).
    pose proof (num_hd n (g2 ++ write_num n2 ++ s') Hn) as H. destruct (write_num n ++ g2 ++ write_num n2 ++ s') as [|z q] eqn:Ez.
    { apply (f_equal (@length ascii)) in Ez. rewrite !app_length in Ez. pose proof (write_num_nonempty n Hn). destruct (write_num n); [congruence|discriminate]. }
    cbn in H. rewrite <- app_assoc in E. cbn [app] in E. destruct (run_unique is_space (x :: a) g1 "+"%char z (g ++ s) q) as (_ & <- & E3); auto.
    { cbn. now rewrite Hx, Ha. }
    rewrite <- E3 in Ez. now apply (bare_plus n g (g2 ++ write_num n2 ++ s') s Hn) in Ez.
Qed.
Lemma band_fp b e t p s : columns [b; e] t -> token_end s -> fp BAND_RE p t s [] [("energy"%string, write_num e); ("band"%string, write_num b)].
Proof.
  intros Ht Hs. inversion Ht as [|g n ns t' Hg Hg0 Hn Ht' E1]; subst. inversion Ht' as [|g' n' ns' t'' Hg' Hg0' Hn' Ht'']; subst. inversion Ht''; subst.
  apply blanks_iff in Hg, Hg'. unfold BAND_RE, labelled_floats_gen. cbn [map RSeqs labelled_float fst snd]. rewrite app_nil_r, app_assoc.
  eapply fp_seq.
  - eapply fp_seq; [apply fp_plus_chr; [exact Hg|exact Hg0|rewrite <- app_assoc; now apply num_hd]|]. rewrite <- (app_nil_r (write_num b)) at 1.
    eapply fp_seq; [apply fp_grp, fp_NUMBER; [exact Hn|cbn [app]; rewrite <- app_assoc; now apply token_end_follow, gap_token|now apply prev_ok_space]|apply fp_eps].
  - eapply fp_seq; [apply fp_plus_chr; [exact Hg'|exact Hg0'|now apply num_hd]|]. rewrite <- (app_nil_r (write_num e)) at 1.
    eapply fp_seq; [apply fp_grp, fp_NUMBER; [exact Hn'|now apply token_end_follow|now apply prev_ok_space]|apply fp_eps].
Qed.
Lemma no_head l : ~ mentions "kpt-group=" l -> re_search BS_RE l = None.
Proof.
  intros H. destruct (re_search BS_RE l) as [x|] eqn:E; [|reflexivity]. exfalso. apply H.
  assert (T : re_test BS_RE l = true) by (unfold re_test; now rewrite E). apply (must_search (fun c => c) [$"kpt-group="]) in T; [|vm_compute; reflexivity].
  destruct T as (w & [<-|[]] & T). rewrite map_id in T. now apply mention_contains.
Qed.
Lemma band_match l r : band_row l r -> re_search BS_RE l = None /\ exists m, re_search BAND_RE l = Some m /\ m_caps m = [("energy"%string, write_num (snd r)); ("band"%string, write_num (fst r))].
Proof.
  intros [a t s b e Ha Ht Hb He Hs Hm]. apply blanks_iff in Ha. split.
  - now apply no_head.
  - destruct (search_hit BAND_RE (a ++ ["+"%char]) t s [("energy"%string, write_num e); ("band"%string, write_num b)]) as (m & Em & Ec).
    + inversion Ht as [|g n ns t' Hg Hg0 Hn Ht' E1]; subst. apply blanks_iff in Hg. rewrite <- app_assoc. now apply band_skips.
    + now apply band_fp.
    + exists m. split; [rewrite <- app_assoc in Em; exact Em|exact Ec].
Qed.
Lemma band_other l : not_bands l -> re_search BS_RE l = None /\ re_search BAND_RE l = None.
Proof.
  intros [H|[H1 H2]].
  - split; apply (needs_search is_digit); try reflexivity; now apply lacks_digits.
  - split; [now apply no_head|now apply band_none].
Qed.

Definition band_dict (h : band_head) (rows : list (num * num)) : dict :=
  [(kstr "band", VList (map (fun r => VStr (write_num (fst r))) rows)); (kstr "energy", VList (map (fun r => VStr (write_num (snd r))) rows)); (kstr "spin", VStr (write_digits (bh_spin h)))] ++
  map (fun nk => (kstr (fst nk), VStr (write_num (snd nk)))) (combine ["kx"; "ky"; "kz"]%string (bh_k h)) ++ [(kstr "kpgrp", VStr (write_digits (bh_group h)))].
Lemma list_type {A} t (f g : A -> pyval) ms : (forall m, In m ms -> to_type t (f m) = Ok (g m)) -> to_type t (VList (map f ms)) = Ok (VTuple (map g ms)).
Proof. intros H. cbn [to_type]. rewrite (TypeConvFacts.mapM_map _ _ g); [reflexivity|exact H]. Qed.
Definition head_ok (h : band_head) : Prop := bh_spin h <> [] /\ length (bh_k h) = 3%nat /\ all_fit (bh_k h) /\ Forall num_wf (bh_k h) /\ bh_group h <> [].
Definition band_ok (r : num * num) : Prop := is_int (fst r) /\ num_wf (fst r) /\ num_wf (snd r) /\ fits (num_value (snd r)).
Lemma band_step bands h rows l r : band_row l r -> bs_line (bands, band_dict h rows) l = Ok (bands, band_dict h (rows ++ [r])).
Proof.
  intros H. destruct (band_match _ _ H) as (E & m & Em & Ec). unfold bs_line. rewrite E, Em. unfold group. rewrite Ec. unfold band_dict. cbn. rewrite !map_app. reflexivity.
Qed.
Lemma band_skip st l : not_bands l -> bs_line st l = Ok st.
Proof. intros H. destruct (band_other _ H) as [E1 E2]. unfold bs_line. rewrite E1, E2. now destruct st. Qed.
Lemma head_row_ok l h : head_row l h -> head_ok h.
Proof. intros [a g1 g2 g3 kd g4 t g5 g6 s h' Ha Hg1 Hs1 Hg2 Hg3 Hk Hg4 Ht Hl Hf Hg5 Hg6 Hs2 Hs]. unfold head_ok. pose proof (Forall_wf _ (CellFacts.columns_ok _ _ Ht)). auto 10. Qed.
Lemma band_head_line bands q l h : head_row l h -> bs_line (bands, q) l = (bands <- keep_bs bands q ;; Ok (bands, band_dict h [])).
Proof.
  intros H. destruct (head_match _ _ H) as (m & Em & Ec). unfold bs_line. rewrite Em. destruct (keep_bs bands q) as [bb|ee]; [|reflexivity]. cbn [bind].
  destruct (head_row_ok _ _ H) as (_ & Hl & _). unfold groupdict. rewrite Ec. unfold band_dict.
  destruct (bh_k h) as [|n1 [|n2 [|n3 [|? ?]]]]; try discriminate Hl. reflexivity.
Qed.
Lemma type_digits ds : ds <> [] -> to_type TInt (VStr (write_digits ds)) = Ok (VInt (decimal ds)).
Proof. intros H. cbn. now rewrite py_int_digits. Qed.
Lemma band_keep bands h rows : head_ok h -> Forall band_ok rows -> keep_bs bands (band_dict h rows) = Ok (bands ++ [bands_read (h, rows)]).
Proof.
  intros (H1 & H2 & H3 & H4 & H5) R. rewrite Forall_forall in R. destruct h as [sp ks gr]. cbn [bh_spin bh_k bh_group] in *.
  destruct ks as [|n1 [|n2 [|n3 [|? ?]]]]; try discriminate H2.
  repeat match goal with H : Forall num_wf (_ :: _) |- _ => inversion H; clear H; subst | H : all_fit (_ :: _) |- _ => inversion H; clear H; subst | H : Forall (fun n => fits _) (_ :: _) |- _ => inversion H; clear H; subst end.
  unfold keep_bs. cbn [isempty band_dict app]. unfold bs_types, band_dict. cbn [bh_spin bh_k bh_group].
  erewrite fix_step; [|reflexivity|apply type_digits; exact H1]. cbn [app combine map fst snd dset key_eqb].
  erewrite fix_step; [|reflexivity|apply type_float; assumption].
  erewrite fix_step; [|reflexivity|apply type_float; assumption].
  erewrite fix_step; [|reflexivity|apply type_float; assumption].
  erewrite fix_step; [|reflexivity|apply type_digits; exact H5].
  erewrite fix_step; [|reflexivity|apply (list_type _ _ (fun r => VInt (int_value (fst r))));
    intros r Hr; destruct (R _ Hr) as (Z1 & Z2 & _ & _); apply to_int; [exact Z2|exact Z1]].
  erewrite fix_step; [|reflexivity|apply (list_type _ _ (fun r => float_of (snd r))); intros r Hr; destruct (R _ Hr) as (_ & _ & Z1 & Z2); apply type_float; [exact Z1|exact Z2]].
  reflexivity.
Qed.
Lemma band_row_ok l r : band_row l r -> band_ok r.
Proof.
  intros [a t s b e Ha Ht Hb He Hs Hm]. pose proof (Forall_wf _ (CellFacts.columns_ok _ _ Ht)) as W. inversion W as [|? ? W1 W2]; subst. inversion W2; subst. unfold band_ok. cbn [fst snd]. auto.
Qed.
Lemma band_rows_fold bands h : forall ls rows, laid band_row not_bands ls rows -> forall done, foldM bs_line ls (bands, band_dict h done) = Ok (bands, band_dict h (done ++ rows)).
Proof.
  intros ls rows H. induction H as [|l r ls rows H _ IH|l ls rows H _ IH]; intros done; cbn [foldM].
  - now rewrite app_nil_r.
  - rewrite (band_step _ _ _ _ r) by exact H. cbn [bind]. rewrite IH, <- app_assoc. reflexivity.
  - rewrite band_skip by exact H. cbn [bind]. apply IH.
Qed.
Lemma laid_Forall {R} (row : str -> R -> Prop) other (P : R -> Prop) : (forall l r, row l r -> P r) -> forall ls rows, laid row other ls rows -> Forall P rows.
Proof. intros H ls rows L. induction L; eauto. Qed.
Lemma bands_fold ls bs : band_lines ls bs -> forall bands q done, keep_bs bands q = Ok done ->
  (' (bands, q) <- foldM bs_line ls (bands, q) ;; keep_bs bands q) = Ok (done ++ map bands_read bs).
Proof.
  induction 1 as [|l h ls rows more bs Hh Hr _ IH]; intros bands q done K.
  - cbn [foldM bind map]. now rewrite K, app_nil_r.
  - cbn [foldM]. rewrite (band_head_line _ _ _ _ Hh), K. cbn [bind]. rewrite foldM_app, (band_rows_fold done h _ _ Hr []). cbn [bind app].
    rewrite (IH done (band_dict h rows) (done ++ [bands_read (h, rows)])); [cbn [map]; now rewrite <- app_assoc|].
    apply band_keep; [eapply head_row_ok; eassumption|eapply laid_Forall; [exact band_row_ok|exact Hr]].
Qed.
Lemma bands_spec os ls bs : Forall not_bands os -> band_lines ls bs -> process_band_structure (os ++ ls) = Ok (map bands_read bs).
Proof.
  intros Ho H. unfold process_band_structure. rewrite foldM_app. assert (E : foldM bs_line os ([], []) = Ok ([], [])).
  { induction Ho as [|l os Hl _ IH]; [reflexivity|]. cbn [foldM]. now rewrite band_skip. }
  rewrite E. cbn [bind]. now apply (bands_fold _ _ H [] [] []).
Qed.
(** A row of a band before any heading stops the reading. *)
Lemma bands_orphan os l r ls : Forall not_bands os -> band_row l r -> process_band_structure (os ++ l :: ls) = Err KeyError.
Proof.
  intros Ho H. unfold process_band_structure. rewrite foldM_app. assert (E : foldM bs_line os ([], []) = Ok ([], [])).
  { induction Ho as [|l' os Hl _ IH]; [reflexivity|]. cbn [foldM]. now rewrite band_skip. }
  rewrite E. cbn [bind foldM]. destruct (band_match _ _ H) as (E1 & m & Em & Ec). unfold bs_line. rewrite E1, Em. reflexivity.
Qed.
