(** Facts about files made of delimited blocks and their header. *)
From Coq Require Import QArith Qreduction.
From Verif Require Import PyBase PyFacts PyVal Regex RegexFacts RegexComplete CastepRes NumSpec NumFacts NumProps
  StrUtil SpecStr StrUtilFacts SpecLine SpecType TypeConv TypeConvFacts IntStr DictUtil SpecDict DictFacts Stream StreamFacts
  SpecTable ColumnFacts TextParsers TextParsersFacts Header HeaderFacts SpecMd MdFacts SpecBands BandsFacts NeedFacts SpecCastep CastepBlocks CastepFacts
  SpecFiles TextFiles.
From Verif Require CellFacts CellPosFacts CellBlockFacts.
Local Open Scope list_scope.
Local Open Scope nat_scope.

(** ** Counting words *)
Fixpoint starts (b : bool) (s : str) : nat :=
  match s with
  | [] => 0
  | c :: s' => if is_space c then starts true s' else (if b then 1 else 0) + starts false s'
  end.
Fixpoint after (b : bool) (s : str) : bool := match s with [] => b | c :: s' => after (is_space c) s' end.
Lemma starts_app b y z : starts b (y ++ z) = starts b y + starts (after b y) z.
Proof.
  revert b. induction y as [|c y IH]; intros b; [reflexivity|]. cbn. destruct (is_space c) eqn:E; rewrite IH; lia.
Qed.
Lemma after_app b y z : after b (y ++ z) = after (after b y) z.
Proof. revert b. induction y; intros b; cbn; auto. Qed.
Lemma starts_blank b g : forallb is_space g = true -> starts b g = 0.
Proof. revert b. induction g as [|c g IH]; intros b; [reflexivity|]. cbn. intros H. apply andb_prop in H as [H1 H2]. rewrite H1. auto. Qed.
Lemma after_blank b g : forallb is_space g = true -> g <> [] -> after b g = true.
Proof.
  revert b. induction g as [|c g IH]; intros b H Hg; [congruence|]. cbn in *. apply andb_prop in H as [H1 H2]. rewrite H1.
  destruct g; [reflexivity|]. apply IH; [exact H2|discriminate].
Qed.
Lemma starts_word w : forallb (fun c => negb (is_space c)) w = true -> starts false w = 0.
Proof. induction w as [|c w IH]; [reflexivity|]. cbn. intros H. apply andb_prop in H as [H1 H2]. apply negb_true_iff in H1. rewrite H1. auto. Qed.
Lemma starts_word1 w : forallb (fun c => negb (is_space c)) w = true -> w <> [] -> starts true w = 1.
Proof. destruct w as [|c w]; [congruence|]. cbn. intros H _. apply andb_prop in H as [H1 H2]. apply negb_true_iff in H1. rewrite H1, starts_word; auto. Qed.
Lemma after_word b w : forallb (fun c => negb (is_space c)) w = true -> w <> [] -> after b w = false.
Proof.
  revert b. induction w as [|c w IH]; intros b H Hg; [congruence|]. cbn in *. apply andb_prop in H as [H1 H2]. apply negb_true_iff in H1. rewrite H1.
  destruct w; [reflexivity|]. apply IH; [exact H2|discriminate].
Qed.
Lemma starts_columns ns t : columns ns t -> forall b, starts b t = length ns.
Proof.
  induction 1 as [|g n ns t Hg Hg0 Hn Ht IH]; intros b; [reflexivity|]. apply blanks_iff in Hg.
  rewrite !starts_app, (starts_blank _ _ Hg), (after_blank _ _ Hg Hg0), starts_word1, IH; [reflexivity|apply num_chars_nonspace|].
  now apply write_num_nonempty.
Qed.
Lemma starts_suffix p y b : starts b y <= starts true (p ++ y).
Proof.
  rewrite starts_app. assert (M : forall y, starts false y <= starts true y <= 1 + starts false y).
  { intros z. destruct z as [|c z]; cbn; [lia|]. destruct (is_space c); lia. }
  assert (M' : starts b y <= starts true y) by (destruct b; [lia|apply M]).
  destruct (after true p) eqn:E; [lia|]. assert (P : 1 <= starts true p).
  { destruct p as [|c p]; [discriminate|]. clear -E. revert E. generalize (c :: p). clear. intros p. assert (G : forall b, after b p = false -> b = true -> 1 <= starts b p).
    { induction p as [|c p IH]; intros b; cbn; [congruence|]. destruct (is_space c) eqn:Ec; intros H ->; [auto|lia]. }
    intros H. now apply G. }
  pose proof (M y). lia.
Qed.
Lemma columns_few k line : has_columns k line -> k <= starts true line.
Proof.
  intros (a & t & b & ns & -> & Ht & <-). rewrite <- (starts_columns _ _ Ht true).
  etransitivity; [|apply (starts_suffix a (t ++ b) true)]. rewrite starts_app. lia.
Qed.

(** ** Rows of sites *)
Lemma symbol_all sp : symbol sp -> forallb (fun c => negb (is_space c)) sp = true /\ sp <> [].
Proof.
  intros (c & r & -> & Hc & Hr & _). split; [|discriminate]. cbn. apply capital_iff in Hc.
  assert (H : is_space c = false) by now apply upper_not_space. rewrite H. cbn. apply forallb_forall. intros x Hx.
  rewrite Forall_forall in Hr. specialize (Hr x Hx). apply small_iff in Hr. apply negb_true_iff.
  destruct (is_space x) eqn:E; [|reflexivity]. rewrite (space_not_lower _ E) in Hr. discriminate.
Qed.
Lemma int_write n : is_int n -> num_wf n -> write_num n = write_sign (n_sign n) ++ write_digits (n_int n) /\ n_int n <> [].
Proof.
  intros H W. destruct n as [sg i f e]. cbn in *. unfold is_int in H. cbn in H. destruct H as [Hf He]. subst.
  unfold write_num. cbn. rewrite app_nil_r. split; [reflexivity|]. now apply (proj1 (proj2 W)).
Qed.
Lemma int_num_ok n : is_int n -> num_wf n -> num_ok n.
Proof. intros [H1 H2] (W1 & W2 & _). split; [exact W1|]. split; [exact W2|]. now rewrite H2. Qed.
Lemma blank_last a c : forallb is_space a = true -> pa None a = Some c -> is_space c = true.
Proof.
  intros Ha E. rewrite pa_rev in E. destruct (rev a) as [|x r] eqn:Er; [discriminate|]. injection E as <-.
  rewrite forallb_forall in Ha. apply Ha. apply in_rev. rewrite Er. now left.
Qed.
Lemma int_not_space n : forallb (fun c => negb (is_space c)) (write_num n) = true.
Proof. apply num_chars_nonspace. Qed.
Lemma digit_not_upper c : is_digit c = true -> is_upper c = false.
Proof. revert c. ascii_dec. Qed.
Lemma no_caps_digits n : is_int n -> num_wf n -> no_capitals (write_num n).
Proof.
  intros Hi Hw c Hc Hcap. destruct (int_write _ Hi Hw) as [E _]. rewrite E in Hc. apply in_app_iff in Hc as [Hc|Hc]; apply capital_iff in Hcap.
  - destruct (n_sign n); cbn in Hc; destruct Hc as [<-|[]] || destruct Hc; vm_compute in Hcap; discriminate.
  - pose proof (write_digits_all (n_int n)) as D. rewrite forallb_forall in D. specialize (D _ Hc).
    pose proof (digit_not_upper _ D). congruence.
Qed.
Lemma no_caps_app a b : no_capitals a -> no_capitals b -> no_capitals (a ++ b).
Proof. intros Ha Hb c Hc. apply in_app_iff in Hc as [Hc|Hc]; auto. Qed.
Lemma no_caps_blank g : blanks g -> no_capitals g.
Proof.
  intros Hg c Hc Hcap. apply blanks_iff in Hg. rewrite forallb_forall in Hg. specialize (Hg _ Hc). apply capital_iff in Hcap.
  rewrite (upper_not_space _ Hcap) in Hg. discriminate.
Qed.
Lemma first_3vec c : first ATOMIC_DATA_3VEC c = true -> is_upper c = true.
Proof. apply first_atom. Qed.

Lemma site_no_atom s l : site_line s l -> re_search ATOMIC_DATA_3VEC l = None.
Proof.
  intros [a t g m b Ha Hi Hw Ht Hg Hg0 Hsp Hm Hb Hf Hc]. unfold re_search.
  match goal with |- context [search_from _ _ ?l] => destruct (search_from ATOMIC_DATA_3VEC None l) as [[pre x]|] eqn:E; [|reflexivity] end.
  exfalso. apply search_sound in E as (s' & E & E' & D). pose proof (den_consumed _ _ _ _ _ _ _ D) as (w0 & E0 & _ & F0). apply den_3vec in D as (w & ns & u & Hu & Hl & Hs). subst s'.
  set (front := a ++ write_num (st_index s) ++ t ++ g) in *.
  set (back := st_spec s ++ m ++ b) in *.
  assert (EE : front ++ back = pre ++ (w ++ u ++ m_rest x)).
  { unfold front, back. rewrite <- !app_assoc, <- Hs. exact E. }
  assert (NC : no_capitals front).
  { unfold front. apply no_caps_app; [now apply no_caps_blank|]. apply no_caps_app; [now apply no_caps_digits|].
    apply no_caps_app; [exact Hc|now apply no_caps_blank]. }
  assert (SB : starts true back = 2).
  { unfold back. destruct (symbol_all _ Hsp) as [S1 S2]. apply blanks_iff in Hb.
    rewrite !starts_app, starts_word1, (starts_columns _ _ Hm), (starts_blank _ _ Hb) by assumption. reflexivity. }
  assert (S3 : 3 <= starts true (w ++ u ++ m_rest x)).
  { apply columns_few. exists w, u, (m_rest x), ns. auto. }
  destruct w0 as [|c w0]; [discriminate F0|]. apply first_3vec in F0.
  assert (E1 : w ++ u ++ m_rest x = c :: w0 ++ m_rest x) by (rewrite <- Hs; exact E0).
  rewrite E1 in EE, S3. symmetry in EE. apply app_eq_app in EE as (v & [[E2 E3]|[E2 E3]]).
  - subst pre. rewrite E3 in SB. pose proof (starts_suffix v (c :: w0 ++ m_rest x) true). lia.
  - destruct v as [|y v].
    + cbn in E3. rewrite E3 in S3. lia.
    + cbn in E3. injection E3 as <- _. apply (NC c); [|now apply capital_iff]. rewrite E2. apply in_app_iff. right. now left.
Qed.

Lemma fp_species p sp s c : symbol sp -> token_end s -> fp SPECIES_RE p sp s c c.
Proof.
  intros (x & r & -> & Hx & Hr & Hl) Hs. unfold SPECIES_RE. change (x :: r) with ([x] ++ r). apply fp_seq with (c1 := c).
  - apply fp_chr. now apply capital_iff.
  - apply fp_rep_chr; [|lia|].
    + apply forallb_forall. intros y Hy. rewrite Forall_forall in Hr. now apply small_iff, Hr.
    + right. destruct s as [|y s]; [exact I|]. cbn. specialize (Hs y s eq_refl). apply blank_iff in Hs. now apply space_not_lower.
Qed.
Definition site_caps (s : site) : caps :=
  [("mass"%string, write_num (st_mass s)); ("spec"%string, st_spec s); ("w"%string, write_num (st_w s)); ("v"%string, write_num (st_v s));
   ("u"%string, write_num (st_u s)); ("index"%string, write_num (st_index s))].
Lemma site_match s l : site_line s l -> exists x, re_match FRACCOORDS_RE l = Some x /\ m_caps x = site_caps s.
Proof.
  intros [a t g m b Ha Hi Hw Ht Hg Hg0 Hsp Hm Hb Hf Hc]. destruct (int_write _ Hi Hw) as [Ei Hi0].
  assert (TB : token_end b) by (intros c u ->; now inversion Hb).
  assert (TM : token_end (m ++ b)) by (eapply columns_hd; eassumption).
  assert (TG : token_end (g ++ st_spec s ++ m ++ b)).
  { destruct g as [|y g]; [congruence|]. intros c u E. cbn in E. injection E as <- _. now inversion Hg. }
  assert (TT : token_end (t ++ g ++ st_spec s ++ m ++ b)) by (eapply columns_hd; eassumption).
  pose proof Ha as Ha'. apply blanks_iff in Ha'. pose proof Hg as Hg'. apply blanks_iff in Hg'.
  assert (F : fp FRACCOORDS_RE None (concat [a; write_num (st_index s); t; g; st_spec s; m]) b [] (site_caps s)).
  { unfold FRACCOORDS_RE. apply fp_seqs. eapply fpl_cons; [|eapply fpl_cons; [|eapply fpl_cons; [|eapply fpl_cons; [|eapply fpl_cons; [|eapply fpl_cons; [|apply fpl_nil]]]]]].
    - apply fp_star_chr; [exact Ha'|]. cbn [concat]. rewrite <- !app_assoc. apply num_hd.
      apply int_num_ok; assumption.
    - apply fp_grp. rewrite Ei. apply fp_INT; [exact Hi0| |].
      + cbn [concat]. rewrite app_nil_r, <- !app_assoc. destruct (t ++ g ++ st_spec s ++ m ++ b) as [|y z]; [exact I|].
        specialize (TT y z eq_refl). apply blank_iff in TT. cbn. pose proof (space_not_mant_e _ TT) as Q. apply orb_false_iff in Q. apply Q.
      + intros _. intros E. apply (blank_last _ _ Ha') in E. discriminate.
    - cbn [concat]. rewrite app_nil_r, <- !app_assoc. apply fp_labelled; [exact Ht|reflexivity|exact TG].
    - apply fp_star_chr; [exact Hg'|]. cbn [concat]. rewrite app_nil_r, <- !app_assoc.
      destruct (symbol_all _ Hsp) as [S1 S2]. destruct (st_spec s) as [|y z]; [congruence|]. cbn in *. apply andb_prop in S1 as [S1 _].
      now apply negb_true_iff.
    - apply fp_grp. apply fp_species; [exact Hsp|]. cbn [concat]. rewrite app_nil_r. exact TM.
    - cbn [concat]. apply (fp_labelled ["mass"%string] [st_mass s]); [exact Hm|reflexivity|exact TB]. }
  unfold re_match. assert (E : a ++ write_num (st_index s) ++ t ++ g ++ st_spec s ++ m ++ b = concat [a; write_num (st_index s); t; g; st_spec s; m] ++ b).
  { cbn [concat]. rewrite app_nil_r, <- !app_assoc. reflexivity. }
  rewrite E, (fp_match_at _ _ _ _ _ F). eexists. split; reflexivity.
Qed.

(** ** The header *)
Lemma float_of_fval n : SpecCastep.float_of n = fval n.
Proof. reflexivity. Qed.
Lemma vector_fval ns : vector ns = VTuple (map fval ns).
Proof. reflexivity. Qed.
Lemma vector_caps l r : vector_row l r -> exists x ds, re_search ATOMIC_DATA_3VEC l = Some x /\
  m_caps x = row_caps FST_D (snd r) [("index"%string, write_digits ds); ("spec"%string, fst (fst r))] /\
  ds <> [] /\ decimal ds = snd (fst r) /\ length (snd r) = 3 /\ Forall num_wf (snd r) /\ all_fit (snd r).
Proof.
  intros [a u at_ t ns s Ha He Hu Ht Hl Hs Hf].
  destruct (fp_atom (pa None a) u at_ (t ++ s) [] (edge_at a He) Hu) as (ds & F & Hd & Ed).
  { apply token_end_digit. eapply columns_hd; eassumption. }
  destruct (search_hit ATOMIC_DATA_3VEC a (u ++ t) s (row_caps FST_D ns [("index"%string, write_digits ds); ("spec"%string, fst at_)])) as (x & Ex & Ec).
  - apply atom_skips; [reflexivity|apply first_atom|exact Ha].
  - unfold ATOMIC_DATA_3VEC. apply fp_seq with (c1 := [("index"%string, write_digits ds); ("spec"%string, fst at_)]); [exact F|].
    now apply fp_labelled.
  - exists x, ds. rewrite <- app_assoc in Ex. cbn [fst snd]. repeat (split; [assumption|]). split; [|exact Hf].
    apply Forall_wf, (CellFacts.columns_ok _ _ Ht).
Qed.
Lemma header_atom l r : vector_row l r -> exists x, re_search ATOMIC_DATA_3VEC l = Some x /\
  atreg_match x = Ok (fst (vector_entry r)) /\ to_tuple TFloat [group_s x "x"; group_s x "y"; group_s x "z"] = Ok (snd (vector_entry r)).
Proof.
  intros H. destruct (vector_caps _ _ H) as (x & ds & Ex & Ec & Hd & Ed & Hl & Hw & Hf). exists x. split; [exact Ex|].
  destruct r as [[sp i] ns]. cbn [fst snd vector_entry] in *. destruct ns as [|n1 [|n2 [|n3 [|]]]]; try discriminate.
  split.
  - assert (G1 : group_s x "index" = write_digits ds) by (unfold group_s; rewrite Ec; reflexivity).
    assert (G2 : group_s x "spec" = sp) by (unfold group_s; rewrite Ec; reflexivity).
    unfold atreg_match. rewrite G1, G2, py_int_digits, Ed by exact Hd. reflexivity.
  - assert (E : [group_s x "x"; group_s x "y"; group_s x "z"] = map write_num [n1; n2; n3]) by (unfold group_s; rewrite Ec; reflexivity).
    rewrite E. now apply to_tuple_nums.
Qed.

Definition site_raw (ss : list site) : dict :=
  match ss with
  | [] => []
  | _ => [(kstr "index", VList (map (fun s => VStr (write_num (st_index s))) ss)); (kstr "u", VList (map (fun s => VStr (write_num (st_u s))) ss));
          (kstr "v", VList (map (fun s => VStr (write_num (st_v s))) ss)); (kstr "w", VList (map (fun s => VStr (write_num (st_w s))) ss));
          (kstr "spec", VList (map (fun s => VStr (st_spec s)) ss)); (kstr "mass", VList (map (fun s => VStr (write_num (st_mass s))) ss))]
  end.
Lemma site_stack ss s x : m_caps x = site_caps s -> stack_vals (site_raw ss) (groupdict FRACCOORDS_RE x) = Ok (site_raw (ss ++ [s])).
Proof.
  intros E. assert (G : groupdict FRACCOORDS_RE x =
    [(kstr "index", VStr (write_num (st_index s))); (kstr "u", VStr (write_num (st_u s))); (kstr "v", VStr (write_num (st_v s)));
     (kstr "w", VStr (write_num (st_w s))); (kstr "spec", VStr (st_spec s)); (kstr "mass", VStr (write_num (st_mass s)))]).
  { unfold groupdict, group. rewrite E. reflexivity. }
  rewrite G. destruct ss as [|s0 ss]; [reflexivity|].
  unfold site_raw. rewrite <- !app_comm_cons. cbn [map]. rewrite !map_app. reflexivity.
Qed.
Lemma extra_some opts extra l : opts_for opts extra -> mentions extra l -> exists x, re_search (extra_re opts) l = Some x /\ m_text x = $extra.
Proof.
  intros [->|[-> ->]] H; [now apply search_lit_some|]. cbn [extra_re]. unfold re_search.
  destruct l; cbn; eexists; (split; [reflexivity|]); cbn [m_text]; rewrite ?Nat.sub_diag; reflexivity.
Qed.
Lemma extra_none opts extra l : opts_for opts extra -> ~ mentions extra l -> re_search (extra_re opts) l = None.
Proof. intros [->|[-> ->]] H; [now apply search_lit_none|]. exfalso. apply H. exists [], l. reflexivity. Qed.

Lemma header_line opts extra l o rest data coords : opts_for opts extra -> head_line extra l o ->
  header_loop opts (l :: rest) data coords =
  header_loop opts rest (dupdate key_eqb data (match o with Some e => item_entry (HEntry (fst e) (snd e)) | None => [] end)) coords.
Proof.
  intros Ho Hl. cbn [header_loop]. destruct Hl as [l w1 w2 ks n z H1 H2 H3 H4 H5|l ns H1 H2 H3 H4 H5 H6|l H1 H2 H3 H4].
  - apply counting_iff in H1. rewrite H1. rewrite (number_of_spec _ _ _ _ _ _ H2 H3 H4 H5). reflexivity.
  - rewrite (not_true _ _ (counting_iff l) H1), (not_true _ _ (mentions_iff _ _) H2).
    rewrite (search_3vec_none _ H3), (match_fraccoords_none _ H3).
    destruct (extra_some _ _ _ Ho H4) as (x & -> & Ex). rewrite (get_numbers_line _ _ H5).
    rewrite to_tuple_nums; [|apply Forall_wf, (number_line_ok _ _ H5)|exact H6]. cbn [bind]. rewrite Ex. reflexivity.
  - rewrite (not_true _ _ (counting_iff l) H1), (not_true _ _ (mentions_iff _ _) H2).
    rewrite (search_3vec_none _ H3), (match_fraccoords_none _ H3).
    rewrite (extra_none _ _ _ Ho H4). reflexivity.
Qed.
Lemma header_cell' opts u l1 l2 l3 v1 v2 v3 rest data coords : cell_line u ->
  vector_line v1 l1 -> vector_line v2 l2 -> vector_line v3 l3 ->
  header_loop opts (u :: l1 :: l2 :: l3 :: rest) data coords =
  header_loop opts rest (dupdate key_eqb data (item_entry (HCell v1 v2 v3))) coords.
Proof.
  intros (H1 & H2 & H3) L1 L2 L3. cbn [header_loop].
  rewrite (not_true _ _ (counting_iff u) H1). apply mentions_iff in H3. rewrite H3.
  rewrite (vector_line_tuple _ _ L1), (vector_line_tuple _ _ L2), (vector_line_tuple _ _ L3). reflexivity.
Qed.
Lemma dupdate_app {V} (d a b : list (key * V)) : dupdate key_eqb d (a ++ b) = dupdate key_eqb (dupdate key_eqb d a) b.
Proof. unfold dupdate. apply fold_left_app. Qed.
Lemma header_sites opts extra ls its : opts_for opts extra -> header extra ls its -> atoms its = [] -> forall data ss,
  header_loop opts ls data (site_raw ss) = Ok (dupdate key_eqb data (flat_map item_entry its), site_raw (ss ++ sites its)).
Proof.
  intros Ho. induction 1 as [|l o ls its Hl _ IH|u l1 l2 l3 v1 v2 v3 ls its Hu L1 L2 L3 _ IH|l s ls its Hs [N1 N2] _ IH|l r ls its Hr _ _ IH]; intros Hat data ss.
  - cbn. now rewrite app_nil_r.
  - rewrite (header_line _ _ _ _ _ _ _ Ho Hl). destruct o as [e|].
    + cbn [flat_map]. rewrite dupdate_app. apply IH. exact Hat.
    + apply IH. exact Hat.
  - rewrite header_cell' with (v1 := v1) (v2 := v2) (v3 := v3) by assumption. cbn [flat_map]. rewrite dupdate_app. apply IH. exact Hat.
  - cbn [header_loop]. rewrite (not_true _ _ (counting_iff l) N1), (not_true _ _ (mentions_iff _ _) N2), (site_no_atom _ _ Hs).
    destruct (site_match _ _ Hs) as (x & -> & Ex). rewrite (site_stack _ _ _ Ex). cbn [bind].
    rewrite IH by exact Hat. cbn [flat_map item_entry sites app]. now rewrite <- app_assoc.
  - discriminate.
Qed.
Lemma header_atoms opts extra ls its : opts_for opts extra -> header extra ls its -> sites its = [] -> forall data coords,
  header_loop opts ls data coords =
  Ok (dupdate key_eqb data (flat_map item_entry its), dupdate key_eqb coords (map vector_entry (atoms its))).
Proof.
  intros Ho. induction 1 as [|l o ls its Hl _ IH|u l1 l2 l3 v1 v2 v3 ls its Hu L1 L2 L3 _ IH|l s ls its Hs [N1 N2] _ IH|l r ls its Hr [N1 N2] _ IH]; intros Hat data coords.
  - reflexivity.
  - rewrite (header_line _ _ _ _ _ _ _ Ho Hl). destruct o as [e|].
    + cbn [flat_map]. rewrite dupdate_app. apply IH. exact Hat.
    + apply IH. exact Hat.
  - rewrite header_cell' with (v1 := v1) (v2 := v2) (v3 := v3) by assumption. cbn [flat_map]. rewrite dupdate_app. apply IH. exact Hat.
  - discriminate.
  - cbn [header_loop]. rewrite (not_true _ _ (counting_iff l) N1), (not_true _ _ (mentions_iff _ _) N2).
    destruct (header_atom _ _ Hr) as (x & -> & -> & ->). cbn [bind]. rewrite IH by exact Hat. reflexivity.
Qed.
Lemma sites_fix ss : Forall (fun s => is_int (st_index s) /\ num_wf (st_index s) /\ Forall num_wf [st_u s; st_v s; st_w s; st_mass s] /\ all_fit [st_u s; st_v s; st_w s; st_mass s]) ss ->
  fix_data_types (site_raw ss) [(kstr "index", TInt); (kstr "u", TFloat); (kstr "v", TFloat); (kstr "w", TFloat); (kstr "mass", TFloat)] = Ok (site_table ss).
Proof.
  intros H. destruct ss as [|s0 ss']; [reflexivity|]. set (ss := s0 :: ss') in *.
  assert (I : to_type TInt (VList (map (fun s => VStr (write_num (st_index s))) ss)) = Ok (VTuple (map (fun s => int_val (st_index s)) ss))).
  { cbn [to_type]. rewrite (mapM_map _ _ (fun s => int_val (st_index s))); [reflexivity|]. intros s Hs. rewrite Forall_forall in H.
    destruct (H s Hs) as (Hi & Hw & _). now apply to_int. }
  assert (F : forall f, (forall s, In (f s) [st_u s; st_v s; st_w s; st_mass s]) ->
    to_type TFloat (VList (map (fun s => VStr (write_num (f s))) ss)) = Ok (vector (map f ss))).
  { intros f Hf. cbn [to_type]. rewrite (mapM_map _ _ (fun s => fval (f s))); [unfold vector; rewrite map_map; reflexivity|]. intros s Hs. rewrite Forall_forall in H.
    destruct (H s Hs) as (_ & _ & Hw & Hff). unfold all_fit in Hff. rewrite Forall_forall in Hw, Hff. apply to_float; auto. }
  pose proof (F st_u ltac:(intros; cbn; tauto)) as F1. pose proof (F st_v ltac:(intros; cbn; tauto)) as F2.
  pose proof (F st_w ltac:(intros; cbn; tauto)) as F3. pose proof (F st_mass ltac:(intros; cbn; tauto)) as F4.
  change (site_raw ss) with [(kstr "index", VList (map (fun s => VStr (write_num (st_index s))) ss)); (kstr "u", VList (map (fun s => VStr (write_num (st_u s))) ss));
          (kstr "v", VList (map (fun s => VStr (write_num (st_v s))) ss)); (kstr "w", VList (map (fun s => VStr (write_num (st_w s))) ss));
          (kstr "spec", VList (map (fun s => VStr (st_spec s)) ss)); (kstr "mass", VList (map (fun s => VStr (write_num (st_mass s))) ss))].
  change (site_table ss) with [named "index" (VTuple (map (fun s => int_val (st_index s)) ss)); named "u" (vector (map st_u ss));
          named "v" (vector (map st_v ss)); named "w" (vector (map st_w ss));
          named "spec" (VList (map (fun s => text_val (st_spec s)) ss)); named "mass" (vector (map st_mass ss))].
  clearbody ss.
  revert I F1 F2 F3 F4. generalize (map (fun s => VStr (write_num (st_index s))) ss) (map (fun s => VStr (write_num (st_u s))) ss)
    (map (fun s => VStr (write_num (st_v s))) ss) (map (fun s => VStr (write_num (st_w s))) ss) (map (fun s => VStr (write_num (st_mass s))) ss).
  intros l1 l2 l3 l4 l5. generalize (VList l1) (VList l2) (VList l3) (VList l4) (VList l5). intros p1 p2 p3 p4 p5 I F1 F2 F3 F4.
  unfold fix_data_types. cbn [foldM fst snd].
  change (dget key_eqb _ (kstr "index")) with (Some p1). cbv beta iota. rewrite I. cbn [rmap bind].
  change (dget key_eqb _ (kstr "u")) with (Some p2). cbv beta iota. rewrite F1. cbn [rmap bind].
  change (dget key_eqb _ (kstr "v")) with (Some p3). cbv beta iota. rewrite F2. cbn [rmap bind].
  change (dget key_eqb _ (kstr "w")) with (Some p4). cbv beta iota. rewrite F3. cbn [rmap bind].
  change (dget key_eqb _ (kstr "mass")) with (Some p5). cbv beta iota. rewrite F4. reflexivity.
Qed.
Lemma sites_ok extra ls its : header extra ls its ->
  Forall (fun s => is_int (st_index s) /\ num_wf (st_index s) /\ Forall num_wf [st_u s; st_v s; st_w s; st_mass s] /\ all_fit [st_u s; st_v s; st_w s; st_mass s]) (sites its).
Proof.
  induction 1 as [|l o ls its Hl _ IH|u l1 l2 l3 v1 v2 v3 ls its Hu L1 L2 L3 _ IH|l s ls its Hs [N1 N2] _ IH|l r ls its Hr [N1 N2] _ IH]; try exact IH.
  - constructor.
  - destruct o; exact IH.
  - cbn. constructor; [|exact IH]. destruct Hs as [a t g m b Ha Hi Hw Ht Hg Hg0 Hsp Hm Hb Hf Hc]. repeat (split; [assumption|]). split; [|exact Hf].
    apply Forall_wf. change [st_u s; st_v s; st_w s; st_mass s] with ([st_u s; st_v s; st_w s] ++ [st_mass s]).
    apply Forall_app. split; eapply columns_ok; eassumption.
Qed.
Lemma atoms_keys l : Forall (fun kv => exists m, fst kv = KTuple m) (map vector_entry l).
Proof. apply Forall_forall. intros x Hx. apply in_map_iff in Hx as (r & <- & _). eexists. reflexivity. Qed.
Lemma dupdate_keys {V} (P : key * V -> Prop) d es : Forall P d -> Forall P es -> (forall k v w, P (k, v) -> P (k, w)) -> Forall P (dupdate key_eqb d es).
Proof.
  intros Hd He HP. unfold dupdate. revert d Hd. induction He as [|[k v] es He _ IH]; intros d Hd; [exact Hd|]. cbn. apply IH.
  clear -Hd He HP. induction d as [|[k' v'] d IH]; cbn; [now constructor|]. inversion Hd; subst. destruct (key_eqb k' k); constructor; auto.
  eapply HP; eassumption.
Qed.
Lemma fix_none d ts : (forall k t, In (k, t) ts -> dget key_eqb d k = None) -> fix_data_types d ts = Ok d.
Proof.
  unfold fix_data_types. induction ts as [|[k t] ts IH]; intros H; [reflexivity|]. cbn [foldM fst snd].
  rewrite (H k t) by now left. cbn [bind]. apply IH. intros k' t' H'. apply (H k' t'). now right.
Qed.
Lemma dget_tuple_none d k : Forall (fun kv => exists m, fst kv = KTuple m) d -> dget key_eqb d (KStr k) = (None : option pyval).
Proof. induction 1 as [|[k' v] d (m & E) _ IH]; [reflexivity|]. cbn in *. subst. cbn. exact IH. Qed.
Lemma dset_dupdate {V} (d : list (key * V)) k v : dset key_eqb d k v = dupdate key_eqb d [(k, v)].
Proof. reflexivity. Qed.

Theorem header_exact opts extra ls its : opts_for opts extra -> header extra ls its -> (atoms its = [] \/ sites its = []) ->
  exists d es, parse_regular_header opts ls = Ok d /\ header_says its es /\ d = dict_of key_eqb es.
Proof.
  intros Ho H [Ha|Hs].
  - exists (dict_of key_eqb (flat_map item_entry its ++ [named "coords" (VDict true (site_table (sites its)))])), (flat_map item_entry its ++ [named "coords" (VDict true (site_table (sites its)))]).
    split; [|split; [now constructor|reflexivity]]. unfold parse_regular_header. change (@nil (key * pyval)) with (site_raw []) at 2.
    rewrite (header_sites _ _ _ _ Ho H Ha [] []). cbn [bind app]. rewrite (sites_fix _ (sites_ok _ _ _ H)). cbn [bind].
    unfold dict_of. rewrite dupdate_app. reflexivity.
  - set (cd := dict_of key_eqb (map vector_entry (atoms its))).
    exists (dict_of key_eqb (flat_map item_entry its ++ [named "coords" (VDict true cd)])), (flat_map item_entry its ++ [named "coords" (VDict true cd)]).
    split; [|split; [apply hs_atoms; [exact Hs|apply merged_dict_of, key_eqb_spec]|reflexivity]].
    unfold parse_regular_header. rewrite (header_atoms _ _ _ _ Ho H Hs [] []). cbn [bind].
    rewrite fix_none; [cbn [bind]; unfold dict_of; rewrite dupdate_app; reflexivity|].
    assert (K : Forall (fun kv => exists m, fst kv = KTuple m) (dupdate key_eqb [] (map vector_entry (atoms its)))).
    { apply dupdate_keys; [constructor|apply atoms_keys|auto]. }
    intros k t Hk. cbn in Hk. repeat (destruct Hk as [E|Hk]; [injection E as <- <-; now apply dget_tuple_none|]). destruct Hk.
Qed.
Theorem header_merged opts extra ls its : opts_for opts extra -> header extra ls its -> (atoms its = [] \/ sites its = []) ->
  exists d es, parse_regular_header opts ls = Ok d /\ header_says its es /\ merged es d.
Proof.
  intros Ho H K. destruct (header_exact opts extra ls its Ho H K) as (d & es & E & Hs & ->). exists (dict_of key_eqb es), es.
  split; [exact E|]. split; [exact Hs|]. apply merged_dict_of, key_eqb_spec.
Qed.
