(** Facts about the shared header parser. *)
From Verif Require Import PyBase PyFacts PyVal IntStr Regex RegexFacts RegexComplete CastepRes NumSpec SpecLine NumFacts NumVal NumProps
  SpecTable SpecStr StrUtilFacts SpecText SpecBands Stream StreamFacts TypeConv TypeConvFacts ColumnFacts DictUtil DictFacts TextParsersFacts Header.
Local Open Scope list_scope.
Local Open Scope nat_scope.

(** ** Lines that are no atom rows *)
Lemma den_3vec p s c p' s' c' : den ATOMIC_DATA_3VEC p s c p' s' c' ->
  exists a ns t, columns ns t /\ length ns = 3 /\ s = a ++ t ++ s'.
Proof.
  intros H. destruct H as (p1 & s1 & c1 & H1 & H2). apply den_labelled in H2 as (ns & t & Ht & Hl & -> & _ & _).
  apply den_consumed in H1 as (w & -> & _ & _). exists w, ns, t. auto.
Qed.
Lemma search_3vec_none line : ~ has_columns 3 line -> re_search ATOMIC_DATA_3VEC line = None.
Proof.
  intros H. unfold re_search. destruct (search_from ATOMIC_DATA_3VEC None line) as [[pre x]|] eqn:E; [|reflexivity].
  exfalso. apply H. apply search_sound in E as (s' & E & E' & D).
  apply den_3vec in D as (a & ns & t & Ht & Hl & Hs). exists (pre ++ a), t, (m_rest x), ns. split; [|auto].
  rewrite E, <- app_assoc. f_equal. congruence.
Qed.
Lemma match_fraccoords_none line : ~ has_columns 3 line -> re_match FRACCOORDS_RE line = None.
Proof.
  intros H. destruct (re_match FRACCOORDS_RE line) as [x|] eqn:E; [|reflexivity]. exfalso. apply H.
  unfold re_match, match_at in E. apply m_sound in E as (p' & s' & c' & D & _). unfold FRACCOORDS_RE in D. cbn [RSeqs] in D.
  destruct D as (p1 & s1 & c1 & D1 & p2 & s2 & c2 & D2 & p3 & s3 & c3 & D3 & _).
  apply den_consumed in D1 as (w1 & -> & _ & _). apply den_consumed in D2 as (w2 & -> & _ & _).
  apply den_labelled in D3 as (ns & t & Ht & Hl & -> & _ & _). exists (w1 ++ w2), t, s3, ns.
  rewrite <- app_assoc. auto.
Qed.

(** ** Prefix of the stripped line *)
Lemma starts_strip P l : P <> [] -> hd_not is_space P -> last_not is_space P ->
  (startswith P (strip l) = true <-> exists a r, l = a ++ P ++ r /\ blanks a).
Proof.
  intros Hne Hh Hl. rewrite startswith_iff. split.
  - intros (t & Ht). destruct (strip_trimmed l) as (a & b & E & Ha & Hb & _). rewrite Ht in E.
    exists a, (t ++ b). split; [|exact Ha]. rewrite E. now rewrite <- !app_assoc.
  - intros (a & r & -> & Ha). destruct (right_stripped_rstrip r) as (b & Er & Hb & Hlast).
    exists (rstrip r). apply trimmed_strip. exists a, b. split; [rewrite <- app_assoc, <- Er; reflexivity|].
    split; [exact Ha|]. split; [exact Hb|]. split.
    + intros c t E. rewrite blank_iff. destruct P as [|x P]; [congruence|]. cbn in E. injection E as <- _.
      cbn in Hh. congruence.
    + intros t c E. rewrite blank_iff. destruct (rstrip r) as [|y r'] eqn:R.
      * rewrite app_nil_r in E. unfold last_not in Hl. rewrite E, rev_app_distr in Hl. cbn in Hl. congruence.
      * destruct (@exists_last _ (y :: r') ltac:(discriminate)) as (r2 & z & E2). rewrite E2, app_assoc in E.
        apply app_inj_tail in E as [_ <-]. rewrite <- blank_iff. eapply Hlast. exact E2.
Qed.

(** ** Builtin floats *)
Lemma write_num_chars (f : ascii -> bool) n : (forall d, f (digit_char d) = true) -> forallb f ($"+-.eE") = true ->
  forallb f (write_num n) = true.
Proof.
  intros Hd Hc. cbn in Hc. rewrite !andb_true_iff in Hc. destruct Hc as (H1 & H2 & H3 & H4 & H5 & _).
  assert (D : forall ds, forallb f (write_digits ds) = true) by (intros ds; induction ds; cbn; [reflexivity|now rewrite Hd]).
  assert (S : forall s, forallb f (write_sign s) = true) by (intros []; cbn; rewrite ?H1, ?H2; reflexivity).
  unfold write_num. rewrite !forallb_app, S, D. cbn.
  destruct (n_frac n); cbn; rewrite ?H3, ?D; cbn; destruct (n_exp n) as [[[cap s] e]|]; cbn; auto;
    rewrite forallb_app, S, D; destruct cap; rewrite ?H4, ?H5; reflexivity.
Qed.
Lemma mant_lower x : is_mant x = true -> Ascii.eqb (lower_c x) "i" = false /\ Ascii.eqb (lower_c x) "n" = false.
Proof.
  intros H. split; revert x H.
  - apply (ascii_imp_not is_mant (fun x => Ascii.eqb (lower_c x) "i")). vm_compute. reflexivity.
  - apply (ascii_imp_not is_mant (fun x => Ascii.eqb (lower_c x) "n")). vm_compute. reflexivity.
Qed.
Lemma chr_in_false c s : forallb (fun x => negb (Ascii.eqb c x)) s = true -> chr_in c s = false.
Proof.
  unfold chr_in. induction s as [|x s IH]; cbn; [reflexivity|]. intros H. apply andb_true_iff in H as [H1 H2].
  apply negb_true_iff in H1. now rewrite H1, IH.
Qed.
Lemma builtin_num n : num_wf n -> fits (num_value n) -> py_float_builtin (write_num n) = Ok (FQ (Qred (num_value n))).
Proof.
  intros Hn Hf. unfold py_float_builtin. rewrite py_fraction_num by exact Hn.
  assert (C : chr_in "/" (write_num n) = false).
  { apply chr_in_false, write_num_chars; [intros []; reflexivity|reflexivity]. }
  rewrite C, strip_nospace by apply write_num_nospace. rewrite write_num_split.
  pose proof (wf_mant n Hn) as Hm. rewrite split_sign_write by now apply mant_hd_not_sign.
  destruct (mant_cons _ _ Hm) as (x & t & -> & Hx). destruct (mant_lower x Hx) as [E1 E2].
  cbn [app lower map existsb str_eqb list_ascii_of_string]. rewrite E1, E2. cbn [andb orb bind].
  apply fits_dec in Hf. now rewrite Hf.
Qed.
Lemma trunc_spec q : truncates q (Z.quot (Qnum (Qred q)) (Zpos (Qden (Qred q)))).
Proof.
  unfold truncates. pose proof (Qred_correct q) as Eq. revert Eq. generalize (Qred q) as r. intros r Eq. rewrite <- Eq. destruct r as [n d].
  unfold Qle, Qlt, inject_Z. cbn [Qnum Qden]. pose proof (Z.quot_rem' n (Zpos d)) as E.
  split; intros H.
  - assert (0 <= n)%Z by lia. pose proof (Z.rem_bound_pos n (Zpos d) ltac:(lia) ltac:(lia)). lia.
  - assert (n <= 0)%Z by lia. assert (- Zpos d < Z.rem n (Zpos d) <= 0)%Z by (pose proof (Z.rem_opp_l' n (Zpos d)); pose proof (Z.rem_bound_pos (-n) (Zpos d) ltac:(lia) ltac:(lia)); lia).
    lia.
Qed.

(** ** Literals *)
Lemma search_lit_some w l : mentions w l -> exists x, re_search (RLit w) l = Some x /\ m_text x = $w.
Proof.
  intros (a & b & ->). assert (T : re_test (RLit w) (a ++ $w ++ b) = true).
  { apply search_test_iff; [apply rep_ok_lit|]. exists a, ($w ++ b). split; [reflexivity|].
    exists (pa (pa None a) ($w)), b, []. now apply den_lit. }
  unfold re_test in T. destruct (re_search (RLit w) (a ++ $w ++ b)) as [x|] eqn:E; [|discriminate].
  exists x. split; [reflexivity|]. unfold re_search in E. destruct (search_from _ _ _) as [[pre y]|] eqn:S; [|discriminate].
  cbn in E. injection E as ->. apply search_sound in S as (s' & _ & E' & D). apply den_lit in D as (D & _ & _).
  rewrite D in E'. now apply app_inv_tail in E'.
Qed.
Lemma search_lit_none w l : ~ mentions w l -> re_search (RLit w) l = None.
Proof.
  intros H. unfold re_search. destruct (search_from (RLit w) None l) as [[pre x]|] eqn:S; [|reflexivity]. exfalso. apply H.
  apply search_sound in S as (s' & E & E' & D). apply den_lit in D as (D & _ & _). exists pre, (m_rest x).
  rewrite E. f_equal. congruence.
Qed.

(** ** The header *)
Lemma truncates_unique q z z' : truncates q z -> truncates q z' -> z = z'.
Proof.
  unfold truncates. intros [A B] [A' B']. destruct (Qlt_le_dec q 0) as [H|H].
  - apply Qlt_le_weak in H. destruct (B H) as [B1 B2], (B' H) as [B1' B2'].
    assert (L : forall a b : Z, (inject_Z (a - 1) < q)%Q -> (q <= inject_Z b)%Q -> (a - 1 < b)%Z).
    { intros a b X Y. rewrite Zlt_Qlt. eapply Qlt_le_trans; eassumption. }
    pose proof (L _ _ B1 B2'). pose proof (L _ _ B1' B2). lia.
  - destruct (A H) as [B1 B2], (A' H) as [B1' B2'].
    assert (L : forall a b : Z, (inject_Z a <= q)%Q -> (q < inject_Z (b + 1))%Q -> (a < b + 1)%Z).
    { intros a b X Y. rewrite Zlt_Qlt. eapply Qle_lt_trans; eassumption. }
    pose proof (L _ _ B1 B2'). pose proof (L _ _ B1' B2). lia.
Qed.
Lemma counting_iff l : counting l <-> startswith ($"Number of") (strip l) = true.
Proof. rewrite starts_strip by (discriminate || reflexivity). reflexivity. Qed.
Lemma last_of_snoc {A} (l : list A) x : last_of (l ++ [x]) = Ok (l, x).
Proof. unfold last_of. rewrite rev_app_distr. cbn. now rewrite rev_involutive. Qed.

Definition hentry (e : str * hval) : key * pyval :=
  (KStr (fst e), match snd e with HCount z => VInt z | HNums ns => VTuple (map fval ns) end).

Lemma number_of_spec l w1 w2 ks n z : cut nonblank (w1 :: w2 :: ks ++ [write_num n]) l ->
  num_wf n -> fits (num_value n) -> truncates (num_value n) z ->
  number_of l = Ok (KStr (joined ($" ") ks), VInt z).
Proof.
  intros Hc Hn Hf Hz. unfold number_of. rewrite (split_cut _ _ Hc), last_of_snoc. cbn [bind].
  rewrite builtin_num by assumption. cbn [bind py_trunc].
  rewrite join_joined. now rewrite (truncates_unique _ _ _ (trunc_spec _) Hz).
Qed.
Lemma to_tuple_nums ns : Forall num_wf ns -> Forall (fun n => fits (num_value n)) ns ->
  to_tuple TFloat (map write_num ns) = Ok (VTuple (map fval ns)).
Proof.
  intros H F. unfold to_tuple. cbn [to_type]. rewrite map_map. erewrite mapM_map; [reflexivity|].
  intros n Hn. rewrite Forall_forall in H, F. apply to_float; auto.
Qed.
Lemma number_line_ok ns l : number_line ns l -> Forall num_ok ns.
Proof.
  assert (T : forall ns t, tail ns t -> Forall num_ok ns) by (induction 1; auto).
  destruct 1; auto. constructor; auto. eapply T; eassumption.
Qed.
Lemma Forall_wf ns : Forall num_ok ns -> Forall num_wf ns.
Proof. apply Forall_impl. apply num_ok_wf. Qed.

Lemma not_true (b : bool) (P : Prop) : (P <-> b = true) -> ~ P -> b = false.
Proof. intros H N. destruct b; [exfalso; apply N; now apply H|reflexivity]. Qed.

Lemma header_loop_entries extra ls es : head_lines extra ls es -> forall rest data coords,
  header_loop [extra] (ls ++ rest) data coords = header_loop [extra] rest (dupdate key_eqb data (map hentry es)) coords.
Proof.
  induction 1 as [|l o ls es Hl _ IH]; intros rest data coords; [reflexivity|].
  cbn [app header_loop]. destruct Hl as [l w1 w2 ks n z H1 H2 H3 H4 H5|l ns H1 H2 H3 H4 H5 H6|l H1 H2 H3 H4].
  - apply counting_iff in H1. rewrite H1. rewrite (number_of_spec _ _ _ _ _ _ H2 H3 H4 H5). cbn [bind]. rewrite IH. reflexivity.
  - rewrite (not_true _ _ (counting_iff l) H1), (not_true _ _ (mentions_iff _ _) H2).
    rewrite (search_3vec_none _ H3), (match_fraccoords_none _ H3). cbn [extra_re map RAlts].
    destruct (search_lit_some _ _ H4) as (x & -> & Ex). rewrite (get_numbers_line _ _ H5).
    rewrite to_tuple_nums; [|apply Forall_wf, (number_line_ok _ _ H5)|exact H6]. cbn [bind]. rewrite IH, Ex. reflexivity.
  - rewrite (not_true _ _ (counting_iff l) H1), (not_true _ _ (mentions_iff _ _) H2).
    rewrite (search_3vec_none _ H3), (match_fraccoords_none _ H3). cbn [extra_re map RAlts].
    rewrite (search_lit_none _ _ H4). apply IH.
Qed.
Lemma columns_cut ns t s : columns ns t -> blanks s -> cut nonblank (map write_num ns) (t ++ s).
Proof.
  induction 1 as [|g n ns t Hg Hg0 Hn Ht IH]; intros Hs; cbn [map].
  - apply cut_nil. intros c Hc Hb. apply Hb. cbn in Hc. unfold blanks in Hs. rewrite Forall_forall in Hs. now apply Hs.
  - rewrite <- !app_assoc. apply cut_cons.
    + intros c Hc Hb. apply Hb. unfold blanks in Hg. rewrite Forall_forall in Hg. now apply Hg.
    + now apply write_num_nonempty.
    + intros c Hc. apply nonblank_iff. pose proof (write_num_nospace n) as W. rewrite forallb_forall in W. now apply W.
    + intros c u E Hb. apply Hb. destruct Ht as [|g' n' ns' t' Hg' Hg0' _ _].
      * cbn in E. unfold blanks in Hs. rewrite Forall_forall in Hs. apply Hs. rewrite E. now left.
      * destruct g' as [|x g']; [congruence|]. cbn in E. injection E as <- _. now inversion Hg'.
    + now apply IH.
Qed.
Lemma vector_line_tuple ns l : vector_line ns l -> to_tuple TFloat (split l) = Ok (VTuple (map fval ns)).
Proof.
  intros (_ & Hf & t & s & -> & Ht & Hs). rewrite (split_cut _ _ (columns_cut _ _ _ Ht Hs)).
  apply to_tuple_nums; [apply Forall_wf, (columns_ok _ _ Ht)|exact Hf].
Qed.
Lemma header_cell extra u l1 l2 l3 v1 v2 v3 rest data coords : cell_line u ->
  vector_line v1 l1 -> vector_line v2 l2 -> vector_line v3 l3 ->
  header_loop [extra] (u :: l1 :: l2 :: l3 :: rest) data coords =
  header_loop [extra] rest (dset key_eqb data (kstr "unit_cell")
     (VList [VTuple (map fval v1); VTuple (map fval v2); VTuple (map fval v3)])) coords.
Proof.
  intros (H1 & H2 & H3) L1 L2 L3. cbn [header_loop].
  rewrite (not_true _ _ (counting_iff u) H1). apply mentions_iff in H3. rewrite H3.
  rewrite (vector_line_tuple _ _ L1), (vector_line_tuple _ _ L2), (vector_line_tuple _ _ L3). reflexivity.
Qed.
