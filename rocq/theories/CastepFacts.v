(** Facts about the blocks of .castep files. *)
From Coq Require Import QArith Qreduction.
From Verif Require Import PyBase PyFacts PyVal Regex RegexFacts RegexComplete CastepRes NumSpec NumFacts NumProps
  StrUtil SpecStr StrUtilFacts SpecLine SpecType TypeConv TypeConvFacts IntStr DictUtil SpecDict DictFacts Stream StreamFacts
  SpecTable ColumnFacts Header HeaderFacts SpecMd MdFacts SpecBands NeedFacts SpecCastep CastepBlocks.
From Verif Require CellFacts CellPosFacts CellBlockFacts.
Local Open Scope list_scope.
Local Open Scope nat_scope.

(** ** Tables *)
Lemma matches_laid {A} (row : str -> A -> Prop) (other : str -> Prop) f (R : mres -> A -> Prop) ls rows :
  (forall l a, row l a -> exists x, f l = Some x /\ R x a) -> (forall l, other l -> f l = None) ->
  laid row other ls rows -> exists xs, matches f ls = xs /\ Forall2 R xs rows.
Proof.
  intros Hr Ho. induction 1 as [|l a ls rs Hl _ (xs & <- & IH)|l ls rs Hl _ (xs & <- & IH)].
  - exists []. split; [reflexivity|constructor].
  - destruct (Hr _ _ Hl) as (x & E & Hx). eexists. split; [reflexivity|]. cbn [matches]. rewrite E. now constructor.
  - eexists. split; [reflexivity|]. cbn [matches]. now rewrite (Ho _ Hl).
Qed.
Lemma mapM_forall2 {A B C} (R : A -> B -> Prop) (f : A -> result C) (g : B -> C) xs ys :
  Forall2 R xs ys -> (forall x y, R x y -> f x = Ok (g y)) -> mapM f xs = Ok (map g ys).
Proof. intros H Hf. induction H as [|x y xs ys Hxy _ IH]; [reflexivity|]. cbn. rewrite (Hf _ _ Hxy), IH. reflexivity. Qed.
Lemma rows_laid {A C} (row : str -> A -> Prop) (other : str -> Prop) f (kv : mres -> result C) (g : A -> C) ls rows :
  (forall l a, row l a -> exists x, f l = Some x /\ kv x = Ok (g a)) -> (forall l, other l -> f l = None) ->
  laid row other ls rows -> mapM kv (matches f ls) = Ok (map g rows).
Proof.
  intros Hr Ho H. destruct (matches_laid row other f (fun x a => kv x = Ok (g a)) ls rows Hr Ho H) as (xs & -> & F).
  now apply (mapM_forall2 _ _ _ _ _ F).
Qed.
Lemma dict_rows_laid {A} (row : str -> A -> Prop) (other : str -> Prop) f kv (g : A -> key * pyval) ls rows :
  (forall l a, row l a -> exists x, f l = Some x /\ kv x = Ok (g a)) -> (forall l, other l -> f l = None) ->
  laid row other ls rows -> exists d, dict_rows f kv ls = Ok d /\ merged (map g rows) d.
Proof.
  intros Hr Ho H. unfold dict_rows. rewrite (rows_laid _ _ _ _ _ _ _ Hr Ho H). cbn. eexists. split; [reflexivity|].
  apply merged_dict_of, key_eqb_spec.
Qed.

(** ** Classes of lines *)
Lemma lacks_free w P l : free_of w l -> (forall c, P c = true -> among w c) -> lacks P l.
Proof.
  intros H HP. apply forallb_forall. intros c Hc. destruct (P c) eqn:E; [|reflexivity]. exfalso. exact (H c Hc (HP c E)).
Qed.
Lemma among_digit c : is_digit c = true -> among "0123456789" c.
Proof. apply digit_among. Qed.
Lemma lacks_digits l : no_digits l -> lacks is_digit l.
Proof. intros H. now apply (lacks_free "0123456789"); [|apply among_digit]. Qed.
Lemma lacks_capitals l : no_capitals l -> lacks is_upper l.
Proof.
  intros H. apply forallb_forall. intros c Hc. destruct (is_upper c) eqn:E; [|reflexivity]. exfalso. apply (H c Hc). now apply capital_iff.
Qed.
Lemma plain_search r l : needs is_digit r = true -> needs is_upper r = true -> plain l -> re_search r l = None.
Proof. intros H1 H2 [H|H]; [eapply needs_search, lacks_digits|eapply needs_search, lacks_capitals]; eauto. Qed.
Lemma edge_at a : edge a -> at_edge (pa None a).
Proof.
  intros H c E. rewrite pa_rev in E. destruct (rev a) as [|x r] eqn:Er; [discriminate|]. injection E as ->.
  apply (f_equal (@rev ascii)) in Er. rewrite rev_involutive in Er. cbn in Er. specialize (H _ _ Er).
  destruct (is_word c) eqn:W; [|reflexivity]. exfalso. apply H. now apply word_char_iff.
Qed.

(** ** An atom at the start of a row *)
Lemma fp_atom p u at_ s c : at_edge p -> numbered_atom u at_ -> hd_not is_digit s ->
  exists ds, fp ATOM_RE p u s c (("index"%string, write_digits ds) :: ("spec"%string, fst at_) :: c) /\ ds <> [] /\ decimal ds = snd at_.
Proof.
  intros Hp [sp g ds Hsp Hg Hg0 Hds] Hs. exists ds. apply blanks_iff in Hg. split; [|auto]. unfold ATOM_RE. cbn [RSeqs fst].
  apply fp_seq with (c1 := ("spec"%string, sp) :: c).
  - apply fp_grp. rewrite <- app_assoc. now apply fp_atom_name_at.
  - apply fp_seq with (c1 := ("spec"%string, sp) :: c).
    + apply fp_plus_chr; [exact Hg|exact Hg0|]. apply write_digits_hd; [exact Hds|].
      intros x Hd. destruct (is_space x) eqn:E; [|reflexivity]. apply space_not_digit in E. congruence.
    + apply fp_grp, fp_plus_chr; [apply write_digits_all|destruct ds; [congruence|discriminate]|exact Hs].
Qed.
Lemma token_end_digit s : token_end s -> hd_not is_digit s.
Proof. rewrite token_end_hd. destruct s as [|x s]; cbn; [auto|]. intros H. apply negb_false_iff in H. now apply space_not_digit. Qed.
Lemma atom_skips r a s : nullable r = false -> (forall c, first r c = true -> is_upper c = true) -> no_capitals a -> skips r None a s.
Proof.
  intros Hn Hf Ha. apply skips_first; [exact Hn|]. apply forallb_forall. intros c Hc. apply negb_true_iff.
  destruct (first r c) eqn:E; [|reflexivity]. exfalso. apply (Ha c Hc), capital_iff. auto.
Qed.
Lemma search_hit r a u s c' : skips r None a (u ++ s) -> fp r (pa None a) u s [] c' ->
  exists x, re_search r (a ++ u ++ s) = Some x /\ m_caps x = c'.
Proof. intros Hs F. unfold re_search. rewrite (search_from_pre _ _ _ _ _ _ Hs F). cbn. eexists. split; reflexivity. Qed.

Lemma floats_groups x ns names : map (group x) names = map (fun n => VStr (write_num n)) ns -> Forall num_wf ns -> all_fit ns ->
  floats_of x names = Ok (vector ns).
Proof.
  intros E Hw Hf. unfold floats_of. rewrite E. cbn [to_type]. unfold vector.
  rewrite (TypeConvFacts.mapM_map _ _ float_of); [reflexivity|]. intros n Hn. unfold all_fit in Hf. rewrite Forall_forall in Hw, Hf.
  apply CellPosFacts.float_of_num; auto.
Qed.

Lemma first_atom r c : first (RSeq ATOM_RE r) c = true -> is_upper c = true.
Proof.
  cbn. rewrite ?orb_false_r, ?andb_false_r. destruct (is_upper c); [reflexivity|]. cbn. auto.
Qed.

(** The entry of a row whose captures are known. *)
Lemma entry_of x at_ ds ns : m_caps x = row_caps FST_D ns [("index"%string, write_digits ds); ("spec"%string, fst at_)] ->
  ds <> [] -> decimal ds = snd at_ -> length ns = 3 -> Forall num_wf ns -> all_fit ns ->
  (k <- atreg_match x ;; v <- floats_of x FST_D ;; Ok (k, v)) = Ok (vector_entry (at_, ns)).
Proof.
  intros Ec Hd Ed Hl Hw Hf. destruct ns as [|n1 [|n2 [|n3 [|]]]]; try discriminate.
  assert (G1 : group_s x "index" = write_digits ds) by (unfold group_s; rewrite Ec; reflexivity).
  assert (G2 : group_s x "spec" = fst at_) by (unfold group_s; rewrite Ec; reflexivity).
  unfold atreg_match. rewrite G1, G2, py_int_digits, Ed by exact Hd. cbn [rmap bind].
  rewrite (floats_groups x [n1; n2; n3]); [destruct at_; reflexivity| |exact Hw|exact Hf].
  unfold group. rewrite Ec. reflexivity.
Qed.

(** ** Positions and velocities *)
Lemma vector_match l r : vector_row l r -> exists x, re_search ATOMIC_DATA_3VEC l = Some x /\
  (k <- atreg_match x ;; v <- floats_of x FST_D ;; Ok (k, v)) = Ok (vector_entry r).
Proof.
  intros [a u at_ t ns s Ha He Hu Ht Hl Hs Hf].
  destruct (fp_atom (pa None a) u at_ (t ++ s) [] (edge_at a He) Hu) as (ds & F & Hd & Ed).
  { apply token_end_digit. eapply columns_hd; eassumption. }
  destruct (search_hit ATOMIC_DATA_3VEC a (u ++ t) s (row_caps FST_D ns [("index"%string, write_digits ds); ("spec"%string, fst at_)])) as (x & Ex & Ec).
  - apply atom_skips; [reflexivity|apply first_atom|exact Ha].
  - unfold ATOMIC_DATA_3VEC. apply fp_seq with (c1 := [("index"%string, write_digits ds); ("spec"%string, fst at_)]); [exact F|].
    now apply fp_labelled.
  - exists x. rewrite <- app_assoc in Ex. split; [exact Ex|].
    apply (entry_of _ _ ds); auto. apply Forall_wf, (CellFacts.columns_ok _ _ Ht).
Qed.
Lemma vector_other l : plain l -> re_search ATOMIC_DATA_3VEC l = None.
Proof. apply plain_search; vm_compute; reflexivity. Qed.
Lemma atreg_block ls rows : laid vector_row plain ls rows ->
  exists d, process_atreg_block ls = Ok d /\ merged (map vector_entry rows) d.
Proof. apply dict_rows_laid; [apply vector_match|apply vector_other]. Qed.

(** ** Forces *)
Lemma nomatch_remark p s c : unremarked s -> nomatch (RSeqs [ws_star; RChar "("; RPlus (c_notof ")"); RChar ")"]) p s c.
Proof.
  intros H. apply nomatch_den. intros p' s' c' D. cbn [RSeqs] in D. destruct D as (p1 & s1 & c1 & D1 & p2 & s2 & c2 & D2 & _).
  apply (den_rep_chr true 0 None is_space) in D1 as (w & -> & _ & _ & Hw & _ & _).
  destruct D2 as (x & -> & Hx & _). cbn in Hx. apply Ascii.eqb_eq in Hx. subst x.
  apply (H w s2 eq_refl). now apply blanks_iff.
Qed.
Lemma fp_remark p r s c : SpecCastep.remark r -> (r = [] -> unremarked s) -> fp CastepBlocks.remark p r s c c.
Proof.
  intros [->|(g & w & -> & Hg & Hw & Hn)] Hs.
  - apply fp_opt_none, nomatch_remark. auto.
  - apply blanks_iff in Hg. apply fp_opt_some; [destruct g; discriminate|]. cbn [RSeqs].
    replace (g ++ "("%char :: w ++ [")"%char]) with (g ++ ["("%char] ++ w ++ [")"%char]) by reflexivity.
    apply fp_seq with (c1 := c); [apply fp_star_chr; [exact Hg|reflexivity]|].
    apply fp_seq with (c1 := c); [apply fp_char|]. apply fp_seq with (c1 := c); [|apply fp_char].
    apply fp_plus_chr; [|exact Hw|reflexivity]. apply forallb_forall. intros x Hx. cbn. rewrite orb_false_r.
    destruct (Ascii.eqb_spec x ")") as [->|]; [contradiction|]. destruct (Ascii.eqb_spec ")" x); [congruence|reflexivity].
Qed.
(** After a number: a blank, a parenthesis, or the end. *)
Definition after_number (s : str) : Prop := hd_not (fun c => negb (is_space c || Ascii.eqb c "(")) s.
Lemma after_follow n s : after_number s -> follow_ok n s.
Proof.
  unfold follow_ok, follow_plain, after_number, hd_not. destruct s as [|c s]; [now destruct (n_exp n)|].
  intros H. apply negb_false_iff in H. destruct (n_exp n); clear -H; revert c H; ascii_dec.
Qed.
Lemma remark_after r s : SpecCastep.remark r -> token_end s -> after_number (r ++ s).
Proof.
  intros [->|(g & w & -> & Hg & _)] Hs.
  - apply token_end_hd in Hs. unfold after_number, hd_not in *. cbn [app]. destruct s as [|c s]; [exact I|]. apply negb_false_iff in Hs. now rewrite Hs.
  - apply blanks_iff in Hg. destruct g as [|x g]; cbn; [reflexivity|]. cbn in Hg. apply andb_true_iff in Hg as [Hx _]. now rewrite Hx.
Qed.
Lemma remarked_hd ns t s : remarked ns t -> token_end s -> token_end (t ++ s).
Proof.
  intros H Hs. inversion H as [|g n r ns' t' Hg Hg0 _ _ _]; subst; [exact Hs|].
  destruct g as [|x g]; [congruence|]. intros c u E. cbn in E. injection E as <- _. now inversion Hg.
Qed.
Lemma remarked_ok ns t : remarked ns t -> Forall num_ok ns.
Proof. induction 1; constructor; auto. Qed.
Lemma blank_start_unremarked g n u : blanks g -> g <> [] -> num_ok n -> unremarked (g ++ write_num n ++ u).
Proof.
  intros Hg Hg0 Hn g' v E Hb. apply blanks_iff in Hg, Hb.
  pose proof (write_num_nonempty n Hn) as Hne.
  destruct (write_num n) as [|x w] eqn:W; [congruence|].
  pose proof (CellFacts.write_num_numchars n) as N. rewrite W in N. cbn [forallb] in N. apply andb_true_iff in N as [N _].
  assert (N' : is_space x = false) by (clear -N; revert x N; ascii_dec).
  cbn [app] in E. apply (run_unique is_space) in E as (_ & E & _); auto. subst x. discriminate.
Qed.
Lemma fp_forces ls : forall ns t p s c, remarked ns t -> length ls = length ns -> token_end s -> unremarked s ->
  fp (labelled_floats_gen lf_sep CastepBlocks.remark (map (fun n => (n, None)) ls)) p t s c (row_caps ls ns c).
Proof.
  unfold labelled_floats_gen. induction ls as [|l ls IH]; intros ns t p s c H Hl Hs Hu.
  - destruct ns; [|discriminate]. inversion H; subst. apply fp_eps.
  - destruct ns as [|n ns]; [discriminate|]. inversion H as [|g n0 r ns0 t' Hg Hg0 Hn Hr Ht]; subst.
    pose proof (proj1 (blanks_iff _) Hg) as Hg'. cbn [row_caps].
    assert (F : fp (labelled_float lf_sep CastepBlocks.remark (l, None)) p (g ++ write_num n ++ r) (t' ++ s) c ((l, write_num n) :: c)).
    { cbn [labelled_float snd fst RSeqs]. unfold lf_sep. apply fp_lazy_plus_seq; [exact Hg'|exact Hg0| |].
      - intros p' y s' Hy. apply nomatch_seq_l, nomatch_grp, nomatch_NUMBER. now apply start_num_space.
      - apply fp_seq with (c1 := (l, write_num n) :: c).
        + apply fp_grp, fp_NUMBER; [exact Hn| |now apply prev_ok_space]. apply after_follow.
          apply remark_after; [exact Hr|]. eapply remarked_hd; eassumption.
        + apply fp_remark; [exact Hr|]. intros ->. destruct ns as [|n2 ns].
          * inversion Ht; subst. exact Hu.
          * inversion Ht; subst. rewrite <- !app_assoc. now apply blank_start_unremarked. }
    replace (g ++ write_num n ++ r ++ t') with ((g ++ write_num n ++ r) ++ t') by (now rewrite <- !app_assoc).
    destruct ls as [|l' ls].
    + destruct ns; [|discriminate]. inversion Ht; subst. cbn [map RSeqs row_caps]. rewrite app_nil_r. exact F.
    + cbn [map]. change (RSeqs (?a :: ?b :: ?l)) with (RSeq a (RSeqs (b :: l))).
      eapply fp_seq; [exact F|]. apply (IH ns t' _ s _ Ht); [now injection Hl|exact Hs|exact Hu].
Qed.
Lemma force_match l r : force_row l r -> exists x, re_search ATOMIC_DATA_FORCE l = Some x /\
  (k <- atreg_match x ;; v <- floats_of x FST_D ;; Ok (k, v)) = Ok (vector_entry r).
Proof.
  intros [a u at_ t ns s Ha He Hu Ht Hl Hs Hn Hf].
  destruct (fp_atom (pa None a) u at_ (t ++ s) [] (edge_at a He) Hu) as (ds & F & Hd & Ed).
  { apply token_end_digit. eapply remarked_hd; eassumption. }
  destruct (search_hit ATOMIC_DATA_FORCE a (u ++ t) s (row_caps FST_D ns [("index"%string, write_digits ds); ("spec"%string, fst at_)])) as (x & Ex & Ec).
  - apply atom_skips; [reflexivity|apply first_atom|exact Ha].
  - unfold ATOMIC_DATA_FORCE. apply fp_seq with (c1 := [("index"%string, write_digits ds); ("spec"%string, fst at_)]); [exact F|].
    apply fp_forces; auto.
  - exists x. rewrite <- app_assoc in Ex. split; [exact Ex|].
    apply (entry_of _ _ ds); auto. apply Forall_wf, (remarked_ok _ _ Ht).
Qed.
Lemma force_other l : plain l -> re_search ATOMIC_DATA_FORCE l = None.
Proof. apply plain_search; vm_compute; reflexivity. Qed.
Lemma force_rows ls rows : laid force_row plain ls rows ->
  exists d, dict_rows (re_search ATOMIC_DATA_FORCE) (fun x => k <- atreg_match x ;; v <- floats_of x FST_D ;; Ok (k, v)) ls = Ok d /\
    merged (map vector_entry rows) d.
Proof. apply dict_rows_laid; [apply force_match|apply force_other]. Qed.

(** ** Titles between stars *)
(** A greedy class followed by a pattern that cannot match after taking more. *)
Lemma rep_hi_none {R} f c (K : kont R) : forall t n p,
  (forall u v q, t = u ++ v -> forallb f u = true -> K q v c = None) -> rep_hi (m (RChr f)) true n p t c K = None.
Proof.
  induction t as [|x t IH]; intros n p H.
  - destruct n; cbn; now apply (H [] []).
  - destruct n as [|n]; cbn [rep_hi]; [now apply (H [] (x :: t))|]. rewrite m_chr.
    assert (E : K p (x :: t) c = None) by now apply (H [] (x :: t)). destruct (f x) eqn:Hx; [|exact E].
    replace (length t <? length (x :: t)) with true by (symmetry; apply Nat.ltb_lt; cbn; lia).
    rewrite IH; [exact E|]. intros u v q -> Hu. apply (H (x :: u) v q eq_refl). cbn. now rewrite Hx.
Qed.
Lemma rep_hi_back {R} f c (K : kont R) t y : forall w n p, forallb f w = true -> length (w ++ t) <= n ->
  (forall u v q, t = u ++ v -> u <> [] -> forallb f u = true -> K q v c = None) -> K (pa p w) t c = Some y ->
  rep_hi (m (RChr f)) true n p (w ++ t) c K = Some y.
Proof.
  induction w as [|x w IH]; intros n p Hw Hl H Hk.
  - cbn [app pa] in *. destruct n as [|n]; cbn [rep_hi]; [exact Hk|]. destruct t as [|z t]; [exact Hk|]. rewrite m_chr.
    destruct (f z) eqn:Hz; [|exact Hk].
    replace (length t <? length (z :: t)) with true by (symmetry; apply Nat.ltb_lt; cbn; lia).
    rewrite rep_hi_none; [exact Hk|]. intros u v q -> Hu. apply (H (z :: u) v q eq_refl); [discriminate|]. cbn. now rewrite Hz.
  - cbn in Hw. apply andb_true_iff in Hw as [Hx Hw]. cbn in Hl. destruct n as [|n]; [lia|]. cbn [app rep_hi]. rewrite m_chr, Hx.
    replace (length (w ++ t) <? length (x :: w ++ t)) with true by (symmetry; apply Nat.ltb_lt; cbn; lia).
    rewrite (IH n (Some x)); auto. lia.
Qed.
Lemma fp_grp_star n f b p w t s c c' : forallb f w = true ->
  (forall u v q c0, t ++ s = u ++ v -> u <> [] -> forallb f u = true -> nomatch b q v c0) ->
  fp b (pa p w) t s ((n, w) :: c) c' -> fp (RSeq (RGrp n (RStar (RChr f))) b) p (w ++ t) s c c'.
Proof.
  intros Hw Hn Hb R k y Hk. cbn [m]. unfold RStar. cbn [rep_lo]. rewrite <- app_assoc. apply rep_hi_back; auto.
  - intros u v q E Hu Hf. now apply Hn with (u := u).
  - rewrite app_length. replace (length w + length (t ++ s) - length (t ++ s)) with (length w) by lia.
    rewrite firstn_app, Nat.sub_diag, firstn_all. cbn [firstn]. rewrite app_nil_r.
    apply (Hb R k y). now rewrite pa_app in Hk.
Qed.

(** A text no proper end of which is also a start of it. *)
Definition borderless (w : str) : bool :=
  forallb (fun i => negb (str_eqb (firstn (length w - i) w) (skipn i w))) (seq 1 (length w - 1)).
Lemma borderless_shift (L U S S' : str) : borderless L = true -> L ++ S = U ++ L ++ S' -> U <> [] ->
  (forall x t, L = x :: t -> ~ In x S) -> L = [].
Proof.
  intros Hb E Hu Hs. destruct L as [|x L]; [reflexivity|exfalso]. set (w := x :: L) in *.
  destruct (app_eq_app _ _ _ _ E) as (l & [[E1 E2]|[E1 E2]]).
  - destruct (Nat.eq_dec (length l) 0) as [H0|H0].
    + destruct l; [|discriminate]. cbn in E2. apply (Hs x L eq_refl). rewrite <- E2. now left.
    + unfold borderless in Hb. rewrite forallb_forall in Hb.
      assert (HU : length U <> 0) by (destruct U; [congruence|discriminate]).
      assert (HL : length w = length U + length l) by (rewrite E1, app_length; reflexivity).
      specialize (Hb (length U)). rewrite in_seq in Hb. specialize (Hb ltac:(lia)). apply negb_true_iff in Hb.
      assert (F : firstn (length w - length U) w = skipn (length U) w); [|rewrite F, str_eqb_refl in Hb; discriminate].
      apply (f_equal (firstn (length l))) in E2. rewrite !firstn_app in E2.
      replace (length l - length w) with 0 in E2 by lia. rewrite Nat.sub_diag, firstn_all in E2. cbn [firstn] in E2. rewrite !app_nil_r in E2.
      replace (length w - length U) with (length l) by lia. rewrite E2, E1, skipn_app, skipn_all, Nat.sub_diag. reflexivity.
  - apply (Hs x L eq_refl). rewrite E2. apply in_or_app. right. now left.
Qed.
Lemma lit_later (lit kw s : str) : lower kw = lower lit -> lit <> [] -> borderless (lower lit) = true ->
  (forall x t, lower lit = x :: t -> ~ In x (lower s)) ->
  forall u v q c0, kw ++ s = u ++ v -> u <> [] -> nomatch (RLitI_l lit) q v c0.
Proof.
  intros El Hl Hb Hs u v q c0 E Hu. apply nomatch_den. intros p' s' c' D. apply CellFacts.den_litI in D as (w & -> & Ew & _).
  apply (f_equal lower) in E. rewrite !CellFacts.lower_app in E.
  rewrite El, Ew in E. apply borderless_shift in E; auto.
  - destruct lit; [congruence|discriminate].
  - destruct u; [congruence|discriminate].
Qed.
Lemma stars_iff s : SpecCastep.stars s -> s <> [] /\ forallb (Ascii.eqb "*") s = true.
Proof. intros [H0 H]. split; [exact H0|]. apply forallb_forall. intros c Hc. apply H in Hc. now subst. Qed.
Lemma fp_stars p s u c : SpecCastep.stars s -> hd_not (Ascii.eqb "*") u -> fp CastepBlocks.stars p s u c c.
Proof. intros H Hu. apply stars_iff in H as [H0 H]. unfold CastepBlocks.stars, RChar. now apply fp_plus_chr. Qed.
Definition blank_or_star (c : ascii) : bool := is_space c || Ascii.eqb "*" c.
Lemma blank_or_star_lower x : blank_or_star x = true -> is_alpha (lower_c x) = false.
Proof. revert x. ascii_dec. Qed.

Lemma fp_title lit p nm kw s : forallb (fun c => is_alpha c || Ascii.eqb c " ") nm = true ->
  lower kw = lower lit -> lit <> [] -> borderless (lower lit) = true ->
  match lower lit with x :: _ => is_alpha x = true | [] => True end -> forallb blank_or_star s = true ->
  fp (RSeq (RGrp "1" (RStar c_letter_blank)) (RLitI_l lit)) p (nm ++ kw) s [] [("1"%string, nm)].
Proof.
  intros Hnm El Hl Hb Hx Hs. apply fp_grp_star; [exact Hnm| |now apply CellFacts.fp_litI].
  intros u v q c0 E Hu _. eapply lit_later; try eassumption. intros x t E1 Hin. rewrite E1 in Hx.
  unfold lower in Hin. apply in_map_iff in Hin as (y & <- & Hy). rewrite forallb_forall in Hs. apply Hs in Hy.
  apply blank_or_star_lower in Hy. congruence.
Qed.
Lemma kind_block nm k x : kind_of nm k -> m_caps x = [("1"%string, nm)] ->
  normalise_key (if isempty (group_s x "1") then $"non_descript" else group_s x "1") = k.
Proof.
  intros H E. unfold group_s. rewrite E. cbn [cap]. rewrite String.eqb_refl. destruct H as [|nm ws H0 H]; [reflexivity|].
  destruct nm as [|c nm]; [congruence|]. cbn [isempty]. now apply normalise_key_cut.
Qed.
Lemma forallb_imp {A} (f g : A -> bool) l : (forall x, f x = true -> g x = true) -> forallb f l = true -> forallb g l = true.
Proof. intros H Hf. rewrite forallb_forall in *. auto. Qed.
Lemma alpha_lower_hd c : is_alpha (lower_c c) = true -> blank_or_star c = false.
Proof. revert c. ascii_dec. Qed.
Lemma letter_alpha c : SpecCell.letter c -> is_alpha c = true.
Proof.
  intros H. unfold is_alpha, is_upper, is_lower, in_range, ord.
  destruct H as [[A B]|[A B]]; apply orb_true_iff; [left|right]; apply andb_true_iff; split; apply N.leb_le; assumption.
Qed.
Lemma title_match lit l what k : title_line what l k -> list_ascii_of_string what = lower lit ->
  borderless (lower lit) = true -> match lower lit with x :: _ => is_alpha x = true | [] => False end ->
  exists x, re_search (table_re (Some (RSeq (RGrp "1" (RStar c_letter_blank)) (RLitI_l lit))) CastepBlocks.stars) l = Some x /\
    normalise_key (if isempty (group_s x "1") then $"non_descript" else group_s x "1") = k.
Proof.
  intros [a st g nm kw g' st' b k' Ha Hst Hg Hnm Hnm0 Hkw Hg' Hst' Hb Hk] El Hbl Hhd.
  apply blanks_iff in Ha, Hg, Hg', Hb. unfold SpecCell.spells in Hkw. rewrite El in Hkw.
  assert (Hkw0 : hd_not blank_or_star (kw ++ g' ++ st' ++ b)).
  { rewrite <- Hkw in Hhd. destruct kw as [|c kw]; [contradiction|]. cbn in Hhd |- *. now apply alpha_lower_hd. }
  assert (Hnm' : forallb (fun c => is_alpha c || Ascii.eqb c " ") nm = true).
  { apply forallb_forall. intros c Hc. destruct (Hnm c Hc) as [H| ->]; [|reflexivity]. now rewrite letter_alpha. }
  assert (Hs : hd_not blank_or_star ((nm ++ kw) ++ g' ++ st' ++ b)).
  { destruct nm as [|c nm]; [exact Hkw0|]. cbn. specialize (Hnm0 c nm eq_refl).
    destruct (Hnm c (or_introl eq_refl)) as [H| ->]; [|exfalso; apply Hnm0, blank_iff; reflexivity].
    apply letter_alpha in H. clear -H. revert c H. ascii_dec. }
  destruct (stars_iff _ Hst) as [Hst0 Hst1]. destruct (stars_iff _ Hst') as [Hst0' Hst1'].
  assert (Hnb : forall u, hd_not blank_or_star u -> hd_not is_space u /\ hd_not (Ascii.eqb "*") u).
  { intros [|y u]; cbn; [auto|]. unfold blank_or_star. apply orb_false_iff. }
  destruct (Hnb _ Hs) as [Hs1 Hs2].
  assert (F : fp (table_re (Some (RSeq (RGrp "1" (RStar c_letter_blank)) (RLitI_l lit))) CastepBlocks.stars) None
                (a ++ st ++ g ++ (nm ++ kw) ++ g' ++ st' ++ b) [] [] [("1"%string, nm)]).
  { unfold table_re, gen_table_re, gen_table_core.
    assert (P : fp (RSeqs [ws_star; REps; ws_star; CastepBlocks.stars; ws_star; RSeq (RGrp "1" (RStar c_letter_blank)) (RLitI_l lit);
                           ws_star; CastepBlocks.stars; ws_star; REps; ws_star]) None
                  (concat [a; []; []; st; g; nm ++ kw; g'; st'; b; []; []]) [] [] [("1"%string, nm)]).
    { apply fp_seqs. set (c1 := [("1"%string, nm)]).
      assert (St : forall s u, s <> [] -> forallb (Ascii.eqb "*") s = true -> hd_not is_space (s ++ u)).
      { intros [|x s] u H0 H; [congruence|]. cbn in H |- *. apply andb_true_iff in H as [H _]. apply Ascii.eqb_eq in H. now subst. }
      assert (Bs : forall s u, forallb is_space s = true -> hd_not (Ascii.eqb "*") u -> hd_not (Ascii.eqb "*") (s ++ u)).
      { intros [|x s] u H Hu; [exact Hu|]. cbn in H |- *. apply andb_true_iff in H as [H _]. clear -H. revert x H. ascii_dec. }
      eapply fpl_cons; [apply fp_star_chr; [exact Ha|cbn [concat app]; rewrite ?app_nil_r, <- ?app_assoc; apply St; auto]|].
      eapply fpl_cons; [apply fp_eps|].
      eapply fpl_cons; [apply fp_star_chr; [reflexivity|cbn [concat app]; rewrite ?app_nil_r, <- ?app_assoc; apply St; auto]|].
      eapply fpl_cons; [apply fp_stars; [exact Hst|cbn [concat app]; rewrite ?app_nil_r, <- ?app_assoc; apply Bs; [exact Hg|]; rewrite app_assoc; exact Hs2]|].
      eapply fpl_cons; [apply fp_star_chr; [exact Hg|cbn [concat app]; rewrite ?app_nil_r, <- ?app_assoc; rewrite app_assoc; exact Hs1]|].
      eapply fpl_cons; [apply fp_title; auto; [intros ->; exact Hhd|destruct (lower lit); [exact I|exact Hhd]|]|].
      { cbn [concat app]. rewrite ?app_nil_r, !forallb_app. repeat (apply andb_true_iff; split).
        - revert Hg'. apply forallb_imp. intros x H. unfold blank_or_star. now rewrite H.
        - revert Hst1'. apply forallb_imp. intros x H. unfold blank_or_star. rewrite H. apply orb_true_r.
        - revert Hb. apply forallb_imp. intros x H. unfold blank_or_star. now rewrite H. }
      eapply fpl_cons; [apply fp_star_chr; [exact Hg'|cbn [concat app]; rewrite ?app_nil_r; apply St; auto]|].
      eapply fpl_cons; [apply fp_stars; [exact Hst'|cbn [concat app]; rewrite ?app_nil_r; rewrite <- (app_nil_r b); apply Bs; [exact Hb|exact I]]|].
      eapply fpl_cons; [apply fp_star_chr; [exact Hb|exact I]|].
      eapply fpl_cons; [apply fp_eps|]. eapply fpl_cons; [apply fp_star_chr; [reflexivity|exact I]|]. constructor. }
    cbn [concat app] in P. rewrite !app_nil_r in P. cbn [RSeqs].
    change (a ++ ?t) with ([] ++ (a ++ t)). apply fp_seq with (c1 := []); [apply fp_bol|].
    rewrite <- (app_nil_r (a ++ _)). apply fp_seq with (c1 := [("1"%string, nm)]); [exact P|]. now apply fp_eol. }
  rewrite <- (app_assoc nm) in F. 
  destruct (search_hit _ [] _ [] _ I F) as (x & Ex & Ec). cbn [app] in Ex. rewrite !app_nil_r in Ex. exists x. split; [exact Ex|].
  now apply (kind_block nm).
Qed.
Lemma forces_title l k : title_line "forces" l k -> block_type FORCES_BLOCK_RE l = Ok k.
Proof.
  intros H. destruct (title_match ($"Forces") l "forces" k H) as (x & E & Ek); [vm_compute; reflexivity..|].
  unfold block_type. change FORCES_BLOCK_RE with (table_re (Some (RSeq (RGrp "1" (RStar c_letter_blank)) (RLitI_l ($"Forces")))) CastepBlocks.stars).
  rewrite E. now rewrite Ek.
Qed.
Lemma stresses_title l k : title_line "stress tensor" l k -> block_type STRESSES_BLOCK_RE l = Ok k.
Proof.
  intros H. destruct (title_match ($"Stress Tensor") l "stress tensor" k H) as (x & E & Ek); [vm_compute; reflexivity..|].
  unfold block_type. change STRESSES_BLOCK_RE with (table_re (Some (RSeq (RGrp "1" (RStar c_letter_blank)) (RLitI_l ($"Stress Tensor")))) CastepBlocks.stars).
  rewrite E. now rewrite Ek.
Qed.

(** ** Forces and stresses *)
Lemma forces_block l ls k rows : title_line "forces" l k -> laid force_row plain ls rows ->
  exists d, process_forces (l :: ls) = Ok (k, d) /\ merged (map vector_entry rows) d.
Proof.
  intros Ht Hr. unfold process_forces. rewrite (forces_title _ _ Ht). cbn [bind]. destruct (force_rows _ _ Hr) as (d & E & Hd).
  exists d. rewrite E. auto.
Qed.
Lemma mention_contains w l : mentions w l <-> contains ($w) l = true.
Proof. symmetry. apply contains_iff. Qed.
Lemma stress_unlabelled l : unlabelled l -> stress_numbers l = [].
Proof.
  intros H. unfold stress_numbers.
  assert (E : forall v, In v labels -> contains ($v) l = false).
  { intros v Hv. apply not_true_is_false. intros C. apply (H v Hv). now apply mention_contains. }
  rewrite (E "*  x"%string), (E "*  y"%string), (E "*  z"%string); cbn; tauto.
Qed.
Lemma stress_labelled w ns l : only_mentions w l -> number_line ns l -> In w labels ->
  stress_numbers l = skipn (if String.eqb w "*  x" then 0 else if String.eqb w "*  y" then 1 else 2) (map write_num ns).
Proof.
  intros H Hn Hw. unfold stress_numbers. rewrite (get_numbers_line _ _ Hn).
  assert (E : forall v, In v labels -> contains ($v) l = String.eqb w v).
  { intros v Hv. destruct (String.eqb_spec w v) as [->|Hne].
    - apply mention_contains, H; auto.
    - apply not_true_is_false. intros C. apply mention_contains in C. apply (H v Hv) in C. congruence. }
  rewrite (E "*  x"%string), (E "*  y"%string), (E "*  z"%string) by (cbn; tauto).
  destruct Hw as [<-|[<-|[<-|[]]]]; reflexivity.
Qed.
Lemma concat_unlabelled o : Forall unlabelled o -> concat (map stress_numbers o) = [].
Proof. induction 1 as [|l o Hl _ IH]; [reflexivity|]. cbn. now rewrite stress_unlabelled. Qed.
Lemma stresses_block l ls k t : title_line "stress tensor" l k -> tensor_lines t ls -> tensor_ok t ->
  process_stresses (l :: ls) = Ok (k, tensor_value t).
Proof.
  intros Ht [o1 lx o2 ly o3 lz o4 H1 H2 H3 H4 Mx Nx My Ny Mz Nz] Hf. unfold process_stresses. rewrite (stresses_title _ _ Ht). cbn [bind].
  rewrite map_app, concat_app. cbn [map concat]. rewrite map_app, concat_app. cbn [map concat]. rewrite map_app, concat_app. cbn [map concat].
  rewrite !concat_unlabelled by assumption. cbn [app].
  rewrite (stress_labelled _ _ _ Mx Nx), (stress_labelled _ _ _ My Ny), (stress_labelled _ _ _ Mz Nz) by (cbn; tauto).
  match goal with |- context [to_tuple TFloat ?l] =>
    change l with (map write_num [t_xx t; t_xy t; t_xz t; t_yy t; t_yz t; t_zz t]) end.
  rewrite to_tuple_nums; [reflexivity| |exact Hf].
  apply number_line_ok, Forall_wf in Nx, Ny, Nz. inversion Nx; inversion Ny; inversion Nz; subst.
  repeat match goal with H : Forall num_wf (_ :: _) |- _ => inversion H; clear H; subst end. repeat (constructor; auto).
Qed.

(** ** k-points *)
Lemma fp_ws_labelled names ns t p s c : columns ns t -> length names = length ns -> names <> [] -> token_end s ->
  fp (RSeq ws_star (labelled_floats names)) p t s c (row_caps names ns c).
Proof.
  intros Ht Hl Hn Hs. destruct ns as [|n ns]; [destruct names; [congruence|discriminate]|].
  inversion Ht as [|g n0 ns0 t' Hg Hg0 Hn0 Ht']; subst. pose proof (proj1 (blanks_iff _) Hg) as Hb.
  destruct g as [|x w _] using rev_ind; [congruence|]. rewrite <- app_assoc. cbn [app].
  rewrite forallb_app in Hb. cbn in Hb. apply andb_true_iff in Hb as [Hw Hx]. rewrite andb_true_r in Hx.
  pose proof (CellFacts.write_num_numchars n) as C. pose proof (write_num_nonempty n Hn0) as N.
  assert (Hd : hd_not is_space ((write_num n ++ t') ++ s)).
  { destruct (write_num n) as [|y q]; [congruence|]. cbn in C |- *. apply andb_true_iff in C as [C _]. clear -C. revert y C. ascii_dec. }
  unfold ws_star. apply CellFacts.fp_star_back1; [exact Hw|exact Hx|exact Hd| |].
  - apply nomatch_den. intros p' s' c' D. apply den_labelled in D as (ns' & t'' & Hc & Hl' & E & _).
    destruct ns' as [|n' ns']; [destruct names; [congruence|discriminate]|]. inversion Hc as [|g' ? ? ? Hg' Hg0' _ _]; subst.
    destruct g' as [|y g']; [congruence|]. rewrite E in Hd. cbn in Hd. apply blanks_iff in Hg'. cbn in Hg'. apply andb_true_iff in Hg' as [Hg' _]. congruence.
  - change (x :: write_num n ++ t') with ([x] ++ write_num n ++ t'). apply fp_labelled; auto. constructor; auto; [|discriminate].
    apply Forall_app in Hg. tauto.
Qed.
Lemma digit_char_digit d : is_digit (digit_char d) = true.
Proof. now destruct d. Qed.
Definition kpt_names : list string := ["qx"; "qy"; "qz"; "wt"]%string.
Lemma kpt_match l k : kpt_row l k -> one_digit k = true -> exists x, re_match KPOINT_ROW_RE l = Some x /\
  m_caps x = row_caps kpt_names (kpt_nums k) [].
Proof.
  intros [a g t b e k' Ha Hg Hn Ht Hb Hb0 He Hf] H1. unfold one_digit in H1. destruct (kp_no k') as [|d [|]]; try discriminate.
  apply blanks_iff in Ha, Hg, He. pose proof (proj1 (blanks_iff _) Hb) as Hb'.
  set (c1 := row_caps kpt_names (kpt_nums k') []).
  assert (P : fp (gen_table_core (Some (RSeqs [c_digit; ws_star; labelled_floats kpt_names])) (RChar "+") REps REps) None
                (concat [a; []; []; ["+"%char]; g; digit_char d :: t; b; ["+"%char]; e; []; []]) [] [] c1).
  { unfold gen_table_core. apply fp_seqs.
    eapply fpl_cons; [apply fp_star_chr; [exact Ha|reflexivity]|]. eapply fpl_cons; [apply fp_eps|].
    eapply fpl_cons; [apply fp_star_chr; [reflexivity|reflexivity]|]. eapply fpl_cons; [apply fp_char|].
    eapply fpl_cons; [apply fp_star_chr; [exact Hg|cbn; now destruct d]|].
    eapply fpl_cons.
    { cbn [RSeqs]. change (digit_char d :: t) with ([digit_char d] ++ t). apply fp_seq with (c1 := []); [apply fp_chr, digit_char_digit|].
      apply fp_ws_labelled; [exact Ht|reflexivity|discriminate|]. cbn [concat app]. destruct b as [|x b]; [congruence|].
      intros c u E. cbn in E. injection E as <- _. now inversion Hb. }
    eapply fpl_cons; [apply fp_star_chr; [exact Hb'|reflexivity]|]. eapply fpl_cons; [apply fp_char|].
    eapply fpl_cons; [apply fp_star_chr; [exact He|exact I]|]. eapply fpl_cons; [apply fp_eps|].
    eapply fpl_cons; [apply fp_star_chr; [reflexivity|exact I]|]. constructor. }
  assert (F : fp KPOINT_ROW_RE None (concat [a; []; []; ["+"%char]; g; digit_char d :: t; b; ["+"%char]; e; []; []]) [] [] c1).
  { unfold KPOINT_ROW_RE, table_re, gen_table_re. cbn [RSeqs]. change (concat ?t) with ([] ++ concat t).
    apply fp_seq with (c1 := []); [apply fp_bol|]. rewrite <- (app_nil_r (concat _)). apply fp_seq with (c1 := c1); [exact P|]. now apply fp_eol. }
  apply fp_match_at in F. unfold re_match. cbn [concat app] in F. rewrite !app_nil_r in F. cbn [write_digits map app].
  eexists. split; [exact F|reflexivity].
Qed.
Lemma den_ws p s c p' s' c' : den ws_star p s c p' s' c' -> exists w, s = w ++ s' /\ forallb is_space w = true.
Proof. intros D. apply (den_rep_chr true 0 None is_space) in D as (w & -> & _ & _ & Hw & _ & _). eauto. Qed.
(** What a match of a row starts with. *)
Lemma den_kpt l x : re_match KPOINT_ROW_RE l = Some x ->
  exists a g d w r, l = a ++ "+"%char :: g ++ d :: w ++ r /\ forallb is_space a = true /\ forallb is_space g = true /\
    forallb is_space w = true /\ w <> [] /\ is_digit d = true.
Proof.
  intros E. unfold re_match, match_at in E. apply m_sound in E as (p' & s' & c' & D & _).
  unfold KPOINT_ROW_RE, table_re, gen_table_re, gen_table_core in D. cbn [RSeqs] in D.
  destruct D as (p1 & s1 & c1 & (_ & _ & <- & _) & p2 & s2 & c2 & D & _).
  destruct D as (p3 & s3 & c3 & D1 & p4 & s4 & c4 & D2 & p5 & s5 & c5 & D3 & p6 & s6 & c6 & D4 & p7 & s7 & c7 & D5 & p8 & s8 & c8 & D6 & _).
  apply den_ws in D1 as (w1 & -> & H1). destruct D2 as (_ & -> & _). apply den_ws in D3 as (w2 & -> & H2).
  destruct D4 as (y & -> & Hy & _). apply Ascii.eqb_eq in Hy. subst y. apply den_ws in D5 as (w3 & -> & H3).
  destruct D6 as (p9 & s9 & c9 & D6 & p10 & s10 & c10 & D7 & D8). destruct D6 as (d & -> & Hd & _).
  apply den_ws in D7 as (w4 & -> & H4). apply den_labelled in D8 as (ns & t & Ht & Hl & -> & _).
  destruct ns as [|n ns]; [discriminate|]. inversion Ht as [|g ? ? t' Hg Hg0 _ _]; subst. apply blanks_iff in Hg.
  exists (w1 ++ w2), w3, d, (w4 ++ g), ((write_num n ++ t') ++ s8). rewrite <- !app_assoc. repeat split; auto.
  - rewrite forallb_app. now rewrite H1, H2.
  - rewrite forallb_app. now rewrite H4, Hg.
  - destruct w4; [exact Hg0|discriminate].
Qed.
Lemma kpt_long l k : kpt_row l k -> one_digit k = false -> re_match KPOINT_ROW_RE l = None.
Proof.
  intros [a g t b e k' Ha Hg Hn Ht Hb Hb0 He Hf] H1. unfold one_digit in H1. destruct (kp_no k') as [|d [|d' ds]]; try discriminate; [congruence|].
  destruct (re_match KPOINT_ROW_RE _) as [x|] eqn:E; [exfalso|reflexivity]. apply blanks_iff in Ha, Hg.
  apply den_kpt in E as (a' & g' & y & w & r & E & Ha' & Hg' & Hw & Hw0 & Hy).
  apply (run_unique is_space) in E as (_ & _ & E); auto. cbn [write_digits map app] in E.
  assert (Hdig : forall z, is_digit z = true -> is_space z = false) by ascii_dec.
  apply (run_unique is_space) in E as (_ & _ & E); auto using digit_char_digit.
  destruct w as [|z w]; [congruence|]. cbn in E. injection E as E _. cbn in Hw. apply andb_true_iff in Hw as [Hw _].
  subst z. rewrite Hdig in Hw by apply digit_char_digit. discriminate.
Qed.
Lemma kpt_other l : not_kpt l -> re_match KPOINT_ROW_RE l = None.
Proof.
  intros H. destruct (re_match KPOINT_ROW_RE l) as [x|] eqn:E; [exfalso|reflexivity].
  apply den_kpt in E as (a' & g' & y & w & r & E & Ha' & Hg' & Hw & Hw0 & Hy).
  apply (H a' g' y (w ++ r)); [now apply blanks_iff|now apply blanks_iff|now apply digit_among|exact E].
Qed.
Lemma kpt_list ls ks : laid kpt_row not_kpt ls ks ->
  process_kpoint_list ls =
  Ok [(kstr "points", VList (map kpt_read (filter one_digit ks))); (kstr "num_kpoints", VInt (Z.of_nat (length (filter one_digit ks))))].
Proof.
  intros H. assert (G : exists xs, matches (re_match KPOINT_ROW_RE) ls = xs /\
    Forall2 (fun x k => m_caps x = row_caps kpt_names (kpt_nums k) [] /\ Forall num_wf (kpt_nums k) /\ all_fit (kpt_nums k)) xs (filter one_digit ks)).
  { induction H as [|l k ls ks Hl _ (xs & <- & IH)|l ls ks Hl _ (xs & <- & IH)]; cbn [matches filter].
    - exists []. split; [reflexivity|constructor].
    - destruct (one_digit k) eqn:E1.
      + destruct (kpt_match _ _ Hl E1) as (x & E & Hx). rewrite E. eexists. split; [reflexivity|]. constructor; [|exact IH].
        destruct Hl as [? ? t ? ? k ? ? ? Ht]. split; [exact Hx|]. split; [|assumption]. apply Forall_wf, (CellFacts.columns_ok _ _ Ht).
      + rewrite (kpt_long _ _ Hl E1). eauto.
    - rewrite (kpt_other _ Hl). eauto. }
  destruct G as (xs & E & F). unfold process_kpoint_list. rewrite E.
  rewrite (mapM_forall2 _ _ kpt_read _ _ F).
  - cbn [bind]. now rewrite map_length.
  - intros x k (Hc & Hw & Hf). destruct k as [no x1 y1 z1 w1]. cbn [kpt_nums kp_x kp_y kp_z kp_w] in *.
    inversion Hw as [|? ? Wx Hw1]; subst. inversion Hw1 as [|? ? Wy Hw2]; subst. inversion Hw2 as [|? ? Wz Hw3]; subst. inversion Hw3 as [|? ? Ww _]; subst.
    inversion Hf as [|? ? Fx Hf1]; subst. inversion Hf1 as [|? ? Fy Hf2]; subst. inversion Hf2 as [|? ? Fz Hf3]; subst. inversion Hf3 as [|? ? Fw _]; subst.
    rewrite (floats_groups x [x1; y1; x1]); [| |repeat (constructor; auto)|repeat (constructor; auto)].
    + cbn [bind]. assert (G : group x "wt" = VStr (write_num w1)) by (unfold group; rewrite Hc; reflexivity). rewrite G.
      rewrite CellPosFacts.float_of_num by assumption. reflexivity.
    + unfold group. rewrite Hc. reflexivity.
Qed.

(** ** Lines told apart by what they mention *)
Definition read_kind (kd : kind) (l : str) : result pyval :=
  match kd with
  | AnInt i => number_at TInt l i
  | AFloat i => float_at l i
  | Ints => numbers_as TInt l
  | Floats => numbers_as TFloat l
  end.
Fixpoint rule_line (rs : rules) (d : dict) (l : str) : result dict :=
  match rs with
  | [] => Ok d
  | (w, (k, kd)) :: rs' => if contains ($w) l then rmap (dset key_eqb d (kstr k)) (read_kind kd l) else rule_line rs' d l
  end.
Lemma nth_ok ns i n : Forall num_wf ns -> nth_error ns i = Some n -> num_wf n.
Proof. intros H E. rewrite Forall_forall in H. eapply H, nth_error_In, E. Qed.
Lemma kept_read kd ns v l : number_line ns l -> kept kd ns v -> read_kind kd l = Ok v.
Proof.
  intros Hn Hk. pose proof (Forall_wf _ (number_line_ok _ _ Hn)) as Hw.
  destruct Hk as [i ns n E Hi|i ns n E Hf|ns Hi|ns Hf]; cbn [read_kind].
  - unfold number_at, item, nthE. rewrite (get_numbers_line _ _ Hn), nth_error_map, E. cbn [option_map bind].
    apply CellPosFacts.int_of_num; [eapply nth_ok; eassumption|exact Hi].
  - unfold float_at, item, nthE. rewrite (get_numbers_line _ _ Hn), nth_error_map, E. cbn [option_map bind].
    rewrite builtin_num; [reflexivity|eapply nth_ok; eassumption|exact Hf].
  - unfold numbers_as, to_tuple. rewrite (get_numbers_line _ _ Hn). cbn [to_type].
    rewrite map_map, (TypeConvFacts.mapM_map _ _ (fun n => VInt (int_value n))); [reflexivity|].
    intros n Hin. rewrite Forall_forall in Hi, Hw. apply CellPosFacts.int_of_num; auto.
  - unfold numbers_as. rewrite (get_numbers_line _ _ Hn). now rewrite to_tuple_nums.
Qed.
Lemma told_line rs l o : told rs l o -> forall d,
  rule_line rs d l = Ok match o with Some (k, v) => dset key_eqb d k v | None => d end.
Proof.
  induction 1 as [l|w k kd rs l ns v Hm Hn Hk|w k kd rs l o Hm _ IH]; intros d; cbn [rule_line]; [reflexivity| |].
  - apply mention_contains in Hm. rewrite Hm. now rewrite (kept_read _ _ _ _ Hn Hk).
  - destruct (contains ($w) l) eqn:E; [|apply IH]. exfalso. apply Hm. now apply mention_contains.
Qed.
Lemma told_lines rs ls es : all_told rs ls es -> forall d, foldM (rule_line rs) ls d = Ok (dupdate key_eqb d es).
Proof.
  induction 1 as [|l [k v] ls es Hl _ IH|l ls es Hl _ IH]; intros d; cbn [foldM].
  - reflexivity.
  - rewrite (told_line _ _ _ Hl). cbn [bind]. now rewrite IH.
  - rewrite (told_line _ _ _ Hl). cbn [bind]. apply IH.
Qed.
Lemma told_merged rs ls es : all_told rs ls es -> exists d, foldM (rule_line rs) ls [] = Ok d /\ merged es d.
Proof.
  intros H. eexists. split; [apply (told_lines _ _ _ H)|]. apply (merged_dict_of key_eqb key_eqb_spec).
Qed.
Lemma foldM_ext {A S} (f g : S -> A -> result S) l : (forall s x, f s x = g s x) -> forall s, foldM f l s = foldM g l s.
Proof. intros H. induction l as [|x l IH]; intros s; [reflexivity|]. cbn [foldM]. rewrite H. destruct (g s x); [apply IH|reflexivity]. Qed.
Lemma kpt_spec ls es : all_told kpt_rules ls es -> exists d, process_kpoint_spec ls = Ok d /\ merged es d.
Proof.
  intros H. destruct (told_merged _ _ _ H) as (d & E & Hd). exists d. split; [|exact Hd]. rewrite <- E. unfold process_kpoint_spec.
  apply foldM_ext. reflexivity.
Qed.

(** ** Bonds *)
Lemma fp_opt_seq n a b p t s c c' :
  (forall p1 s1 c1 c0 p2 s2 c2, den a p (t ++ s) c p1 s1 c1 -> den b p1 s1 c0 p2 s2 c2 -> False) ->
  fp b p t s ((n, []) :: c) c' -> fp (RSeq (RGrp n (RRep true 0 (Some 1) a)) b) p t s c c'.
Proof.
  intros Hn Hb R k x Hk. cbn [m rep_lo]. cbn [Nat.sub rep_hi].
  match goal with |- match m a p (t ++ s) c ?K with _ => _ end = _ => destruct (m a p (t ++ s) c K) as [y|] eqn:E end.
  - exfalso. apply m_sound in E as (p1 & s1 & c1 & D1 & E). destruct (length s1 <? length (t ++ s)); [|discriminate].
    apply m_sound in E as (p2 & s2 & c2 & D2 & _). eapply Hn; eassumption.
  - rewrite Nat.sub_diag. cbn [firstn]. now apply Hb.
Qed.
Definition bond_tail : re :=
  labelled_floats_gen lf_sep REps [("population", None); ("spin", Some (0, 1)); ("length", None)]%string.
Definition spin_caps (b : bond) (g : str) : str := match b_spin b with Some n => g ++ write_num n | None => [] end.
Lemma num_hd n s : num_ok n -> hd_not is_space (write_num n ++ s).
Proof.
  intros Hn. pose proof (CellFacts.write_num_numchars n) as C. pose proof (write_num_nonempty n Hn) as N.
  destruct (write_num n) as [|y q]; [congruence|]. cbn in C |- *. apply andb_true_iff in C as [C _]. clear -C. revert y C. ascii_dec.
Qed.
Lemma num_chars_nonspace n : forallb (fun c => negb (is_space c)) (write_num n) = true.
Proof. apply CellBlockFacts.num_nonspace. Qed.
Lemma fp_bond_tail b t s p c : columns (bond_nums b) t -> blanks s ->
  exists g, blanks g /\ fp bond_tail p t s c
    (("length"%string, write_num (b_len b)) :: ("spin"%string, spin_caps b g) :: ("population"%string, write_num (b_pop b)) :: c).
Proof.
  intros Ht Hs. assert (Hs' : token_end s).
  { intros x u ->. now inversion Hs. }
  unfold bond_nums in Ht. inversion Ht as [|g1 n1 ns1 t1 Hg1 Hg10 Hn1 Ht1]; subst. pose proof (proj1 (blanks_iff _) Hg1) as Hb1.
  unfold bond_tail, labelled_floats_gen. cbn [map RSeqs]. unfold spin_caps.
  assert (F1 : fp (labelled_float lf_sep REps ("population"%string, None)) p (g1 ++ write_num (b_pop b)) (t1 ++ s) c (("population"%string, write_num (b_pop b)) :: c)).
  { apply fp_labelled1; auto. apply token_end_follow. eapply columns_hd; eassumption. }
  destruct (b_spin b) as [sp|]; cbn [app] in Ht1.
  - inversion Ht1 as [|g2 n2 ns2 t2 Hg2 Hg20 Hn2 Ht2]; subst. inversion Ht2 as [|g3 n3 ns3 t3 Hg3 Hg30 Hn3 Ht3]; subst. inversion Ht3; subst.
    rewrite app_nil_r in *. exists g2. split; [exact Hg2|]. apply blanks_iff in Hg2, Hg3.
    rewrite app_assoc. eapply fp_seq; [exact F1|]. rewrite app_assoc. eapply fp_seq.
    + cbn [labelled_float snd fst]. apply fp_grp. apply (fp_opt_some col_re); [intros Z; apply app_eq_nil in Z as [Z _]; congruence|]. apply fp_col; auto.
      apply token_end_follow. eapply columns_hd; eassumption.
    + apply fp_labelled1; auto. now apply token_end_follow.
  - inversion Ht1 as [|g3 n3 ns3 t3 Hg3 Hg30 Hn3 Ht3]; subst. inversion Ht3; subst.
    rewrite app_nil_r in *. exists []. split; [constructor|]. apply blanks_iff in Hg3. pose proof (proj1 (blanks_iff _) Hs) as Hsb.
    rewrite app_assoc. eapply fp_seq; [exact F1|]. cbn [labelled_float snd fst]. apply fp_opt_seq.
    + intros p1 s1 c1 c0 p2 s2 c2 D1 D2. apply den_col in D1 as (g' & n' & Hg' & Hg0' & Hn' & E & _).
      destruct D2 as (p3 & s3 & c3 & D2 & p4 & s4 & c4 & D3 & _). apply den_plus_lazy_space in D2 as (g4 & -> & Hg40 & Hg4 & _).
      destruct D3 as (c5 & D3 & _). apply den_NUMBER in D3 as (n4 & Hn4 & -> & _).
      rewrite <- app_assoc in E.
      pose proof (num_hd (b_len b) s Hn3) as A1. pose proof (num_hd n' (g4 ++ write_num n4 ++ s4) Hn') as A2.
      pose proof (num_chars_nonspace (b_len b)) as N1. pose proof (num_chars_nonspace n') as N2.
      destruct (write_num (b_len b)) as [|x1 w1] eqn:W1; [now apply write_num_nonempty in W1|].
      destruct (write_num n') as [|x2 w2] eqn:W2; [now apply write_num_nonempty in W2|].
      cbn [app] in E. apply (run_unique is_space) in E as (_ & -> & E); auto.
      cbn in N1, N2. apply andb_true_iff in N1 as [_ N1], N2 as [_ N2].
      assert (G : forall (w w' u : str), forallb (fun c => negb (is_space c)) w = true -> forallb (fun c => negb (is_space c)) w' = true ->
                w ++ s = w' ++ g4 ++ u -> s = g4 ++ u).
      { clear -Hg4 Hg40 Hsb. intros w w' u H H' E. destruct g4 as [|y g4]; [congruence|]. destruct s as [|z s].
        - rewrite app_nil_r in E. subst w. rewrite !forallb_app in H. cbn in H. cbn in Hg4. apply andb_true_iff in Hg4 as [Hy _].
          rewrite Hy in H. cbn in H. rewrite andb_false_r in H. discriminate.
        - cbn in Hsb, Hg4. apply andb_true_iff in Hsb as [Hz _], Hg4 as [Hy _].
          apply (run_unique (fun c => negb (is_space c))) in E as (_ & -> & ->); auto; now apply negb_false_iff. }
      apply G in E; auto. rewrite E in Hsb. rewrite !forallb_app in Hsb.
      pose proof (num_hd n4 s4 Hn4) as A4. pose proof (write_num_nonempty n4 Hn4) as N4. destruct (write_num n4) as [|y q]; [congruence|].
      cbn in A4, Hsb. rewrite A4 in Hsb. cbn in Hsb. rewrite andb_false_r in Hsb. discriminate.
    + apply fp_labelled1; auto. now apply token_end_follow.
Qed.
Lemma edge_blanks p g : at_edge p -> forallb is_space g = true -> at_edge (pa p g).
Proof.
  intros Hp Hg c E. rewrite pa_rev in E. destruct (rev g) as [|x r] eqn:Er; [now apply Hp|]. injection E as ->.
  apply space_not_word. rewrite forallb_forall in Hg. apply Hg, in_rev. rewrite Er. now left.
Qed.
Lemma species_hd f sp s : species sp -> (forall c, is_upper c = true -> f c = false) -> hd_not f (sp ++ s).
Proof. intros (s1 & s2 & s3 & -> & (u & r & -> & Hu & _) & _) H. cbn. apply H. now apply capital_iff. Qed.
Lemma fp_ws_tail b t s p c : columns (bond_nums b) t -> blanks s ->
  exists g, blanks g /\ fp (RSeq ws_star bond_tail) p t s c
    (("length"%string, write_num (b_len b)) :: ("spin"%string, spin_caps b g) :: ("population"%string, write_num (b_pop b)) :: c).
Proof.
  intros Ht Hs. unfold bond_nums in Ht. inversion Ht as [|g n1 ns1 t1 Hg Hg0 Hn1 Ht1]; subst. pose proof (proj1 (blanks_iff _) Hg) as Hb.
  destruct g as [|x w _] using rev_ind; [congruence|].
  rewrite forallb_app in Hb. cbn in Hb. apply andb_true_iff in Hb as [Hw Hx]. rewrite andb_true_r in Hx.
  destruct (fp_bond_tail b (x :: write_num (b_pop b) ++ t1) s (pa p w) c) as (g & Hgb & F); [|exact Hs|].
  { change (x :: write_num (b_pop b) ++ t1) with ([x] ++ write_num (b_pop b) ++ t1). constructor; auto; [|discriminate].
    apply Forall_app in Hg. tauto. }
  exists g. split; [exact Hgb|]. rewrite <- app_assoc. cbn [app]. unfold ws_star.
  assert (Hd : hd_not is_space ((write_num (b_pop b) ++ t1) ++ s)) by (rewrite <- app_assoc; now apply num_hd).
  apply CellFacts.fp_star_back1; auto.
  apply nomatch_den. intros p' s' c' D. unfold bond_tail, labelled_floats_gen in D. cbn [map RSeqs labelled_float fst snd] in D.
  destruct D as (p1 & s1 & c1 & (p2 & s2 & c2 & D & _) & _). apply den_plus_lazy_space in D as (g4 & E & Hg40 & Hg4 & _).
  rewrite E in Hd. destruct g4 as [|y g4]; [congruence|]. cbn in Hd, Hg4. apply andb_true_iff in Hg4 as [Hg4 _]. congruence.
Qed.
Lemma digit_not_space c : is_digit c = true -> is_space c = false.
Proof. revert c. ascii_dec. Qed.
Lemma upper_not_space c : is_upper c = true -> is_space c = false.
Proof. revert c. ascii_dec. Qed.
Lemma blanks_digit_hd (g s : str) : forallb is_space g = true -> hd_not is_digit s -> hd_not is_digit (g ++ s).
Proof. destruct g as [|x g]; [auto|]. cbn. intros H _. apply andb_true_iff in H as [H _]. now apply space_not_digit. Qed.
Definition bond_atoms : list re :=
  [ws_star; RGrp "spec1" ATOM_NAME_RE; ws_star; RGrp "ind1" (RPlus c_digit); ws_star;
   RLit "--"; ws_star; RGrp "spec2" ATOM_NAME_RE; ws_star; RGrp "ind2" (RPlus c_digit)].
Lemma fp_bond l b : bond_row l b -> exists x ds1 ds2 g, re_match BOND_RE l = Some x /\ blanks g /\
  ds1 <> [] /\ decimal ds1 = snd (b_from b) /\ ds2 <> [] /\ decimal ds2 = snd (b_to b) /\
  m_caps x = [("length", write_num (b_len b)); ("spin", spin_caps b g); ("population", write_num (b_pop b));
              ("ind2", write_digits ds2); ("spec2", fst (b_to b)); ("ind1", write_digits ds1); ("spec1", fst (b_from b))]%string.
Proof.
  intros [a u g g' v t s b' Ha Hu Hg Hg' Hv Ht Hs Hf].
  remember (b_from b') as A eqn:EA. remember (b_to b') as B eqn:EB.
  destruct Hu as [sp1 h1 ds1 Hsp1 Hh1 Hh10 Hd1]. destruct Hv as [sp2 h2 ds2 Hsp2 Hh2 Hh20 Hd2].
  apply blanks_iff in Ha, Hg, Hg', Hh1, Hh2. cbn [fst snd].
  set (c2 := [("ind2", write_digits ds2); ("spec2", sp2); ("ind1", write_digits ds1); ("spec1", sp1)]%string).
  assert (Hte : hd_not is_digit (t ++ s)).
  { apply token_end_digit. eapply columns_hd; [eassumption|]. intros c w ->. now inversion Hs. }
  assert (F1 : fp (RSeqs bond_atoms) None
         (concat [a; sp1; h1; write_digits ds1; g; $"--"; g'; sp2; h2; write_digits ds2]) (t ++ s) [] c2).
  { apply fp_seqs.
    eapply fpl_cons; [apply fp_star_chr; [exact Ha|cbn [concat]; rewrite <- app_assoc; apply species_hd; auto using upper_not_space]|].
    eapply fpl_cons; [apply fp_grp; cbn [concat]; rewrite <- !app_assoc; apply fp_atom_name_at; auto; apply edge_blanks; [discriminate|exact Ha]|].
    eapply fpl_cons; [apply fp_star_chr; [exact Hh1|cbn [concat]; rewrite <- app_assoc; apply write_digits_hd; auto using digit_not_space]|].
    eapply fpl_cons; [apply fp_grp, fp_plus_chr; [apply write_digits_all|destruct ds1; [congruence|discriminate]|]|].
    { cbn [concat]. rewrite <- app_assoc. apply blanks_digit_hd; [exact Hg|reflexivity]. }
    eapply fpl_cons; [apply fp_star_chr; [exact Hg|reflexivity]|]. eapply fpl_cons; [apply fp_lit|].
    eapply fpl_cons; [apply fp_star_chr; [exact Hg'|cbn [concat]; rewrite <- app_assoc; apply species_hd; auto using upper_not_space]|].
    eapply fpl_cons; [apply fp_grp; cbn [concat]; rewrite <- !app_assoc; apply fp_atom_name_at; auto; apply edge_blanks; [|exact Hg']|].
    { intros c E. cbn in E. injection E as <-. reflexivity. }
    eapply fpl_cons; [apply fp_star_chr; [exact Hh2|cbn [concat]; rewrite <- app_assoc; apply write_digits_hd; auto using digit_not_space]|].
    eapply fpl_cons; [apply fp_grp, fp_plus_chr; [apply write_digits_all|destruct ds2; [congruence|discriminate]|exact Hte]|]. constructor. }
  set (w := concat [a; sp1; h1; write_digits ds1; g; $"--"; g'; sp2; h2; write_digits ds2]) in *.
  destruct (fp_ws_tail b' t s (pa None w) c2 Ht Hs) as (gs & Hgs & F2).
  pose proof (fp_seqs_app bond_atoms [ws_star; bond_tail] None w t s [] c2 _ ltac:(discriminate) ltac:(discriminate) F1 F2) as F.
  change (RSeqs (bond_atoms ++ [ws_star; bond_tail])) with BOND_RE in F. apply fp_match_at in F.
  eexists. exists ds1, ds2, gs. split.
  - unfold re_match. replace (a ++ (sp1 ++ h1 ++ write_digits ds1) ++ g ++ text_of "--" ++ g' ++ (sp2 ++ h2 ++ write_digits ds2) ++ t ++ s)
      with ((w ++ t) ++ s); [exact F|]. unfold w. cbn [concat]. rewrite <- !app_assoc. cbn [app]. reflexivity.
  - cbn [m_caps]. auto 10.
Qed.
Lemma builtin_pad g n : forallb is_space g = true -> num_wf n -> fits (num_value n) ->
  py_float_builtin (g ++ write_num n) = Ok (FQ (Qred (num_value n))).
Proof.
  intros Hg Hn Hf. rewrite <- (builtin_num n Hn Hf). unfold py_float_builtin.
  pose proof (num_chars_nonspace n) as N. replace (g ++ write_num n) with (g ++ write_num n ++ []) by now rewrite app_nil_r.
  rewrite NumVal.strip_strip_pad, NumVal.py_fraction_pad by auto.
  assert (C : chr_in "/" (g ++ write_num n ++ []) = chr_in "/" (write_num n)).
  { rewrite app_nil_r. unfold chr_in. rewrite existsb_app. replace (existsb _ g) with false; [reflexivity|].
    symmetry. induction g as [|x g IH]; [reflexivity|]. cbn in Hg |- *. apply andb_true_iff in Hg as [Hx Hg]. rewrite IH by exact Hg.
    rewrite orb_false_r. clear -Hx. revert x Hx. ascii_dec. }
  rewrite C. reflexivity.
Qed.
Lemma float_true_zero q : float_true (FQ (Qred q)) = negb (Qeq_bool q 0).
Proof.
  cbn. f_equal. apply eq_true_iff_eq. rewrite Z.eqb_eq, Qeq_bool_iff. split.
  - intros H. rewrite <- (Qred_correct q). unfold Qeq. cbn. rewrite H. reflexivity.
  - intros H. apply Qred_complete in H. rewrite H. reflexivity.
Qed.
Definition bond_triple (b : bond) : pyval * option float * pyval :=
  (SpecCastep.float_of (b_pop b), option_map (fun n => FQ (Qred (num_value n))) (b_spin b), SpecCastep.float_of (b_len b)).
Lemma bond_nums_in b : Forall num_wf (bond_nums b) -> all_fit (bond_nums b) ->
  (num_wf (b_pop b) /\ fits (num_value (b_pop b))) /\ (num_wf (b_len b) /\ fits (num_value (b_len b))) /\
  forall n, b_spin b = Some n -> num_wf n /\ fits (num_value n).
Proof.
  unfold all_fit. rewrite !Forall_forall. intros Hw Hf.
  assert (G : forall n, In n (bond_nums b) -> num_wf n /\ fits (num_value n)) by (intros n Hn; exact (conj (Hw n Hn) (Hf n Hn))).
  split; [|split].
  - apply G. now left.
  - apply G. right. apply in_or_app. right. now left.
  - intros n E. apply G. right. apply in_or_app. left. rewrite E. now left.
Qed.
Lemma bond_match l b : bond_row l b -> exists x, re_match BOND_RE l = Some x /\
  CastepBlocks.bond_entry x = Ok (bond_key (b_from b, b_to b), bond_triple b).
Proof.
  intros H. destruct (fp_bond l b H) as (x & ds1 & ds2 & g & E & Hg & Hd1 & E1 & Hd2 & E2 & Ec). exists x. split; [exact E|].
  destruct H as [a u g1 g' v t s b Ha Hu Hg1 Hg' Hv Ht Hs Hf].
  destruct (bond_nums_in b (Forall_wf _ (CellFacts.columns_ok _ _ Ht)) Hf) as ((W1 & F1) & (W2 & F2) & W3).
  assert (G : forall n v, cap (m_caps x) n = Some v -> group_s x n = v) by (intros n0 v0 E0; unfold group_s; now rewrite E0).
  unfold CastepBlocks.bond_entry, float_group.
  rewrite (G "ind1"%string (write_digits ds1)), (G "ind2"%string (write_digits ds2)), (G "population"%string (write_num (b_pop b))),
    (G "spin"%string (spin_caps b g)), (G "length"%string (write_num (b_len b))), (G "spec1"%string (fst (b_from b))), (G "spec2"%string (fst (b_to b)));
    try (rewrite Ec; reflexivity).
  rewrite !py_int_digits, E1, E2, !builtin_num by assumption. cbn [bind rmap]. unfold spin_caps, bond_triple.
  destruct (b_spin b) as [n|] eqn:Eb; [|cbn [isempty bind option_map]; reflexivity].
  destruct (W3 n eq_refl) as (Wn & Fn). assert (isempty (g ++ write_num n) = false) as ->.
  { pose proof (CellBlockFacts.wf_nonempty n Wn). destruct g; [|reflexivity]. cbn [app]. destruct (write_num n); [congruence|reflexivity]. }
  apply blanks_iff in Hg. rewrite builtin_pad by assumption. reflexivity.
Qed.
Lemma bond_other l : not_bond l -> re_match BOND_RE l = None.
Proof.
  intros [H|[H|H]].
  - apply (needs_match is_digit); [vm_compute; reflexivity|now apply lacks_digits].
  - apply (needs_match is_upper); [vm_compute; reflexivity|now apply lacks_capitals].
  - apply (needs_match (Ascii.eqb "-")); [vm_compute; reflexivity|]. apply (lacks_free "-"); [exact H|].
    intros c Hc. apply Ascii.eqb_eq in Hc. subst c. left. reflexivity.
Qed.
Lemma dset_mapv {V W} (f : V -> W) (d : list (key * V)) k v :
  dset key_eqb (map (fun kv => (fst kv, f (snd kv))) d) k (f v) = map (fun kv => (fst kv, f (snd kv))) (dset key_eqb d k v).
Proof. induction d as [|[k0 v0] d IH]; [reflexivity|]. cbn. destruct (key_eqb k0 k); [reflexivity|]. cbn. now rewrite IH. Qed.
Lemma dict_of_mapv {V W} (f : V -> W) (d : list (key * V)) :
  dict_of key_eqb (map (fun kv => (fst kv, f (snd kv))) d) = map (fun kv => (fst kv, f (snd kv))) (dict_of key_eqb d).
Proof.
  unfold dict_of, dupdate. change (@nil (key * W)) with (map (fun kv : key * V => (fst kv, f (snd kv))) []). generalize (@nil (key * V)).
  induction d as [|[k v] d IH]; intros e; [reflexivity|]. cbn [map fold_left fst snd]. rewrite dset_mapv. apply IH.
Qed.
Lemma bond_value_entry b : (bond_key (b_from b, b_to b), bond_value (bond_triple b)) = SpecCastep.bond_entry b.
Proof.
  unfold SpecCastep.bond_entry, bond_value, bond_triple, bond_spin. destruct (b_spin b) as [n|]; [|reflexivity].
  cbn [option_map]. rewrite float_true_zero. now destruct (Qeq_bool (num_value n) 0).
Qed.
Lemma bonds_block ls bs : laid bond_row not_bond ls bs ->
  exists d, process_bond_analysis ls = Ok d /\ merged (map SpecCastep.bond_entry bs) d.
Proof.
  intros H. unfold process_bond_analysis. rewrite (rows_laid _ _ _ _ (fun b => (bond_key (b_from b, b_to b), bond_triple b)) _ _ bond_match bond_other H).
  cbn [bind]. eexists. split; [reflexivity|]. rewrite <- dict_of_mapv, map_map. cbn [fst snd].
  rewrite (map_ext _ _ bond_value_entry). apply merged_dict_of, key_eqb_spec.
Qed.
