(** First paths through [labelled_floats] and friends. *)
From Verif Require Import PyBase PyFacts PyVal Regex RegexFacts RegexComplete CastepRes NumSpec SpecLine NumFacts NumVal NumProps
  SpecTable SpecStr StrUtilFacts Stream StreamFacts TypeConv TypeConvFacts.
Local Open Scope list_scope.
Local Open Scope nat_scope.

Lemma space_not_mant_e c : is_space c = true -> is_mant c || is_e c = false.
Proof. revert c. apply (ascii_imp_not is_space (fun c => is_mant c || is_e c)). vm_compute. reflexivity. Qed.
Lemma space_not_digit c : is_space c = true -> is_digit c = false.
Proof. revert c. apply (ascii_imp_not is_space is_digit). vm_compute. reflexivity. Qed.
Lemma space_not_word c : is_space c = true -> is_word c = false.
Proof. revert c. apply (ascii_imp_not is_space is_word). vm_compute. reflexivity. Qed.

Lemma token_end_hd s : token_end s <-> hd_not (fun c => negb (is_space c)) s.
Proof.
  unfold token_end, hd_not. destruct s as [|c s].
  - split; [auto|]. intros _ c t E. discriminate.
  - split.
    + intros H. specialize (H c s eq_refl). apply blank_iff in H. now rewrite H.
    + intros H c' t E. injection E as <- _. apply blank_iff. now destruct (is_space c).
Qed.
Lemma token_end_follow n s : token_end s -> follow_ok n s.
Proof.
  rewrite token_end_hd. unfold follow_ok, follow_plain, hd_not. destruct s as [|c s]; [now destruct (n_exp n)|].
  intros H. apply negb_false_iff in H. destruct (n_exp n).
  - now apply space_not_digit.
  - now apply space_not_mant_e.
Qed.

Lemma start_num_space c s : is_space c = true -> start_num (c :: s) = false.
Proof.
  intros H. unfold start_num, start_mant. assert (is_sign c = false) as ->.
  { revert H. apply (ascii_imp_not is_space is_sign). vm_compute. reflexivity. }
  rewrite (space_not_digit c H). assert (Ascii.eqb c "." = false) as ->; [|reflexivity].
  revert H. apply (ascii_imp_not is_space (fun c => Ascii.eqb c ".")). vm_compute. reflexivity.
Qed.
Lemma prev_ok_space p g n : forallb is_space g = true -> g <> [] -> prev_ok (pa p g) n.
Proof.
  intros Hg Hn _ _. rewrite pa_rev. destruct (rev g) as [|x r] eqn:E.
  - apply (f_equal (@rev ascii)) in E. rewrite rev_involutive in E. now subst g.
  - intros H. injection H as ->. assert (In "."%char g) as Hin.
    { apply in_rev. rewrite E. now left. }
    rewrite forallb_forall in Hg. specialize (Hg _ Hin). discriminate.
Qed.

(** One separated, labelled number. *)
Lemma fp_labelled1 l p g n s c : forallb is_space g = true -> g <> [] -> num_ok n -> follow_ok n s ->
  fp (RSeqs [lf_sep; RGrp l NUMBER_RE; REps]) p (g ++ write_num n) s c ((l, write_num n) :: c).
Proof.
  intros Hg Hg0 Hn Hs. cbn [RSeqs]. unfold lf_sep.
  apply fp_lazy_plus_seq; [exact Hg|exact Hg0| |].
  - intros p' y s' Hy. apply nomatch_seq_l, nomatch_grp, nomatch_NUMBER. now apply start_num_space.
  - rewrite <- (app_nil_r (write_num n)) at 1. apply fp_seq with (c1 := (l, write_num n) :: c).
    + apply fp_grp. apply fp_NUMBER; [exact Hn|exact Hs|now apply prev_ok_space].
    + apply fp_eps.
Qed.

(** Sequences of patterns. *)
Inductive fpl : list re -> option ascii -> list str -> str -> caps -> caps -> Prop :=
| fpl_nil p s c : fpl [] p [] s c c
| fpl_cons r rs p t ts s c c1 c2 :
    fp r p t (concat ts ++ s) c c1 -> fpl rs (pa p t) ts s c1 c2 -> fpl (r :: rs) p (t :: ts) s c c2.
Lemma fp_seqs rs p ts s c c' : fpl rs p ts s c c' -> fp (RSeqs rs) p (concat ts) s c c'.
Proof.
  induction 1 as [p s c|r rs p t ts s c c1 c2 H H1 IH]; [apply fp_eps|].
  cbn [concat]. destruct rs as [|r' rs].
  - inversion H1; subst. cbn [concat RSeqs] in *. rewrite app_nil_r. exact H.
  - change (RSeqs (r :: r' :: rs)) with (RSeq r (RSeqs (r' :: rs))). eapply fp_seq; eassumption.
Qed.
Lemma fp_seqs_app rs1 rs2 p t1 t2 s c c1 c2 : rs1 <> [] -> rs2 <> [] ->
  fp (RSeqs rs1) p t1 (t2 ++ s) c c1 -> fp (RSeqs rs2) (pa p t1) t2 s c1 c2 -> fp (RSeqs (rs1 ++ rs2)) p (t1 ++ t2) s c c2.
Proof.
  intros H1 H2 A B. intros R k x Hk.
  assert (E : forall rs1, rs1 <> [] -> forall p s c k, m (R:=R) (RSeqs (rs1 ++ rs2)) p s c k =
     m (RSeqs rs1) p s c (fun p' s' c' => m (RSeqs rs2) p' s' c' k)).
  { clear - H2. induction rs1 as [|r rs1 IH]; intros H p s c k; [congruence|]. destruct rs1 as [|r' rs1].
    - cbn [app]. destruct rs2 as [|r2 rs2]; [congruence|]. reflexivity.
    - change (RSeqs (r :: r' :: rs1)) with (RSeq r (RSeqs (r' :: rs1))).
      change (RSeqs ((r :: r' :: rs1) ++ rs2)) with (RSeq r (RSeqs ((r' :: rs1) ++ rs2))).
      cbn [m]. apply m_ext. intros p' s' c'. apply IH. discriminate. }
  rewrite (E _ H1), <- app_assoc. apply A. apply B. rewrite <- pa_app. exact Hk.
Qed.

(** Captures of a row, latest first. *)
Fixpoint row_caps (ls : list string) (ns : list num) (c : caps) : caps :=
  match ls, ns with
  | l :: ls', n :: ns' => row_caps ls' ns' ((l, write_num n) :: c)
  | _, _ => c
  end.

Lemma columns_hd ns t s : columns ns t -> token_end s -> token_end (t ++ s).
Proof.
  intros H Hs. inversion H as [|g n ns' t' Hg Hg0 _ _]; subst; [exact Hs|].
  destruct g as [|x g]; [congruence|]. intros c u E. cbn in E. injection E as <- _. now inversion Hg.
Qed.

Lemma fp_labelled ls : forall ns t p s c, columns ns t -> length ls = length ns -> token_end s ->
  fp (labelled_floats ls) p t s c (row_caps ls ns c).
Proof.
  unfold labelled_floats, labelled_floats_gen.
  induction ls as [|l ls IH]; intros ns t p s c H Hl Hs.
  - destruct ns; [|discriminate]. inversion H; subst. apply fp_eps.
  - destruct ns as [|n ns]; [discriminate|]. inversion H as [|g n' ns' t' Hg Hg0 Hn Ht]; subst.
    apply blanks_iff in Hg. cbn [map row_caps]. rewrite app_assoc.
    assert (F : fp (labelled_float lf_sep REps (l, None)) p (g ++ write_num n) (t' ++ s) c ((l, write_num n) :: c)).
    { apply fp_labelled1; auto. apply token_end_follow. eapply columns_hd; eassumption. }
    destruct ls as [|l' ls].
    + destruct ns; [|discriminate]. inversion Ht; subst. cbn [map RSeqs row_caps]. rewrite app_nil_r. exact F.
    + cbn [map]. change (RSeqs (?a :: ?b :: ?l)) with (RSeq a (RSeqs (b :: l))).
      eapply fp_seq; [exact F|]. apply (IH ns t' _ s _ Ht); [now injection Hl|exact Hs].
Qed.

(** Every match of [labelled_floats] is a row of columns. *)
Lemma den_plus_lazy_space p s c p' s' c' : den lf_sep p s c p' s' c' ->
  exists g, s = g ++ s' /\ g <> [] /\ forallb is_space g = true /\ p' = pa p g /\ c = c'.
Proof.
  intros H. apply den_rep_chr in H as (w & -> & Hl & _ & Hw & -> & ->). exists w. repeat split; auto.
  destruct w; [cbn in Hl; lia|discriminate].
Qed.
Lemma den_labelled ls : forall p s c p' s' c', den (labelled_floats ls) p s c p' s' c' ->
  exists ns t, columns ns t /\ length ns = length ls /\ s = t ++ s' /\ p' = pa p t /\ c' = row_caps ls ns c.
Proof.
  unfold labelled_floats, labelled_floats_gen.
  assert (One : forall l p s c p' s' c', den (labelled_float lf_sep REps (l, None)) p s c p' s' c' ->
    exists g n, forallb is_space g = true /\ g <> [] /\ num_ok n /\ s = g ++ write_num n ++ s' /\
      p' = pa p (g ++ write_num n) /\ c' = (l, write_num n) :: c).
  { intros l p s c p' s' c' H. cbn [labelled_float snd fst RSeqs] in H.
    destruct H as (p1 & s1 & c1 & H1 & p2 & s2 & c2 & H2 & H3).
    apply den_plus_lazy_space in H1 as (g & -> & Hg0 & Hg & -> & ->).
    cbn [den] in H3. destruct H3 as (-> & -> & ->). cbn [den] in H2.
    destruct H2 as (c2 & H2 & ->). apply den_NUMBER in H2 as (n & Hn & -> & -> & ->).
    exists g, n. rewrite pa_app, firstn_sub. auto 10. }
  induction ls as [|l ls IH]; intros p s c p' s' c' H.
  - cbn in H. destruct H as (-> & -> & ->). exists [], []. repeat split; constructor.
  - destruct ls as [|l' ls].
    + cbn [map RSeqs] in H. apply One in H as (g & n & Hg & Hg0 & Hn & -> & -> & ->).
      exists [n], (g ++ write_num n ++ []). split; [|split; [reflexivity|split; [|split; [|reflexivity]]]].
      * constructor; auto; [now apply blanks_iff|constructor].
      * now rewrite app_nil_r, <- app_assoc.
      * now rewrite app_nil_r.
    + cbn [map] in H. change (RSeqs (?a :: ?b :: ?l)) with (RSeq a (RSeqs (b :: l))) in H.
      destruct H as (p1 & s1 & c1 & H1 & H2). apply One in H1 as (g & n & Hg & Hg0 & Hn & -> & -> & ->).
      apply (IH (pa p (g ++ write_num n))) in H2 as (ns & t & Ht & Hl & -> & -> & ->).
      exists (n :: ns), (g ++ write_num n ++ t). split; [|split; [cbn in *; lia|split; [|split]]].
      * constructor; auto. now apply blanks_iff.
      * now rewrite <- !app_assoc.
      * now rewrite <- pa_app, <- app_assoc.
      * reflexivity.
Qed.
Lemma search_labelled_none ls line : ~ has_columns (length ls) line -> re_search (labelled_floats ls) line = None.
Proof.
  intros H. unfold re_search. destruct (search_from (labelled_floats ls) None line) as [[pre x]|] eqn:E; [|reflexivity].
  exfalso. apply H. apply search_sound in E as (s' & E & E' & D).
  apply den_labelled in D as (ns & t & Ht & Hl & Hs & _ & _).
  exists pre, t, (m_rest x), ns. split; [|auto]. rewrite E. f_equal. congruence.
Qed.

(** ** Every row of columns is found *)
Lemma fp_den r p t s c c' : fp r p t s c c' -> den r p (t ++ s) c (pa p t) s c'.
Proof.
  intros H. pose proof (H _ (fun p s c => Some (p, s, c)) (pa p t, s, c') eq_refl) as E.
  apply m_sound in E as (p1 & s1 & c1 & D & E). injection E as -> -> ->. exact D.
Qed.
Lemma iter_den_chr_intro f w : forall p s c, forallb f w = true -> iter_den (den (RChr f)) (length w) p (w ++ s) c (pa p w) s c.
Proof.
  induction w as [|x w IH]; intros p s c H; cbn in *; [auto|]. apply andb_true_iff in H as [Hx H].
  exists (Some x), (w ++ s), c. split; [eauto 10|]. now apply IH.
Qed.
Lemma den_rep_chr_intro g lo hi f p w s c : forallb f w = true -> lo <= length w ->
  match hi with Some h => length w <= lo + (h - lo) | None => True end ->
  den (RRep g lo hi (RChr f)) p (w ++ s) c (pa p w) s c.
Proof. intros H1 H2 H3. cbn [den]. exists (length w). split; [exact H2|]. split; [exact H3|]. now apply iter_den_chr_intro. Qed.
Lemma den_SIGN_intro sg p s c : den SIGN p (write_sign sg ++ s) c (pa p (write_sign sg)) s c.
Proof. apply den_rep_chr_intro; destruct sg; cbn; auto; lia. Qed.
Lemma den_seq_intro a b p s c p1 s1 c1 p2 s2 c2 : den a p s c p1 s1 c1 -> den b p1 s1 c1 p2 s2 c2 -> den (RSeq a b) p s c p2 s2 c2.
Proof. intros. cbn. eauto 10. Qed.

Lemma den_NUMBER_prefix n p b c : num_ok n -> prev_ok p n ->
  exists p' s', den NUMBER_RE p (write_num n ++ b) c p' s' c.
Proof.
  intros Hn Hp. pose proof (num_ok_mant n Hn) as [M1 M2]. rewrite write_num_split.
  destruct (n_frac n) as [f|] eqn:Ef.
  - (* a decimal point: FNUMBER *)
    eexists _, (exp_txt (n_exp n) ++ b). unfold NUMBER_RE. cbn [RAlts den]. right. left.
    rewrite <- !app_assoc. unfold FNUMBER_RE. eapply den_seq_intro; [apply den_SIGN_intro|].
    unfold mant. rewrite <- app_assoc. cbn [app]. destruct f as [|d f].
    + right. cbn [RSeqs]. eapply den_seq_intro.
      { apply den_rep_chr_intro; [apply write_digits_digits| |exact I]. rewrite write_digits_len.
        destruct (n_int n); [now rewrite app_nil_r in M1|cbn; lia]. }
      eapply den_seq_intro; [cbn; eauto 10|]. apply (den_rep_chr_intro true 0 None is_digit _ (write_digits [])); [reflexivity|cbn; lia|exact I].
    + left. cbn [RSeqs]. eapply den_seq_intro.
      { apply den_rep_chr_intro; [apply write_digits_digits|lia|exact I]. }
      eapply den_seq_intro; [cbn; eauto 10|]. apply (den_rep_chr_intro true 1 None is_digit _ (write_digits (d :: f))); [apply write_digits_digits|cbn; lia|exact I].
  - (* an integer mantissa *)
    specialize (M2 eq_refl). unfold mant. rewrite app_nil_r.
    assert (INTD : forall s, hd_not (Ascii.eqb ".") s -> den INTNUMBER_RE p (write_sign (n_sign n) ++ write_digits (n_int n) ++ s) c
                (pa p (write_sign (n_sign n) ++ write_digits (n_int n))) s c).
    { intros s Hs. unfold INTNUMBER_RE. cbn [RSeqs]. eapply den_seq_intro; [apply den_SIGN_intro|].
      eapply den_seq_intro.
      { cbn [den]. split; [reflexivity|]. split; [reflexivity|]. split; [reflexivity|].
        unfold prev_ok in Hp. destruct (n_sign n); cbn; auto.
        destruct p as [x|]; [|reflexivity]. symmetry. apply Ascii.eqb_neq. intros <-. now apply Hp. }
      eapply den_seq_intro.
      { apply den_rep_chr_intro; [apply write_digits_digits| |exact I]. rewrite write_digits_len. destruct (n_int n); [congruence|cbn; lia]. }
      cbn [den]. rewrite pa_app. repeat split; auto. cbn. destruct s as [|x s]; [reflexivity|]. cbn in Hs. now rewrite Hs. }
    destruct (n_exp n) as [[[cap sg] e]|] eqn:Ee.
    + exists (pa p (write_sign (n_sign n) ++ write_digits (n_int n) ++ exp_txt (Some (cap, sg, e)))), b.
      unfold NUMBER_RE. cbn [RAlts den]. left. unfold EXPNUMBER_RE. cbn [RSeqs].
      replace ((write_sign (n_sign n) ++ write_digits (n_int n) ++ exp_txt (Some (cap, sg, e))) ++ b) with
        (write_sign (n_sign n) ++ write_digits (n_int n) ++ exp_txt (Some (cap, sg, e)) ++ b) by now rewrite <- !app_assoc.
      eapply den_seq_intro; [right; apply INTD|].
      { destruct cap; reflexivity. }
      cbn [exp_txt expo app]. eapply den_seq_intro.
      { cbn [den c_of]. eexists. split; [reflexivity|]. split; [destruct cap; reflexivity|]. auto. }
      rewrite <- app_assoc. eapply den_seq_intro; [apply den_SIGN_intro|].
      destruct Hn as (_ & _ & Hn). rewrite Ee in Hn.
      replace (pa p _) with (pa (pa (Some (if cap then "E"%char else "e"%char)) (write_sign sg)) (write_digits e)).
      { apply den_rep_chr_intro; [apply write_digits_digits|rewrite write_digits_len; lia|rewrite write_digits_len; cbn; lia]. }
      rewrite !pa_app. cbn [pa]. now rewrite pa_app.
    + cbn [exp_txt]. rewrite app_nil_r. destruct b as [|x b].
      * eexists _, []. unfold NUMBER_RE. cbn [RAlts den]. right. right. rewrite <- app_assoc. apply INTD. exact I.
      * destruct (Ascii.eqb "." x) eqn:Ex.
        -- apply Ascii.eqb_eq in Ex as <-. eexists _, b. unfold NUMBER_RE. cbn [RAlts den]. right. left.
           rewrite <- app_assoc. unfold FNUMBER_RE. eapply den_seq_intro; [apply den_SIGN_intro|]. right. cbn [RSeqs].
           eapply den_seq_intro.
           { apply den_rep_chr_intro; [apply write_digits_digits| |exact I]. rewrite write_digits_len. destruct (n_int n); [congruence|cbn; lia]. }
           eapply den_seq_intro; [cbn; eauto 10|]. apply (den_rep_chr_intro true 0 None is_digit _ []); [reflexivity|cbn; lia|exact I].
        -- eexists _, (x :: b). unfold NUMBER_RE. cbn [RAlts den]. right. right. rewrite <- app_assoc. apply INTD. exact Ex.
Qed.

Lemma rep_ok_labelled ls : rep_ok (labelled_floats ls) = true.
Proof.
  unfold labelled_floats, labelled_floats_gen. induction ls as [|l ls IH]; [reflexivity|].
  cbn [map]. destruct ls as [|l' ls]; [reflexivity|]. cbn [map RSeqs rep_ok] in *. rewrite IH. reflexivity.
Qed.
Lemma den_labelled_prefix ls : forall ns t p b c, columns ns t -> length ls = length ns ->
  exists p' s' c', den (labelled_floats ls) p (t ++ b) c p' s' c'.
Proof.
  unfold labelled_floats, labelled_floats_gen.
  induction ls as [|l ls IH]; intros ns t p b c H Hl.
  - destruct ns; [|discriminate]. cbn. eauto 10.
  - destruct ns as [|n ns]; [discriminate|]. inversion H as [|g n' ns' t' Hg Hg0 Hn Ht]; subst.
    apply blanks_iff in Hg. cbn [map].
    destruct ls as [|l' ls].
    + destruct ns; [|discriminate]. inversion Ht; subst. cbn [map RSeqs]. rewrite app_nil_r, <- app_assoc.
      destruct (den_NUMBER_prefix n (pa p g) b c Hn (prev_ok_space p g n Hg Hg0)) as (p' & s' & D).
      exists p', s', ((l, firstn (length (write_num n ++ b) - length s') (write_num n ++ b)) :: c).
      cbn [labelled_float snd fst RSeqs]. eapply den_seq_intro.
      { apply (den_rep_chr_intro false 1 None is_space p g); auto. destruct g; [congruence|cbn; lia]. }
      eapply den_seq_intro; [|cbn; auto]. cbn [den]. eauto.
    + assert (F : fp (labelled_float lf_sep REps (l, None)) p (g ++ write_num n) (t' ++ b) c ((l, write_num n) :: c)).
      { apply fp_labelled1; auto. apply token_end_follow.
        destruct ns as [|n2 ns]; [discriminate|]. inversion Ht as [|g2 ? ? ? Hg2 Hg20 _ _]; subst.
        destruct g2 as [|y g2]; [congruence|]. intros z u E. cbn in E. injection E as <- _. now inversion Hg2. }
      apply fp_den in F. specialize (IH ns t' (pa p (g ++ write_num n)) b ((l, write_num n) :: c) Ht ltac:(now injection Hl)).
      destruct IH as (p' & s' & c' & D). exists p', s', c'. cbn [map].
      change (RSeqs (?a :: ?b :: ?l)) with (RSeq a (RSeqs (b :: l))). eapply den_seq_intro; [|exact D].
      replace ((g ++ write_num n ++ t') ++ b) with ((g ++ write_num n) ++ t' ++ b) by now rewrite <- !app_assoc. exact F.
Qed.
Theorem has_columns_iff ls line : has_columns (length ls) line <-> re_test (labelled_floats ls) line = true.
Proof.
  split.
  - intros (a & t & b & ns & -> & H & Hl). apply search_test_iff; [apply rep_ok_labelled|].
    exists a, (t ++ b). split; [reflexivity|]. eapply den_labelled_prefix; eauto.
  - intros H. destruct (re_search (labelled_floats ls) line) as [x|] eqn:E; [|unfold re_test in H; now rewrite E in H].
    unfold re_search in E. destruct (search_from (labelled_floats ls) None line) as [[pre y]|] eqn:S; [|discriminate].
    cbn in E. injection E as ->. apply search_sound in S as (s' & E & E' & D).
    apply den_labelled in D as (ns & t & Ht & Hl & Hs & _ & _).
    exists pre, t, (m_rest x), ns. split; [|auto]. rewrite E. f_equal. congruence.
Qed.
Corollary no_columns ls line : re_test (labelled_floats ls) line = false -> ~ has_columns (length ls) line.
Proof. intros H C. apply has_columns_iff in C. congruence. Qed.

(** ** Counted groups *)
Definition col_re : re := RSeqs [lf_sep; NUMBER_RE; REps].
Lemma fp_col p g n s c : forallb is_space g = true -> g <> [] -> num_ok n -> follow_ok n s ->
  fp col_re p (g ++ write_num n) s c c.
Proof.
  intros Hg Hg0 Hn Hs. unfold col_re. cbn [RSeqs]. unfold lf_sep.
  apply fp_lazy_plus_seq; [exact Hg|exact Hg0| |].
  - intros p' y s' Hy. apply nomatch_seq_l, nomatch_NUMBER. now apply start_num_space.
  - rewrite <- (app_nil_r (write_num n)) at 1. apply fp_seq with (c1 := c).
    + apply fp_NUMBER; [exact Hn|exact Hs|now apply prev_ok_space].
    + apply fp_eps.
Qed.
Lemma den_col p s c p' s' c' : den col_re p s c p' s' c' ->
  exists g n, forallb is_space g = true /\ g <> [] /\ num_ok n /\ s = g ++ write_num n ++ s' /\ p' = pa p (g ++ write_num n) /\ c' = c.
Proof.
  intros H. unfold col_re in H. cbn [RSeqs] in H. destruct H as (p1 & s1 & c1 & H1 & p2 & s2 & c2 & H2 & H3).
  apply den_plus_lazy_space in H1 as (g & -> & Hg0 & Hg & -> & ->).
  cbn [den] in H3. destruct H3 as (-> & -> & ->). apply den_NUMBER in H2 as (n & Hn & -> & -> & ->).
  exists g, n. rewrite pa_app. auto 10.
Qed.
Lemma columns_fps ns t : columns ns t -> forall s, token_end s ->
  exists ts, concat ts = t /\ length ts = length ns /\ Forall (fun t => t <> []) ts /\ forall p c, fps col_re p ts s c c.
Proof.
  induction 1 as [|g n ns t Hg Hg0 Hn Ht IH]; intros s Hs.
  - exists []. repeat split; auto. intros. constructor.
  - destruct (IH s Hs) as (ts & E & El & Ene & F). exists ((g ++ write_num n) :: ts). cbn [concat length].
    rewrite E, El, app_assoc. split; [reflexivity|]. split; [reflexivity|]. split.
    { constructor; auto. destruct g; [congruence|discriminate]. }
    intros p c. apply blanks_iff in Hg. econstructor; [|apply F]. apply fp_col; auto.
    apply token_end_follow. rewrite E. eapply columns_hd; eassumption.
Qed.
Lemma den_cols k : forall p s c p' s' c', iter_den (den col_re) k p s c p' s' c' ->
  exists ns t, columns ns t /\ length ns = k /\ s = t ++ s' /\ p' = pa p t /\ c' = c.
Proof.
  induction k as [|k IH]; intros p s c p' s' c' H; cbn in H.
  - destruct H as (-> & -> & ->). exists [], []. repeat split; constructor.
  - destruct H as (p1 & s1 & c1 & H1 & H2). apply den_col in H1 as (g & n & Hg & Hg0 & Hn & -> & -> & ->).
    apply IH in H2 as (ns & t & Ht & Hl & -> & -> & ->). exists (n :: ns), (g ++ write_num n ++ t).
    split; [constructor; auto; now apply blanks_iff|]. split; [cbn; lia|]. split; [now rewrite <- !app_assoc|].
    split; [now rewrite <- pa_app, <- app_assoc|reflexivity].
Qed.
Lemma fp_counted l k ns t p s c : columns ns t -> length ns = k -> token_end s ->
  fp (labelled_float lf_sep REps (l, Some (k, k))) p t s c ((l, t) :: c).
Proof.
  intros H Hl Hs. destruct (columns_fps ns t H s Hs) as (ts & <- & El & Ene & F).
  cbn [labelled_float snd fst]. apply fp_grp. apply (fp_times col_re k p ts s c c); [congruence|apply F].
Qed.
Lemma den_counted l k p s c p' s' c' : den (labelled_float lf_sep REps (l, Some (k, k))) p s c p' s' c' ->
  exists ns t, columns ns t /\ length ns = k /\ s = t ++ s' /\ p' = pa p t /\ c' = (l, t) :: c.
Proof.
  intros H. cbn [labelled_float snd fst den] in H. destruct H as (c1 & (n & H1 & H2 & H3) & ->).
  assert (n = k) by lia. subst n. apply den_cols in H3 as (ns & t & Ht & Hl & -> & -> & ->).
  exists ns, t. rewrite firstn_sub. auto.
Qed.
Lemma threevec_none line : ~ has_columns 3 line -> re_test THREEVEC_RE line = false.
Proof.
  intros H. unfold re_test, re_search. destruct (search_from THREEVEC_RE None line) as [[pre x]|] eqn:E; [|reflexivity].
  exfalso. apply H. apply search_sound in E as (s' & E & E' & D).
  apply (den_counted "val" 3) in D as (ns & t & Ht & Hl & Hs & _ & _).
  exists pre, t, (m_rest x), ns. split; [|auto]. rewrite E. f_equal. congruence.
Qed.
Lemma threevec_row ns t s : columns ns t -> length ns = 3 -> token_end s -> re_test THREEVEC_RE (t ++ s) = true.
Proof.
  intros H Hl Hs. unfold re_test, re_search. erewrite search_from_hit; [reflexivity|].
  apply (fp_counted "val" 3 ns); assumption.
Qed.
