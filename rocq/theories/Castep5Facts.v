(** Facts about the pseudo-atomic energies and the self-consistent fields of .castep files. *)
From Coq Require Import QArith Qreduction.
From Verif Require Import PyBase PyFacts PyVal Regex RegexFacts RegexComplete CastepRes NumSpec NumFacts NumProps NumVal
  StrUtil SpecStr StrUtilFacts SpecLine SpecType TypeConv TypeConvFacts IntStr DictUtil SpecDict DictFacts Stream StreamFacts TextParsers TextFiles
  SpecTable ColumnFacts Header HeaderFacts SpecMd MdFacts SpecBands NeedFacts SpecCastep CastepBlocks CastepFacts PhononFacts
  SpecCastep2 CastepNum Castep2Facts SpecCastep3 CastepRows Castep3Facts SpecCastep4 BandsFacts TextParsersFacts Castep4Facts.
From Verif Require Import PhraseFacts.
From Verif Require CellFacts CellPosFacts CellBlockFacts FileParts FileParts3.
Local Open Scope list_scope.
Local Open Scope nat_scope.

(** ** Pseudo-atomic energies *)
Lemma among_digit c : among "spdf" c -> chr_in c ($"spdf") = true.
Proof. intros H. unfold among in H. cbn in H. repeat destruct H as [<-|H]; try reflexivity. destruct H. Qed.
Lemma fp_shell w p s c : shell w -> hd_not is_digit s -> fp SHELL_RE p w s c c.
Proof.
  intros [d x ds Hx Hl] Hs. unfold SHELL_RE. cbn [RSeqs]. eapply fp_seq.
  - apply fp_chr. apply digit_char_digit.
  - change (x :: write_digits ds) with ([x] ++ write_digits ds). eapply fp_seq; [apply fp_chr; now apply among_digit|].
    apply fp_rep_chr; [apply digits_all| |right; exact Hs]. unfold write_digits. rewrite map_length. lia.
Qed.
Lemma shell_hd f w s : shell w -> (forall c, is_digit c = true -> f c = false) -> hd_not f (w ++ s).
Proof. intros [d x ds Hx Hl] H. cbn. apply H, digit_char_digit. Qed.
Lemma shells_split t : shells_text t -> exists ts, t = concat ts /\ Forall (fun t => t <> []) ts /\
  forall p s c, hd_not is_digit s -> fps (RSeq ws_plus SHELL_RE) p ts s c c.
Proof.
  induction 1 as [|g w t Hg Hw Ht (ts & -> & H1 & H2)]; [exists []; repeat split; auto; intros; constructor|].
  apply gap_iff in Hg as (Hg & Hg0). exists ((g ++ w) :: ts). cbn [concat]. split; [now rewrite <- app_assoc|]. split.
  { constructor; [|exact H1]. intros Z. apply app_eq_nil in Z as [Z _]. congruence. }
  intros p s c Hs. econstructor; [|apply H2; exact Hs]. eapply fp_seq; [apply fp_plus_chr; [exact Hg|exact Hg0|]|].
  - apply shell_hd; [exact Hw|exact digit_not_space].
  - apply fp_shell; [exact Hw|]. inversion Ht as [E|g' w' t' Hg' Hw' Ht' E]; [exact Hs|]. apply gap_iff in Hg' as (Hg' & Hg0'). rewrite <- !app_assoc. apply hd_gap; auto. ascii_dec.
Qed.
Lemma shells_hd f t s : shells_text t -> t <> [] -> (forall c, is_space c = true -> f c = false) -> hd_not f (t ++ s).
Proof. intros [|g w t' Hg Hw Ht] H0 Hf; [congruence|]. apply gap_iff in Hg as (Hg & Hg0). rewrite <- !app_assoc. apply hd_gap; auto. Qed.
Lemma ps_match a sp t s : blanks a -> SpecCell.species sp -> shells_text t -> t <> [] -> blanks s ->
  exists m, re_search PS_SHELL_RE (a ++ text_of "Pseudo atomic calculation performed for " ++ sp ++ t ++ s) = Some m /\ m_caps m = [("spec"%string, sp)].
Proof.
  intros Ha Hsp Ht Ht0 Hs. destruct (shells_split _ Ht) as (ts & -> & H1 & H2). apply blanks_iff in Ha, Hs. destruct ts as [|t0 ts]; [now destruct Ht0|].
  assert (Hd : hd_not is_digit s) by (destruct s as [|x s]; [exact I|]; cbn in Hs |- *; apply andb_true_iff in Hs as [Hs _]; clear -Hs; revert x Hs; ascii_dec).
  destruct (search_hit PS_SHELL_RE [] (concat [a; $"Pseudo atomic calculation performed for "; sp; concat (t0 :: ts)]) s [("spec"%string, sp)]) as (m & Em & Ec).
  { exact I. }
  { unfold PS_SHELL_RE. apply fp_seqs.
    eapply fpl_cons; [apply fp_star_chr; [exact Ha|tidy; reflexivity]|].
    eapply fpl_cons; [apply fp_lit|].
    eapply fpl_cons; [apply fp_grp, CellPosFacts.fp_species; [exact Hsp|]|].
    { change (concat [concat (t0 :: ts)]) with (concat (t0 :: ts) ++ []). rewrite <- app_assoc. apply shells_hd; [exact Ht|exact Ht0|ascii_dec]. }
    eapply fpl_cons; [|constructor]. apply fp_plus; [apply H2; tidy; exact Hd|now inversion H1|].
    apply (needs_nomatch is_digit); [reflexivity|]. tidy. clear -Hs. unfold lacks. rewrite forallb_forall in *. intros x Hx. apply negb_true_iff. specialize (Hs x Hx). revert x Hs Hx. intros x Hs _. revert x Hs. ascii_dec. }
  exists m. split; [revert Em; tidy; auto|exact Ec].
Qed.
Lemma last_snoc {A} (l : list A) x : last_item (l ++ [x]) = Ok x.
Proof. unfold last_item. rewrite rev_app_distr. reflexivity. Qed.
Lemma ps_spec sp e ls xs : ps_lines sp e ls xs -> process_ps_energy ls = Ok (sp, ps_read e xs).
Proof.
  intros [a t s l1 l2 n ns ls' xs' Ha Hsp Ht Ht0 Hs Hn He L]. unfold process_ps_energy. cbn [next_line bind].
  destruct (ps_match a sp t s Ha Hsp Ht Ht0 Hs) as (m & Em & Ec). rewrite Em. cbn [next_line bind].
  rewrite (at_builtin l2 _ 1 e Hn eq_refl He). cbn [bind].
  assert (E : mapM spilling (filter (contains ($"Charge spilling")) ls') = Ok (map (fun x => exact ((1 # 100) * num_value x)) xs')).
  { clear -L. induction L as [|l r ls xs (H1 & H2 & ys & H3) L IH|l ls xs H L IH]; [reflexivity| |].
    - cbn [filter]. apply mention_contains in H1. rewrite H1. cbn [mapM map]. rewrite IH.
      assert (Es : spilling l = Ok (exact ((1 # 100) * num_value r))); [|now rewrite Es].
      unfold spilling. rewrite (get_numbers_line _ _ H3), map_app. cbn [map]. rewrite last_snoc. cbn [bind]. rewrite builtin_num; [|eapply (line_nth_wf l _ (length ys)); [exact H3|rewrite nth_error_app2, Nat.sub_diag by lia; reflexivity]|exact H2].
      cbn [bind]. change (1 # 100) with (Qred (1 # 100)) at 1. now rewrite red_mul.
    - cbn [filter]. now rewrite (not_mentions_b _ _ H). }
  rewrite E. cbn [bind]. unfold group_s. rewrite Ec. unfold ps_read. destruct xs'; reflexivity.
Qed.

(** ** Self-consistent fields *)
Lemma fp_opt_skip a b p t s c c' :
  (forall p1 s1 c1 p2 s2 c2, den a p (t ++ s) c p1 s1 c1 -> den b p1 s1 c1 p2 s2 c2 -> False) -> fp b p t s c c' -> fp (RSeq (ROpt a) b) p t s c c'.
Proof.
  intros Hn Hb R k x Hk. unfold ROpt. cbn [m rep_lo]. cbn [rep_lo rep_hi Nat.sub].
  match goal with |- match m a p (t ++ s) c ?K with _ => _ end = _ => destruct (m a p (t ++ s) c K) as [y|] eqn:E end.
  - exfalso. apply m_sound in E as (p1 & s1 & c1 & D1 & E). destruct (length s1 <? length (t ++ s)); [|discriminate].
    apply m_sound in E as (p2 & s2 & c2 & D2 & _). eapply Hn; eassumption.
  - now apply Hb.
Qed.
Lemma after_number g n s g' n' g4 u : forallb is_space g = true -> num_ok n -> token_end s -> forallb is_space g' = true -> num_ok n' -> forallb is_space g4 = true -> g4 <> [] ->
  g ++ write_num n ++ s = g' ++ write_num n' ++ g4 ++ u -> s = g4 ++ u.
Proof.
  intros Hg Hn Hs Hg' Hn' Hg4 Hg40 E.
  pose proof (num_hd n s Hn) as A1. pose proof (num_hd n' (g4 ++ u) Hn') as A2.
  pose proof (num_chars_nonspace n) as N1. pose proof (num_chars_nonspace n') as N2.
  destruct (write_num n) as [|x1 w1] eqn:W1; [now apply write_num_nonempty in W1|].
  destruct (write_num n') as [|x2 w2] eqn:W2; [now apply write_num_nonempty in W2|].
  cbn [app] in E. apply (run_unique is_space) in E as (_ & -> & E); auto.
  cbn in N1, N2. apply andb_true_iff in N1 as [_ N1], N2 as [_ N2]. destruct g4 as [|y g4]; [congruence|]. cbn in Hg4. apply andb_true_iff in Hg4 as [Hy _].
  destruct s as [|z s].
  - rewrite app_nil_r in E. subst w1. rewrite !forallb_app in N1. cbn in N1. rewrite Hy in N1. cbn in N1. rewrite andb_false_r in N1. discriminate.
  - assert (Hz : is_space z = true) by (apply blank_iff; now apply (Hs z s)).
    apply (run_unique (fun c => negb (is_space c))) in E as (_ & -> & ->); auto; now apply negb_false_iff.
Qed.
Definition gain_caps (i : iteration) (c : caps) : caps := match it_gain i with Some n => ("energy_gain"%string, write_num n) :: c | None => c end.
Lemma fp_loop_tail i t p s c : columns (opt_list (it_gain i) ++ [it_time i]) t -> token_end s -> (forall g n r, gap g -> num_ok n -> s <> g ++ write_num n ++ r) ->
  fp (RSeq (ROpt (labelled_floats ["energy_gain"]%string)) (RSeq ws_star (labelled_floats ["time"]%string))) p t s c (("time"%string, write_num (it_time i)) :: gain_caps i c).
Proof.
  intros Ht Hs Hno. unfold gain_caps. destruct (it_gain i) as [n|]; cbn [opt_list app] in Ht.
  - inversion Ht as [|g n0 ns t' Hg Hg0 Hn Ht']; subst. rewrite app_assoc. apply blanks_iff in Hg. eapply fp_seq.
    + apply fp_opt_some; [intros Z; apply app_eq_nil in Z as [Z _]; congruence|]. unfold labelled_floats, labelled_floats_gen. cbn [map RSeqs]. apply fp_labelled1; auto.
      apply token_end_follow. eapply columns_hd; eassumption.
    + now apply (fp_ws_labelled ["time"%string] [it_time i]).
  - apply fp_opt_skip.
    + intros p1 s1 c1 p2 s2 c2 D1 D2. apply den_labelled in D1 as (ns1 & t1 & Ht1 & Hl1 & E1 & _). destruct ns1 as [|n1 [|? ?]]; try discriminate Hl1.
      inversion Ht1 as [|g1 n0 ns t' Hg1 Hg10 Hn1 Ht1']; subst. inversion Ht1'; subst. rewrite app_nil_r in E1.
      destruct D2 as (p3 & s3 & c3 & D2 & D3). apply den_rep_chr in D2 as (g3 & -> & _ & _ & Hg3 & _).
      apply den_labelled in D3 as (ns2 & t2 & Ht2 & Hl2 & -> & _). destruct ns2 as [|n2 [|? ?]]; try discriminate Hl2.
      inversion Ht2 as [|g2 n0 ns t' Hg2 Hg20 Hn2 Ht2']; subst. inversion Ht2'; subst.
      inversion Ht as [|g n0 ns t' Hg Hg0 Hn Ht']; subst. inversion Ht'; subst. rewrite app_nil_r in E1. apply blanks_iff in Hg, Hg1, Hg2.
      assert (E : s = (g3 ++ g2) ++ write_num n2 ++ s2).
      { eapply (after_number g (it_time i) s g1 n1 (g3 ++ g2) (write_num n2 ++ s2)); auto.
        - rewrite forallb_app, Hg3. exact Hg2.
        - intros Z. apply app_eq_nil in Z as [_ Z]. congruence.
        - rewrite app_nil_r, <- !app_assoc in E1. rewrite <- !app_assoc. exact E1. }
      apply (Hno (g3 ++ g2) n2 s2); auto. apply gap_iff. split; [rewrite forallb_app, Hg3; exact Hg2|]. intros Z. apply app_eq_nil in Z as [_ Z]. congruence.
    + now apply (fp_ws_labelled ["time"%string] [it_time i]).
Qed.
Lemma loop_match l i : loop_row l i -> exists m, re_match SCF_LOOP_RE l = Some m /\
  m_caps m = ("time"%string, write_num (it_time i)) :: gain_caps i [("fermi_energy"%string, write_num (it_fermi i)); ("energy"%string, write_num (it_energy i))].
Proof.
  intros [a w t s i' Ha Hw Ht Hf Hs Hno]. apply blanks_iff in Ha. unfold it_nums in Ht. apply FileParts.columns_app_inv in Ht as (t1 & t2 & -> & Ht1 & Ht2).
  assert (H2 : token_end (t2 ++ s)) by (eapply columns_hd; eassumption). assert (H1 : token_end (t1 ++ t2 ++ s)) by (eapply columns_hd; eassumption).
  destruct (match_hit SCF_LOOP_RE (a ++ w ++ t1 ++ t2) s
    (("time"%string, write_num (it_time i')) :: gain_caps i' [("fermi_energy"%string, write_num (it_fermi i')); ("energy"%string, write_num (it_energy i'))])) as (m & Em & Ec).
  { unfold SCF_LOOP_RE. cbn [RSeqs]. eapply fp_seq; [apply fp_star_chr; [exact Ha|]|].
    { destruct Hw as [->|(ds & Hd & ->)]; [reflexivity|]. rewrite <- app_assoc. apply digits_hd; [exact Hd|exact digit_not_space]. }
    eapply fp_seq with (c1 := []).
    { destruct Hw as [->|(ds & Hd & ->)]; [apply fp_alt_l, fp_lit|]. apply fp_alt_r.
      - apply nomatch_first; [reflexivity|]. destruct ds as [|d ds]; [congruence|]. cbn. now destruct d.
      - apply fp_plus_chr; [apply digits_all|destruct ds; [congruence|discriminate]|]. rewrite <- app_assoc. destruct (t1 ++ t2 ++ s) as [|x q]; [exact I|]. assert (Hx : is_space x = true) by (apply blank_iff; now apply (H1 x q)). cbn. clear -Hx. revert x Hx. ascii_dec. }
    apply FileParts3.fp_seq_assoc. eapply fp_seq; [apply fp_ws_labelled; [exact Ht1|reflexivity|discriminate|]|].
    - exact H2.
    - apply fp_loop_tail; auto. }
  exists m. split; [|exact Ec]. rewrite <- !app_assoc in Em. rewrite <- !app_assoc. exact Em.
Qed.
Lemma den_opt a p s c p' s' c' : den (ROpt a) p s c p' s' c' -> (p = p' /\ s = s' /\ c = c') \/ den a p s c p' s' c'.
Proof.
  intros (n & _ & Hn & D). destruct n as [|[|n]]; [left; exact D| |cbn in Hn; lia]. right. cbn in D. destruct D as (p1 & s1 & c1 & D & -> & -> & ->). exact D.
Qed.
Lemma columns_cat ns1 t1 ns2 t2 : columns ns1 t1 -> columns ns2 t2 -> columns (ns1 ++ ns2) (t1 ++ t2).
Proof. intros H1 H2. induction H1; [exact H2|]. cbn [app]. rewrite <- !app_assoc. constructor; auto. Qed.
Lemma columns_wider g ns t : forallb is_space g = true -> columns ns t -> ns <> [] -> columns ns (g ++ t).
Proof.
  intros Hg H Hn. destruct H as [|g' n ns t Hg' Hg0 Hok Ht]; [congruence|]. rewrite app_assoc. constructor; auto.
  - apply blanks_iff. apply blanks_iff in Hg'. now rewrite forallb_app, Hg, Hg'.
  - intros Z. apply app_eq_nil in Z as [_ Z]. congruence.
Qed.
Lemma loop_none l : ~ has_columns 3 l -> re_match SCF_LOOP_RE l = None.
Proof.
  intros H. apply nomatch_match_at, nomatch_den. intros p' s' c' D. apply H. unfold SCF_LOOP_RE in D. cbn [RSeqs] in D.
  destruct D as (p1 & s1 & c1 & D1 & p2 & s2 & c2 & D2 & p3 & s3 & c3 & D3 & p4 & s4 & c4 & D4 & p5 & s5 & c5 & D5 & p6 & s6 & c6 & D6 & D7).
  apply den_consumed in D1 as (w1 & -> & _), D2 as (w2 & -> & _), D3 as (w3 & -> & _).
  apply den_labelled in D4 as (ns4 & t4 & Ht4 & Hl4 & -> & _), D7 as (ns7 & t7 & Ht7 & Hl7 & -> & _). apply den_rep_chr in D6 as (g & -> & _ & _ & Hg & _).
  apply den_opt in D5 as [(? & ? & ?)|D5]; subst.
  - exists (w1 ++ w2 ++ w3), (t4 ++ g ++ t7), s', (ns4 ++ ns7). split; [now rewrite <- !app_assoc|]. split; [apply columns_cat; [exact Ht4|]|rewrite app_length, Hl4, Hl7; reflexivity].
    apply columns_wider; auto. now destruct ns7.
  - apply den_labelled in D5 as (ns5 & t5 & Ht5 & Hl5 & -> & _). exists (w1 ++ w2 ++ w3), (t4 ++ t5), (g ++ t7 ++ s'), (ns4 ++ ns5). split; [now rewrite <- !app_assoc|].
    split; [now apply columns_cat|rewrite app_length, Hl4, Hl5; reflexivity].
Qed.
Lemma loop_line st l i : loop_row l i -> scf_line st l =
  Ok {| s_scf := scf_keep st; s_curr := loop_read i ++ match s_debug st with [] => [] | d => [(kstr "debug_info", VDict false d)] end; s_debug := []; s_eig := s_eig st |}.
Proof.
  intros H. destruct (loop_match _ _ H) as (m & Em & Ec). unfold scf_line. rewrite Em. clear Em.
  destruct H as [a w t s i' _ _ Ht Hf _ _]. pose proof (Forall_wf _ (CellFacts.columns_ok _ _ Ht)) as W. clear Ht. destruct i' as [e f g tm]. unfold it_nums, gain_caps, loop_read in *. cbn [it_energy it_fermi it_gain it_time] in *.
  destruct st as [sc cu db eg]. cbn [s_scf s_curr s_debug s_eig]. unfold groupdict. rewrite Ec. unfold as_floats. cbn [map].
  destruct g as [n|]; cbn [opt_list app] in *;
  repeat match goal with H : Forall num_wf (_ :: _) |- _ => inversion H; clear H; subst | H : all_fit (_ :: _) |- _ => inversion H; clear H; subst | H : Forall (fun n => fits _) (_ :: _) |- _ => inversion H; clear H; subst end;
  destruct db as [|kv db]; cbn [isempty];
  (erewrite fix_step; [|reflexivity|apply type_float; assumption]);
  (erewrite fix_step; [|reflexivity|first [apply type_float; assumption|reflexivity]]);
  (erewrite fix_step; [|reflexivity|apply type_float; assumption]);
  (erewrite fix_step; [|reflexivity|apply type_float; assumption]);
  reflexivity.
Qed.
Lemma said_not i l j w : first_said i l -> (j < i)%nat -> nth_error scf_words j = Some w -> contains ($w) l = false.
Proof. intros [_ H] Hj E. apply not_mentions_b. eauto. Qed.
Lemma said_yes i l w : first_said i l -> nth_error scf_words i = Some w -> contains ($w) l = true.
Proof. intros [(w' & E' & H) _] E. rewrite E' in E. injection E as <-. now apply mention_contains. Qed.
Lemma none_not l w : none_said l -> In w scf_words -> contains ($w) l = false.
Proof. intros H Hi. apply not_mentions_b. auto. Qed.
Lemma note_line st l k v : scf_note l (k, v) -> scf_line st l = Ok (with_curr st k v).
Proof.
  intros H. unfold scf_line. inversion H as [l' H3 Hs|l' i k' n ns H3 Hs Hk Hn Hf]; subst; rewrite (loop_none _ H3).
  - rewrite (said_yes 0 _ "Density was not mixed") by (exact Hs || reflexivity). reflexivity.
  - destruct i as [|[|[|i]]]; [injection Hk as <-|injection Hk as <-|injection Hk as <-|now destruct i].
    + rewrite (said_not 1 _ 0 "Density was not mixed") by (exact Hs || reflexivity || lia). rewrite (said_yes 1 _ "Norm of density") by (exact Hs || reflexivity).
      rewrite (at_float l _ 0 n Hn eq_refl Hf). reflexivity.
    + rewrite (said_not 2 _ 0 "Density was not mixed") by (exact Hs || reflexivity || lia). rewrite (said_not 2 _ 1 "Norm of density") by (exact Hs || reflexivity || lia).
      rewrite (said_yes 2 _ "constraint energy") by (exact Hs || reflexivity). rewrite (at_float l _ 0 n Hn eq_refl Hf). reflexivity.
    + rewrite (said_not 3 _ 0 "Density was not mixed") by (exact Hs || reflexivity || lia). rewrite (said_not 3 _ 1 "Norm of density") by (exact Hs || reflexivity || lia).
      rewrite (said_not 3 _ 2 "constraint energy") by (exact Hs || reflexivity || lia). rewrite (said_yes 3 _ "Correcting PBC dipole-dipole") by (exact Hs || reflexivity).
      rewrite (at_float l _ 0 n Hn eq_refl Hf). reflexivity.
Qed.
Lemma quiet_words st l : ~ has_columns 3 l -> none_said l -> scf_line st l =
  (if re_match_test EIGENVALUE_RE l then
        match s_eig st with
        | None => Err UnboundLocalError
        | Some es =>
            a <- float_at l 1 ;; b <- float_at l 2 ;; c <- float_at l 3 ;;
            Ok (with_debug st (s_debug st) (Some (es ++ [VDict false [(kstr "initial", a); (kstr "final", b); (kstr "change", c)]])))
        end
      else if contains ($"Checking convergence criteria") l then
        match dget key_eqb (s_debug st) (kstr "eigenvalue"), s_eig st with
        | None, _ => Err KeyError
        | _, None => Err UnboundLocalError
        | Some _, Some es => d <- append_in (s_debug st) (kstr "eigenvalue") (VList es) ;; Ok (with_debug st d (Some []))
        end
      else match re_match CONTRIBUTION_RE l with
           | Some x =>
               let d := setdefault (s_debug st) (kstr "contributions") (VDict false []) in
               v <- float_group x "val" ;;
               let k := KStr (fix_key (normalise_key (group_s x "key"))) in
               match dget key_eqb d (kstr "contributions") with
               | Some (VDict b e) => Ok (with_debug st (dset key_eqb d (kstr "contributions") (VDict b (dset key_eqb e k v))) (s_eig st))
               | _ => Err TypeError
               end
           | None => Ok st
           end).
Proof.
  intros H3 H. unfold scf_line. rewrite (loop_none _ H3).
  rewrite (none_not l "Density was not mixed" H), (none_not l "Norm of density" H), (none_not l "constraint energy" H), (none_not l "Correcting PBC dipole-dipole" H), (none_not l "no. bands" H), (none_not l "Kinetic eigenvalue" H)
    by (cbn; tauto). reflexivity.
Qed.
Lemma no_init l : ~ mentions "init=" l -> re_match_test EIGENVALUE_RE l = false.
Proof.
  intros H. destruct (re_match_test EIGENVALUE_RE l) eqn:E; [|reflexivity]. exfalso. apply H. apply (must_match (fun c => c) [$"init="]) in E; [|vm_compute; reflexivity].
  destruct E as (w & [<-|[]] & E). rewrite map_id in E. now apply mention_contains.
Qed.
Lemma no_eV l : ~ mentions " eV" l -> re_match CONTRIBUTION_RE l = None.
Proof.
  intros H. destruct (re_match CONTRIBUTION_RE l) eqn:E; [|reflexivity]. exfalso. apply H. assert (T : re_match_test CONTRIBUTION_RE l = true) by (unfold re_match_test; now rewrite E).
  apply (must_match (fun c => c) [$" eV"]) in T; [|vm_compute; reflexivity].
  destruct T as (w & [<-|[]] & T). rewrite map_id in T. now apply mention_contains.
Qed.
Lemma other_line st l : scf_other l -> scf_line st l = Ok st.
Proof. intros (H3 & H & H1 & H2 & H4). rewrite (quiet_words _ _ H3 H), (no_init _ H1), (not_mentions_b _ _ H2), (no_eV _ H4). reflexivity. Qed.
Lemma bands_line st l n ns : ~ has_columns 3 l -> first_said 4 l -> number_line (n :: ns) l -> is_int n ->
  scf_line st l = Ok (with_debug st (dset key_eqb (s_debug st) (kstr "no_bands") (VInt (int_value n))) (s_eig st)).
Proof.
  intros H3 Hs Hn Hi. unfold scf_line. rewrite (loop_none _ H3). rewrite (said_not 4 _ 0 "Density was not mixed") by (exact Hs || reflexivity || lia). rewrite (said_not 4 _ 1 "Norm of density") by (exact Hs || reflexivity || lia).
  rewrite (said_not 4 _ 2 "constraint energy") by (exact Hs || reflexivity || lia). rewrite (said_not 4 _ 3 "Correcting PBC dipole-dipole") by (exact Hs || reflexivity || lia).
  rewrite (said_yes 4 _ "no. bands") by (exact Hs || reflexivity). rewrite (at_int l _ 0 n Hn eq_refl Hi). reflexivity.
Qed.
Definition opened (d : dict) : dict := setdefault (setdefault d (kstr "kinetic_eigenvalue") (VList [])) (kstr "eigenvalue") (VList []).
Lemma kinetic_line st l x n ns : ~ has_columns 3 l -> first_said 5 l -> number_line (x :: n :: ns) l -> fits (num_value n) ->
  scf_line st l = (d <- append_in (opened (s_debug st)) (kstr "kinetic_eigenvalue") (float_of n) ;; Ok (with_debug st d (Some []))).
Proof.
  intros H3 Hs Hn Hi. unfold scf_line. rewrite (loop_none _ H3). rewrite (said_not 5 _ 0 "Density was not mixed") by (exact Hs || reflexivity || lia). rewrite (said_not 5 _ 1 "Norm of density") by (exact Hs || reflexivity || lia).
  rewrite (said_not 5 _ 2 "constraint energy") by (exact Hs || reflexivity || lia). rewrite (said_not 5 _ 3 "Correcting PBC dipole-dipole") by (exact Hs || reflexivity || lia).
  rewrite (said_not 5 _ 4 "no. bands") by (exact Hs || reflexivity || lia). rewrite (said_yes 5 _ "Kinetic eigenvalue") by (exact Hs || reflexivity). rewrite (at_float l _ 1 n Hn eq_refl Hi). reflexivity.
Qed.
Lemma eigen_line st l e es : eigen_row l e -> s_eig st = Some es -> scf_line st l = Ok (with_debug st (s_debug st) (Some (es ++ [eigen_triple e]))).
Proof.
  intros [g ds g' r x a b c ns Hg Hd Hg' l' H3 H Hn Hf] E. rewrite (quiet_words _ _ H3 H).
  assert (T : re_match_test EIGENVALUE_RE l' = true).
  { apply blanks_iff in Hg, Hg'. destruct (match_hit EIGENVALUE_RE (concat [$"eigenvalue"; g; write_digits ds; g'; $"init="]) r []) as (m & Em & _).
    - unfold EIGENVALUE_RE. apply fp_seqs.
      eapply fpl_cons; [apply fp_lit|].
      eapply fpl_cons; [apply fp_star_chr; [exact Hg|tidy; apply digits_hd; [exact Hd|exact digit_not_space]]|].
      eapply fpl_cons; [apply fp_plus_chr; [apply digits_all|destruct ds; [congruence|discriminate]|tidy]|].
      { apply hd_blanks; [ascii_dec|exact Hg'|reflexivity]. }
      eapply fpl_cons; [apply fp_star_chr; [exact Hg'|tidy; reflexivity]|].
      eapply fpl_cons; [apply fp_lit|constructor].
    - unfold re_match_test, l'. assert (Z : concat [$"eigenvalue"; g; write_digits ds; g'; $"init="] ++ r = text_of "eigenvalue" ++ g ++ write_digits ds ++ g' ++ text_of "init=" ++ r) by (tidy; reflexivity). rewrite <- Z, Em. reflexivity. }
  rewrite T, E. clear T. clearbody l'. inversion Hf as [|? ? F1 F']; subst. inversion F' as [|? ? F2 F'']; subst. inversion F'' as [|? ? F3 _]; subst.
  rewrite (at_builtin l' _ 1 a Hn eq_refl F1), (at_builtin l' _ 2 b Hn eq_refl F2), (at_builtin l' _ 3 c Hn eq_refl F3). reflexivity.
Qed.
Lemma check_line st l es : checking l -> s_eig st = Some es -> (exists v, dget key_eqb (s_debug st) (kstr "eigenvalue") = Some (VList v)) ->
  scf_line st l = (d <- append_in (s_debug st) (kstr "eigenvalue") (VList es) ;; Ok (with_debug st d (Some []))).
Proof.
  intros (H3 & H & H1 & H2) E (v & Ev). rewrite (quiet_words _ _ H3 H), (no_init _ H1). apply mention_contains in H2. rewrite H2, Ev, E. reflexivity.
Qed.
Lemma letter_or_digit_iff c : letter_or_digit c -> is_alnum c = true.
Proof. intros H. apply alnum_iff in H. revert c H. ascii_dec. Qed.
Lemma term_chars k : (forall c, In c k -> term_char c) -> forallb (fun c => is_alnum c || chr_in c ($"() -")) k = true.
Proof.
  intros H. apply forallb_forall. intros c Hc. destruct (H c Hc) as [Hl|Hl].
  - apply letter_or_digit_iff in Hl. rewrite Hl. reflexivity.
  - cbn in Hl. repeat destruct Hl as [<-|Hl]; try reflexivity. destruct Hl.
Qed.
Lemma term_line st l nm n : term_row l (RTerm nm n) -> scf_line st l =
  (let d := setdefault (s_debug st) (kstr "contributions") (VDict false []) in
   match dget key_eqb d (kstr "contributions") with
   | Some (VDict b e) => Ok (with_debug st (dset key_eqb d (kstr "contributions") (VDict b (dset key_eqb e (KStr nm) (float_of n)))) (s_eig st))
   | _ => Err TypeError
   end).
Proof.
  intros H. inversion H as [p k t r n' nm' Hp Hk0 Hk Ht Hf Hnm l' H3 H0 H1 H2 E1 E2]; subst n' nm'. clear H. rewrite (quiet_words _ _ H3 H0), (no_init _ H1), (not_mentions_b _ _ H2). clear H3 H0 H1 H2.
  assert (M : exists m, re_match CONTRIBUTION_RE l' = Some m /\ m_caps m = [("val"%string, write_num n); ("key"%string, k)]).
  { assert (Hq : exists q r', r = q ++ r' /\ (q = [")"%char] \/ q = [] /\ hd_not (Ascii.eqb ")") r')).
    { destruct r as [|x r]; [exists [], []; split; [reflexivity|right; split; [reflexivity|exact I]]|]. destruct (Ascii.eqb ")" x) eqn:Ex.
      - apply Ascii.eqb_eq in Ex. subst x. exists [")"%char], r. auto.
      - exists [], (x :: r). split; [reflexivity|right; split; [reflexivity|exact Ex]]. }
    destruct Hq as (q & r' & -> & Hq).
    assert (Hpf : fp (ROpt (c_of "+(")) None p (k ++ "="%char :: t ++ $" eV" ++ q ++ r') [] []).
    { destruct Hp as [[-> Hk']|[->| ->]].
      - apply fp_opt_none. apply nomatch_first; [reflexivity|]. destruct k as [|x k]; [congruence|]. specialize (Hk' x k eq_refl). specialize (Hk x (or_introl eq_refl)).
        cbn. destruct (Ascii.eqb x "+") eqn:E; [apply Ascii.eqb_eq in E; subst x; destruct Hk as [Hk|Hk]; [apply letter_or_digit_iff in Hk; discriminate|cbn in Hk; repeat destruct Hk as [Hk|Hk]; try discriminate; destruct Hk]|].
        destruct (Ascii.eqb x "(") eqn:E'; [apply Ascii.eqb_eq in E'; congruence|]. reflexivity.
      - apply fp_opt_some; [discriminate|]. now apply fp_chr.
      - apply fp_opt_some; [discriminate|]. now apply fp_chr. }
    inversion Ht as [|g0 n0 ns0 t0 Hg0 Hg00 Hn0 Ht0]; subst. inversion Ht0; subst. clear Ht0.
    destruct (match_hit CONTRIBUTION_RE (concat [p; k; ["="%char]] ++ (g0 ++ write_num n ++ []) ++ concat [$" eV"; q]) r' [("val"%string, write_num n); ("key"%string, k)]) as (m & Em & Ec).
    { unfold CONTRIBUTION_RE. change (RSeqs [ROpt (c_of "+("); RGrp "key" (RPlus c_contribution); ROpt (RChar "="); ws_star; labelled_floats ["val"]%string; RLit " eV"; ROpt (RChar ")")])
        with (RSeqs ([ROpt (c_of "+("); RGrp "key" (RPlus c_contribution); ROpt (RChar "=")] ++ [ws_star; labelled_floats ["val"]%string; RLit " eV"; ROpt (RChar ")")])).
      eapply fp_seqs_app; [discriminate|discriminate| |].
      - apply fp_seqs. eapply fpl_cons; [match goal with |- fp _ _ _ ?X _ _ => replace X with (k ++ "="%char :: (g0 ++ write_num n ++ []) ++ $" eV" ++ q ++ r') by (cbn [concat]; rewrite ?app_nil_r; rewrite <- ?app_assoc; cbn [app]; rewrite <- ?app_assoc; reflexivity) end; exact Hpf|].
        eapply fpl_cons; [apply fp_grp, fp_plus_chr; [now apply term_chars|exact Hk0|reflexivity]|].
        eapply fpl_cons; [apply fp_opt_some; [discriminate|apply fp_char]|constructor].
      - apply (fp_wl ["val"%string] [n]); [exact Ht|reflexivity|discriminate| |discriminate|].
        + intros x u Z. cbn in Z. injection Z as <- _. now apply blank_iff.
        + eapply fpl_cons; [apply fp_lit|]. eapply fpl_cons; [|constructor]. destruct Hq as [->|[-> Hq]].
          * apply fp_opt_some; [discriminate|apply fp_char].
          * apply fp_opt_none. apply nomatch_first; [reflexivity|]. cbn [concat app]. destruct r' as [|x r']; [reflexivity|]. cbn in Hq |- *. rewrite Ascii.eqb_sym in Hq. exact Hq. }
    exists m. split; [|exact Ec]. rewrite <- Em. f_equal. unfold l'. cbn [concat]. rewrite ?app_nil_r. rewrite <- ?app_assoc. cbn [app]. rewrite <- ?app_assoc. reflexivity. }
  destruct M as (m & Em & Ec). rewrite Em. cbv zeta. pose proof (Forall_wf _ (CellFacts.columns_ok _ _ Ht)) as W. inversion W as [|? ? W1 _]; subst.
  rewrite (group_float m n "val") by (rewrite ?Ec; auto). cbn [bind]. assert (G : group_s m "key" = k) by (unfold group_s; rewrite Ec; reflexivity). rewrite G.
  assert (N : fix_key (normalise_key k) = nm); [|now rewrite N].
  destruct Hnm as [ws a b Hw Hi Ea|ws Hw Hi].
  - rewrite (eq_trans (normalise_key_cut _ _ Hw) Ea). cbn in Hi. destruct Hi as [Hi|[Hi|[Hi|[]]]]; injection Hi as <- <-; reflexivity.
  - rewrite (normalise_key_cut _ _ Hw). unfold fix_key. 
    destruct (str_eqb _ ($"apolar_corr_to_eigenvalue_sum")) eqn:Z1; [apply str_eqb_eq in Z1; exfalso; eapply Hi; [|exact Z1]; cbn; auto|].
    destruct (str_eqb _ ($"hubbard_u_correction_to_eigenvalu")) eqn:Z2; [apply str_eqb_eq in Z2; exfalso; eapply Hi; [|exact Z2]; cbn; auto|].
    destruct (str_eqb _ ($"xc_correction_to_eigenvalue_sum")) eqn:Z3; [apply str_eqb_eq in Z3; exfalso; eapply Hi; [|exact Z3]; cbn; auto|]. reflexivity.
Qed.
Lemma app_cons_eq {A} (a : list A) x b : a ++ x :: b = (a ++ [x]) ++ b.
Proof. now rewrite <- app_assoc. Qed.
Definition said_keys : list key := map name ["no_bands"; "kinetic_eigenvalue"; "eigenvalue"; "contributions"]%string.
Definition good (d : dict) : Prop := NoDup (map fst d) /\ forall k, In k (map fst d) -> In k said_keys.
Lemma good_set d k v : good d -> In k said_keys -> good (dset key_eqb d k v).
Proof.
  intros (N & K) Hk. split; [now apply (dset_nodup key_eqb key_eqb_spec)|]. intros k' H. apply (dset_in_keys key_eqb key_eqb_spec) in H as [H| ->]; auto.
Qed.
Lemma good_default d k v : good d -> In k said_keys -> good (setdefault d k v).
Proof. intros H Hk. unfold setdefault. destruct (dmem key_eqb d k); [exact H|now apply good_set]. Qed.
Lemma set_get (d : dict) k v k' : dget key_eqb (dset key_eqb d k v) k' = if key_eqb k k' then Some v else dget key_eqb d k'.
Proof. apply (dget_dset key_eqb key_eqb_spec). Qed.
Lemma default_get (d : dict) k v k' : dget key_eqb (setdefault d k v) k' = if key_eqb k k' then match dget key_eqb d k with Some w => Some w | None => Some v end else dget key_eqb d k'.
Proof.
  unfold setdefault, dmem. destruct (dget key_eqb d k) as [w|] eqn:E; [|rewrite set_get; reflexivity].
  destruct (key_eqb_spec k k') as [<-|N]; [exact E|reflexivity].
Qed.
Lemma read_bands rs d z : remarks_read rs d -> remarks_read (rs ++ [RBands z]) (dset key_eqb d (kstr "no_bands") (VInt z)).
Proof.
  intros (N & K & H1 & H2 & H3 & H4). destruct (good_set d (kstr "no_bands") (VInt z) (conj N K)) as [N' K']; [cbn; auto|].
  unfold remarks_read, has in *. split; [exact N'|]. split; [exact K'|]. rewrite !set_get.
  replace (kinetics (rs ++ [RBands z])) with (kinetics rs) by (unfold kinetics; rewrite flat_map_app; cbn; now rewrite app_nil_r).
  replace (sweeps (rs ++ [RBands z])) with (sweeps rs) by (unfold sweeps; rewrite flat_map_app; cbn; now rewrite app_nil_r).
  replace (terms (rs ++ [RBands z])) with (terms rs) by (unfold terms; rewrite flat_map_app; cbn; now rewrite app_nil_r).
  replace (bands_said (rs ++ [RBands z])) with (bands_said rs ++ [z]) by (unfold bands_said; rewrite flat_map_app; reflexivity). rewrite rev_app_distr. cbn [rev app].
  split; [reflexivity|]. split; [exact H2|]. split; [exact H3|].
  destruct (terms rs); [rewrite ?set_get; exact H4|]. destruct H4 as (out & Hm & H4). exists out. split; [exact Hm|]. rewrite ?set_get. exact H4.
Qed.
Lemma read_kinetic rs d n : remarks_read rs d -> (kinetics rs = [] -> sweeps rs = []) ->
  exists d', append_in (opened d) (kstr "kinetic_eigenvalue") (float_of n) = Ok d' /\ remarks_read (rs ++ [RKinetic n]) d'.
Proof.
  intros (N & K & H1 & H2 & H3 & H4) Hk.
  assert (E : dget key_eqb (opened d) (kstr "kinetic_eigenvalue") = Some (VList (map float_of (kinetics rs)))).
  { unfold opened. rewrite default_get. replace (key_eqb (kstr "eigenvalue") (kstr "kinetic_eigenvalue")) with false by reflexivity. rewrite default_get.
    replace (key_eqb (kstr "kinetic_eigenvalue") (kstr "kinetic_eigenvalue")) with true by reflexivity. unfold has in H2. change (name "kinetic_eigenvalue") with (kstr "kinetic_eigenvalue") in H2. rewrite H2. destruct (kinetics rs); reflexivity. }
  unfold append_in. rewrite E. eexists. split; [reflexivity|].
  destruct (good_set (opened d) (kstr "kinetic_eigenvalue") (VList (map float_of (kinetics rs) ++ [float_of n]))) as [N' K'];
    [unfold opened; repeat apply good_default; [split; assumption|cbn; auto|cbn; auto]|cbn; auto|].
  unfold remarks_read, has in *. split; [exact N'|]. split; [exact K'|]. clear N' K' E.
  rewrite !set_get. unfold opened. rewrite !default_get.
  replace (bands_said (rs ++ [RKinetic n])) with (bands_said rs) by (unfold bands_said; rewrite flat_map_app; cbn; now rewrite app_nil_r).
  replace (sweeps (rs ++ [RKinetic n])) with (sweeps rs) by (unfold sweeps; rewrite flat_map_app; cbn; now rewrite app_nil_r).
  replace (terms (rs ++ [RKinetic n])) with (terms rs) by (unfold terms; rewrite flat_map_app; cbn; now rewrite app_nil_r).
  replace (kinetics (rs ++ [RKinetic n])) with (kinetics rs ++ [n]) by (unfold kinetics; rewrite flat_map_app; reflexivity).
  split; [exact H1|]. split; [replace (key_eqb (kstr "kinetic_eigenvalue") (name "kinetic_eigenvalue")) with true by reflexivity; destruct (kinetics rs ++ [n]) eqn:Z; [now destruct (kinetics rs)|]; rewrite <- Z, map_app; reflexivity|]. split.
  - destruct (kinetics rs ++ [n]) eqn:Z; [now destruct (kinetics rs)|]. clear Z. replace (key_eqb (kstr "kinetic_eigenvalue") (name "eigenvalue")) with false by reflexivity. replace (key_eqb (kstr "eigenvalue") (name "eigenvalue")) with true by reflexivity.
    replace (key_eqb (kstr "kinetic_eigenvalue") (kstr "eigenvalue")) with false by reflexivity. change (kstr "eigenvalue") with (name "eigenvalue"). rewrite H3.
    destruct (kinetics rs); [rewrite (Hk eq_refl)|]; reflexivity.
  - destruct (terms rs); [rewrite ?set_get, ?default_get; exact H4|]. destruct H4 as (out & Hm & H4). exists out. split; [exact Hm|]. rewrite ?set_get, ?default_get. exact H4.
Qed.
Lemma read_sweep rs d es : remarks_read rs d -> kinetics rs <> [] ->
  (exists v, dget key_eqb d (kstr "eigenvalue") = Some (VList v)) /\
  exists d', append_in d (kstr "eigenvalue") (VList (map eigen_triple es)) = Ok d' /\ remarks_read (rs ++ [RSweep es]) d'.
Proof.
  intros (N & K & H1 & H2 & H3 & H4) Hk. unfold has in *. destruct (kinetics rs) as [|k0 ks] eqn:Ek; [congruence|].
  unfold append_in. change (kstr "eigenvalue") with (name "eigenvalue"). rewrite H3. split; [eauto|]. eexists. split; [reflexivity|].
  destruct (good_set d (name "eigenvalue") (VList (map (fun es => VList (map eigen_triple es)) (sweeps rs) ++ [VList (map eigen_triple es)]))) as [N' K']; [split; assumption|cbn; auto|].
  unfold remarks_read, has. split; [exact N'|]. split; [exact K'|]. rewrite !set_get.
  replace (bands_said (rs ++ [RSweep es])) with (bands_said rs) by (unfold bands_said; rewrite flat_map_app; cbn; now rewrite app_nil_r).
  replace (kinetics (rs ++ [RSweep es])) with (kinetics rs) by (unfold kinetics; rewrite flat_map_app; cbn; now rewrite app_nil_r).
  replace (terms (rs ++ [RSweep es])) with (terms rs) by (unfold terms; rewrite flat_map_app; cbn; now rewrite app_nil_r).
  replace (sweeps (rs ++ [RSweep es])) with (sweeps rs ++ [es]) by (unfold sweeps; rewrite flat_map_app; reflexivity). rewrite Ek.
  split; [exact H1|]. split; [exact H2|]. split; [cbn [key_eqb]; rewrite map_app; reflexivity|].
  destruct (terms rs); [rewrite ?set_get; exact H4|]. destruct H4 as (out & Hm & H4). exists out. split; [exact Hm|]. rewrite ?set_get. exact H4.
Qed.
Lemma read_term rs d k n : remarks_read rs d -> let d1 := setdefault d (kstr "contributions") (VDict false []) in
  exists e, dget key_eqb d1 (kstr "contributions") = Some (VDict false e) /\
  remarks_read (rs ++ [RTerm k n]) (dset key_eqb d1 (kstr "contributions") (VDict false (dset key_eqb e (KStr k) (float_of n)))).
Proof.
  intros (N & K & H1 & H2 & H3 & H4) d1. unfold has in *.
  assert (E : exists e, merged (terms rs) e /\ dget key_eqb d1 (kstr "contributions") = Some (VDict false e)).
  { unfold d1. rewrite default_get. replace (key_eqb (kstr "contributions") (kstr "contributions")) with true by reflexivity. change (kstr "contributions") with (name "contributions"). destruct (terms rs); [rewrite H4; exists []; split; [constructor|reflexivity]|].
    destruct H4 as (out & Hm & H4). rewrite H4. eauto. }
  destruct E as (e & He & E). exists e. split; [exact E|].
  destruct (good_set d1 (kstr "contributions") (VDict false (dset key_eqb e (KStr k) (float_of n)))) as [N' K']; [apply good_default; [split; assumption|cbn; auto]|cbn; auto|].
  unfold remarks_read, has. split; [exact N'|]. split; [exact K'|]. rewrite !set_get. unfold d1. rewrite !default_get.
  replace (bands_said (rs ++ [RTerm k n])) with (bands_said rs) by (unfold bands_said; rewrite flat_map_app; cbn; now rewrite app_nil_r).
  replace (kinetics (rs ++ [RTerm k n])) with (kinetics rs) by (unfold kinetics; rewrite flat_map_app; cbn; now rewrite app_nil_r).
  replace (sweeps (rs ++ [RTerm k n])) with (sweeps rs) by (unfold sweeps; rewrite flat_map_app; cbn; now rewrite app_nil_r).
  replace (terms (rs ++ [RTerm k n])) with (terms rs ++ [(KStr k, float_of n)]) by (unfold terms; rewrite flat_map_app; reflexivity).
  split; [exact H1|]. split; [exact H2|]. split; [exact H3|].
  destruct (terms rs ++ [(KStr k, float_of n)]) eqn:Z; [now destruct (terms rs)|]. rewrite <- Z. eexists. split; [apply dset_merged; exact He|]. rewrite ?set_get. reflexivity.
Qed.
Definition scf_inv (rs : list remark) (st : scfst) : Prop :=
  remarks_read rs (s_debug st) /\ (s_eig st = None \/ s_eig st = Some []) /\ (kinetics rs <> [] -> s_eig st = Some []).
Lemma kinetics_in rs n : In (RKinetic n) rs -> kinetics rs <> [].
Proof. intros H Z. assert (I : In n (kinetics rs)) by (apply in_flat_map; exists (RKinetic n); split; [exact H|now left]). rewrite Z in I. destruct I. Qed.
Lemma ordered_sweeps rs : ordered rs -> kinetics rs = [] -> sweeps rs = [].
Proof.
  intros O Z. destruct (sweeps rs) as [|es ss] eqn:E; [reflexivity|]. exfalso. assert (I : In es (sweeps rs)) by (rewrite E; now left).
  apply in_flat_map in I as (r & I & Hr). destruct r; try destruct Hr as [<-|[]]; try destruct Hr. apply in_split in I as (a & b & ->).
  destruct (O a es0 b eq_refl) as (n & Hn). apply (kinetics_in (a ++ RSweep es0 :: b) n) in Z; [exact Z|]. apply in_or_app. now left.
Qed.
Lemma ordered_app a b : ordered (a ++ b) -> ordered a.
Proof. intros O x es y ->. apply (O x es (y ++ b)). now rewrite <- app_assoc. Qed.
Lemma eigen_fold ls es : laid eigen_row scf_other ls es -> forall st done, s_eig st = Some done ->
  foldM scf_line ls st = Ok (with_debug st (s_debug st) (Some (done ++ map eigen_triple es))).
Proof.
  induction 1 as [|l e ls es H _ IH|l ls es H _ IH]; intros st done E.
  - cbn [foldM map]. rewrite app_nil_r, <- E. now destruct st.
  - cbn [foldM]. rewrite (eigen_line _ _ _ _ H E). cbn [bind]. rewrite (IH _ (done ++ [eigen_triple e])) by reflexivity. cbn [map]. rewrite <- app_assoc. reflexivity.
  - cbn [foldM]. rewrite (other_line _ _ H). cbn [bind]. now apply IH.
Qed.
Definition noted (d : dict) (notes : list (key * pyval)) : dict := fold_left (fun d kv => dset key_eqb d (fst kv) (snd kv)) notes d.
Lemma segment ls notes rs : scf_lines ls notes rs -> forall st pre, scf_inv pre st -> ordered (pre ++ rs) ->
  exists st', foldM scf_line ls st = Ok st' /\ s_scf st' = s_scf st /\ s_curr st' = noted (s_curr st) notes /\ scf_inv (pre ++ rs) st'.
Proof.
  induction 1 as [|l ls notes rs H _ IH|l ls [k v] notes rs H _ IH|l ls n ns notes rs H3 Hs Hn Hi _ IH|l ls x n ns notes rs H3 Hs Hn Hf _ IH|es l ls1 ls notes rs He Hc _ IH|l r ls notes rs H _ IH]; intros st pre Hi0 Ho.
  - exists st. rewrite app_nil_r. auto.
  - cbn [foldM]. rewrite (other_line _ _ H). cbn [bind]. now apply IH.
  - cbn [foldM]. rewrite (note_line _ _ _ _ H). cbn [bind]. destruct (IH (with_curr st k v) pre) as (st' & E & E1 & E2 & I'); [exact Hi0|exact Ho|]. exists st'. auto.
  - cbn [foldM]. rewrite (bands_line _ _ _ _ H3 Hs Hn Hi). cbn [bind]. rewrite app_cons_eq in Ho |- *. destruct Hi0 as (R & E0 & Ek).
    destruct (IH (with_debug st (dset key_eqb (s_debug st) (kstr "no_bands") (VInt (int_value n))) (s_eig st)) (pre ++ [RBands (int_value n)])) as (st' & E & E1 & E2 & I'); [|exact Ho|exists st'; auto].
    split; [now apply read_bands|]. split; [exact E0|]. cbn [s_eig with_debug]. intros Z. apply Ek. intros Z'. apply Z. unfold kinetics in *. rewrite flat_map_app, Z'. reflexivity.
  - cbn [foldM]. rewrite (kinetic_line _ _ _ _ _ H3 Hs Hn Hf). destruct Hi0 as (R & E0 & Ek).
    destruct (read_kinetic pre (s_debug st) n R) as (d' & Ed & R'); [apply ordered_sweeps; eapply ordered_app; exact Ho|]. rewrite Ed. cbn [bind]. rewrite app_cons_eq in Ho |- *.
    destruct (IH (with_debug st d' (Some [])) (pre ++ [RKinetic n])) as (st' & E & E1 & E2 & I'); [|exact Ho|exists st'; auto].
    split; [exact R'|]. split; [now right|]. reflexivity.
  - rewrite foldM_app. destruct Hi0 as (R & E0 & Ek). assert (K : kinetics pre <> []). { destruct (Ho pre es rs eq_refl) as (n & Hn). eapply kinetics_in; exact Hn. }
    rewrite (eigen_fold _ _ He st [] (Ek K)). cbn [bind foldM app]. destruct (read_sweep pre (s_debug st) es R K) as (Hv & d' & Ed & R').
    rewrite (check_line _ _ (map eigen_triple es) Hc); [|reflexivity|exact Hv]. cbn [s_debug with_debug]. rewrite Ed. cbn [bind]. rewrite app_cons_eq in Ho |- *.
    destruct (IH (with_debug (with_debug st (s_debug st) (Some (map eigen_triple es))) d' (Some [])) (pre ++ [RSweep es])) as (st' & E & E1 & E2 & I'); [|exact Ho|exists st'; auto].
    split; [exact R'|]. split; [now right|]. reflexivity.
  - assert (Hr : exists nm n, r = RTerm nm n) by (inversion H; eauto). destruct Hr as (nm & n & ->). cbn [foldM]. rewrite (term_line _ _ _ _ H). cbv zeta. destruct Hi0 as (R & E0 & Ek).
    destruct (read_term pre (s_debug st) nm n R) as (e & Ee & R'). rewrite Ee. cbn [bind]. rewrite app_cons_eq in Ho |- *.
    match goal with |- exists st', foldM scf_line ls ?S = _ /\ _ => destruct (IH S (pre ++ [RTerm nm n])) as (st' & E & E1 & E2 & I'); [|exact Ho|exists st'; auto] end.
    split; [exact R'|]. split; [exact E0|]. cbn [s_eig with_debug]. intros Z. apply Ek. intros Z'. apply Z. unfold kinetics in *. rewrite flat_map_app, Z'. reflexivity.
Qed.
Lemma noted_merged notes : forall its d, merged its d -> merged (its ++ notes) (noted d notes).
Proof.
  induction notes as [|[k v] notes IH]; intros its d H; [now rewrite app_nil_r|]. cbn [noted fold_left fst snd]. rewrite app_cons_eq. apply IH. now apply dset_merged.
Qed.
Lemma noted_some notes : forall d, d <> [] -> noted d notes <> [].
Proof.
  induction notes as [|[k v] notes IH]; intros d H; [exact H|]. cbn [noted fold_left fst snd]. apply IH. destruct d as [|[k' v'] d]; [congruence|]. cbn. destruct (key_eqb k' k); discriminate.
Qed.
Lemma remarks_none : remarks_read [] [].
Proof. unfold remarks_read, has. cbn. split; [constructor|]. split; [tauto|]. auto. Qed.
Lemma loop_merged i info : merged (loop_read i ++ match info with [] => [] | _ => [(name "debug_info", VDict false info)] end)
  (loop_read i ++ match info with [] => [] | _ => [(name "debug_info", VDict false info)] end).
Proof.
  assert (N : NoDup (map fst (loop_read i ++ match info with [] => [] | _ => [(name "debug_info", VDict false info)] end))).
  { destruct info; cbn; repeat constructor; cbn; intuition discriminate. }
  rewrite <- (merged_nodup key_eqb key_eqb_spec _ N _ (merged_dict_of key_eqb key_eqb_spec _)) at 2. apply (merged_dict_of key_eqb key_eqb_spec).
Qed.
Lemma keep_some st : s_curr st <> [] -> scf_keep st = s_scf st ++ [s_curr st].
Proof. intros H. unfold scf_keep. now destruct (s_curr st). Qed.
Lemma block_fold said more cs : scf_block said more cs -> forall st, scf_inv said st ->
  exists vs, (st <- foldM scf_line more st ;; Ok (map (VDict false) (scf_keep st))) = Ok (map (VDict false) (scf_keep st) ++ vs) /\ Forall2 cycle_read cs vs.
Proof.
  induction 1 as [said|l c ls rs more cs Hl Hs Ho _ IH]; intros st I.
  - exists []. cbn. rewrite app_nil_r. split; [reflexivity|constructor].
  - cbn [foldM]. rewrite (loop_line _ _ _ Hl). cbn [bind]. rewrite foldM_app.
    match goal with |- context [foldM scf_line ls ?S] => destruct (segment _ _ _ Hs S []) as (st2 & E & E1 & E2 & I2); [|exact Ho|] end.
    { split; [exact remarks_none|]. destruct I as (_ & E0 & _). split; [exact E0|]. intros Z. now destruct Z. }
    rewrite E. cbn [bind]. cbn [s_scf s_curr] in E1, E2. destruct (IH st2 I2) as (vs & Ev & F). exists (VDict false (s_curr st2) :: vs). split.
    + rewrite Ev. rewrite keep_some by (rewrite E2; apply noted_some; discriminate). rewrite E1, map_app, <- app_assoc. reflexivity.
    + constructor; [|exact F]. exists (s_debug st), (s_curr st2). split; [reflexivity|]. destruct I as (R & _). split; [exact R|]. rewrite E2. rewrite app_assoc. apply noted_merged.
      destruct (s_debug st) as [|kv db]; [exact (loop_merged (cy_row c) [])|exact (loop_merged (cy_row c) (kv :: db))].
Qed.
Lemma scf_spec ls notes cs : scf_text ls notes cs -> exists out, process_scf ls = Ok out /\ scf_read notes cs out.
Proof.
  intros [ls' notes' rs more cs' Hs Ho Hb]. unfold process_scf. rewrite foldM_app.
  destruct (segment _ _ _ Hs {| s_scf := []; s_curr := []; s_debug := []; s_eig := None |} []) as (st & E & E1 & E2 & I); [|exact Ho|].
  { split; [exact remarks_none|]. split; [now left|]. intros Z. now destruct Z. }
  rewrite E. cbn [bind]. destruct (block_fold _ _ _ Hb st I) as (vs & Ev & F). eexists. split; [exact Ev|]. exists (s_curr st), vs. cbn [s_scf s_curr] in E1, E2.
  split; [rewrite E2; apply (noted_merged notes' [] []); constructor|]. split; [exact F|]. unfold scf_keep. rewrite E1. now destruct (s_curr st).
Qed.
