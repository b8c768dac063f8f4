(** Proofs about reports of pseudopotentials and about symmetry and constraints in
    .castep files. *)
From Coq Require Import QArith Qreduction.
From Verif Require Import PyBase PyFacts PyVal Regex RegexFacts RegexComplete CastepRes NumSpec NumFacts NumProps NumVal
  StrUtil SpecStr StrUtilFacts SpecLine SpecType TypeConv TypeConvFacts IntStr DictUtil SpecDict DictFacts Stream StreamFacts TextParsers TextFiles
  SpecTable ColumnFacts Header HeaderFacts SpecMd MdFacts SpecBands NeedFacts SpecCastep CastepBlocks CastepFacts PhononFacts
  SpecCastep2 CastepNum Castep2Facts SpecCastep3 CastepRows Castep3Facts SpecCastep4 BandsFacts TextParsersFacts Castep4Facts Castep5Facts SpecCastep5 Castep6Facts Pspot CellParam SpecCell SpecPspot CastepRest SpecCastep6.
From Verif Require CellFacts CellPosFacts CellBlockFacts FileParts PspotFacts.
Local Open Scope list_scope.
Local Open Scope nat_scope.


Local Definition ne := SpecCastep.name.
Lemma fp_assoc a b r p t s c c' : fp (RSeq (RSeq a b) r) p t s c c' -> fp (RSeq a (RSeq b r)) p t s c c'.
Proof. intros H. exact H. Qed.
(** ** Reports of pseudopotentials *)
Lemma bar_den p u v r s c p' s' c' : forallb is_space u = true -> forallb is_space v = true -> hd_not is_space r ->
  den (RSeq ws_star (RSeq (RChar "|") (RSeq ws_star s))) p (u ++ "|"%char :: v ++ r) c p' s' c' ->
  exists w1 w2 q c0, v = w1 ++ w2 /\ den s q (w2 ++ r) c0 p' s' c'.
Proof.
  intros Hu Hv Hr (? & ? & ? & D1 & ? & ? & ? & D2 & ? & ? & ? & D3 & D).
  unfold ws_star, RStar in D1, D3. apply den_rep_chr in D1 as (a & E & _ & _ & Ha & -> & <-). apply den_char in D2 as (-> & -> & ->).
  apply (run_unique is_space) in E as (<- & _ & E); [|assumption|assumption|reflexivity|reflexivity].
  apply den_rep_chr in D3 as (b & -> & _ & _ & Hb & -> & <-).
  apply app_eq_app in E as (z & [[E1 E2]|[E1 E2]]).
  - exists b, z. do 2 eexists. split; [exact E1|]. rewrite <- E2. exact D.
  - destruct z as [|z zs].
    + exists v, []. do 2 eexists. split; [now rewrite app_nil_r|]. cbn in E2 |- *. rewrite E2. exact D.
    + subst. rewrite forallb_app in Hb. apply andb_true_iff in Hb as [_ Hb]. cbn in Hb, Hr. apply andb_true_iff in Hb as [Hb _]. congruence.
Qed.
(** What must follow the frame of an orbital, of a projector *)
Lemma orb_none u v r : forallb is_space u = true -> forallb is_space v = true -> hd_not is_space r ->
  (forall d x r', r = d :: x :: r' -> is_digit d = true -> chr_in x ($"spdf") = false) -> re_match PSPOT_REFERENCE_STRUC_RE (u ++ "|"%char :: v ++ r) = None.
Proof.
  intros Hu Hv Hr H. apply no_match_of. intros p' s' c' D. unfold PSPOT_REFERENCE_STRUC_RE in D. cbn [RSeqs] in D. destruct D as (? & ? & ? & (_ & <- & <- & <-) & D).
  apply bar_den in D as (w1 & w2 & q & c0 & -> & D); [|assumption|assumption|assumption]. destruct D as (? & ? & ? & (c1 & D & _) & _).
  destruct D as (? & ? & ? & D & _). destruct D as (? & ? & ? & (y & E1 & Hy & _) & ? & ? & ? & (z & E2 & Hz & _) & _).
  destruct w2 as [|b w2]; cbn in E1; [|].
  - subst. change (chr_in z ($"spdf") = true) in Hz. rewrite (H y z _ eq_refl Hy) in Hz. discriminate.
  - injection E1 as -> _. rewrite forallb_app in Hv. apply andb_true_iff in Hv as [_ Hv]. cbn in Hv. apply andb_true_iff in Hv as [Hv _].
    revert Hy Hv. clear. revert y. intros y. destruct y as [[] [] [] [] [] [] [] []]; cbn; discriminate.
Qed.
Lemma def_none u v r : forallb is_space u = true -> forallb is_space v = true -> hd_not is_space r ->
  hd_not (fun c => is_digit c || Ascii.eqb c "l") r -> re_match PSPOT_DEF_RE (u ++ "|"%char :: v ++ r) = None.
Proof.
  intros Hu Hv Hr H. apply no_match_of. intros p' s' c' D. unfold PSPOT_DEF_RE in D. cbn [RSeqs] in D. destruct D as (? & ? & ? & (_ & <- & <- & <-) & D).
  apply bar_den in D as (w1 & w2 & q & c0 & -> & D); [|assumption|assumption|assumption]. destruct D as (? & ? & ? & (c1 & D & _) & _).
  assert (G : exists y t, w2 ++ r = y :: t /\ (is_digit y || Ascii.eqb y "l") = true).
  { destruct D as [D|D].
    - unfold RPlus in D. apply den_rep_chr in D as ([|y w] & E & Hl & _ & Hw & _); [cbn in Hl; lia|]. exists y, (w ++ x0). split; [exact E|]. cbn in Hw. apply andb_true_iff in Hw as [-> _]. reflexivity.
    - apply den_lit in D as (E & _). eexists "l"%char, _. split; [exact E|reflexivity]. }
  destruct G as (y & t & E & Hy). destruct w2 as [|b w2]; cbn in E.
  - subst r. cbn [hd_not] in H. congruence.
  - injection E as -> _. rewrite forallb_app in Hv. apply andb_true_iff in Hv as [_ Hv]. cbn [forallb] in Hv. apply andb_true_iff in Hv as [Hv _].
    revert Hy Hv. clear. destruct y as [[] [] [] [] [] [] [] []]; cbn; discriminate.
Qed.

Lemma digits_ne ds : ds <> [] -> write_digits ds <> [].
Proof. destruct ds; [congruence|discriminate]. Qed.
Lemma digit_space c : is_digit c = true -> is_space c = false.
Proof. revert c. apply ascii_imp_not. vm_compute. reflexivity. Qed.
Lemma orbital_hd w : orbital w -> exists d x r, w = d :: x :: r /\ is_digit d = true /\ chr_in x ($"spdf") = true.
Proof.
  intros H. assert (G : forall s, shell s -> exists d x r, s = d :: x :: r /\ is_digit d = true /\ chr_in x ($"spdf") = true).
  { intros s [d c ds Hc _]. exists (digit_char d), c, (write_digits ds). split; [reflexivity|]. split; [apply digit_char_digit|]. apply chr_in_iff. exact Hc. }
  destruct H as [H|(s & ds & H & _ & ->)]; apply G in H as (d & x & r & -> & H1 & H2); eauto 8.
  exists d, x, (r ++ "/"%char :: write_digits ds). auto.
Qed.
Lemma fp_orbital w p s c : orbital w -> token_end s -> s <> [] -> fp (RSeq SHELL_RE (ROpt (RSeq (RChar "/") (RPlus c_digit)))) p w s c c.
Proof.
  intros H Hs H0. destruct s as [|x s]; [congruence|]. assert (Hx : blank x) by now apply (Hs x s). apply blank_iff in Hx. destruct H as [H|(v & ds & H & Hd & ->)].
  - rewrite <- (app_nil_r w). eapply fp_seq; [apply fp_shell; [exact H|]|].
    + cbn. revert Hx. revert x Hs H0. intros x _ _. revert x. apply ascii_imp_not. vm_compute. reflexivity.
    + apply fp_opt_none, nomatch_first; [reflexivity|]. cbn. revert x Hx Hs H0. intros x Hx _ _. revert x Hx. apply ascii_imp_not. vm_compute. reflexivity.
  - eapply fp_seq; [apply fp_shell; [exact H|reflexivity]|]. apply fp_opt_some; [discriminate|].
    change ("/"%char :: write_digits ds) with (["/"%char] ++ write_digits ds). eapply fp_seq; [apply fp_char|].
    apply fp_plus_chr; [apply digits_all|now apply digits_ne|]. cbn. revert x Hx Hs H0. intros x Hx _ _. revert x Hx. apply ascii_imp_not. vm_compute. reflexivity.
Qed.
Lemma orb_match u v w t occ e g s : forallb is_space u = true -> forallb is_space v = true -> orbital w -> columns [occ; e] t -> gap g -> blanks s ->
  exists x, re_match PSPOT_REFERENCE_STRUC_RE (u ++ "|"%char :: v ++ w ++ t ++ g ++ "|"%char :: s) = Some x /\
    m_caps x = row_caps ["occupation"; "energy"]%string [occ; e] [("orb"%string, w)].
Proof.
  intros Hu Hv Hw Ht Hg Hs. apply gap_iff in Hg as [Hg Hg0]. apply blanks_iff in Hs.
  destruct (match_hit PSPOT_REFERENCE_STRUC_RE (u ++ ["|"%char] ++ v ++ w ++ t ++ g ++ ["|"%char] ++ s) [] (row_caps ["occupation"; "energy"]%string [occ; e] [("orb"%string, w)])) as (x & M & C).
  - unfold PSPOT_REFERENCE_STRUC_RE. cbn [RSeqs]. rewrite <- (app_nil_l (u ++ _)). eapply fp_seq; [apply fp_bol|]. cbn [pa].
    eapply fp_seq; [apply fp_star_chr; [exact Hu|reflexivity]|]. eapply fp_seq; [apply fp_char|].
    eapply fp_seq; [apply fp_star_chr; [exact Hv|]|].
    { destruct (orbital_hd w Hw) as (d & y & r & -> & Hd & _). cbn. now apply digit_space. }
    assert (Ht2 : token_end (g ++ ["|"%char] ++ s)).
    { intros c r E. destruct g as [|y g]; [congruence|]. injection E as <- _. cbn in Hg. apply andb_true_iff in Hg as [Hg _]. now apply blank_iff. }
    eapply fp_seq; [apply fp_grp, fp_orbital; [exact Hw| |]|].
    + rewrite <- !app_assoc. eapply columns_hd; [exact Ht|]. rewrite app_nil_r. exact Ht2.
    + inversion Ht as [|g1 n ns u1 G1 G2 Hn Hu1]; subst. destruct g1; [congruence|discriminate].
    + apply fp_assoc. eapply fp_seq; [apply fp_ws_labelled; [exact Ht|reflexivity|discriminate|rewrite app_nil_r; exact Ht2]|].
      eapply fp_seq; [apply fp_star_chr; [exact Hg|reflexivity]|]. eapply fp_seq; [apply fp_char|]. now apply CellFacts.fp_blank_end.
  - exists x. split; [|exact C]. rewrite <- M. f_equal. rewrite app_nil_r. cbn [app]. reflexivity.
Qed.

Lemma den_ws_lf names r p s c p' s' c' : names <> [] -> den (RSeq ws_star (RSeq (labelled_floats names) r)) p s c p' s' c' -> exists x t, s = x :: t /\ is_space x = true.
Proof.
  intros Hn (? & ? & ? & D1 & ? & ? & ? & D2 & _). unfold ws_star, RStar in D1. apply den_rep_chr in D1 as (a & -> & _ & _ & Ha & -> & <-).
  apply den_labelled in D2 as (ns & t & Hc & Hl & -> & _). destruct a as [|y a].
  - destruct ns as [|n ns]; [destruct names; [congruence|discriminate]|]. inversion Hc as [|g n0 ns0 t' Hg Hg0 _ _]; subst. destruct g as [|y g]; [congruence|].
    apply blanks_iff in Hg. cbn in Hg |- *. apply andb_true_iff in Hg as [Hg _]. eauto.
  - cbn in Ha |- *. apply andb_true_iff in Ha as [Ha _]. eauto.
Qed.
Lemma num_char_space c : is_space c = true -> CellFacts.is_numchar c = false.
Proof. revert c. apply ascii_imp_not. vm_compute. reflexivity. Qed.
(** Digits off a number with a point leave something of it. *)
Lemma fixed_rest e d s1 s : fixed e -> forallb is_digit d = true -> write_num e ++ s = d ++ s1 -> hd_not is_space s1 /\ s1 <> [].
Proof.
  intros (Hok & He & Hf) Hd E. pose proof (CellFacts.write_num_numchars e) as W.
  assert (P : In "."%char (write_num e)).
  { unfold write_num. rewrite He. destruct (n_frac e) as [fr|]; [|congruence]. apply in_or_app. right. apply in_or_app. right. apply in_or_app. left. now left. }
  apply app_eq_app in E as (z & [[E1 E2]|[E1 E2]]).
  - destruct z as [|y z].
    + rewrite app_nil_r in E1. rewrite E1 in P. rewrite forallb_forall in Hd. apply Hd in P. discriminate.
    + subst s1. rewrite E1, forallb_app in W. apply andb_true_iff in W as [_ W]. cbn [forallb] in W. apply andb_true_iff in W as [W _]. split; [|discriminate]. cbn [app hd_not].
      destruct (is_space y) eqn:S; [|reflexivity]. apply num_char_space in S. congruence.
  - exfalso. rewrite E1, forallb_app in Hd. apply andb_true_iff in Hd as [Hd _]. rewrite forallb_forall in Hd. apply Hd in P. discriminate.
Qed.
Lemma num_nospace n s : num_ok n -> hd_not is_space (write_num n ++ s).
Proof.
  intros H. pose proof (CellFacts.write_num_numchars n) as W. pose proof (write_num_nonempty n H) as N. destruct (write_num n) as [|y q]; [congruence|].
  cbn in W |- *. apply andb_true_iff in W as [W _]. destruct (is_space y) eqn:S; [|reflexivity]. apply num_char_space in S. congruence.
Qed.

Lemma beta_label_hd b v : beta_label b v -> exists c t, b = c :: t /\ is_space c = false.
Proof.
  intros [ds H|]; [|exists "l"%char, (text_of "oc"); auto]. destruct ds as [|d ds]; [congruence|]. exists (digit_char d), (write_digits ds). split; [reflexivity|]. now destruct d.
Qed.
Lemma fp_beta b v p s c : beta_label b v -> hd_not is_digit s -> fp (RAlt (RPlus c_digit) (RLit "loc")) p b s c c.
Proof.
  intros [ds H|] Hs; [apply fp_alt_l, fp_plus_chr; [apply digits_all|now apply digits_ne|exact Hs]|].
  apply fp_alt_r; [apply nomatch_first; reflexivity|apply fp_lit].
Qed.
Lemma space_digit c : is_space c = true -> is_digit c = false.
Proof. revert c. apply ascii_imp_not. vm_compute. reflexivity. Qed.
Lemma gap_hd_not f g s : (forall c, is_space c = true -> f c = false) -> forallb is_space g = true -> g <> [] -> hd_not f (g ++ s).
Proof. intros H Hg H0. destruct g as [|x g]; [congruence|]. cbn in Hg |- *. apply andb_true_iff in Hg as [Hg _]. auto. Qed.
Definition j_part (r : re) : re := RSeq ws_star (RSeq (ROpt (RGrp "j" (RPlus c_digit))) (RSeq ws_star (RSeq (labelled_floats ["e"; "Rc"]%string) r))).
Definition j_cap (jv : pyval) (u : str) (c : caps) : caps := match jv with VNone => c | _ => ("j"%string, lstrip u) :: c end.
Lemma fp_j_part r e rc u jv t s0 s p c c' : j_text e u jv -> columns [e; rc] t -> token_end (s0 ++ s) ->
  fp r (pa p (u ++ t)) s0 s (row_caps ["e"; "Rc"]%string [e; rc] (j_cap jv u c)) c' -> fp (j_part r) p (u ++ t ++ s0) s c c'.
Proof.
  intros [e0 Hf|e0 g ds Hg Hd] Ht Hs F; unfold j_part, j_cap in *.
  - cbn [app] in *. inversion Ht as [|g n ns t' Hg Hg0 Hn Ht']; subst. pose proof (proj1 (blanks_iff _) Hg) as Hb.
    destruct g as [|x w _] using rev_ind; [congruence|]. rewrite <- !app_assoc. cbn [app].
    rewrite forallb_app in Hb. cbn in Hb. apply andb_true_iff in Hb as [Hw Hx]. rewrite andb_true_r in Hx.
    unfold ws_star at 1. apply CellFacts.fp_star_back1; [exact Hw|exact Hx|rewrite <- !app_assoc; now apply num_nospace| |].
    + apply nomatch_den. intros p' s' c1 (? & ? & ? & D1 & D2). apply den_ws_lf in D2 as (y & z & E & Hy); [|discriminate].
      rewrite <- !app_assoc in D1. unfold ROpt in D1. destruct D1 as (n & _ & Hn1 & D1). destruct n as [|[|n]]; [| |cbn in Hn1; lia].
      * destruct D1 as (_ & E1 & _). pose proof (num_nospace e0 (t' ++ s0 ++ s) Hn) as N. rewrite E1, E in N. cbn in N. congruence.
      * destruct D1 as (? & ? & ? & (c2 & D1 & _) & _ & E1 & _). unfold RPlus, c_digit in D1. apply den_rep_chr in D1 as (d & E2 & _ & _ & Hd & _).
        destruct (fixed_rest e0 d _ _ Hf Hd E2) as [N1 N2]. rewrite E1, E in N1. cbn in N1. congruence.
    + change (x :: write_num e0 ++ t' ++ s0) with ([] ++ (x :: write_num e0 ++ t' ++ s0)). eapply fp_seq.
      * apply fp_opt_none, nomatch_grp, nomatch_plus_chr. cbn. now apply space_digit.
      * change (x :: write_num e0 ++ t' ++ s0) with ([x] ++ write_num e0 ++ t' ++ s0). rewrite !app_assoc. rewrite <- (app_assoc [x]). apply fp_assoc. eapply fp_seq.
        -- apply fp_ws_labelled with (ns := [e0; rc]); [constructor; [|discriminate|assumption|assumption]|reflexivity|discriminate|exact Hs].
           apply Forall_app in Hg. tauto.
        -- replace (pa (pa (pa p w) []) ([x] ++ write_num e0 ++ t')) with (pa p ((w ++ [x]) ++ write_num e0 ++ t')); [exact F|]. now rewrite <- !pa_app, <- !app_assoc.
  - apply gap_iff in Hg as [Hg Hg0]. rewrite <- !app_assoc. unfold ws_star at 1. eapply fp_seq; [apply fp_star_chr; [exact Hg|]|].
    { destruct ds as [|d ds]; [congruence|]. cbn. now destruct d. }
    eapply fp_seq; [apply fp_opt_some; [now apply digits_ne|apply fp_grp, fp_plus_chr; [apply digits_all|now apply digits_ne|]]|].
    { rewrite <- app_assoc. apply token_end_digit. eapply columns_hd; [exact Ht|exact Hs]. }
    apply fp_assoc. eapply fp_seq; [apply fp_ws_labelled with (ns := [e0; rc]); [exact Ht|reflexivity|discriminate|exact Hs]|].
    replace (lstrip (g ++ write_digits ds)) with (write_digits ds) in F.
    + rewrite <- !pa_app. rewrite <- ?app_assoc in *. exact F.
    + unfold lstrip, lstrip_by. symmetry. apply drop_while_app; [exact Hg|]. destruct ds as [|d ds]; [congruence|]. now destruct d.
Qed.

Lemma def_match u v b bv g1 ls ju jv t e rc g2 sch g3 ds g4 s : forallb is_space u = true -> forallb is_space v = true -> beta_label b bv -> gap g1 -> ls <> [] -> j_text e ju jv ->
  columns [e; rc] t -> gap g2 -> sch <> [] -> forallb is_word sch = true -> gap g3 -> ds <> [] -> blanks g4 -> blanks s ->
  exists x, re_match PSPOT_DEF_RE (u ++ "|"%char :: v ++ b ++ g1 ++ write_digits ls ++ ju ++ t ++ g2 ++ sch ++ g3 ++ write_digits ds ++ g4 ++ "|"%char :: s) = Some x /\
    m_caps x = ("norm"%string, write_digits ds) :: ("scheme"%string, sch) :: row_caps ["e"; "Rc"]%string [e; rc] (j_cap jv ju [("l"%string, write_digits ls); ("beta"%string, b)]).
Proof.
  intros Hu Hv Hb Hg1 Hls Hj Ht Hg2 Hsch Hw Hg3 Hds Hg4 Hs. apply gap_iff in Hg1 as [Hg1 G1], Hg2 as [Hg2 G2], Hg3 as [Hg3 G3]. apply blanks_iff in Hg4, Hs.
  destruct (match_hit PSPOT_DEF_RE (u ++ ["|"%char] ++ v ++ b ++ g1 ++ write_digits ls ++ (ju ++ t ++ (g2 ++ sch ++ g3 ++ write_digits ds ++ g4 ++ ["|"%char] ++ s))) []
    (("norm"%string, write_digits ds) :: ("scheme"%string, sch) :: row_caps ["e"; "Rc"]%string [e; rc] (j_cap jv ju [("l"%string, write_digits ls); ("beta"%string, b)]))) as (x & M & C).
  - unfold PSPOT_DEF_RE. cbn [RSeqs]. rewrite <- (app_nil_l (u ++ _)). eapply fp_seq; [apply fp_bol|]. cbn [pa].
    eapply fp_seq; [apply fp_star_chr; [exact Hu|reflexivity]|]. eapply fp_seq; [apply fp_char|].
    eapply fp_seq; [apply fp_star_chr; [exact Hv|]|].
    { destruct (beta_label_hd b bv Hb) as (d & r & -> & Hd). exact Hd. }
    eapply fp_seq; [apply fp_grp, (fp_beta b bv); [exact Hb|]|].
    { rewrite <- app_assoc. apply gap_hd_not; [exact space_digit|exact Hg1|exact G1]. }
    eapply fp_seq; [apply fp_star_chr; [exact Hg1|]|].
    { destruct ls as [|d ls]; [congruence|]. cbn. now destruct d. }
    assert (Ht2 : token_end ((g2 ++ sch ++ g3 ++ write_digits ds ++ g4 ++ ["|"%char] ++ s) ++ [])).
    { intros c r E. destruct g2 as [|y g]; [congruence|]. injection E as <- _. cbn in Hg2. apply andb_true_iff in Hg2 as [Hg2 _]. now apply blank_iff. }
    eapply fp_seq; [apply fp_grp, fp_plus_chr; [apply digits_all|now apply digits_ne|]|].
    { rewrite <- !app_assoc. destruct Hj as [e0 Hf|e0 g ds' Hg Hd].
      - cbn [app]. apply token_end_digit. eapply columns_hd; [exact Ht|]. rewrite <- ?app_assoc in Ht2. exact Ht2.
      - apply gap_iff in Hg as [Hg G]. rewrite <- app_assoc. apply gap_hd_not; [exact space_digit|exact Hg|exact G]. }
    match goal with |- fp (RSeq ws_star (RSeq (ROpt _) (RSeq ws_star (RSeq _ ?r)))) _ _ _ _ _ => change (fp (j_part r) (pa (pa (pa (pa (pa (pa None u) ["|"%char]) v) b) g1) (write_digits ls)) (ju ++ t ++ g2 ++ sch ++ g3 ++ write_digits ds ++ g4 ++ ["|"%char] ++ s) []
      [("l"%string, write_digits ls); ("beta"%string, b)] (("norm"%string, write_digits ds) :: ("scheme"%string, sch) :: row_caps ["e"; "Rc"]%string [e; rc] (j_cap jv ju [("l"%string, write_digits ls); ("beta"%string, b)]))) end.
    eapply fp_j_part; [exact Hj|exact Ht|exact Ht2|].
    eapply fp_seq; [apply fp_star_chr; [exact Hg2|]|].
    { destruct sch as [|y sch]; [congruence|]. cbn in Hw |- *. apply andb_true_iff in Hw as [Hw _]. clear -Hw. revert y Hw. apply ascii_imp_not. vm_compute. reflexivity. }
    eapply fp_seq; [apply fp_grp, fp_plus_chr; [exact Hw|exact Hsch|]|].
    { rewrite <- !app_assoc. apply gap_hd_not; [|exact Hg3|exact G3]. apply ascii_imp_not. vm_compute. reflexivity. }
    eapply fp_seq; [apply fp_star_chr; [exact Hg3|]|].
    { destruct ds as [|d ds]; [congruence|]. cbn. now destruct d. }
    eapply fp_seq; [apply fp_grp, fp_plus_chr; [apply digits_all|now apply digits_ne|]|].
    { rewrite <- !app_assoc. destruct g4 as [|y g]; [reflexivity|]. apply gap_hd_not; [exact space_digit|exact Hg4|discriminate]. }
    eapply fp_seq; [apply fp_star_chr; [exact Hg4|reflexivity]|]. eapply fp_seq; [apply fp_char|]. now apply CellFacts.fp_blank_end.
  - exists x. split; [|exact C]. rewrite <- M. f_equal. rewrite app_nil_r. cbn [app]. reflexivity.
Qed.

Lemma bar_iff a : bar a <-> exists u v, a = u ++ "|"%char :: v /\ forallb is_space u = true /\ forallb is_space v = true.
Proof. split; intros (u & v & E & H1 & H2); exists u, v; (split; [exact E|]); split; now apply blanks_iff. Qed.
Lemma bar_skips r a s : nullable r = false -> (forall c, first r c = true -> is_space c = false /\ c <> "|"%char) -> bar a -> skips r None a s.
Proof.
  intros Hn Hf (u & v & -> & Hu & Hv)%bar_iff. apply skips_first; [exact Hn|]. rewrite forallb_app. cbn [forallb].
  assert (G : forall w, forallb is_space w = true -> forallb (fun c => negb (first r c)) w = true).
  { intros w Hw. rewrite forallb_forall in *. intros c Hc. apply Hw in Hc. destruct (first r c) eqn:F; [|reflexivity]. apply Hf in F as [F _]. congruence. }
  rewrite (G u Hu), (G v Hv), andb_true_r. cbn. destruct (first r "|") eqn:F; [|reflexivity]. apply Hf in F as [_ F]. congruence.
Qed.
Lemma ends_word_hd s : ends_word s -> hd_not is_word s.
Proof. intros H. destruct s as [|y s]; [exact I|]. cbn. destruct (is_word y) eqn:W; [|reflexivity]. exfalso. apply (H y s eq_refl). now apply word_char_iff. Qed.
Lemma element_match a sp g1 n g2 th s : bar a -> SpecCell.species sp -> gap g1 -> fixed n -> gap g2 -> th <> [] -> forallb is_word th = true -> ends_word s ->
  exists x, re_search ELEMENT_RE (a ++ text_of "Element: " ++ sp ++ g1 ++ text_of "Ionic charge: " ++ write_num n ++ g2 ++ text_of "Level of theory: " ++ th ++ s) = Some x /\
    m_caps x = [("level_of_theory"%string, th); ("ionic_charge"%string, write_num n); ("element"%string, sp)].
Proof.
  intros Ha Hsp Hg1 Hn Hg2 Ht0 Ht Hs. apply gap_iff in Hg1 as [Hg1 G1], Hg2 as [Hg2 G2].
  destruct (search_hit ELEMENT_RE a (text_of "Element: " ++ sp ++ g1 ++ text_of "Ionic charge: " ++ write_num n ++ g2 ++ text_of "Level of theory: " ++ th) s
    [("level_of_theory"%string, th); ("ionic_charge"%string, write_num n); ("element"%string, sp)]) as (x & M & C).
  - apply bar_skips; [reflexivity| |exact Ha]. intros c Hc. cbn in Hc. rewrite ?orb_false_r in Hc. apply Ascii.eqb_eq in Hc. subst c. split; [reflexivity|discriminate].
  - unfold ELEMENT_RE. cbn [RSeqs]. eapply fp_seq; [apply fp_lit|].
    eapply fp_seq; [apply fp_grp, CellPosFacts.fp_species; [exact Hsp|]|].
    { rewrite <- !app_assoc. apply gap_hd_not; [|exact Hg1|exact G1]. apply ascii_imp_not. vm_compute. reflexivity. }
    eapply fp_seq; [apply fp_plus_chr; [exact Hg1|exact G1|reflexivity]|]. eapply fp_seq; [apply fp_lit|].
    eapply fp_seq; [apply fp_grp, fixed_fp; [exact Hn|]|].
    { rewrite <- !app_assoc. apply gap_hd_not; [exact space_digit|exact Hg2|exact G2]. }
    eapply fp_seq; [apply fp_plus_chr; [exact Hg2|exact G2|reflexivity]|]. eapply fp_seq; [apply fp_lit|].
    apply fp_grp, fp_plus_chr; [exact Ht|exact Ht0|now apply ends_word_hd].
  - exists x. split; [|exact C]. rewrite <- M. f_equal. now rewrite <- !app_assoc.
Qed.
Definition is_solver (c : ascii) : bool := is_word c || is_space c || Ascii.eqb c "-".
Lemma solver_iff c : is_solver c = true <-> solver_char c.
Proof. unfold is_solver, solver_char. rewrite !orb_true_iff, Ascii.eqb_eq, word_char_iff, blank_iff. tauto. Qed.
Lemma solver_match a g t s : bar a -> blanks g -> t <> [] -> (forall c, In c t -> solver_char c) -> (forall c u, t = c :: u -> ~ blank c) -> (forall c u, s = c :: u -> ~ solver_char c) ->
  exists x, re_search SOLVER_RE (a ++ text_of "Atomic Solver:" ++ g ++ t ++ s) = Some x /\ m_caps x = [("solver"%string, t)].
Proof.
  intros Ha Hg Ht0 Ht Hb Hs. apply blanks_iff in Hg.
  destruct (search_hit SOLVER_RE a (text_of "Atomic Solver:" ++ g ++ t) s [("solver"%string, t)]) as (x & M & C).
  - apply bar_skips; [reflexivity| |exact Ha]. intros c Hc. cbn in Hc. rewrite ?orb_false_r in Hc. apply Ascii.eqb_eq in Hc. subst c. split; [reflexivity|discriminate].
  - unfold SOLVER_RE. cbn [RSeqs]. eapply fp_seq; [apply fp_lit|]. eapply fp_seq; [apply fp_star_chr; [exact Hg|]|].
    { destruct t as [|y t]; [congruence|]. cbn. destruct (is_space y) eqn:S; [|reflexivity]. exfalso. apply (Hb y t eq_refl). now apply blank_iff. }
    apply fp_grp, fp_plus_chr; [|exact Ht0|].
    + apply forallb_forall. intros c Hc. now apply solver_iff, Ht.
    + destruct s as [|y s]; [exact I|]. destruct (is_solver y) eqn:S; [|exact S]. exfalso. apply (Hs y s eq_refl). now apply solver_iff.
  - exists x. split; [|exact C]. rewrite <- M. f_equal. now rewrite <- !app_assoc.
Qed.
Lemma mention_search w r l : (forall p s c p' s' c', den r p s c p' s' c' -> exists t, s = text_of w ++ t) -> ~ mentions w l -> re_search r l = None.
Proof.
  intros H Hm. unfold re_search. destruct (search_from r None l) as [[pre x]|] eqn:E; [|reflexivity]. exfalso. apply Hm.
  apply search_sound in E as (s' & E & E' & D). apply H in D as (t & Et). exists pre, t. rewrite E, <- E', Et. reflexivity.
Qed.

Lemma den_opt a p s c p' s' c' : den (ROpt a) p s c p' s' c' -> (p = p' /\ s = s' /\ c = c') \/ den a p s c p' s' c'.
Proof.
  intros (n & _ & Hn & D). destruct n as [|[|n]]; [left; exact D| |cbn in Hn; lia]. right. destruct D as (? & ? & ? & D & -> & -> & ->). exact D.
Qed.
Lemma space_bar_digit c : is_space c = true \/ c = "|"%char -> is_digit c = false /\ c <> "-"%char /\ CellFacts.is_numchar c = false.
Proof. intros [H| ->]; [|repeat split; discriminate]. split; [now apply space_digit|]. split; [intros ->; discriminate|now apply num_char_space]. Qed.
Lemma bar_suffix u t w s : forallb is_space u = true -> forallb is_space w = true -> u ++ "|"%char :: t = w ++ s -> exists c s1, s = c :: s1 /\ (is_space c = true \/ c = "|"%char).
Proof.
  intros Hu Hw E. apply app_eq_app in E as (z & [[E1 E2]|[E1 E2]]).
  - destruct z as [|y z]; [exists "|"%char, t; auto|]. subst s. exists y, (z ++ "|"%char :: t). split; [reflexivity|]. left.
    rewrite E1, forallb_app in Hu. apply andb_true_iff in Hu as [_ Hu]. cbn in Hu. now apply andb_true_iff in Hu.
  - destruct z as [|y z]; [exists "|"%char, t; auto|]. injection E2 as <- _. rewrite E1, forallb_app in Hw. apply andb_true_iff in Hw as [_ Hw]. discriminate.
Qed.
Lemma lazy_den_bar u t p s' c c' p' : forallb is_space u = true -> ~ den PSPOT_FULL_LAZY p (u ++ "|"%char :: t) c p' s' c'.
Proof.
  intros Hu (? & ? & ? & D & _). unfold PSPOT_INFO_RE in D. cbn [RSeqs] in D. destruct D as (? & ? & ? & (_ & <- & <- & <-) & D).
  assert (H0 : exists c0 s1, u ++ "|"%char :: t = c0 :: s1 /\ (is_space c0 = true \/ c0 = "|"%char)) by now apply (bar_suffix u t [] _ Hu eq_refl).
  destruct H0 as (c0 & s1 & E0 & H0). pose proof (space_bar_digit c0 H0) as (N1 & N2 & N3).
  destruct D as (? & ? & ? & D1 & D). apply den_opt in D1 as [(<- & <- & <-)|D1]; [|apply den_char in D1 as (E & _); rewrite E0 in E; congruence].
  destruct D as (? & ? & ? & D1 & D). apply den_opt in D1 as [(<- & <- & <-)|D1].
  - destruct D as (? & ? & ? & D1 & D). apply den_opt in D1 as [(<- & <- & <-)|D1]; [|apply den_char in D1 as (E & _); rewrite E0 in E; congruence].
    destruct D as (? & ? & ? & (c1 & D1 & _) & _). unfold RPlus, c_digit in D1. apply den_rep_chr in D1 as ([|y d] & E & Hl & _ & Hd & _); [cbn in Hl; lia|].
    rewrite E0 in E. injection E as -> _. cbn [forallb] in Hd. rewrite N1 in Hd. discriminate.
  - unfold labelled_floats_gen, labelled_float in D1. cbn [map RSeqs snd fst] in D1. destruct D1 as (? & ? & ? & D1 & ? & ? & ? & (c1 & D2 & _) & _). unfold lf_sep, RPlusLazy, c_space in D1.
    apply den_rep_chr in D1 as (w & E & _ & _ & Hw & _).
    apply den_NUMBER in D2 as (n & Hn & E2 & _). rewrite E2 in E. destruct (bar_suffix _ _ _ _ Hu Hw E) as (c2 & s2 & E3 & H2).
    pose proof (CellFacts.write_num_numchars n) as W. pose proof (write_num_nonempty n Hn) as N. destruct (write_num n) as [|y q]; [congruence|]. injection E3 as -> _.
    cbn [forallb] in W. apply andb_true_iff in W as [W _]. apply space_bar_digit in H2 as (_ & _ & H2). congruence.
Qed.
Lemma lazy_bar a r : bar a -> re_search PSPOT_FULL_LAZY (a ++ r) = None.
Proof.
  intros (u & v & -> & Hu & Hv)%bar_iff. rewrite <- app_assoc. cbn [app].
  destruct (re_search PSPOT_FULL_LAZY (u ++ "|"%char :: v ++ r)) as [x|] eqn:E; [|reflexivity]. exfalso. unfold re_search in E.
  destruct (search_from PSPOT_FULL_LAZY None (u ++ "|"%char :: v ++ r)) as [[pre y]|] eqn:F; [|discriminate]. apply search_sound in F as (s' & E1 & E2 & D).
  assert (P : pre = []).
  { destruct pre as [|b pre]; [reflexivity|]. exfalso. destruct D as (? & ? & ? & D & _). unfold PSPOT_INFO_RE in D. cbn [RSeqs] in D. destruct D as (? & ? & ? & (P & _) & _).
    cbn in P. clear -P. revert b P. induction pre as [|c pre IH]; intros b P; [discriminate|]. now apply IH in P. }
  subst pre. cbn [app pa] in *. rewrite <- E2 in E1. rewrite <- E1 in D. now apply lazy_den_bar in D.
Qed.
Lemma search_needs P r l : needs P r = true -> lacks P l -> re_search r l = None.
Proof. intros H1 H2. pose proof (needs_test P r l H1 H2) as T. unfold re_test in T. destruct (re_search r l); [discriminate|reflexivity]. Qed.

Definition rst (o p : list pyval) (es : dict) : dict :=
  (kstr "reference_electronic_structure", VList o) :: (kstr "pseudopotential_definition", VList p) :: es.
Lemma rst_set o p es k v : k <> kstr "reference_electronic_structure" -> k <> kstr "pseudopotential_definition" -> dset key_eqb (rst o p es) k v = rst o p (dset key_eqb es k v).
Proof.
  intros H1 H2. unfold rst. cbn [dset]. destruct (IntStr.key_eqb_spec (kstr "reference_electronic_structure") k) as [E|_]; [now elim H1|].
  destruct (IntStr.key_eqb_spec (kstr "pseudopotential_definition") k) as [E|_]; [now elim H2|]. reflexivity.
Qed.
Lemma digits_int ds : ds <> [] -> to_type TInt (VStr (write_digits ds)) = Ok (VInt (decimal ds)).
Proof. intros H. cbn. now rewrite py_int_digits. Qed.
Lemma beta_value b bv : beta_label b bv -> (if isdigit b then rmap VInt (py_int b) else Ok (VStr b)) = Ok bv.
Proof.
  intros [ds H|]; [|reflexivity]. replace (isdigit (write_digits ds)) with true; [now rewrite py_int_digits|].
  unfold isdigit. rewrite digits_all. destruct ds; [congruence|reflexivity].
Qed.
Lemma no_element l : ~ mentions "Element: " l -> re_search ELEMENT_RE l = None.
Proof.
  apply mention_search. intros p s c p' s' c' (? & ? & ? & D & _). apply den_lit in D as (-> & _). eauto.
Qed.
Lemma no_solver l : ~ mentions "Atomic Solver:" l -> re_search SOLVER_RE l = None.
Proof.
  apply mention_search. intros p s c p' s' c' (? & ? & ? & D & _). apply den_lit in D as (-> & _). eauto.
Qed.
Lemma row_type l it o p es : report_row l it ->
  pspot_line (rst o p es) l = Ok (rst (o ++ orbitals_of [it]) (p ++ projectors_of [it]) (dupdate key_eqb es (report_of [it]))).
Proof.
  intros [a w t occ e g s Ha Hw Ht Hf Hg Hs|a b bv g1 ls u jv t e rc g2 sch g3 ds g4 s Ha Hb Hg1 Hl Hj Ht Hf Hg2 Hs0 Hs Hg3 Hd Hg4 Hz|a sp g1 n g2 th s Ha Hsp Hg1 Hn Hf Hg2 Ht0 Ht Hs|a g t nm s Ha Hg Ht0 Ht Hb Hs Hn Hm|a r ns Ha H1 H2 Hn Hf|a r ns Ha H1 H2 H3 Hn Hf];
  pose proof (proj1 (bar_iff _) Ha) as (bu & bw & -> & Hu & Hv); unfold pspot_line.
  - rewrite <- app_assoc. cbn [app]. destruct (orb_match bu bw w t occ e g s Hu Hv Hw Ht Hg Hs) as (x & M & C). rewrite M. unfold groupdict. rewrite C.
    pose proof (Forall_wf _ (columns_ok _ _ Ht)) as W. inversion W as [|? ? W1 W2]; inversion W2 as [|? ? W3 _]; inversion Hf as [|? ? F1 F2]; inversion F2 as [|? ? F3 _]; subst.
    pose proof (type_float _ W1 F1) as T1. pose proof (type_float _ W3 F3) as T2. cbn [PSPOT_REFERENCE_STRUC_RE]. unfold as_floats. cbn [map].
    erewrite fix_step; [|reflexivity|exact T1]. erewrite fix_step; [|reflexivity|exact T2]. cbn [fix_data_types foldM bind]. unfold append_to, rst. cbn. rewrite app_nil_r. reflexivity.
  - rewrite <- app_assoc. cbn [app]. destruct (beta_label_hd b bv Hb) as (c & r & Ec & Hc).
    rewrite orb_none; [|exact Hu|exact Hv|rewrite Ec; exact Hc|].
    2:{ intros d x r' E Hdg. destruct Hb as [bs Hbs|]; [|discriminate E || (injection E as <- _; discriminate)]. apply gap_iff in Hg1 as [Hg1 G1].
        destruct bs as [|b1 [|b2 bs]]; [congruence| |injection E as _ <- _; now destruct b2]. injection E as _ E. destruct g1 as [|y g1]; [congruence|]. injection E as -> _. cbn in Hg1. apply andb_true_iff in Hg1 as [Hg1 _]. clear -Hg1. revert x Hg1. apply ascii_imp_not. vm_compute. reflexivity. }
    destruct (def_match bu bw b bv g1 ls u jv t e rc g2 sch g3 ds g4 s) as (x & M & C); try assumption; [now apply words_all|]. rewrite M. unfold groupdict. rewrite C.
    unfold group_s. rewrite C. 
    pose proof (Forall_wf _ (columns_ok _ _ Ht)) as W. inversion W as [|? ? W1 W2]; inversion W2 as [|? ? W3 _]; inversion Hf as [|? ? F1 F2]; inversion F2 as [|? ? F3 _]; subst.
    pose proof (type_float _ W1 F1) as T1. pose proof (type_float _ W3 F3) as T2. pose proof (digits_int _ Hl) as T3. pose proof (digits_int _ Hd) as T4.
    assert (Cb : match cap (("norm"%string, write_digits ds) :: ("scheme"%string, sch) :: row_caps ["e"; "Rc"]%string [e; rc] (j_cap jv u [("l"%string, write_digits ls); ("beta"%string, c :: r)])) "beta" with Some s0 => s0 | None => [] end = c :: r) by (destruct jv; reflexivity).
    rewrite Cb, (beta_value _ _ Hb). cbn [bind].
    destruct Hj as [e0 He|e0 g js Hg Hjs]; unfold j_cap; cbn [PSPOT_DEF_RE].
    + erewrite fix_step; [|reflexivity|exact T3]. erewrite fix_step; [|reflexivity|reflexivity]. erewrite fix_step; [|reflexivity|exact T1]. erewrite fix_step; [|reflexivity|exact T2]. erewrite fix_step; [|reflexivity|exact T4].
      cbn [fix_data_types foldM bind]. unfold append_to, rst. cbn. rewrite app_nil_r. reflexivity.
    + assert (L : lstrip (g ++ write_digits js) = write_digits js).
      { apply gap_iff in Hg as [Hg _]. unfold lstrip, lstrip_by. apply drop_while_app; [exact Hg|]. destruct js as [|d js]; [congruence|]. now destruct d. }
      rewrite L. pose proof (digits_int _ Hjs) as T5. erewrite fix_step; [|reflexivity|exact T3]. erewrite fix_step; [|reflexivity|exact T5]. erewrite fix_step; [|reflexivity|exact T1]. erewrite fix_step; [|reflexivity|exact T2]. erewrite fix_step; [|reflexivity|exact T4].
      cbn [fix_data_types foldM bind]. unfold append_to, rst. cbn. rewrite app_nil_r. reflexivity.
  - destruct (element_match _ sp g1 n g2 th s Ha Hsp Hg1 Hn Hg2 Ht0 (words_all _ Ht) Hs) as (x & M & C). rewrite M. rewrite <- app_assoc. cbn [app].
    rewrite orb_none, def_none; try assumption; try reflexivity; [|intros d y r' E Hdg; injection E as <- _; discriminate].
    rewrite (group_float x n) by (rewrite ?C; try reflexivity; try assumption; now apply num_ok_wf, fixed_ok). cbn [bind]. unfold groupdict. rewrite C. cbn [ELEMENT_RE].
    unfold update. cbn. rewrite !app_nil_r. reflexivity.
  - destruct (solver_match _ g t s Ha Hg Ht0 Ht Hb Hs) as (x & M & C). rewrite no_element.
    + rewrite M. rewrite <- app_assoc. cbn [app].
      rewrite orb_none, def_none; try assumption; try reflexivity; [|intros d y r' E Hdg; injection E as <- _; discriminate].
      unfold group_s. rewrite C. cbn [cap]. change (String.eqb "solver" "solver") with true. cbn match. rewrite (words_string _ _ Hn).
      rewrite rst_set by discriminate. cbn. rewrite !app_nil_r. reflexivity.
    + exact Hm.
  - rewrite no_element, no_solver, lazy_bar by assumption. rewrite <- app_assoc in *. cbn [app] in *.
    rewrite orb_none, def_none; try assumption; try reflexivity; [|intros d y r' E Hdg; injection E as <- _; discriminate].
    replace (contains ($"Augmentation charge Rinner") (bu ++ "|"%char :: bw ++ text_of "Augmentation charge Rinner" ++ r)) with true.
    + unfold numbers_as. rewrite (get_numbers_line _ _ Hn), tuple_fit; [|eapply Forall_wf, number_line_ok; exact Hn|exact Hf]. cbn [rmap]. rewrite rst_set by discriminate. cbn. rewrite !app_nil_r. reflexivity.
    + symmetry. apply (mentions_iff "Augmentation charge Rinner"). exists (bu ++ "|"%char :: bw), r. now rewrite <- app_assoc.
  - rewrite no_element, no_solver, lazy_bar by assumption. rewrite <- app_assoc in *. cbn [app] in *.
    rewrite orb_none, def_none; try assumption; try reflexivity; [|intros d y r' E Hdg; injection E as <- _; discriminate].
    rewrite (not_mentions_b "Augmentation charge Rinner" _ H3).
    replace (contains ($"Partial core correction Rc") (bu ++ "|"%char :: bw ++ text_of "Partial core correction Rc" ++ r)) with true.
    + unfold numbers_as. rewrite (get_numbers_line _ _ Hn), tuple_fit; [|eapply Forall_wf, number_line_ok; exact Hn|exact Hf]. cbn [rmap]. rewrite rst_set by discriminate. cbn. rewrite !app_nil_r. reflexivity.
    + symmetry. apply (mentions_iff "Partial core correction Rc"). exists (bu ++ "|"%char :: bw), r. now rewrite <- app_assoc.
Qed.

Lemma silent_line l o p es : silent_report l -> pspot_line (rst o p es) l = Ok (rst o p es).
Proof.
  intros [H W]. unfold pspot_line. rewrite no_element, no_solver by (apply W; cbn; tauto).
  rewrite (not_mentions_b "Augmentation charge Rinner"), (not_mentions_b "Partial core correction Rc") by (apply W; cbn; tauto).
  destruct H as [H|(a & c & r & -> & Ha & Hc & Hd)].
  - apply lacks_digits in H. rewrite (needs_match is_digit PSPOT_REFERENCE_STRUC_RE), (needs_match is_digit PSPOT_DEF_RE), (search_needs is_digit PSPOT_FULL_LAZY); auto.
  - rewrite lazy_bar by exact Ha. apply bar_iff in Ha as (u & v & -> & Hu & Hv). rewrite <- app_assoc. cbn [app].
    assert (N : is_space c = false) by (destruct (is_space c) eqn:S; [elim Hc; now apply blank_iff|reflexivity]).
    assert (D : chr_in c ($"0123456789l") = false) by (destruct (chr_in c ($"0123456789l")) eqn:S; [elim Hd; now apply chr_in_iff|reflexivity]).
    assert (D1 : is_digit c = false) by (clear -D; destruct c as [[] [] [] [] [] [] [] []]; first [reflexivity|discriminate D]).
    assert (D2 : Ascii.eqb c "l" = false) by (clear -D; destruct c as [[] [] [] [] [] [] [] []]; first [reflexivity|discriminate D]).
    rewrite orb_none, def_none; try assumption; try reflexivity; [cbn [hd_not]; now rewrite D1, D2|].
    intros d x r' E Hdg. injection E as <- _. congruence.
Qed.
Lemma report_fold ls its : laid report_row silent_report ls its -> forall o p es,
  foldM pspot_line ls (rst o p es) = Ok (rst (o ++ orbitals_of its) (p ++ projectors_of its) (dupdate key_eqb es (report_of its))).
Proof.
  induction 1 as [|l it ls its H _ IH|l ls its H _ IH]; intros o p es.
  - cbn [foldM orbitals_of projectors_of report_of flat_map]. now rewrite !app_nil_r.
  - cbn [foldM]. rewrite (row_type _ _ _ _ _ H). cbn [bind]. rewrite IH. unfold orbitals_of, projectors_of, report_of. cbn [flat_map]. rewrite !app_nil_r, <- !app_assoc.
    rewrite <- upd_app. reflexivity.
  - cbn [foldM]. rewrite (silent_line _ _ _ _ H). cbn [bind]. apply IH.
Qed.
Lemma report_spec ls its : laid report_row silent_report ls its -> exists d, process_pspot_report ls = Ok d /\ report_read its d.
Proof.
  intros H. unfold process_pspot_report. match goal with |- context [foldM pspot_line ls ?z] => change z with (rst [] [] []) end. rewrite (report_fold ls its H [] [] []). eexists. split; [reflexivity|].
  exists (dupdate key_eqb [] (report_of its)). split; [apply merged_dof|reflexivity].
Qed.
(** Nothing in the frame is taken for the text of a pseudopotential. *)
Lemma frame_lazy l : in_frame l -> re_search PSPOT_FULL_LAZY l = None.
Proof. intros [H|(a & r & -> & Ha)]; [apply (search_needs is_digit); [reflexivity|now apply lacks_digits]|now apply lazy_bar]. Qed.
Lemma no_detail_line d l d' : in_frame l -> pspot_line d l = Ok d' -> dget key_eqb d (kstr "detail") = None -> dget key_eqb d' (kstr "detail") = None.
Proof.
  intros Hf E H. unfold pspot_line in E. rewrite (frame_lazy l Hf) in E.
  assert (A : forall k v e, append_to d k v = Ok e -> key_eqb k (kstr "detail") = false -> dget key_eqb e (kstr "detail") = None).
  { intros k v e A Hk. unfold append_to in A. destruct (dget key_eqb d k) as [[]|]; try discriminate; injection A as <-; now rewrite set_get, Hk. }
  destruct (re_match PSPOT_REFERENCE_STRUC_RE l) as [x|].
  { destruct (fix_data_types _ _); [|discriminate]. now apply A in E. }
  destruct (re_match PSPOT_DEF_RE l) as [x|].
  { destruct (if isdigit _ then _ else _); [|discriminate]. cbn [bind] in E. destruct (fix_data_types _ _); [|discriminate]. now apply A in E. }
  destruct (re_search ELEMENT_RE l) as [x|].
  { destruct (float_group x "ionic_charge"); [|discriminate]. injection E as <-. unfold update, groupdict. cbn [ELEMENT_RE]. cbn. now rewrite !set_get. }
  destruct (re_search SOLVER_RE l) as [x|]; [injection E as <-; now rewrite set_get|].
  destruct (contains _ l); [destruct (numbers_as TFloat l); [|discriminate]; injection E as <-; now rewrite set_get|].
  destruct (contains _ l); [destruct (numbers_as TFloat l); [|discriminate]; injection E as <-; now rewrite set_get|].
  injection E as <-. exact H.
Qed.
Lemma no_detail ls d : Forall in_frame ls -> process_pspot_report ls = Ok d -> dget key_eqb d (name "detail") = None.
Proof.
  intros H. unfold process_pspot_report. change (name "detail") with (kstr "detail"). set (d0 := [(kstr "reference_electronic_structure", VList []); (kstr "pseudopotential_definition", VList [])]).
  assert (H0 : dget key_eqb d0 (kstr "detail") = None) by reflexivity. clearbody d0. revert d0 H0. induction H as [|l ls Hl _ IH]; intros d0 H0 E; cbn [foldM] in E; [injection E as <-; exact H0|].
  destruct (pspot_line d0 l) as [d1|] eqn:E1; [|discriminate]. cbn [bind] in E. eapply IH; [|exact E]. eapply no_detail_line; eassumption.
Qed.

(** ** Symmetry and constraints *)
Lemma float_num n : num_wf n -> fits (num_value n) -> TextFiles.float_of (write_num n) = Ok (SpecCastep.float_of n).
Proof. intros Hw Hf. unfold TextFiles.float_of. rewrite builtin_num by assumption. reflexivity. Qed.
Lemma rotation_den p l c p' s' c' : den ROTATION_RE p l c p' s' c' -> rotation_line l.
Proof.
  intros D. unfold ROTATION_RE in D. cbn [RSeqs] in D.
  destruct D as (? & ? & ? & D1 & D). unfold ws_star, RStar in D1. apply den_rep_chr in D1 as (a & -> & _ & _ & Ha & -> & <-).
  destruct D as (? & ? & ? & D1 & D). unfold RPlus, c_digit in D1. apply den_rep_chr in D1 as (d & -> & Hl & _ & Hd & -> & <-).
  destruct D as (? & ? & ? & D1 & D). unfold ws_star, RStar in D1. apply den_rep_chr in D1 as (g & -> & _ & _ & Hg & -> & <-).
  destruct D as (? & ? & ? & D1 & D). apply den_lit in D1 as (-> & _).
  destruct (digits_written d Hd) as (ds & <-). exists a, ds, g. eexists. split; [reflexivity|]. split; [now apply blanks_iff|]. split; [intros ->; cbn in Hl; lia|now apply blanks_iff].
Qed.
Lemma rotation_iff l : re_match_test ROTATION_RE l = true <-> rotation_line l.
Proof.
  rewrite match_test_iff by reflexivity. split; [intros (p' & s' & c' & D); now apply rotation_den in D|].
  intros (a & ds & g & r & -> & Ha & Hd & Hg). apply blanks_iff in Ha, Hg. do 3 eexists. unfold ROTATION_RE. cbn [RSeqs].
  eapply PspotFacts.den_seq; [apply den_rep_chr_intro; [exact Ha|cbn; lia|exact I]|].
  eapply PspotFacts.den_seq; [apply den_rep_chr_intro; [apply digits_all|destruct ds; [congruence|cbn; lia]|exact I]|].
  eapply PspotFacts.den_seq; [apply den_rep_chr_intro; [exact Hg|cbn; lia|exact I]|].
  eapply PspotFacts.den_seq; [apply PspotFacts.den_of_fp, fp_lit|].
  apply (den_rep_chr_intro true 0 None is_space _ []); [reflexivity|cbn; lia|exact I].
Qed.
Lemma not_rotation l : ~ rotation_line l -> re_match_test ROTATION_RE l = false.
Proof. intros H. destruct (re_match_test ROTATION_RE l) eqn:E; [|reflexivity]. now apply rotation_iff in E. Qed.
Lemma no_equals l : ~ In "="%char l -> chr_in "=" l = false.
Proof. intros H. destruct (chr_in "=" l) eqn:E; [|reflexivity]. now apply chr_in_iff in E. Qed.
Lemma some_equals k v : chr_in "=" (k ++ "="%char :: v) = true.
Proof. apply chr_in_iff, in_or_app. right. now left. Qed.
Definition x_end : re := RSeqs [ws_star; row_of "x"; RLit "...."; ws_star].
Lemma x_end_iff l : re_test x_end l = true <-> mentions "x...." l.
Proof.
  rewrite search_test_iff by reflexivity. split.
  - intros (a & b & -> & p' & s' & c' & D). unfold x_end in D. cbn [RSeqs] in D.
    destruct D as (? & ? & ? & D1 & D). unfold ws_star, RStar in D1. apply den_rep_chr in D1 as (g & -> & _ & _ & _ & -> & <-).
    destruct D as (? & ? & ? & D1 & D). unfold row_of, RPlus, RChar in D1. apply den_rep_chr in D1 as (xs & -> & Hl & _ & Hx & -> & <-).
    destruct D as (? & ? & ? & D1 & D). apply den_lit in D1 as (-> & _).
    destruct xs as [|y xs _] using rev_ind; [cbn in Hl; lia|]. rewrite forallb_app in Hx. apply andb_true_iff in Hx as [_ Hx]. cbn in Hx. rewrite andb_true_r in Hx. apply Ascii.eqb_eq in Hx. subst y.
    eexists (a ++ g ++ xs), _. rewrite <- !app_assoc. cbn [app]. reflexivity.
  - intros (a & b & ->). exists a, (text_of "x...." ++ b). split; [reflexivity|]. do 3 eexists. unfold x_end. cbn [RSeqs].
    change (text_of "x...." ++ b) with ([] ++ ["x"%char] ++ $"...." ++ [] ++ b).
    eapply PspotFacts.den_seq; [apply (den_rep_chr_intro true 0 None is_space); [reflexivity|cbn; lia|exact I]|].
    eapply PspotFacts.den_seq; [apply den_rep_chr_intro; [reflexivity|cbn; lia|exact I]|].
    eapply PspotFacts.den_seq; [apply PspotFacts.den_of_fp, fp_lit|].
    apply (den_rep_chr_intro true 0 None is_space); [reflexivity|cbn; lia|exact I].
Qed.
Lemma lower_char_idem c : lower_c (lower_c c) = lower_c c.
Proof. destruct c as [[] [] [] [] [] [] [] []]; reflexivity. Qed.
Lemma key_lower k nm : SpecCastep2.key_name k nm -> lower nm = nm.
Proof.
  intros (ws & _ & ->). unfold lower. induction ws as [|w ws IH]; [reflexivity|]. assert (E : forall u, map lower_c (map lower_c u) = map lower_c u) by (intros u; rewrite map_map; apply map_ext; intros; apply lower_char_idem).
  destruct ws as [|v ws]; [apply E|]. cbn [map] in *. rewrite joined_cons2, !map_app, IH, E. reflexivity.
Qed.
Lemma split_us r : split_chr "_" (text_of "number_of_" ++ r) = [text_of "number"; text_of "of"] ++ split_chr "_" r.
Proof.
  change (text_of "number_of_" ++ r) with (text_of "number" ++ "_"%char :: text_of "of" ++ "_"%char :: r).
  rewrite split_chr_cut; [|cbn; intros H; repeat destruct H as [H|H]; try discriminate H; contradiction].
  rewrite split_chr_cut; [reflexivity|cbn; intros H; repeat destruct H as [H|H]; try discriminate H; contradiction].
Qed.

Lemma join_split c r : join [c] (split_chr c r) = r.
Proof.
  induction r as [|y r IH]; [reflexivity|]. cbn [split_chr]. destruct (Ascii.eqb_spec y c) as [->|N].
  - destruct (split_chr c r) as [|w ws] eqn:E; [|change (join [c] ([] :: w :: ws)) with ([] ++ [c] ++ join [c] (w :: ws)); rewrite IH; reflexivity]. destruct r; [discriminate E|discriminate IH].
  - destruct (split_chr c r) as [|w [|w' ws]] eqn:E; cbn [join] in *; rewrite <- IH; reflexivity.
Qed.
Lemma lower_tail r : lower (text_of "number_of_" ++ r) = text_of "number_of_" ++ r -> lower r = r.
Proof. unfold lower. rewrite map_app. intros E. now apply app_inv_head in E. Qed.
Lemma parts3 a b c : ~ In ","%char a -> ~ In ","%char b -> ~ In ","%char c -> split_chr "," (a ++ ","%char :: b ++ ","%char :: c) = [a; b; c].
Proof. intros Ha Hb Hc. rewrite (split_chr_cut _ _ _ Ha), (split_chr_cut _ _ _ Hb), (split_chr_free _ _ Hc). reflexivity. Qed.
Lemma parts2 a b : ~ In ","%char a -> ~ In ","%char b -> split_chr "," (a ++ ","%char :: b) = [a; b].
Proof. intros Ha Hb. rewrite (split_chr_cut _ _ _ Ha), (split_chr_free _ _ Hb). reflexivity. Qed.
Lemma digits_no_colon i : ~ In ":"%char (write_digits i).
Proof. intros H. pose proof (digits_all i) as D. rewrite forallb_forall in D. specialize (D _ H). discriminate D. Qed.
Lemma has_text_no t s : ~ mentions t s -> has_text t s = false.
Proof. intros H. unfold has_text. now apply not_mentions_b. Qed.
Lemma has_text_yes t s : mentions t s -> has_text t s = true.
Proof. intros H. unfold has_text. now apply mentions_iff. Qed.
Lemma symmetry_item_spec nm t key v : symmetry_value nm t key v -> lower nm = nm -> CastepRest.symmetry_item nm t = Ok (key, v).
Proof.
  intros [t0 n ws Hc Hn Hf|r n Hn Hi|nm0 i a b c u y z Hm Hno Hd Hi Ha Hb Hcc Hx Hy Hz|nm0 i a b u y Hm Hp Hno Hd Hi Ha Hb Hx Hy|nm0 t0 Hs Hp Hno Hd] HL; unfold CastepRest.symmetry_item.
  - rewrite (proj2 (str_eqb_eq _ _) eq_refl). rewrite (split_cut _ _ Hc). cbn [nthE nth_error bind]. rewrite (float_num _ (num_ok_wf _ Hn) Hf). reflexivity.
  - replace (str_eqb _ _) with false by reflexivity. rewrite has_text_yes by (exists [], ("_"%char :: r); reflexivity).
    pose proof (CellPosFacts.int_of_num n (num_ok_wf _ Hn) Hi) as E. rewrite E. cbn [bind]. rewrite split_us. cbn [app skipn]. change ($"_") with ["_"%char]. rewrite join_split, (lower_tail _ HL). reflexivity.
  - destruct (str_eqb nm0 _) eqn:E; [now apply str_eqb_eq in E|]. rewrite (has_text_no _ _ Hno), (has_text_yes _ _ Hm). unfold group_parts. rewrite (split_first_cut _ _ _ (digits_no_colon i)). cbn [bind].
    rewrite (parts3 _ _ _ Ha Hb Hcc). cbn [map]. rewrite (trimmed_strip _ _ Hx), (trimmed_strip _ _ Hy), (trimmed_strip _ _ Hz), (py_int_digits _ Hi). reflexivity.
  - destruct (str_eqb nm0 _) eqn:E; [now apply str_eqb_eq in E|]. rewrite (has_text_no _ _ Hno), (has_text_no _ _ Hp), (has_text_yes _ _ Hm). unfold group_parts. rewrite (split_first_cut _ _ _ (digits_no_colon i)). cbn [bind].
    rewrite (parts2 _ _ Ha Hb). cbn [map]. rewrite (trimmed_strip _ _ Hx), (trimmed_strip _ _ Hy), (py_int_digits _ Hi). reflexivity.
  - destruct (str_eqb nm0 _) eqn:E; [now apply str_eqb_eq in E|]. rewrite (has_text_no _ _ Hno), (has_text_no _ _ Hp), (has_text_no _ _ Hs). reflexivity.
Qed.

(** The atom names and numbers that a pattern may begin with: characters of words,
    ":" and blanks, then a digit or "[" *)
Definition atom_prefix (c : ascii) : bool := is_word c || Ascii.eqb c ":" || is_space c.
Lemma rep_chars g lo hi f p s c p' s' c' : den (RRep g lo hi (RChr f)) p s c p' s' c' -> exists w, s = w ++ s' /\ forallb f w = true.
Proof. intros D. apply den_rep_chr in D as (w & -> & _ & _ & H & _). eauto. Qed.
Lemma prefix_of (f : ascii -> bool) w : (forall c, f c = true -> atom_prefix c = true) -> forallb f w = true -> forallb atom_prefix w = true.
Proof. intros H. rewrite !forallb_forall. auto. Qed.
Lemma atom_reach p s c p' s' c' : den ATOM_RE p s c p' s' c' -> exists pre y rest, s = pre ++ y :: rest /\ forallb atom_prefix pre = true /\ (is_digit y = true \/ y = "["%char).
Proof.
  intros D. unfold ATOM_RE, ATOM_NAME_RE, SPECIES_RE in D. cbn [RSeqs] in D.
  destruct D as (? & s1 & ? & D1 & D). destruct D1 as (? & D1 & _).
  destruct D1 as (? & ? & ? & D2 & D1). destruct D2 as (_ & _ & <- & _).
  destruct D1 as (? & s3 & ? & D2 & D1). destruct D2 as (? & ? & ? & D3 & D2). destruct D3 as (y & -> & Hy & _ & _).
  unfold c_lower in D2. apply rep_chars in D2 as (w & -> & Hw).
  assert (P1 : forallb atom_prefix [y] = true) by (apply (prefix_of is_upper); [apply ascii_imp; vm_compute; reflexivity|cbn; now rewrite Hy]).
  apply (prefix_of is_lower) in Hw; [|apply ascii_imp; vm_compute; reflexivity].
  destruct D1 as (? & s2 & ? & D2 & D1).
  assert (L : exists l, s3 = l ++ s2 /\ forallb atom_prefix l = true).
  { apply den_opt in D2 as [(_ & -> & _)|D2]; [exists []; split; reflexivity|]. destruct D2 as (? & ? & ? & D3 & D2). apply den_char in D3 as (-> & _). unfold RPlus, c_word in D2.
    apply rep_chars in D2 as (l & -> & Hl). exists (":"%char :: l). split; [reflexivity|]. apply (prefix_of is_word) in Hl; [|apply ascii_imp; vm_compute; reflexivity]. cbn. exact Hl. }
  destruct L as (l & -> & Hl). clear D2. destruct D1 as (? & ? & ? & D2 & D1). destruct D2 as (_ & _ & <- & _).
  assert (S2 : exists pre z rest, s2 = pre ++ z :: rest /\ forallb atom_prefix pre = true /\ (is_digit z = true \/ z = "["%char)).
  { apply den_opt in D1 as [(_ & -> & _)|D1].
    - destruct D as (? & ? & ? & D2 & D). unfold ws_plus, RPlus in D2. apply rep_chars in D2 as (g & -> & Hg). destruct D as (? & D & _). unfold RPlus, c_digit in D.
      apply den_rep_chr in D as (ds & -> & Hd0 & _ & Hd & _). destruct ds as [|z ds]; [cbn in Hd0; lia|]. cbn in Hd. apply andb_true_iff in Hd as [Hd _].
      exists g, z, (ds ++ s'). split; [reflexivity|]. split; [|now left]. apply (prefix_of is_space); [apply ascii_imp; vm_compute; reflexivity|exact Hg].
    - destruct D1 as (? & ? & ? & D2 & D1). unfold ws_star, RStar in D2. apply rep_chars in D2 as (g & -> & Hg). destruct D1 as (? & ? & ? & D2 & D1). apply den_char in D2 as (-> & _).
      eexists g, _, _. split; [reflexivity|]. split; [|now right]. apply (prefix_of is_space); [apply ascii_imp; vm_compute; reflexivity|exact Hg]. }
  destruct S2 as (pre & z & rest & -> & Hp & Hz). exists (y :: w ++ l ++ pre), z, rest. split; [cbn [app]; now rewrite <- !app_assoc|]. split; [|exact Hz].
  cbn [forallb] in *. rewrite andb_true_r in P1. rewrite P1, !forallb_app, Hw, Hl, Hp. reflexivity.
Qed.
Lemma no_reach u x tail pre y rest : no_digits (u ++ [x]) -> ~ In "["%char (u ++ [x]) -> among ".-" x -> u ++ [x] ++ tail = pre ++ y :: rest -> forallb atom_prefix pre = true -> (is_digit y = true \/ y = "["%char) -> False.
Proof.
  intros Hd Hb Hx E Hp Hy. apply app_eq_app in E as (z & [[E1 E2]|[E1 E2]]).
  - assert (I : In y (u ++ [x])).
    { destruct z as [|z0 z]; cbn in E2.
      - injection E2 as E2 _. rewrite in_app_iff. right. now left.
      - injection E2 as E2 _. rewrite E1, !in_app_iff. left. right. now left. }
    destruct Hy as [Hy| ->]; [|auto]. apply (Hd _ I). apply digits_ne in Hy || idtac. revert Hy. clear. intros Hy. unfold among.
    destruct y as [[] [] [] [] [] [] [] []]; try discriminate Hy; cbn; tauto.
  - destruct z as [|z0 z]; cbn in E2.
    + injection E2 as E2 _. subst y. assert (I : In x (u ++ [x])) by (rewrite in_app_iff; right; now left). destruct Hy as [Hy| ->]; [|auto].
      unfold among in Hx. cbn in Hx. destruct Hx as [<-|[<-|[]]]; discriminate Hy.
    + injection E2 as E2 _. subst z0. rewrite E1, !forallb_app in Hp. cbn in Hp. apply andb_true_iff in Hp as [_ Hp]. apply andb_true_iff in Hp as [Hp _].
      unfold among in Hx. cbn in Hx. destruct Hx as [<-|[<-|[]]]; discriminate Hp.
Qed.
Lemma heading_skips r h s p : heading h -> skips (RSeq ATOM_RE r) p h s.
Proof.
  intros [->|(u & x & -> & Hd & Hb & Hx)]; [exact I|]. revert p. induction u as [|y u IH]; intros p; cbn [app skips].
  - split; [|exact I]. apply nomatch_den. intros p' s' c' (? & ? & ? & D & _). apply atom_reach in D as (pre & y & rest & E & Hp & Hy). exact (no_reach [] x s pre y rest Hd Hb Hx E Hp Hy).
  - split.
    + apply nomatch_den. intros p' s' c' (? & ? & ? & D & _). apply atom_reach in D as (pre & z & rest & E & Hp & Hz). apply (no_reach (y :: u) x s pre z rest Hd Hb Hx); auto. rewrite <- E. cbn [app]. now rewrite <- app_assoc.
    + apply IH; [intros c Hc; apply Hd; now right|intros H; apply Hb; now right].
Qed.
Lemma skips_app r a b s p : skips r p a (b ++ s) -> skips r (pa p a) b s -> skips r p (a ++ b) s.
Proof.
  revert p. induction a as [|y a IH]; intros p Ha Hb; [exact Hb|]. cbn [app skips] in *. destruct Ha as [H1 H2]. split; [now rewrite <- app_assoc|]. apply IH; assumption.
Qed.
Lemma capital_skips r a s p : nullable r = false -> (forall c, first r c = true -> is_upper c = true) -> no_capitals a -> skips r p a s.
Proof.
  intros Hn Hf Ha. apply skips_first; [exact Hn|]. apply forallb_forall. intros c Hc. apply negb_true_iff.
  destruct (first r c) eqn:E; [|reflexivity]. exfalso. apply (Ha c Hc), capital_iff. auto.
Qed.

Lemma constraint_seq : CONSTRAINT_RE = RSeq ATOM_RE (RSeqs [ws_star; c_of "xyz"; RSeq ws_star (labelled_float lf_sep REps ("pos"%string, Some (3, 3)))]).
Proof. reflexivity. Qed.
Lemma xyz_space y : among "xyz" y -> is_space y = false /\ chr_in y (list_ascii_of_string "xyz") = true.
Proof. intros [<-|[<-|[<-|[]]]]; split; reflexivity. Qed.
Lemma fp_constraint p u at_ g y t ns r : at_edge p -> numbered_atom u at_ -> gap g -> among "xyz" y -> columns ns t -> length ns = 3 -> token_end r ->
  exists ds t2, fp CONSTRAINT_RE p (u ++ g ++ y :: t) r [] [("pos"%string, t2); ("index"%string, write_digits ds); ("spec"%string, fst at_)] /\ ds <> [] /\ decimal ds = snd at_ /\ columns ns t2.
Proof.
  intros Hp Ha Hg Hy Ht Hl Hr. apply gap_iff in Hg as [Hg Hg0]. destruct (xyz_space y Hy) as [Hys Hyc].
  destruct (fp_atom p u at_ (g ++ (y :: t) ++ r) [] Hp Ha) as (ds & F & Hd0 & Hd). { destruct g as [|z g]; [congruence|]. cbn in Hg |- *. apply andb_true_iff in Hg as [Hg _]. now apply space_digit. }
  destruct (FileParts.fp_ws_back ns t r (pa p (u ++ g ++ [y])) [("index"%string, write_digits ds); ("spec"%string, fst at_)] Ht) as (w & t2 & E2 & Hw & Ht2 & FB); [destruct ns; discriminate|].
  exists ds, t2. split; [|auto]. rewrite constraint_seq.
  change (u ++ g ++ y :: t) with (u ++ (g ++ y :: t)). apply fp_seq with (c1 := [("index"%string, write_digits ds); ("spec"%string, fst at_)]); [now rewrite <- app_assoc|].
  replace (g ++ y :: t) with (concat [g; [y]; t]) by (cbn; now rewrite app_nil_r).
  apply fp_seqs. eapply fpl_cons; [|eapply fpl_cons; [|eapply fpl_cons; [|apply fpl_nil]]].
  - apply fp_star_chr; [exact Hg|]. cbn. exact Hys.
  - apply fp_chr. exact Hyc.
  - cbn [concat app]. rewrite <- !pa_app. apply FB; [intros p0 s' Hs'; now apply FileParts.counted_no|]. intros p0. now apply (fp_counted "pos" 3 ns).
Qed.
Definition vals (seen : list (key * pyval)) (k : key) : list pyval := flat_map (fun e => if key_eqb (fst e) k then [snd e] else []) seen.
Lemma so_far_snoc rows : forall seen k v, so_far seen (rows ++ [(k, v)]) = so_far seen rows ++ [(k, VList (vals (seen ++ rows ++ [(k, v)]) k))].
Proof.
  induction rows as [|[k0 v0] rows IH]; intros seen k v; [reflexivity|]. cbn [app so_far]. rewrite IH. cbn [app]. rewrite <- app_assoc. reflexivity.
Qed.
Lemma vals_snoc seen k v k' : vals (seen ++ [(k, v)]) k' = vals seen k' ++ (if key_eqb k k' then [v] else []).
Proof. unfold vals. rewrite flat_map_app. cbn. now rewrite app_nil_r. Qed.
Lemma key_refl k : key_eqb k k = true.
Proof. destruct (IntStr.key_eqb_spec k k); congruence. Qed.
Lemma so_far_get seen k : dget key_eqb (dof (so_far [] seen)) k = match vals seen k with [] => None | vs => Some (VList vs) end.
Proof.
  induction seen as [|[k0 v0] seen IH] using rev_ind; [reflexivity|]. rewrite so_far_snoc, dof_snoc, set_get, vals_snoc. cbn [app].
  destruct (IntStr.key_eqb_spec k0 k) as [->|N].
  - rewrite vals_snoc, key_refl. destruct (vals seen k); reflexivity.
  - rewrite app_nil_r. exact IH.
Qed.
Lemma append_so_far seen k v : append_to (dof (so_far [] seen)) k v = Ok (dof (so_far [] (seen ++ [(k, v)]))).
Proof.
  unfold append_to. rewrite so_far_get, so_far_snoc, dof_snoc. cbn [app]. rewrite vals_snoc, key_refl. destruct (vals seen k); reflexivity.
Qed.

Lemma ionic_entry d x at_ ds t ns : m_caps x = [("pos"%string, t); ("index"%string, write_digits ds); ("spec"%string, fst at_)] -> ds <> [] -> decimal ds = snd at_ -> columns ns t -> all_fit ns ->
  ionic_constraint d x = append_to d (SpecDict.atom_key at_) (vector ns).
Proof.
  intros Ec Hd Ed Ht Hf.
  assert (G1 : group_s x "index" = write_digits ds) by (unfold group_s; rewrite Ec; reflexivity).
  assert (G2 : group_s x "spec" = fst at_) by (unfold group_s; rewrite Ec; reflexivity).
  assert (G3 : group_s x "pos" = t) by (unfold group_s; rewrite Ec; reflexivity).
  unfold ionic_constraint, atreg_match. rewrite G1, G2, G3, py_int_digits, Ed by exact Hd. cbn [rmap bind].
  rewrite (FileParts.columns_split _ _ Ht), tuple_fit; [destruct at_; reflexivity| |exact Hf]. apply Forall_wf. exact (columns_ok _ _ Ht).
Qed.
Lemma constraint_needs_digit p s c p' s' c' : den CONSTRAINT_RE p s c p' s' c' -> ~ no_digits s.
Proof.
  intros D H. rewrite constraint_seq in D. destruct D as (? & s1 & ? & D & _). unfold ATOM_RE in D. cbn [RSeqs] in D. destruct D as (? & ? & ? & D1 & D). destruct D as (? & ? & ? & D2 & D). destruct D as (? & D & _).
  apply den_consumed in D1 as (w1 & -> & _). apply den_consumed in D2 as (w2 & -> & _). unfold RPlus, c_digit in D. apply den_rep_chr in D as (ds & -> & H0 & _ & Hd & _).
  destruct ds as [|y ds]; [cbn in H0; lia|]. cbn in Hd. apply andb_true_iff in Hd as [Hd _]. assert (I : In y (w1 ++ w2 ++ (y :: ds) ++ s1)) by (rewrite !in_app_iff; right; right; left; now left).
  apply (H _ I). unfold among. revert Hd. clear. destruct y as [[] [] [] [] [] [] [] []]; intros Hd; try discriminate Hd; cbn; tauto.
Qed.
Lemma no_constraint t p : no_digits t -> search_from CONSTRAINT_RE p t = None.
Proof.
  intros H. apply search_from_none; [|apply nomatch_den; intros p' s' c' D; apply constraint_needs_digit in D; apply D; intros c []].
  revert p. induction t as [|y t IH]; intros p; [exact I|]. cbn [skips]. rewrite app_nil_r. split; [apply nomatch_den; intros p' s' c' D; apply constraint_needs_digit in D; contradiction|]. apply IH. intros c Hc. apply H. now right.
Qed.
Lemma edge_after p b : edge b -> b <> [] -> at_edge (pa p b).
Proof.
  intros H N. destruct b as [|y b _] using rev_ind; [congruence|]. specialize (H b y eq_refl). rewrite pa_rev, rev_app_distr. cbn.
  intros c E. injection E as <-. destruct (is_word y) eqn:W; [|reflexivity]. exfalso. apply H. now apply word_char_iff.
Qed.
Lemma atom_not_blank u at_ c t : numbered_atom u at_ -> u = c :: t -> is_space c = false.
Proof.
  intros [sp g ds (s1 & s2 & s3 & -> & (y & r & -> & Hy & _) & _) _ _ _] E. cbn in E. injection E as -> _. apply capital_iff in Hy. revert c Hy. apply ascii_imp_not. vm_compute. reflexivity.
Qed.
Lemma constraints_found s rows : constrained s rows -> forall fuel p seen, length s < fuel -> (p = None \/ token_end s) ->
  foldM ionic_constraint (map snd (iter_from fuel CONSTRAINT_RE p s)) (dof (so_far [] seen)) = Ok (dof (so_far [] (seen ++ rows))).
Proof.
  induction 1 as [t Hd|h a u at_ g y t ns r es Hh Ha He Hu Hg Hy Ht Hl Hf Hr _ IH]; intros fuel p seen Hn Hp.
  - rewrite app_nil_r. destruct fuel; [lia|]. cbn [iter_from]. rewrite (no_constraint _ _ Hd). reflexivity.
  - destruct fuel as [|fuel]; [lia|]. cbn [iter_from].
    assert (At : at_edge (pa p (h ++ a))).
    { destruct Hp as [->|Hp]; [now apply edge_at|]. destruct (h ++ a) as [|z b] eqn:E; [|apply edge_after; [exact He|discriminate]].
      apply app_eq_nil in E as [-> ->]. cbn [app] in Hp. destruct u as [|z u]; [inversion Hu as [sp g0 ds Hsp]; subst; destruct Hsp as (s1 & s2 & s3 & -> & (? & ? & -> & _) & _); discriminate|].
      specialize (Hp z _ eq_refl). apply blank_iff in Hp. rewrite (atom_not_blank _ _ _ _ Hu eq_refl) in Hp. discriminate Hp. }
    destruct (fp_constraint (pa p (h ++ a)) u at_ g y t ns r At Hu Hg Hy Ht Hl Hr) as (ds & t2 & F & Hd0 & Hd & Ht2).
    replace (h ++ a ++ u ++ g ++ y :: t ++ r) with ((h ++ a) ++ (u ++ g ++ y :: t) ++ r) by (rewrite <- !app_assoc; cbn [app]; reflexivity).
    assert (S : skips CONSTRAINT_RE p (h ++ a) ((u ++ g ++ y :: t) ++ r)) by (apply skips_app; [rewrite constraint_seq; now apply heading_skips|apply capital_skips; [reflexivity|apply first_atom|exact Ha]]).
    rewrite (search_from_pre _ _ _ _ _ _ S F).
    cbn [m_text m_prev m_rest]. destruct (u ++ g ++ y :: t) as [|z q] eqn:E; [destruct u; [destruct g; discriminate E|discriminate E]|].
    cbn [map snd foldM]. erewrite ionic_entry; [|reflexivity|exact Hd0|exact Hd|exact Ht2|exact Hf]. rewrite append_so_far. cbn [bind].
    rewrite IH; [now rewrite <- app_assoc| |now right]. apply (f_equal (@length ascii)) in E. rewrite !app_length in *. cbn in *. rewrite !app_length in *. cbn in *. lia.
Qed.
Lemma block_joined ls : block_text ls = joined [newline] ls.
Proof. unfold block_text. change nl with [newline]. induction ls as [|l ls IH]; [reflexivity|]. destruct ls as [|m ls]; [reflexivity|]. rewrite joined_cons2, <- IH. reflexivity. Qed.
Lemma related_spec rel rels : Forall2 related_row rel rels -> forall acc e ls, blanks e -> related_atoms acc (rel ++ e :: ls) = Ok (acc ++ concat rels, ls).
Proof.
  induction 1 as [|l vs rel rels H _ IH]; intros acc e ls He.
  - cbn [app related_atoms concat]. rewrite (proj2 (strip_empty e) He). now rewrite app_nil_r.
  - destruct H as [l k v nss Ht Hk Hv Hn Hc]. cbn [app related_atoms]. rewrite (trimmed_strip _ _ Ht). destruct (k ++ ":"%char :: v) eqn:E; [destruct k; discriminate E|]. cbn [isempty]. rewrite <- E.
    rewrite (split_chr_cut _ _ _ Hk), (split_chr_free _ _ Hv), (split_cut _ _ Hc).
    rewrite (TypeConvFacts.mapM_map _ _ decimal) by (intros ds Hin; apply py_int_digits; rewrite Forall_forall in Hn; auto). cbn [bind].
    rewrite (IH _ e ls He), map_map. cbn [concat]. now rewrite app_assoc.
Qed.
Lemma as_floats ns l : number_line ns l -> all_fit ns -> numbers_as TFloat l = Ok (vector ns).
Proof. intros H Hf. unfold numbers_as. rewrite (get_numbers_line _ _ H), tuple_fit; [reflexivity| |exact Hf]. apply Forall_wf. exact (number_line_ok _ _ H). Qed.
Lemma symop_spec n1 n2 n3 nd r1 r2 r3 u d y rel rels e ls : number_line n1 r1 -> number_line n2 r2 -> number_line n3 r3 -> number_line nd d -> all_fit n1 -> all_fit n2 -> all_fit n3 -> all_fit nd ->
  Forall2 related_row rel rels -> blanks e -> symop (r1 :: r2 :: r3 :: u :: d :: y :: rel ++ e :: ls) = Ok (operation_read n1 n2 n3 nd (concat rels), ls).
Proof.
  intros H1 H2 H3 Hd F1 F2 F3 Fd Hr He. unfold symop. cbn [firstn skipn mapM]. rewrite (as_floats _ _ H1 F1), (as_floats _ _ H2 F2), (as_floats _ _ H3 F3). cbn [bind next_line].
  rewrite (as_floats _ _ Hd Fd). cbn [bind next_line]. rewrite (related_spec _ _ Hr [] e ls He). reflexivity.
Qed.

Lemma kind_words i l : symmetry_kind i l -> chr_in "=" l = false /\ re_match_test ROTATION_RE l = false.
Proof. intros (H1 & H2 & _). split; [now apply no_equals|now apply not_rotation]. Qed.
Lemma kind_not i j w l : symmetry_kind i l -> (j < i)%nat -> nth_error symmetry_words j = Some w -> contains ($w) l = false.
Proof. intros (_ & _ & _ & H) Hj Hw. apply not_mentions_b. eauto. Qed.
Lemma kind_yes i w l : symmetry_kind i l -> nth_error symmetry_words i = Some w -> contains ($w) l = true.
Proof. intros (_ & _ & H & _) Hw. apply mentions_iff. auto. Qed.
Lemma as_ints ns l : number_line ns l -> Forall is_int ns -> numbers_as TInt l = Ok (VTuple (map (fun n => VInt (int_value n)) ns)).
Proof.
  intros H Hi. unfold numbers_as. rewrite (get_numbers_line _ _ H). unfold to_tuple. cbn [to_type]. rewrite map_map.
  rewrite (TypeConvFacts.mapM_map _ _ (fun n => VInt (int_value n))); [reflexivity|]. intros n Hn. rewrite Forall_forall in Hi. apply CellPosFacts.int_of_num; [|auto].
  pose proof (Forall_wf _ (number_line_ok _ _ H)) as W. rewrite Forall_forall in W. auto.
Qed.
Definition put_item (st : dict * dict) (it : SpecCastep6.symmetry_item) : dict * dict :=
  match it with
  | OfSymmetry k v => (dset key_eqb (fst st) (KStr k) v, snd st)
  | OfConstraints k v => (fst st, dset key_eqb (snd st) (KStr k) v)
  | AnOperation _ => st
  end.
Lemma symmetry_line st l it rest : symmetry_row l it -> symmetry_step st l rest = Ok (put_item st it, rest).
Proof.
  destruct st as [sym con]. intros [k v nm t key y Hk Hv Hn Ht Hy Hm Hs|k v nm t key y Hk Hv Hn Ht Hy Hm|l0 n ns H Hn Hi|l0 H Hm|l0 H Hm|l0 ns H Hn Hi]; unfold symmetry_step.
  - rewrite some_equals, (split_chr_cut _ _ _ Hk), (split_chr_free _ _ Hv), (named_key _ _ Hn). destruct Ht as (ws & Hc & ->). rewrite (normalise_string_cut _ _ Hc). change ($" ") with (text_of " "). rewrite (symmetry_item_spec _ _ _ _ Hy (key_lower _ _ Hn)). cbn [bind].
    now rewrite (has_text_no _ _ Hm).
  - rewrite some_equals, (split_chr_cut _ _ _ Hk), (split_chr_free _ _ Hv), (named_key _ _ Hn). destruct Ht as (ws & Hc & ->). rewrite (normalise_string_cut _ _ Hc). change ($" ") with (text_of " "). rewrite (symmetry_item_spec _ _ _ _ Hy (key_lower _ _ Hn)). cbn [bind].
    now rewrite (has_text_yes _ _ Hm).
  - destruct (kind_words _ _ H) as [-> ->]. rewrite (kind_yes _ _ _ H eq_refl), (at_int _ _ 0 n Hn eq_refl Hi). reflexivity.
  - destruct (kind_words _ _ H) as [-> ->]. rewrite (kind_not _ 0 _ _ H ltac:(lia) eq_refl), (kind_yes _ _ _ H eq_refl). apply mentions_iff in Hm. rewrite Hm. reflexivity.
  - destruct (kind_words _ _ H) as [-> ->]. rewrite (kind_not _ 0 _ _ H ltac:(lia) eq_refl), (kind_yes _ _ _ H eq_refl), (not_mentions_b _ _ Hm). reflexivity.
  - destruct (kind_words _ _ H) as [-> ->]. rewrite (kind_not _ 0 _ _ H ltac:(lia) eq_refl), (kind_not _ 1 _ _ H ltac:(lia) eq_refl), FileParts.if_block_no by (apply H with (j := 2); [lia|reflexivity]).
    rewrite (kind_yes _ _ _ H eq_refl), (as_ints _ _ Hn Hi). reflexivity.
Qed.
Lemma symmetry_silent st l rest : symmetry_kind 4 l -> symmetry_step st l rest = Ok (st, rest).
Proof.
  destruct st as [sym con]. intros H. unfold symmetry_step. destruct (kind_words _ _ H) as [-> ->]. rewrite (kind_not _ 0 _ _ H ltac:(lia) eq_refl), (kind_not _ 1 _ _ H ltac:(lia) eq_refl), FileParts.if_block_no by (apply H with (j := 2); [lia|reflexivity]).
  rewrite (kind_not _ 3 _ _ H ltac:(lia) eq_refl). reflexivity.
Qed.
Lemma constrained_block {B} l mid fin rest (yes : list str -> list str -> result B) no : mentions "constraints....." l -> Forall (fun y => ~ mentions "x...." y) mid -> mentions "x...." fin ->
  if_block l (mid ++ fin :: rest) (contains ($"constraints.....")) (re_test x_end) 1 false yes no = yes (l :: mid ++ [fin]) rest.
Proof.
  intros Hl Hm Hf. assert (B0 : l_bool (l :: mid ++ [fin]) = true).
  { unfold l_bool. cbn [existsb]. apply orb_true_iff. left. apply negb_true_iff. destruct (isempty (strip l)) eqn:E; [|reflexivity]. exfalso. apply strip_empty in E. destruct Hl as (a & b & ->).
    unfold blanks in E. rewrite !Forall_app in E. destruct E as (_ & E & _). apply strip_empty in E. discriminate E. }
  unfold if_block, l_from_re. apply mentions_iff in Hl. rewrite Hl. cbn [negb]. rewrite l_scan_first.
  - cbn [orb]. now rewrite B0.
  - apply forallb_forall. intros y Hy. rewrite Forall_forall in Hm. specialize (Hm y Hy). destruct (re_test x_end y) eqn:E; [|reflexivity]. apply x_end_iff in E. contradiction.
  - now apply x_end_iff.
Qed.

Lemma symop_get ops : forall es, dget key_eqb (dof es) (name "symop") = match ops with [] => None | _ => Some (VList ops) end ->
  forall v, append_to (dof es) (name "symop") v = Ok (dset key_eqb (dof es) (name "symop") (VList (ops ++ [v]))).
Proof. intros es H v. unfold append_to. rewrite H. destruct ops; reflexivity. Qed.
Lemma row_no_operation l it : symmetry_row l it -> match it with OfSymmetry k _ => k <> text_of "symop" | OfConstraints _ _ => True | AnOperation _ => False end.
Proof. intros []; auto; discriminate. Qed.
Lemma symmetry_loop ls its : symmetry_lines ls its -> forall n es cs ops, length ls <= n -> dget key_eqb (dof es) (name "symop") = match ops with [] => None | _ => Some (VList ops) end ->
  file_loop symmetry_step n (dof es, dof cs) ls = Ok (dof (es ++ symmetries ops its), dof (cs ++ constraints_of its)).
Proof.
  induction 1 as [|l it ls its H _ IH|l ls its H _ IH|l r1 n1 r2 n2 r3 n3 u d nd y rel rels e ls its He Hr H1 H2 H3 Hd F1 F2 F3 Fd Hrel Hb _ IH|l mid fin rows con ls its Hk Hm Hf Hc Hg _ IH]; intros n es cs ops Hn Ho.
  - cbn. rewrite !app_nil_r. now destruct n.
  - destruct n as [|n]; [cbn in Hn; lia|]. cbn [file_loop]. rewrite (symmetry_line _ _ _ _ H). cbn [bind]. pose proof (row_no_operation _ _ H) as Hs. destruct it as [k v|k v|v]; [| |destruct Hs]; cbn [put_item fst snd symmetries constraints_of flat_map app].
    + rewrite <- dof_snoc, (IH n _ cs ops); [now rewrite <- app_assoc|cbn in Hn; lia|]. rewrite dof_snoc, set_get. destruct (IntStr.key_eqb_spec (KStr k) (name "symop")) as [E|_]; [injection E as E; contradiction|exact Ho].
    + rewrite <- dof_snoc, (IH n es _ ops); [now rewrite <- app_assoc|cbn in Hn; lia|exact Ho].
  - destruct n as [|n]; [cbn in Hn; lia|]. cbn [file_loop]. rewrite (symmetry_silent _ _ _ H). cbn [bind]. apply IH; [cbn in Hn; lia|exact Ho].
  - destruct n as [|n]; [cbn in Hn; lia|]. cbn [file_loop]. unfold symmetry_step at 1. rewrite (no_equals _ He), (proj2 (rotation_iff _) Hr).
    rewrite (symop_spec n1 n2 n3 nd r1 r2 r3 u d y rel rels e ls) by assumption. cbn [bind]. change (kstr "symop") with (name "symop"). rewrite (symop_get ops _ Ho). cbn [bind]. rewrite <- dof_snoc.
    rewrite (IH n _ cs (ops ++ [operation_read n1 n2 n3 nd (concat rels)])).
    + cbn [symmetries constraints_of flat_map app]. now rewrite <- app_assoc.
    + cbn in Hn. rewrite app_length in Hn. cbn in Hn. lia.
    + rewrite dof_snoc, set_get, key_refl. destruct ops; reflexivity.
  - destruct n as [|n]; [cbn in Hn; lia|]. cbn [file_loop]. unfold symmetry_step at 1. destruct (kind_words _ _ Hk) as [-> ->]. rewrite (kind_not _ 0 _ _ Hk ltac:(lia) eq_refl), (kind_not _ 1 _ _ Hk ltac:(lia) eq_refl).
    fold x_end. rewrite constrained_block; [|apply Hk; reflexivity|exact Hm|exact Hf]. unfold finditer. rewrite block_joined.
    pose proof (constraints_found _ _ Hc (S (length (joined [newline] (l :: mid ++ [fin])))) None [] (Nat.lt_succ_diag_r _) (or_introl eq_refl)) as G. cbn [app so_far] in G. change (dof []) with (@nil (key * pyval)) in G. rewrite G. cbn [bind].
    change (kstr "ionic_constraints") with (KStr (text_of "ionic_constraints")). rewrite <- dof_snoc. rewrite (IH n es _ ops); [|cbn in Hn; rewrite app_length in Hn; cbn in Hn; lia|exact Ho].
    cbn [symmetries constraints_of flat_map app]. rewrite <- app_assoc. cbn [app]. rewrite (merged_fun key_eqb key_eqb_spec _ _ Hg), <- (merged_fun key_eqb key_eqb_spec _ _ (merged_dof (so_far [] rows))). reflexivity.
Qed.
Lemma symmetry_spec ls its : symmetry_lines ls its -> exists r, process_symmetry ls = Ok r /\ symmetry_read its r.
Proof.
  intros H. eexists. split; [apply (symmetry_loop _ _ H (length ls) [] [] [] (Nat.le_refl _) eq_refl)|]. split; apply merged_dof.
Qed.
