(** More blocks of .castep files: which branch takes them and what it stores. *)
From Verif Require Import PyBase PyVal IntStr DictUtil DictFacts PyFacts Regex RegexFacts RegexComplete Stream StreamFacts NeedFacts PhraseFacts TextParsers TextParsersFacts SpecTable
  TextFiles FileParts FileParts4 FileParts5 TypeConv Header NumSpec SpecStr SpecLine NumFacts NumProps SpecMd SpecBands SpecDict
  SpecCastep SpecCastep2 SpecCastep3 CastepFacts PhononFacts Castep2Facts Castep3Facts LangFacts.
From Verif Require Import HeaderFacts BandsFacts CastepRes CastepBlocks CastepNum CastepRows CastepRest CastepFile SpecCastepFile SpecCastepRun CastepFileFacts QuietFacts CastepRunFacts CastepPieces CastepKinds.
From Verif Require StrUtilFacts CellFacts SpecCastep4 SpecCastep5 SpecCastep6 Castep4Facts Castep5Facts Castep6Facts Castep7Facts ParamFacts.
Local Open Scope list_scope.
Local Open Scope nat_scope.

(** ** Lines that open and close *)
Lemma edged_iff content border post tag (edge text : str -> Prop) l : free border = true -> rep_ok border = true -> free content = true -> rep_ok content = true ->
  free post = true -> rep_ok post = true -> (forall u, lang border u <-> edge u) -> (forall u, lang content u <-> text u) -> (forall u, lang post u <-> u = text_of tag) ->
  edged edge text tag l <-> re_test (gen_table_re (Some content) border REps post true) l = true.
Proof.
  intros W1 R1 W2 R2 W3 R3 Eb Et Ep. unfold gen_table_re. rewrite whole_iff by (cbn; rewrite ?W1, ?R1, ?W2, ?R2, ?W3, ?R3; reflexivity).
  unfold gen_table_core, edged. cbn [RSeqs]. split.
  - intros (a & b1 & g & t & g' & b2 & b & b' & Ha & L1 & Hg & Lt & Hg' & L2 & Hb & Hb' & ->). apply Eb in L1, L2. apply Et in Lt.
    exists (a ++ b1 ++ g ++ t ++ g' ++ b2 ++ b ++ text_of tag ++ b'), []. split; [now rewrite app_nil_r|]. split; [|now left].
    exists a, (b1 ++ g ++ t ++ g' ++ b2 ++ b ++ text_of tag ++ b'). split; [reflexivity|]. split; [now apply lang_blanks|].
    exists [], (b1 ++ g ++ t ++ g' ++ b2 ++ b ++ text_of tag ++ b'). split; [reflexivity|]. split; [reflexivity|].
    exists [], (b1 ++ g ++ t ++ g' ++ b2 ++ b ++ text_of tag ++ b'). split; [reflexivity|]. split; [apply lang_blanks; constructor|].
    exists b1, (g ++ t ++ g' ++ b2 ++ b ++ text_of tag ++ b'). split; [reflexivity|]. split; [exact L1|].
    exists g, (t ++ g' ++ b2 ++ b ++ text_of tag ++ b'). split; [reflexivity|]. split; [now apply lang_blanks|].
    exists t, (g' ++ b2 ++ b ++ text_of tag ++ b'). split; [reflexivity|]. split; [exact Lt|].
    exists g', (b2 ++ b ++ text_of tag ++ b'). split; [reflexivity|]. split; [now apply lang_blanks|].
    exists b2, (b ++ text_of tag ++ b'). split; [reflexivity|]. split; [exact L2|].
    exists b, (text_of tag ++ b'). split; [reflexivity|]. split; [now apply lang_blanks|].
    exists (text_of tag), b'. split; [reflexivity|]. split; [now apply Ep|now apply lang_blanks].
  - intros (u & e & -> & L & He). apply newline_blanks in He.
    apply lang_seq in L as (x1 & u1 & -> & H1 & L). apply lang_seq in L as (x2 & u2 & -> & H2 & L). apply lang_seq in L as (x3 & u3 & -> & H3 & L).
    apply lang_seq in L as (b1 & u4 & -> & H4 & L). apply lang_seq in L as (g & u5 & -> & H5 & L). apply lang_seq in L as (t & u6 & -> & H6 & L).
    apply lang_seq in L as (g' & u7 & -> & H7 & L). apply lang_seq in L as (b2 & u8 & -> & H8 & L). apply lang_seq in L as (y1 & u9 & -> & H9 & L).
    apply lang_seq in L as (y2 & y3 & -> & H10 & L). cbn [lang] in H2. subst x2. apply Ep in H10. subst y2. apply lang_blanks in H1, H3, H5, H7, H9, L. apply Eb in H4, H8. apply Et in H6.
    exists (x1 ++ x3), b1, g, t, g', b2, y1, (y3 ++ e). repeat match goal with |- _ /\ _ => split end; try assumption;
      try (repeat (apply blanks_app; split); assumption). now rewrite <- !app_assoc.
Qed.
Lemma eps_lang u : lang REps u <-> u = text_of "".
Proof. reflexivity. Qed.
Lemma row_lang c u : lang (RPlus (RChar c)) u <-> row c u.
Proof. apply lang_row. Qed.
Lemma one_lang c u : lang (RChar c) u <-> one c u.
Proof. apply lang_char. Qed.
Lemma is_lang w u : lang (RLit w) u <-> is_text w u.
Proof. apply lang_lit. Qed.
Lemma notof_all c t : forallb (fun x => negb (chr_in x (list_ascii_of_string (String c "")))) t = true <-> ~ In c t.
Proof.
  rewrite forallb_forall. split.
  - intros H I. specialize (H c I). apply negb_true_iff in H. cbn in H. now rewrite Ascii.eqb_refl in H.
  - intros N x I. apply negb_true_iff. cbn. destruct (Ascii.eqb_spec x c); [subst; contradiction|]. now rewrite ?orb_false_r.
Qed.
Lemma text_and_lang w c (more : bool) u : lang (RSeq (RLit w) (if more then RPlus (c_notof (String c "")) else RStar (c_notof (String c "")))) u <-> text_and w c more u.
Proof.
  rewrite lang_seq. unfold text_and, c_notof. split.
  - intros (v & t & -> & Hv & Ht). apply lang_lit in Hv. subst v. exists t. split; [reflexivity|].
    destruct more; [apply lang_plus in Ht as [Ht Hn]|apply lang_star in Ht]; apply notof_all in Ht; now split.
  - intros (t & -> & Nc & Hm). exists (text_of w), t. split; [reflexivity|]. split; [now apply lang_lit|].
    destruct more; [apply lang_plus; split; [now apply notof_all|now apply Hm]|apply lang_star; now apply notof_all].
Qed.
Lemma signs_lang u : lang pluses u <-> signs u.
Proof.
  unfold pluses, c_of, signs. rewrite lang_plus, forallb_forall. split.
  - intros [H N]. split; [exact N|]. intros c I. now apply chr_in_iff, H.
  - intros [N H]. split; [|exact N]. intros c I. now apply chr_in_iff, H.
Qed.
Ltac edged_opens := intros l Ho; cbn [k_open nth kinds_2] in Ho; unfold table, table_re; refine (proj1 (edged_iff _ _ _ _ _ _ l _ _ _ _ _ _ _ _ _) Ho);
  [reflexivity|reflexivity|reflexivity|reflexivity|reflexivity|reflexivity|first [apply one_lang|apply row_lang|apply signs_lang]|idtac|first [apply eps_lang|apply is_lang]].
Lemma params_lang u : lang (RSeq (RPlus (c_notof "*")) (RLit " Parameters")) u <-> parameters_title u.
Proof.
  rewrite lang_seq. unfold parameters_title, c_notof. split.
  - intros (t & v & -> & Ht & Hv). apply lang_lit in Hv. subst v. apply lang_plus in Ht as [Ht Hn]. apply notof_all in Ht. now exists t.
  - intros (t & -> & Nc & Hm). exists t, (text_of " Parameters"). split; [reflexivity|]. split; [|now apply lang_lit]. apply lang_plus. split; [now apply notof_all|exact Hm].
Qed.
Lemma kpoints_lang u : lang (RSeqs [RLit "Number"; RPlus (RChar " "); RLit "Fractional coordinates"; RPlus (RChar " "); RLit "Weight"]) u <-> kpoints_title u.
Proof.
  cbn [RSeqs]. unfold kpoints_title. split.
  - intros H. apply lang_seq in H as (x1 & u1 & -> & H1 & H). apply lang_seq in H as (x2 & u2 & -> & H2 & H). apply lang_seq in H as (x3 & u3 & -> & H3 & H).
    apply lang_seq in H as (x4 & x5 & -> & H4 & H5). apply lang_lit in H1, H3, H5. apply row_lang in H2 as (n & ->). apply row_lang in H4 as (m & ->). subst. now exists n, m.
  - intros (n & m & ->). eexists _, _. split; [reflexivity|]. split; [now apply lang_lit|]. eexists _, _. split; [reflexivity|]. split; [apply row_lang; now exists n|].
    eexists _, _. split; [reflexivity|]. split; [now apply lang_lit|]. eexists _, _. split; [reflexivity|]. split; [apply row_lang; now exists m|now apply lang_lit].
Qed.
Lemma band_lang t u : t = "B A N D"%string \/ t = "Band Structure Calculation"%string -> text_and t "+" true u ->
  lang (RSeq (RAlt (RLit "B A N D") (RLit "Band Structure Calculation")) (RPlus (c_notof "+"))) u.
Proof.
  intros T H. apply (text_and_lang t "+" true) in H. apply lang_seq in H as (v & w & -> & Hv & Hw). apply lang_seq. exists v, w. split; [reflexivity|]. split; [|exact Hw].
  destruct T as [->| ->]; [now left|now right].
Qed.
Lemma gap_opens w l : after_gap w l -> opens w l = true.
Proof.
  intros (g & r & G & ->). unfold opens. apply (start_iff (RSeq ws_plus (RLit w))); [cbn; apply free_lit|cbn; apply free_lit|].
  exists (g ++ text_of w), r. split; [now rewrite app_assoc|]. apply lang_seq. exists g, (text_of w). split; [reflexivity|]. split; [now apply lang_gap|now apply lang_lit].
Qed.
Lemma equals_iff x : equals_rule x <-> eq_line x = true.
Proof.
  unfold eq_line, equals_rule.
  assert (E : re_test (RSeqs [RBol; RChar " "; row_of "="; REol]) x = true <-> re_test (RSeqs [RBol; RSeq (RChar " ") (row_of "="); REol]) x = true).
  { rewrite !search_test_iff by reflexivity. cbn [RSeqs]. split; intros (a & b & H & p & s & c & D); exists a, b; (split; [exact H|]); exists p, s, c.
    - destruct D as (p1 & s1 & c1 & D1 & p2 & s2 & c2 & D2 & p3 & s3 & c3 & D3 & D4). exists p1, s1, c1. split; [exact D1|]. exists p3, s3, c3. split; [|exact D4]. now exists p2, s2, c2.
    - destruct D as (p1 & s1 & c1 & D1 & p3 & s3 & c3 & (p2 & s2 & c2 & D2 & D3) & D4). exists p1, s1, c1. split; [exact D1|]. exists p2, s2, c2. split; [exact D2|]. now exists p3, s3, c3. }
  rewrite E, whole_iff by reflexivity. split.
  - intros (n & e & -> & He). exists (" "%char :: repeat "="%char (S n)), e. split; [reflexivity|]. split; [|exact He].
    apply lang_seq. exists [" "%char], (repeat "="%char (S n)). split; [reflexivity|]. split; [now apply lang_char|]. apply lang_row. now exists n.
  - intros (u & e & -> & L & He). apply lang_seq in L as (a & w & -> & La & Lw). apply lang_char in La. apply lang_row in Lw as (n & ->). subst a. now exists n, e.
Qed.
Lemma scf_iff x : scf_rule x <-> scf_end x = true.
Proof.
  unfold scf_end, scf_rule. rewrite (start_iff (RSeq (row_of "-") (RLit " <-- SCF"))) by reflexivity. split.
  - intros (n & r & ->). exists (repeat "-"%char (S n) ++ text_of " <-- SCF"), r. split; [now rewrite <- app_assoc|]. eexists _, _. split; [reflexivity|]. split; [apply lang_row; now exists n|now apply lang_lit].
  - intros (u & b & -> & L). apply lang_seq in L as (v & w & -> & Hv & Hw). apply lang_row in Hv as (n & ->). apply lang_lit in Hw. subst. exists n, b. now rewrite <- app_assoc.
Qed.
Lemma tagged_iff x : tagged_rule x <-> re_test (gen_table_re None pluses REps line_tag true) x = true.
Proof.
  unfold gen_table_re. rewrite whole_iff by reflexivity. unfold gen_table_core, tagged_rule. cbn [RSeqs]. split.
  - intros (a & b1 & b & b' & Ha & L1 & Hb & Hb' & ->). apply signs_lang in L1.
    exists (a ++ b1 ++ b ++ text_of "<- line" ++ b'), []. split; [now rewrite app_nil_r|]. split; [|now left].
    exists a, (b1 ++ b ++ text_of "<- line" ++ b'). split; [reflexivity|]. split; [now apply lang_blanks|].
    exists [], (b1 ++ b ++ text_of "<- line" ++ b'). split; [reflexivity|]. split; [reflexivity|].
    exists [], (b1 ++ b ++ text_of "<- line" ++ b'). split; [reflexivity|]. split; [apply lang_blanks; constructor|].
    exists b1, (b ++ text_of "<- line" ++ b'). split; [reflexivity|]. split; [exact L1|].
    exists b, (text_of "<- line" ++ b'). split; [reflexivity|]. split; [now apply lang_blanks|].
    exists (text_of "<- line"), b'. split; [reflexivity|]. split; [now apply lang_lit|now apply lang_blanks].
  - intros (u & e & -> & L & He). apply newline_blanks in He.
    apply lang_seq in L as (x1 & u1 & -> & H1 & L). apply lang_seq in L as (x2 & u2 & -> & H2 & L). apply lang_seq in L as (x3 & u3 & -> & H3 & L).
    apply lang_seq in L as (b1 & u4 & -> & H4 & L). apply lang_seq in L as (y1 & u9 & -> & H9 & L).
    apply lang_seq in L as (y2 & y3 & -> & H10 & L). cbn [lang] in H2. subst x2. apply lang_lit in H10. subst y2. apply lang_blanks in H1, H3, H9, L. apply signs_lang in H4.
    exists (x1 ++ x3), b1, y1, (y3 ++ e). repeat match goal with |- _ /\ _ => split end; try assumption;
      try (repeat (apply blanks_app; split); assumption). now rewrite <- !app_assoc.
Qed.
Lemma tag_opens l : minimiser_tag l -> re_test minim_tag l = true.
Proof.
  intros (a & m & w & e & Iw & Hm & He & ->). apply search_test_iff; [reflexivity|]. exists a, (text_of "<--" ++ m ++ " "%char :: text_of w ++ e). split; [reflexivity|].
  unfold minim_tag. cbn [RSeqs]. generalize (pa None a). intros p. generalize ([] : caps). revert p.
  apply (seq_more (RLit "<--") _ (text_of "<--")); [reflexivity|now apply lang_lit|].
  apply seq_more; [reflexivity| |].
  { unfold ROpt. cbn [lang]. destruct Hm as [->| ->]; [exists 0; repeat split; lia|]. exists 1. split; [lia|]. split; [lia|]. cbn [many].
    exists (text_of " min"), []. split; [now rewrite app_nil_r|]. split; [now apply (lang_lit " min")|reflexivity]. }
  apply (seq_more (RChar " ") _ [" "%char]); [reflexivity|now apply lang_char|].
  apply (seq_more MINIMISERS_RE _ (text_of w)); [reflexivity| |].
  { unfold MINIMISERS_RE. cbn [map MINIMISERS RAlts].
    repeat (destruct Iw as [<-|Iw]; [repeat first [now apply lang_lit|left; now apply lang_lit|right]|]). contradiction. }
  intros p c. exists p, e, c. cbn [den]. repeat split. now destruct He as [->| ->].
Qed.
Lemma dash_lang u : lang (RSeq (row_of "-") (RChar "+")) u <-> exists n, u = dashes n.
Proof.
  rewrite lang_seq. unfold dashes. split.
  - intros (v & w & -> & Hv & Hw). apply lang_row in Hv as (n & ->). apply lang_char in Hw. subst. now exists n.
  - intros (n & ->). exists (repeat "-"%char (S n)), ["+"%char]. split; [reflexivity|]. split; [apply lang_row; now exists n|now apply lang_char].
Qed.
Lemma table_rule_iff x : table_rule x <-> re_test minim_table_end x = true.
Proof.
  unfold minim_table_end. cbn [RSeqs]. rewrite somewhere_iff by reflexivity. unfold table_rule. split.
  - intros (a & i & j & k & m & b & ->). exists a, ("+"%char :: dashes i ++ dashes j ++ dashes k ++ dashes m), b. split; [cbn [app]; now rewrite <- !app_assoc|].
    apply lang_seq. exists ["+"%char], (dashes i ++ dashes j ++ dashes k ++ dashes m). split; [reflexivity|]. split; [now apply lang_char|].
    cbn [lang]. exists 4. split; [lia|]. split; [lia|]. cbn [many].
    exists (dashes i), (dashes j ++ dashes k ++ dashes m). split; [reflexivity|]. split; [apply dash_lang; now exists i|].
    exists (dashes j), (dashes k ++ dashes m). split; [reflexivity|]. split; [apply dash_lang; now exists j|].
    exists (dashes k), (dashes m). split; [reflexivity|]. split; [apply dash_lang; now exists k|].
    exists (dashes m), []. split; [now rewrite app_nil_r|]. split; [apply dash_lang; now exists m|reflexivity].
  - intros (a & u & b & -> & L). apply lang_seq in L as (v & w & -> & Hv & Hw). apply lang_char in Hv. subst v. cbn [lang] in Hw. destruct Hw as (n & Hn & _ & M).
    destruct n as [|[|[|[|n]]]]; try lia. cbn [many] in M.
    destruct M as (u1 & w1 & -> & H1 & u2 & w2 & -> & H2 & u3 & w3 & -> & H3 & u4 & w4 & -> & H4 & _).
    apply dash_lang in H1 as (i & ->), H2 as (j & ->), H3 as (k & ->), H4 as (m & ->). exists a, i, j, k, m, (w4 ++ b). cbn [app]. now rewrite <- !app_assoc.
Qed.
Lemma mentions_has_iff t x : mentions t x <-> has_str t x = true.
Proof. apply mentions_iff. Qed.
Lemma always_iff (x : str) : True <-> true = true.
Proof. now split. Qed.
Lemma polar_opens t l : t = "Polarisability"%string \/ t = "Polarisabilities"%string -> after_gap t l ->
  re_test (RSeqs [RBol; ws_plus; RLit "Polarisabilit"; RAlt (RLit "y") (RLit "ies")]) l = true.
Proof.
  intros T (g & r & G & ->). cbn [RSeqs].
  apply (start_iff (RSeq ws_plus (RSeq (RLit "Polarisabilit") (RAlt (RLit "y") (RLit "ies"))))); [reflexivity|reflexivity|].
  exists (g ++ text_of t), r. split; [now rewrite app_assoc|]. apply lang_seq. exists g, (text_of t). split; [reflexivity|]. split; [now apply lang_gap|].
  apply lang_seq. destruct T as [->| ->].
  - exists (text_of "Polarisabilit"), (text_of "y"). split; [reflexivity|]. split; [now apply lang_lit|left; now apply lang_lit].
  - exists (text_of "Polarisabilit"), (text_of "ies"). split; [reflexivity|]. split; [now apply lang_lit|right; now apply lang_lit].
Qed.
Lemma occ_opens l : holding (edged (one "|") (is_text "Occupancy") "<- occ") l ->
  re_test (gen_table_re (Some (RLit "Occupancy")) (RChar "|") REps (RLit "<- occ") false) l = true.
Proof.
  intros (x & u & y & -> & a & b1 & g & t & g' & b2 & b & b' & Ha & L1 & Hg & Lt & Hg' & L2 & Hb & Hb' & ->). unfold gen_table_re.
  apply somewhere_iff; [reflexivity|reflexivity|]. eexists x, _, y. split; [reflexivity|]. unfold gen_table_core. cbn [RSeqs].
  apply one_lang in L1, L2. apply is_lang in Lt.
  exists a, (b1 ++ g ++ t ++ g' ++ b2 ++ b ++ text_of "<- occ" ++ b'). split; [reflexivity|]. split; [now apply lang_blanks|].
  exists [], (b1 ++ g ++ t ++ g' ++ b2 ++ b ++ text_of "<- occ" ++ b'). split; [reflexivity|]. split; [reflexivity|].
  exists [], (b1 ++ g ++ t ++ g' ++ b2 ++ b ++ text_of "<- occ" ++ b'). split; [reflexivity|]. split; [apply lang_blanks; constructor|].
  exists b1, (g ++ t ++ g' ++ b2 ++ b ++ text_of "<- occ" ++ b'). split; [reflexivity|]. split; [exact L1|].
  exists g, (t ++ g' ++ b2 ++ b ++ text_of "<- occ" ++ b'). split; [reflexivity|]. split; [now apply lang_blanks|].
  exists t, (g' ++ b2 ++ b ++ text_of "<- occ" ++ b'). split; [reflexivity|]. split; [exact Lt|].
  exists g', (b2 ++ b ++ text_of "<- occ" ++ b'). split; [reflexivity|]. split; [now apply lang_blanks|].
  exists b2, (b ++ text_of "<- occ" ++ b'). split; [reflexivity|]. split; [exact L2|].
  exists b, (text_of "<- occ" ++ b'). split; [reflexivity|]. split; [now apply lang_blanks|].
  exists (text_of "<- occ"), b'. split; [reflexivity|]. split; [now apply lang_lit|now apply lang_blanks].
Qed.

(** ** What the specifications leave open is settled *)
Lemma dict_is (f : list str -> result dict) es b d : (exists d', f b = Ok d' /\ merged es d') -> merged es d -> f b = Ok d.
Proof. intros (d' & E & M') M. now rewrite E, (merged_same _ _ _ M' M). Qed.
Lemma dispersion_same rows d d' : SpecCastep5.dispersion_read rows d -> SpecCastep5.dispersion_read rows d' -> d = d'.
Proof. intros (s & k & S & K & ->) (s' & k' & S' & K' & ->). now rewrite (merged_same _ _ _ S S'), (merged_same _ _ _ K K'). Qed.
Lemma options_told_same us g es its out : SpecCastep5.options_told us g es its out -> forall out', SpecCastep5.options_told us g es its out' -> out = out'.
Proof.
  induction 1 as [us g|us g es d N M|us g h its out H IH|us g es d h its out N M H IH|us g es k v d its out M H IH|us g es k v its out H IH]; intros out' H'; inversion H'; subst; try congruence.
  - match goal with Q : merged es _ |- _ => now rewrite (merged_same _ _ _ M Q) end.
  - now apply IH.
  - match goal with Q : merged es _ |- _ => rewrite (merged_same _ _ _ M Q) end. f_equal. now apply IH.
  - match goal with Q : merged (us ++ _) _ |- _ => rewrite (merged_same _ _ _ M Q) end. f_equal. now apply IH.
  - now apply IH.
Qed.
Lemma options_same its d d' : SpecCastep5.options_read its d -> SpecCastep5.options_read its d' -> d = d'.
Proof. intros (o & O & M) (o' & O' & M'). rewrite (options_told_same _ _ _ _ _ O _ O') in M. exact (merged_same _ _ _ M M'). Qed.
Lemma Forall2_same {A B} (R : A -> B -> Prop) : (forall a b b', R a b -> R a b' -> b = b') -> forall l m, Forall2 R l m -> forall m', Forall2 R l m' -> m = m'.
Proof. intros H l m. induction 1; intros m' H'; inversion H'; subst; [reflexivity|]. f_equal; eauto. Qed.
Lemma delta_same fs ss rows d d' : SpecCastep5.delta_read fs ss rows d -> SpecCastep5.delta_read fs ss rows d' -> d = d'.
Proof.
  intros (vs & V & ->) (vs' & V' & ->). rewrite (Forall2_same _) with (2 := V) (3 := V'); [reflexivity|].
  intros a v v' (e & -> & M) (e' & -> & M'). now rewrite (merged_same _ _ _ M M').
Qed.
Lemma report_same its d d' : SpecCastep6.report_read its d -> SpecCastep6.report_read its d' -> d = d'.
Proof. intros (e & M & ->) (e' & M' & ->). now rewrite (merged_same _ _ _ M M'). Qed.
Lemma symmetry_same its r r' : SpecCastep6.symmetry_read its r -> SpecCastep6.symmetry_read its r' -> r = r'.
Proof. destruct r, r'. intros [M N] [M' N']. cbn [fst snd] in *. now rewrite (merged_same _ _ _ M M'), (merged_same _ _ _ N N'). Qed.
Lemma no_remarks d : SpecCastep4.remarks_read [] d -> d = [].
Proof.
  intros (_ & K & H1 & H2 & H3 & H4). destruct d as [|[k v] d]; [reflexivity|]. exfalso. specialize (K k (or_introl eq_refl)).
  unfold SpecCastep4.has in *. cbn in H1, H2, H3, H4.
  cbn [map In] in K. destruct K as [<-|[<-|[<-|[<-|[]]]]]; [discriminate H1|discriminate H2|discriminate H3|discriminate H4].
Qed.
Lemma scf_same notes cs out out' : Forall (fun c => SpecCastep4.cy_said c = []) cs -> SpecCastep4.scf_read notes cs out -> SpecCastep4.scf_read notes cs out' -> out = out'.
Proof.
  intros Hn (d & vs & M & V & ->) (d' & vs' & M' & V' & ->). rewrite (merged_same _ _ _ M M'). f_equal. clear M M'. revert vs' V'.
  induction V as [|c v cs vs C _ IH]; intros vs' V'; inversion V' as [|? v' ? vs1 C' V1]; subst; [reflexivity|]. inversion Hn as [|? ? E Hn']; subst. f_equal; [|now apply IH].
  destruct C as (i & e & -> & R & Q), C' as (i' & e' & -> & R' & Q'). rewrite E in R, R'. apply no_remarks in R, R'. subst. now rewrite (merged_same _ _ _ Q Q').
Qed.

(** ** Kinds of blocks *)
Notation nth_2 i := (nth i kinds_2 (magres_kind "" "" 0)).
Lemma trimmed_all mid ws : Forall2 trimmed mid ws -> map strip mid = ws.
Proof. induction 1 as [|x w mid ws T _ IH]; [reflexivity|]. cbn [map]. now rewrite IH, (trimmed_strip _ _ T). Qed.
Lemma k2_0 : supports (nth_2 0).
Proof.
  plain_kind 5; [intros l; apply ruled_iff|apply ruled_iff|]. apply acts_add; [intros b v|reflexivity].
  intros (l & mid & fin & ws & -> & T & ->). unfold warning_block. rewrite FileParts2.skip_first_last. now rewrite (trimmed_all _ _ T).
Qed.
Lemma k2_1 : supports (nth_2 1).
Proof.
  plain_kind 9; [edged_opens; apply params_lang|apply ruled_iff|]. dict_put. intros (its & d & L & O & ->). unfold as_dict. now rewrite (ParamFacts.options_spec _ _ _ L O).
Qed.
Lemma k2_2 : supports (nth_2 2).
Proof.
  plain_kind 15; [edged_opens; apply (text_and_lang _ _ true)|apply ruled_iff|]. apply acts_add; [intros b v|reflexivity].
  intros (its & d & L & O & ->). destruct (Castep7Facts.report_spec _ _ L) as (d' & E & O').
  unfold as_dict. rewrite E. cbn. now rewrite (report_same _ _ _ O O').
Qed.
Lemma k2_3 : supports (nth_2 3).
Proof.
  plain_kind 18; [intros l; apply mentions_has|apply blanks_empty|]. dict_put. intros (rows & d & L & O & ->). destruct (Castep6Facts.dftd_spec _ _ L) as (d' & E & O').
  unfold as_dict. rewrite E. cbn. now rewrite (dispersion_same _ _ _ O O').
Qed.
Lemma k2_4 : supports (nth_2 4).
Proof.
  plain_kind 19; [intros l; apply mentions_has|apply scf_iff|]. apply acts_add; [intros b v|reflexivity].
  intros (notes & cs & out & L & N & O & ->). destruct (Castep5Facts.scf_spec _ _ _ L) as (out' & E & O').
  unfold as_listval. rewrite E. cbn. now rewrite (scf_same _ _ _ _ N O O').
Qed.
Lemma k2_5 : supports (nth_2 5).
Proof.
  plain_kind 20; [|apply tagged_iff|].
  - edged_opens; apply is_lang.
  - apply acts_add; [intros b v|reflexivity]. intros (ess & L & D). exact (as_dict_is _ _ _ _ (wvfn_spec _ _ L) D).
Qed.
Lemma k2_6 : supports (nth_2 6).
Proof.
  plain_kind 21; [intros l; apply occ_opens|apply mentions_has_iff|]. apply acts_add; [intros b v|reflexivity].
  intros (rows & L & ->). unfold as_listval. now rewrite (occupancies_spec _ _ L).
Qed.
Lemma k2_7 : supports (nth_2 7).
Proof.
  plain_kind 32; [intros l; apply heading_iff|apply mentions_has_iff|].
  intros l b es' es rest st (its & sy & co & L & R & ->) P E. split; [repeat constructor; discriminate|]. unfold to_run, in_run, symmetry.
  destruct (Castep7Facts.symmetry_spec _ _ L) as (r & Er & Rr). rewrite Er, <- (symmetry_same _ _ _ R Rr). cbn [bind].
  rewrite E, !run_sets, <- app_assoc. reflexivity.
Qed.
Lemma stress_lines ls nss : Forall2 numbers_on ls nss -> Forall all_fit nss -> mapM (fun l => to_types TFloat (get_numbers l)) ls = Ok (map (map SpecCastep.float_of) nss).
Proof.
  intros H. induction H as [|l ns ls nss H1 H IH]; intros F; [reflexivity|]. inversion F as [|? ? F1 F2]; subst. cbn [mapM map].
  rewrite (get_numbers_line _ _ H1), types_floats; [|now apply Forall_wf, (number_line_ok _ _ H1)|exact F1]. cbn [bind]. now rewrite IH.
Qed.
Lemma k2_8 : supports (nth_2 8).
Proof.
  plain_kind 40; [intros l; apply mentions_has|apply always_iff|]. apply acts_add_val; [intros b v|reflexivity].
  intros (nss & L & Fi & ->). unfold target_stress. rewrite (stress_lines _ _ L Fi). cbn [rmap bind]. now rewrite <- concat_map.
Qed.
Lemma k2_9 : supports (nth_2 9).
Proof.
  plain_kind 43; [edged_opens; apply kpoints_lang|apply ruled_iff|]. dict_put. intros (ks & L & ->). unfold as_dict, process_kpoint_blocks. now rewrite (kpt_list _ _ L).
Qed.
Lemma k2_10 : supports (nth_2 10).
Proof.
  plain_kind 49; [intros l; apply mentions_has|apply blanks_empty|]. apply acts_add_val; [intros b v|reflexivity].
  intros (l & t & ws & h & ls & vs & -> & C & W & L & ->). unfold as_dict. now rewrite (phonon_sym_spec _ _ _ _ _ _ C W L).
Qed.
Lemma k2_11 : supports (nth_2 11).
Proof.
  plain_kind 51; [edged_opens; apply (text_and_lang _ _ false)|apply blanks_empty|]. apply acts_add; [intros b v|reflexivity].
  intros (h & ls & ms & -> & L & ->). unfold as_listval. now rewrite (raman_spec _ _ _ L).
Qed.
Lemma k2_12 : supports (nth_2 12).
Proof.
  plain_kind 52; [edged_opens; apply is_lang|apply ruled_iff|]. dict_put. intros (es & L & D). exact (as_dict_is _ _ _ _ (autosolvation_spec _ _ L) D).
Qed.
Lemma acts_tensors k1 k2 : way_of k1 = IsSet -> way_of k2 = IsSet -> k1 <> "solvation"%string -> k2 <> "solvation"%string -> acts (to_run (two_tensors k1 k2)) (tensors k1 k2).
Proof.
  intros W1 W2 N1 N2 l b es' es rest st (nss & r & rs & L & Fi & E1 & ->) P E.
  unfold to_run, in_run, two_tensors. destruct (matrix_spec _ _ L Fi) as [_ M]. rewrite M, E1. cbn [matrices].
  destruct (Nat.eqb (length r) 6); cbn [bind tuple_true matrix map]; (split; [repeat constructor; assumption|]); rewrite E, !run_sets, <- ?app_assoc; reflexivity.
Qed.
Lemma k2_13 : supports (nth_2 13).
Proof. plain_kind 53; [intros l; apply gap_opens|apply equals_iff|apply acts_tensors; discriminate || reflexivity]. Qed.
Lemma k2_14 : supports (nth_2 14).
Proof. plain_kind 54; [intros l; apply polar_opens; now left|apply equals_iff|apply acts_tensors; discriminate || reflexivity]. Qed.
Lemma k2_15 : supports (nth_2 15).
Proof. plain_kind 54; [intros l; apply polar_opens; now right|apply equals_iff|apply acts_tensors; discriminate || reflexivity]. Qed.
Lemma first_is b v : tensor_of b v -> first_tensor b = Ok v.
Proof. intros (nss & L & Fi & ->). unfold first_tensor. destruct (matrix_spec _ _ L Fi) as [M _]. now rewrite M. Qed.
Lemma k2_16 : supports (nth_2 16).
Proof. plain_kind 55; [intros l; apply gap_opens|apply equals_iff|]. apply acts_put; [exact first_is|reflexivity|discriminate]. Qed.
Lemma k2_17 : supports (nth_2 17).
Proof.
  plain_kind 57; [intros l; apply heading_iff|apply ruled_iff|]. dict_put. intros (ls1 & ls2 & zs & rows & -> & L1 & L2 & ->).
  unfold as_dict. now rewrite (Castep4Facts.thermo_spec _ _ _ _ L1 L2).
Qed.
Lemma k2_18 : supports (nth_2 18).
Proof. plain_kind 63; [intros l; apply heading_iff|apply ruled_iff|]. dict_put. intros (ns & L & ->). unfold as_listval. now rewrite (Castep4Facts.elf_spec _ _ L). Qed.
Lemma k2_19 : supports (nth_2 19).
Proof.
  plain_kind 72; [exact tag_opens|apply table_rule_iff|]. apply acts_add; [intros b v|reflexivity]. intros (es & L & D). exact (as_dict_is _ _ _ _ (Castep4Facts.geom_spec _ _ L) D).
Qed.
Lemma k2_20 : supports (nth_2 20).
Proof.
  plain_kind 73; [intros l; apply mentions_has|apply blanks_empty|]. dict_put. intros (h1 & h2 & h3 & ls & vs & -> & L & ->). unfold as_listval. now rewrite (Castep6Facts.internal_spec _ _ _ _ _ L).
Qed.
Lemma k2_21 : supports (nth_2 21).
Proof.
  plain_kind 74; [intros l; apply mentions_has|apply mentions_has_iff|]. apply acts_extend; [intros b d|reflexivity]. intros (rows & cm & e & L & M & M2 & ->).
  destruct (deloc_spec _ _ L) as (cm' & e' & M' & M2' & ->). now rewrite (merged_same _ _ _ M M'), (merged_same _ _ _ M2 M2').
Qed.
Lemma k2_22 : supports (nth_2 22).
Proof.
  plain_kind 75; [intros l; apply mentions_has|apply blanks_empty|]. apply acts_extend; [intros b d|reflexivity]. intros (ess & L & M). exact (dict_is _ _ _ _ (space_spec _ _ L) M).
Qed.
Lemma k2_23 : supports (nth_2 23).
Proof.
  plain_kind 76.
  - edged_opens; apply is_lang.
  - intros x. apply edged_iff; try reflexivity; [apply one_lang|apply row_lang|apply is_lang].
  - dict_put. intros (xs & L & ->). unfold as_listval. now rewrite (Castep4Facts.tddft_spec _ _ L).
Qed.
Lemma acts_bands t : acts (put "bs" (as_listval process_band_structure)) (k_says (band_kind t)).
Proof. cbn [band_kind k_says]. dict_put. intros (os & ls & bs & -> & N & L & ->). unfold as_listval. now rewrite (Castep4Facts.bands_spec _ _ _ N L). Qed.
Lemma band_opens t l : t = "B A N D"%string \/ t = "Band Structure Calculation"%string -> edged (one "+") (text_and t "+" true) "" l ->
  table (RSeq (RAlt (RLit "B A N D") (RLit "Band Structure Calculation")) (RPlus (c_notof "+"))) (RChar "+") l = true.
Proof.
  intros T (a & b1 & g & u & g' & b2 & b & b' & Ha & L1 & Hg & Lt & Hg' & L2 & Hb & Hb' & ->). unfold table. apply table_split; try reflexivity.
  exists a, b1, g, u, g', b2, (b ++ b'). repeat match goal with |- _ /\ _ => split end; try assumption; try (now apply one_lang); [now apply (band_lang t)|now apply blanks_app|reflexivity].
Qed.
Lemma k2_24 : supports (nth_2 24).
Proof. plain_kind 77; [intros l; apply band_opens; now left|apply ruled_iff|apply (acts_bands "B A N D")]. Qed.
Lemma k2_25 : supports (nth_2 25).
Proof. plain_kind 77; [intros l; apply band_opens; now right|apply ruled_iff|apply (acts_bands "Band Structure Calculation")]. Qed.
Lemma k2_26 : supports (nth_2 26).
Proof.
  plain_kind 84; [intros l; apply heading_iff|apply ruled_iff|]. apply acts_enter; [|reflexivity]. intros l b v r H. unfold elastic_item. now rewrite (first_is _ _ H).
Qed.
Lemma k2_27 : supports (nth_2 27).
Proof.
  plain_kind 85; [intros l; apply heading_iff|apply ruled_iff|]. apply acts_enter; [|reflexivity]. intros l b v r H. unfold elastic_item. now rewrite (first_is _ _ H).
Qed.
Lemma k2_28 : supports (nth_2 28).
Proof.
  plain_kind 87; [intros l; apply heading_iff|apply ruled_iff|]. apply acts_extend; [intros b d|reflexivity]. intros (es & L & M). exact (dict_is _ _ _ _ (elastic_properties_spec _ _ L) M).
Qed.
Lemma k2_29 : supports (nth_2 29).
Proof.
  plain_kind 90; [intros l; apply mentions_has|apply blanks_empty|]. dict_put. intros (l1 & l2 & l3 & fs & ss & rows & d & -> & L1 & L2 & L3 & D & ->).
  destruct (Castep6Facts.delta_spec _ _ _ _ _ _ L1 L2 L3) as (d' & E & D'). unfold as_dict. rewrite E. cbn. now rewrite (delta_same _ _ _ _ _ D D').
Qed.
Lemma kinds_2_supported : Forall supports kinds_2.
Proof.
  apply Forall_forall. intros K I. apply (In_nth _ _ (magres_kind "" "" 0)) in I as (i & L & <-). change (length kinds_2) with 30 in L.
  destruct i as [|i]; [exact k2_0|].
  destruct i as [|i]; [exact k2_1|].
  destruct i as [|i]; [exact k2_2|].
  destruct i as [|i]; [exact k2_3|].
  destruct i as [|i]; [exact k2_4|].
  destruct i as [|i]; [exact k2_5|].
  destruct i as [|i]; [exact k2_6|].
  destruct i as [|i]; [exact k2_7|].
  destruct i as [|i]; [exact k2_8|].
  destruct i as [|i]; [exact k2_9|].
  destruct i as [|i]; [exact k2_10|].
  destruct i as [|i]; [exact k2_11|].
  destruct i as [|i]; [exact k2_12|].
  destruct i as [|i]; [exact k2_13|].
  destruct i as [|i]; [exact k2_14|].
  destruct i as [|i]; [exact k2_15|].
  destruct i as [|i]; [exact k2_16|].
  destruct i as [|i]; [exact k2_17|].
  destruct i as [|i]; [exact k2_18|].
  destruct i as [|i]; [exact k2_19|].
  destruct i as [|i]; [exact k2_20|].
  destruct i as [|i]; [exact k2_21|].
  destruct i as [|i]; [exact k2_22|].
  destruct i as [|i]; [exact k2_23|].
  destruct i as [|i]; [exact k2_24|].
  destruct i as [|i]; [exact k2_25|].
  destruct i as [|i]; [exact k2_26|].
  destruct i as [|i]; [exact k2_27|].
  destruct i as [|i]; [exact k2_28|].
  destruct i as [|i]; [exact k2_29|].
  lia.
Qed.
