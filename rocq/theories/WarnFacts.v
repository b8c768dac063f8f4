(** Warnings of .castep files. *)
From Verif Require Import PyBase PyVal DictUtil DictFacts PyFacts Regex RegexFacts RegexComplete Stream StreamFacts NeedFacts PhraseFacts TextParsers TextParsersFacts SpecTable
  TextFiles FileParts FileParts4 FileParts5 TypeConv Header NumSpec SpecStr SpecLine NumFacts NumProps SpecMd SpecBands SpecDict
  SpecCastep SpecCastep2 SpecCastep3 CastepFacts PhononFacts Castep2Facts Castep3Facts LangFacts.
From Verif Require Import HeaderFacts BandsFacts CastepRes CastepBlocks CastepNum CastepRows CastepRest CastepFile SpecCastepFile SpecCastepRun CastepFileFacts QuietFacts CastepRunFacts CastepPieces CastepKinds CastepKinds2 CastepRuns SpecWarn.
From Verif Require Import MdFacts.
From Verif Require GenFacts PspotFacts StrUtilFacts TypeConvFacts Castep5Facts.
Local Open Scope list_scope.
Local Open Scope nat_scope.

(** ** The line that starts a warning *)
Lemma warn_word w : map lower_c w = $"warning" -> exists x t, w = x :: t /\ is_space x = false.
Proof.
  intros H. destruct w as [|x t]; [discriminate|]. exists x, t. split; [reflexivity|]. injection H as H _. rewrite <- space_lower, H. reflexivity.
Qed.
Lemma warn_nocolon w : map lower_c w = $"warning" -> ~ In ":"%char w.
Proof. intros H I. apply (in_map lower_c) in I. rewrite H in I. cbn in I. intuition discriminate. Qed.
Lemma space_nocolon i : forallb is_space i = true -> ~ In ":"%char i.
Proof. intros H I. rewrite forallb_forall in H. specialize (H _ I). discriminate. Qed.
Lemma notof_colon q : forallb (fun c => negb (existsb (Ascii.eqb c) ($":"))) q = true <-> ~ In ":"%char q.
Proof.
  rewrite forallb_forall. split.
  - intros H I. specialize (H _ I). discriminate.
  - intros H c I. cbn. destruct (Ascii.eqb_spec c ":"); [subst; contradiction|reflexivity].
Qed.
Lemma colon_unique (q q' : str) : ~ In ":"%char q -> ~ In ":"%char q' -> forall u u', q ++ ":"%char :: u = q' ++ ":"%char :: u' -> q = q' /\ u = u'.
Proof.
  revert q'. induction q as [|x q IH]; intros [|y q'] H H' u u' E; cbn in *.
  - now injection E as ->.
  - injection E as <- _. exfalso. tauto.
  - injection E as -> _. exfalso. tauto.
  - injection E as -> E. destruct (IH q' (fun I => H (or_intror I)) (fun I => H' (or_intror I)) u u' E) as [-> ->]. now split.
Qed.
(** A prefix without colons is part of what stands before the colon. *)
Lemma before_colon (v : str) : ~ In ":"%char v -> forall q u s, v ++ s = q ++ ":"%char :: u -> exists t, q = v ++ t.
Proof.
  induction v as [|x v IH]; intros H q u s E; [now exists q|]. destruct q as [|y q]; cbn in E.
  - injection E as -> _. exfalso. apply H. now left.
  - injection E as <- E. destruct (IH (fun I => H (or_intror I)) q u s E) as (t & ->). now exists t.
Qed.
Lemma word_at i w i' w' r r' : forallb is_space i = true -> forallb is_space i' = true -> map lower_c w = $"warning" -> map lower_c w' = $"warning" ->
  i ++ w ++ r = i' ++ w' ++ r' -> i = i'.
Proof.
  intros H H' W W' E. destruct (warn_word _ W) as (x & t & -> & X). destruct (warn_word _ W') as (x' & t' & -> & X').
  cbn [app] in E. apply (run_unique is_space) in E as (E & _); auto.
Qed.
Definition lit_warning : re := RLitI "warning".
Lemma lit_caps t : forall p s c p' s' c', den (RLitI_l t) p s c p' s' c' -> c' = c.
Proof.
  induction t as [|x t IH]; intros p s c p' s' c' H; [destruct H as (_ & _ & H); auto|]. destruct t as [|y t]; [destruct H as (z & _ & _ & _ & H); auto|].
  destruct H as (p1 & s1 & c1 & (z & _ & _ & _ & H1) & H2). apply IH in H2. congruence.
Qed.
Lemma den_warning p s c p' s' c' : den lit_warning p s c p' s' c' -> exists w, map lower_c w = $"warning" /\ s = w ++ s' /\ c' = c.
Proof. intros D. pose proof (lit_caps _ _ _ _ _ _ _ D) as C. apply GenFacts.den_lit_i in D as (w & E & ->). exists w. split; [exact E|]. split; [reflexivity|exact C]. Qed.
Lemma den_warning_intro w p s c : map lower_c w = $"warning" -> den lit_warning p (w ++ s) c (pa p w) s c.
Proof. intros H. apply PspotFacts.den_of_fp. apply GenFacts.fp_lit_i. exact H. Qed.
Lemma firstn_gap (i s : str) : firstn (length (i ++ s) - length s) (i ++ s) = i.
Proof. rewrite app_length. replace (length i + length s - length s) with (length i) by lia. rewrite firstn_app, firstn_all, Nat.sub_diag. cbn. apply app_nil_r. Qed.
Lemma den_indent p s c p' s' c' : den (RGrp "1" ws_star) p s c p' s' c' -> exists i, forallb is_space i = true /\ s = i ++ s' /\ c' = ("1"%string, i) :: c.
Proof.
  intros (c1 & D & ->). apply (den_rep_chr true 0 None is_space) in D as (i & -> & _ & _ & Hi & _ & <-). exists i. now rewrite firstn_gap.
Qed.
Lemma den_indent_intro i p s c : forallb is_space i = true -> den (RGrp "1" ws_star) p (i ++ s) c (pa p i) s (("1"%string, i) :: c).
Proof.
  intros H. exists c. rewrite firstn_gap. split; [|reflexivity]. apply (TypeConvFacts.den_rep_intro true 0 None is_space); [exact H|lia|exact I].
Qed.
Definition note_re : re := RSeqs [ws_star; RPlus (c_notof ":"); RChar ":"].
Lemma den_note p s c p' s' c' : den note_re p s c p' s' c' -> exists q, ~ In ":"%char q /\ s = q ++ ":"%char :: s' /\ c' = c.
Proof.
  intros (p1 & s1 & c1 & D1 & p2 & s2 & c2 & D2 & D3). apply (den_rep_chr true 0 None is_space) in D1 as (a & -> & _ & _ & Ha & _ & <-).
  apply den_rep_chr in D2 as (q & -> & _ & _ & Hq & _ & <-). apply StrUtilFacts.den_char in D3 as (-> & _ & ->).
  exists (a ++ q). split; [|split; [now rewrite app_assoc|reflexivity]]. rewrite in_app_iff. intros [I|I]; [now apply space_nocolon in I|].
  rewrite forallb_forall in Hq. specialize (Hq _ I). discriminate.
Qed.
Lemma den_note_intro q p s c : q <> [] -> ~ In ":"%char q -> den note_re p (q ++ ":"%char :: s) c (Some ":"%char) s c.
Proof.
  intros N H. eexists _, _, _. split; [apply (TypeConvFacts.den_rep_intro true 0 None is_space [] p (q ++ ":"%char :: s) c); [reflexivity|cbn; lia|exact I]|].
  eexists _, _, _. split; [apply (TypeConvFacts.den_rep_intro true 1 None); [|destruct q; [congruence|cbn; lia]|exact I]|].
  - apply forallb_forall. intros x Hx. cbn. destruct (Ascii.eqb_spec x ":"); [subst; contradiction|reflexivity].
  - apply StrUtilFacts.den_char. split; [reflexivity|]. now split.
Qed.
Lemma warning_match l i : warned l i -> exists x, re_match WARNING_RE l = Some x /\ group_s x "1" = i.
Proof.
  intros (p & w & r & Hi & Hw & -> & Hp). apply blanks_iff in Hi. change (text_of "warning") with ($"warning") in Hw.
  assert (T : re_match_test WARNING_RE (p ++ i ++ w ++ r) = true).
  { apply match_test_iff; [reflexivity|]. destruct Hp as [[-> _]|(q & -> & N & C & _)].
    - eexists _, _, _. cbn [app]. eapply PspotFacts.den_seq; [apply PspotFacts.den_skip|]. eapply PspotFacts.den_seq; [apply den_indent_intro; exact Hi|]. now apply den_warning_intro.
    - eexists _, _, _. rewrite <- app_assoc. cbn [app]. eapply PspotFacts.den_seq.
      + exists 1. split; [lia|]. split; [cbn; lia|]. eexists _, _, _. split; [apply (den_note_intro q None); assumption|]. cbn. auto.
      + eapply PspotFacts.den_seq; [apply den_indent_intro; exact Hi|]. now apply den_warning_intro. }
  unfold re_match_test in T. destruct (re_match WARNING_RE (p ++ i ++ w ++ r)) as [x|] eqn:E; [|discriminate]. exists x. split; [reflexivity|].
  unfold re_match, match_at in E. apply m_sound in E as (p' & s' & c' & D & E). injection E as <-. unfold group_s. cbn [m_caps].
  destruct D as (p1 & s1 & c1 & D1 & p2 & s2 & c2 & D2 & D3). apply den_indent in D2 as (i' & Hi' & -> & ->). apply den_warning in D3 as (w' & Hw' & -> & ->).
  cbn [cap]. change (cap (("1"%string, i') :: c1) "1") with (Some i'). cbn iota.
  apply Castep5Facts.den_opt in D1 as [(_ & E & _)|D1].
  - destruct Hp as [[-> _]|(q & -> & N & C & M)]; [symmetry; now apply (word_at i w i' w' r s')|]. exfalso. rewrite <- app_assoc in E. cbn [app] in E.
    assert (V : ~ In ":"%char (i' ++ w')). { rewrite in_app_iff. intros [I|I]; [now apply space_nocolon in I|now apply warn_nocolon in I]. }
    destruct (before_colon (i' ++ w') V q (i ++ w ++ r) s') as (t & ->); [now rewrite <- app_assoc|]. apply M. exists (map lower_c i'), (map lower_c t).
    now rewrite !map_app, <- app_assoc, Hw'.
  - apply den_note in D1 as (q' & C' & E & _). destruct Hp as [[-> M]|(q & -> & N & C & M)].
    + exfalso. cbn [app] in E. assert (V : ~ In ":"%char (i ++ w)). { rewrite in_app_iff. intros [I|I]; [now apply space_nocolon in I|now apply warn_nocolon in I]. }
      destruct (before_colon (i ++ w) V q' (i' ++ w' ++ s') r) as (t & ->); [now rewrite <- app_assoc|]. rewrite <- !app_assoc in E. apply app_inv_head in E. apply app_inv_head in E. subst r.
      apply M. exists (map lower_c (t ++ ":"%char :: i')), (map lower_c s'). rewrite <- Hw', <- !map_app. f_equal. now rewrite <- app_assoc.
    + rewrite <- app_assoc in E. cbn [app] in E. apply colon_unique in E as [_ E]; [|assumption..]. symmetry. now apply (word_at i w i' w' r s').
Qed.
Lemma warned_once l i i' : warned l i -> warned l i' -> i = i'.
Proof. intros H H'. apply warning_match in H as (x & E & <-), H' as (x' & E' & <-). rewrite E in E'. now injection E' as <-. Qed.

(** ** The lines of the warning *)
Lemma further_iff i l : further i l <-> isempty (strip l) || negb (match strip_prefix i l with Some (c :: _) => is_space c | _ => false end) = false.
Proof.
  rewrite orb_false_iff, negb_false_iff. unfold further. split.
  - intros [B (c & t & Hc & ->)]. split; [destruct (isempty _) eqn:E; [apply strip_empty in E; contradiction|reflexivity]|].
    assert (E : strip_prefix i (i ++ c :: t) = Some (c :: t)) by now apply strip_prefix_some. rewrite E. now apply blank_iff.
  - intros [B H]. split; [intros X; apply strip_empty in X; congruence|]. destruct (strip_prefix i l) as [[|c t]|] eqn:E; try discriminate.
    apply strip_prefix_some in E. exists c, t. split; [now apply blank_iff|exact E].
Qed.
Definition more (w : str) (ws : list str) : str := fold_left (fun w x => w ++ $" " ++ x) ws w.
Lemma more_joined ws : forall w, more w ws = joined ($" ") (w :: ws).
Proof.
  induction ws as [|x ws IH]; intros w; [reflexivity|]. unfold more. cbn [fold_left]. fold (more (w ++ $" " ++ x) ws). rewrite IH.
  change (joined ($" ") (w :: x :: ws)) with (w ++ $" " ++ joined ($" ") (x :: ws)). cbn [joined]. destruct ws; [now rewrite <- ?app_assoc|]. now rewrite <- !app_assoc.
Qed.
Lemma lines_more i cs ws : Forall (further i) cs -> Forall2 trimmed cs ws -> forall w f rest, warning_lines i w f (cs ++ rest) = warning_lines i (more w ws) (match cs with [] => f | _ => false end) rest.
Proof.
  intros H T. induction T as [|c x cs ws Tc T IH]; intros w f rest; [reflexivity|]. apply Forall_cons_iff in H as [Hc H].
  cbn [app warning_lines]. apply further_iff in Hc. rewrite Hc, (trimmed_strip _ _ Tc), (IH H). now destruct cs.
Qed.
Lemma lines_stop i w f x rest : ~ further i x -> warning_lines i w f (x :: rest) = (w, if f then rest else x :: rest).
Proof. intros H. cbn [warning_lines]. destruct (_ || _) eqn:E; [reflexivity|]. apply further_iff in E. contradiction. Qed.

(** ** One turn of the loop *)
Lemma warning_before iter rec F l i : warned l i -> nothing_before "warning" l -> forall rest st,
  castep_step iter rec F st l rest = only F F_SYS_INFO warning_line l [] rest st.
Proof.
  intros H N rest st. apply (line_step iter rec F 6 (re_match_test WARNING_RE)); [|reflexivity|].
  - apply (before_passes _ _ _ "warning"); [vm_compute; reflexivity|exact N].
  - apply warning_match in H as (x & E & _). unfold re_match_test. now rewrite E.
Qed.
Lemma warning_step iter rec F l cs v es rest st : In F_SYS_INFO F -> warning l cs v -> Forall proper es -> s_run st = run_of false es ->
  exists i, warned l i /\ castep_step iter rec F st l (cs ++ rest) =
    (let (_, rest') := warning_lines i [] (match cs with [] => true | _ => false end) rest in
     match rest with [] => Ok (with_run st (run_of false (es ++ [Appends "warning" v])), [])
     | x :: _ => if isempty (strip x) || negb (match strip_prefix i x with Some (c :: _) => is_space c | _ => false end)
                 then Ok (with_run st (run_of false (es ++ [Appends "warning" v])), rest') else castep_step iter rec F st l (cs ++ rest) end).
Proof.
  intros A (i & w & ws & H & N & Hc & Tl & Tc & ->) P E. exists i. split; [exact H|]. rewrite (warning_before iter rec F l i H N). rewrite only_on by exact A.
  unfold warning_line. destruct (warning_match _ _ H) as (x & Ex & Ei). rewrite Ex, Ei, (lines_more i cs ws Hc Tc), (trimmed_strip _ _ Tl), more_joined.
  assert (R : forall r', (st0 <- in_run st (fun r => append_to r (kstr "warning") (VStr (joined ($" ") (w :: ws)))) ;; Ok (st0, r')) =
    Ok (with_run st (run_of false (es ++ [Appends "warning" (VStr (joined ($" ") (w :: ws)))])), r' : list str)).
  { intros r'. unfold in_run. rewrite E, (run_appends es "warning" _ P eq_refl). reflexivity. }
  destruct rest as [|y rest]; cbn [warning_lines]; [apply R|]. destruct (_ || _); [apply R|]. now destruct (warning_lines i ([] ++ _) false rest).
Qed.
Lemma step_end iter rec F l cs v es st : In F_SYS_INFO F -> warning l cs v -> Forall proper es -> s_run st = run_of false es ->
  castep_step iter rec F st l cs = Ok (with_run st (run_of false (es ++ [Appends "warning" v])), []).
Proof. intros A W P E. destruct (warning_step iter rec F l cs v es [] st A W P E) as (i & _ & X). rewrite app_nil_r in X. rewrite X. reflexivity. Qed.
Lemma step_on iter rec F l cs v x es rest st : In F_SYS_INFO F -> warning l cs v -> ends_warning l x -> Forall proper es -> s_run st = run_of false es ->
  castep_step iter rec F st l (cs ++ x :: rest) = Ok (with_run st (run_of false (es ++ [Appends "warning" v])), match cs with [] => rest | _ => x :: rest end).
Proof.
  intros A W (i' & Hi' & N) P E. destruct (warning_step iter rec F l cs v es (x :: rest) st A W P E) as (i & Hi & X). rewrite (warned_once _ _ _ Hi' Hi) in N.
  rewrite X, lines_stop by exact N. destruct (_ || _) eqn:Q; [now destruct cs|]. apply further_iff in Q. contradiction.
Qed.

(** ** Files *)
Lemma warns_read iter rec F ls es : warns F ls es -> Forall proper es /\ forall es0 st n, Forall proper es0 -> s_run st = run_of false es0 -> length ls <= n ->
  file_loop (castep_step iter rec F) n st ls = Ok (with_run st (run_of false (es0 ++ es))).
Proof.
  induction 1 as [ls es H|l ls es ls' es' i A H W N R IH|l cs v ls es A H W|l cs v x ls es ls' es' A H W C X R IH|l v x ls es ls' es' A H W X R IH];
    destruct (pieces_read iter rec F _ _ H) as [Pe Y].
  - split; [exact Pe|]. intros es0 st n P E L. destruct (Y es0 st [] n P E) as (n' & _ & Z); [now rewrite app_nil_r|]. rewrite app_nil_r in Z. rewrite Z. now destruct n'.
  - destruct IH as [IH1 IH2]. split; [apply Forall_app; now split|]. intros es0 st n P E L. destruct (Y es0 st (l :: ls') n P E L) as (n' & L' & Z). rewrite Z.
    destruct n'; [cbn in L'; lia|]. cbn [length] in L'. erewrite loop_step; [|rewrite (warning_before iter rec F l i W N); now apply only_off|lia].
    rewrite (IH2 (es0 ++ es)); [now rewrite with_with, <- app_assoc|apply Forall_app; now split|reflexivity|lia].
  - split; [apply proper_snoc; [exact Pe|reflexivity]|]. intros es0 st n P E L. destruct (Y es0 st (l :: cs) n P E L) as (n' & L' & Z). rewrite Z.
    destruct n'; [cbn in L'; lia|]. cbn [length] in L'. erewrite loop_step; [|apply (step_end iter rec F l cs v (es0 ++ es)); [exact A|exact W|apply Forall_app; now split|reflexivity]|lia].
    rewrite with_with, <- app_assoc. now destruct n'.
  - destruct IH as [IH1 IH2]. split; [apply Forall_app; split; [exact Pe|now constructor]|]. intros es0 st n P E L. destruct (Y es0 st (l :: cs ++ x :: ls') n P E L) as (n' & L' & Z). rewrite Z.
    destruct n'; [cbn in L'; lia|]. cbn [length] in L'. erewrite loop_step; [|apply (step_on iter rec F l cs v x (es0 ++ es)); [exact A|exact W|exact X|apply Forall_app; now split|reflexivity]|lia].
    destruct cs as [|c cs]; [congruence|]. rewrite app_length in L'. rewrite (IH2 ((es0 ++ es) ++ [Appends "warning" v])).
    + now rewrite !with_with, <- !app_assoc.
    + apply proper_snoc; [apply Forall_app; now split|reflexivity].
    + reflexivity.
    + cbn [length] in *. lia.
  - destruct IH as [IH1 IH2]. split; [apply Forall_app; split; [exact Pe|now constructor]|]. intros es0 st n P E L. destruct (Y es0 st (l :: x :: ls') n P E L) as (n' & L' & Z). rewrite Z.
    destruct n'; [cbn in L'; lia|]. cbn [length] in L'. erewrite loop_step; [|apply (step_on iter rec F l [] v x (es0 ++ es)); [exact A|exact W|exact X|apply Forall_app; now split|reflexivity]|cbn [length]; lia].
    rewrite (IH2 ((es0 ++ es) ++ [Appends "warning" v])).
    + now rewrite !with_with, <- !app_assoc.
    + apply proper_snoc; [apply Forall_app; now split|reflexivity].
    + reflexivity.
    + lia.
Qed.
Theorem file_of_warnings iter F ls es : warns F ls es -> parse_castep_file iter F ls = Ok (VList (map (VDict true) (file_read [es]))).
Proof.
  intros H. enough (E : forall d, parse_castep iter d F ls = Ok (file_read [es])) by (unfold parse_castep_file; now rewrite E). intros d.
  assert (E : forall rec, (st <- over_file (castep_step iter rec F) {| s_runs := []; s_run := []; s_mix := None |} ls ;; close_runs st) = Ok (file_read [es])).
  { intros rec. destruct (warns_read iter rec F ls es H) as [Pe X]. unfold over_file. rewrite (X [] _ (length ls)); [|constructor|reflexivity|lia]. cbn [bind app].
    exact (close_last (with_run {| s_runs := []; s_run := []; s_mix := None |} (run_of false es)) es Pe eq_refl). }
  destruct d; apply E.
Qed.
(** The line after a warning of one line is not read. *)
Lemma loop_fuel iter rec F : forall n m st ls, length ls <= n -> length ls <= m -> file_loop (castep_step iter rec F) n st ls = file_loop (castep_step iter rec F) m st ls.
Proof.
  induction n as [|n IH]; intros [|m] st [|l ls] L1 L2; try reflexivity; try (cbn in L1, L2; lia). cbn [file_loop]. cbn in L1, L2.
  destruct (castep_step iter rec F st l ls) as [[st' r']|] eqn:E; cbn [bind]; [|reflexivity]. apply castep_step_len in E. apply IH; lia.
Qed.
Theorem next_line_lost iter F ls es l v x x' rest : In F_SYS_INFO F -> pieces F ls es -> warning l [] v -> ends_warning l x -> ends_warning l x' ->
  parse_castep_file iter F (ls ++ l :: x :: rest) = parse_castep_file iter F (ls ++ l :: x' :: rest).
Proof.
  intros A H W X X'. assert (G : forall rec y, ends_warning l y ->
    over_file (castep_step iter rec F) {| s_runs := []; s_run := []; s_mix := None |} (ls ++ l :: y :: rest) =
    file_loop (castep_step iter rec F) (length rest) (with_run {| s_runs := []; s_run := []; s_mix := None |} (run_of false (es ++ [Appends "warning" v]))) rest).
  { intros rec y Y. destruct (pieces_read iter rec F _ _ H) as [Pe Z]. unfold over_file.
    destruct (Z [] {| s_runs := []; s_run := []; s_mix := None |} (l :: y :: rest) (length (ls ++ l :: y :: rest))) as (n' & L & E); [constructor|reflexivity|lia|]. rewrite E.
    destruct n'; [cbn in L; lia|]. cbn [length] in L. erewrite loop_step; [|apply (step_on iter rec F l [] v y es); [exact A|exact W|exact Y|exact Pe|reflexivity]|cbn [length]; lia].
    apply loop_fuel; lia. }
  unfold parse_castep_file. assert (L : length (ls ++ l :: x :: rest) = length (ls ++ l :: x' :: rest)) by now rewrite !app_length. rewrite L.
  destruct (length (ls ++ l :: x' :: rest)); cbn [parse_castep]; now rewrite (G _ x X), (G _ x' X').
Qed.
