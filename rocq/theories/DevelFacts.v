(** Proofs about DEVEL_CODE blocks. *)
From Verif Require Import PyBase PyFacts PyVal Regex RegexFacts RegexComplete CastepRes NumSpec NumFacts NumProps NumVal
  StrUtil SpecStr StrUtilFacts SpecLine SpecType TypeConv TypeConvFacts DictUtil SpecDict DictFacts Stream StreamFacts TextParsers
  SpecTable SpecMd MdFacts SpecBands TextParsersFacts SpecCastep2 Castep2Facts PairFacts CellParam Pspot SpecDevel.
From Verif Require Import IntStr.
From Verif Require CellFacts CellPosFacts CellBlockFacts PspotFacts Castep6Facts Castep7Facts CastepFacts FinalFacts.
Local Open Scope list_scope.
Local Open Scope nat_scope.

Lemma trimmed_lines mid ws : Forall2 trimmed mid ws -> map strip mid = ws.
Proof. induction 1 as [|x w mid ws T _ IH]; [reflexivity|]. cbn [map]. now rewrite IH, (trimmed_strip _ _ T). Qed.
(** ** Words with spaces between them *)
Lemma space_blank c : space c -> is_space c = true.
Proof. now intros [->| ->]. Qed.
Lemma spaces_blank g : spaces g -> forallb is_space g = true.
Proof. intros H. apply forallb_forall. intros c Hc. unfold spaces in H. rewrite Forall_forall in H. apply space_blank; auto. Qed.
Lemma space_word c : space c -> is_word c = false.
Proof. now intros [->| ->]. Qed.
Lemma pa_last p g : g <> [] -> spaces g -> exists c, pa p g = Some c /\ space c.
Proof.
  intros Hn H. destruct g as [|c g] using rev_ind; [congruence|]. rewrite pa_app. cbn. exists c. split; [reflexivity|].
  apply Forall_app in H as [_ H]. now inversion H.
Qed.
Definition before (p : option ascii) : Prop := p = None \/ exists c, p = Some c /\ space c.
Lemma spread_more g t ws : spaces g -> spread t ws -> spread (g ++ t) ws.
Proof.
  intros Hg H. inversion H; subst.
  - constructor. now apply Forall_app.
  - rewrite app_assoc. constructor; auto. now apply Forall_app.
Qed.
Lemma spread_split t ws : spread t ws -> split t = ws.
Proof.
  induction 1 as [g Hg|g w t ws Hg Hn Hb He H IH]; [now apply split_all_ws, spaces_blank|].
  rewrite split_ws_app by now apply spaces_blank.
  assert (W : PyFacts.word w) by (split; [exact Hn|apply forallb_forall; intros c Hc; apply Hb in Hc; rewrite blank_iff in Hc; now destruct (is_space c)]).
  destruct He as [->|(c & t' & -> & Hc)].
  - rewrite app_nil_r. rewrite split_word_end by exact W. rewrite <- IH. reflexivity.
  - change (c :: t') with ([c] ++ t'). rewrite split_word_ws by (auto; cbn; try congruence; now rewrite space_blank).
    rewrite <- IH. change (c :: t') with ([c] ++ t'). rewrite split_ws_app; [reflexivity|]. cbn. now rewrite space_blank.
Qed.
Lemma spread_empty t ws : spread t ws -> isempty (strip t) = isempty ws.
Proof.
  intros H. destruct (isempty (strip t)) eqn:E.
  - apply strip_empty in E. inversion H as [|g w u ? ? N B]; subst; [reflexivity|]. exfalso. destruct w as [|y w]; [congruence|].
    apply (B y); [now left|]. unfold blanks in E. rewrite Forall_forall in E. apply E. apply in_or_app. right. now left.
  - inversion H as [g G|]; subst; [|reflexivity]. exfalso. assert (X : isempty (strip t) = true); [|congruence]. apply strip_empty.
    apply Forall_forall. intros c Hc. unfold spaces in G. rewrite Forall_forall in G. apply blank_iff, space_blank. auto.
Qed.

(** ** Looking for whole words *)
Lemma iter_skip r fuel p pre s : skips r p pre s ->
  map (fun x => m_text (snd x)) (iter_from fuel r p (pre ++ s)) = map (fun x => m_text (snd x)) (iter_from fuel r (pa p pre) s).
Proof.
  intros H. destruct fuel as [|f]; [reflexivity|]. cbn [iter_from]. rewrite search_from_skip by exact H.
  destruct (search_from r (pa p pre) s) as [[pre' x]|]; reflexivity.
Qed.
Lemma iter_spread r hit : nullable r = false -> (forall c, space c -> first r c = false) ->
  forall t ws, spread t ws ->
  (forall w, In w ws -> forall p s, before p -> ended s -> if hit w : bool then exists c', fp r p w s [] c' else skips r p w s) ->
  forall fuel p, length t < fuel -> before p \/ ended t -> map (fun x => m_text (snd x)) (iter_from fuel r p t) = filter hit ws.
Proof.
  intros Hr Hf.
  assert (G0 : forall g p s, spaces g -> skips r p g s).
  { intros g p s Hg. apply skips_first; [exact Hr|]. apply forallb_forall. intros c Hc. unfold spaces in Hg. rewrite Forall_forall in Hg. now rewrite Hf by auto. }
  induction 1 as [g Hg|g w t ws Hg Hn Hb He H IH]; intros HW fuel p Hl Hp.
  - rewrite <- (app_nil_r g). rewrite iter_skip by now apply G0. destruct fuel; [reflexivity|]. cbn [iter_from]. rewrite search_from_none; [reflexivity|exact I|].
    now apply nomatch_first.
  - rewrite iter_skip by now apply G0.
    assert (B : before (pa p g)).
    { destruct g as [|x g]; [|right; apply pa_last; [discriminate|exact Hg]]. destruct Hp as [Hp|Hp]; [exact Hp|]. exfalso.
      destruct w as [|y w]; [congruence|]. destruct Hp as [Hp|(c & t' & Hp & Hc)]; [discriminate|]. cbn in Hp. injection Hp as -> _.
      apply (Hb c); [now left|]. apply blank_iff. now apply space_blank. }
    pose proof (HW w (or_introl eq_refl) (pa p g) t B He) as Hw. cbn [filter].
    assert (HW' : forall w0, In w0 ws -> forall p s, before p -> ended s -> if hit w0 then exists c', fp r p w0 s [] c' else skips r p w0 s)
      by (intros; apply HW; auto; now right).
    rewrite !app_length in Hl. destruct (hit w) eqn:E.
    + destruct Hw as (c' & F). destruct fuel as [|f]; [lia|]. cbn [iter_from]. rewrite (search_from_hit _ _ _ _ _ F). cbn [map snd m_text m_prev m_rest].
      destruct w as [|y w]; [congruence|]. f_equal. apply IH; auto. cbn in Hl. lia.
    + rewrite iter_skip by exact Hw. apply IH; auto. lia.
Qed.
Lemma findall_spread r hit t ws : nullable r = false -> (forall c, space c -> first r c = false) -> spread t ws ->
  (forall w, In w ws -> forall p s, before p -> ended s -> if hit w : bool then exists c', fp r p w s [] c' else skips r p w s) ->
  findall r t = filter hit ws.
Proof.
  intros Hr Hf H HW. unfold findall, finditer. rewrite map_map. apply (iter_spread r hit Hr Hf t ws H HW); [lia|]. left. now left.
Qed.

(** ** Taking words out *)
Lemma remove_words p : p <> [] -> (forall c, In c p -> ~ blank c) -> forall t ws, spread t ws ->
  (forall w, In w ws -> occurs p w -> w = p) ->
  forall fuel, length t < fuel ->
  spread (remove_all fuel p t) (filter (fun w => negb (str_eqb w p)) ws) /\ (ended t -> ended (remove_all fuel p t)).
Proof.
  intros Hp Hpb.
  assert (G0 : forall g fuel t, spaces g -> length (g ++ t) < fuel -> exists f, length t < f /\ remove_all fuel p (g ++ t) = g ++ remove_all f p t).
  { induction g as [|c g IH]; intros fuel t Hg Hl; [exists fuel; auto|]. inversion Hg as [|? ? Hc Hg' E]; subst. destruct fuel as [|f]; [cbn in Hl; lia|].
    cbn [app remove_all]. destruct (strip_prefix p (c :: g ++ t)) as [s'|] eqn:Q.
    - exfalso. apply strip_prefix_some in Q. destruct p as [|x p]; [congruence|]. injection Q as <- _. apply (Hpb c); [now left|]. apply blank_iff. now apply space_blank.
    - cbn in Hl. destruct (IH f t Hg') as (f' & Hf & E); [lia|]. exists f'. split; [exact Hf|]. now rewrite E. }
  assert (G1 : forall w t fuel, (forall c, In c w -> ~ blank c) -> ended t -> ~ occurs p w -> length (w ++ t) < fuel ->
               exists f, length t < f /\ remove_all fuel p (w ++ t) = w ++ remove_all f p t).
  { induction w as [|c w IH]; intros t fuel Hb He Ho Hl; [exists fuel; auto|]. destruct fuel as [|f]; [cbn in Hl; lia|].
    cbn [app remove_all]. destruct (strip_prefix p (c :: w ++ t)) as [s'|] eqn:Q.
    - exfalso. apply strip_prefix_some in Q. change (c :: w ++ t) with ((c :: w) ++ t) in Q.
      destruct (app_eq_app _ _ _ _ Q) as (l & [[E1 E2]|[E1 E2]]).
      + apply Ho. exists [], l. exact E1.
      + destruct l as [|x l]; [apply Ho; exists [], []; now rewrite E1, !app_nil_r|].
        destruct He as [->|(y & t' & -> & Hy)]; [discriminate|]. injection E2 as <- _.
        apply (Hpb y); [rewrite E1; apply in_or_app; right; now left|]. apply blank_iff. now apply space_blank.
    - cbn in Hl. destruct (IH t f) as (f' & Hf & E); [intros; apply Hb; now right|exact He| |lia|].
      + intros (a & b & ->). apply Ho. now exists (c :: a), b.
      + exists f'. split; [exact Hf|]. now rewrite E. }
  assert (G2 : forall t fuel, length t < fuel -> ended t -> ended (remove_all fuel p t)).
  { intros t fuel Hl [->|(c & t' & -> & Hc)].
    - destruct fuel; [left; reflexivity|]. cbn. destruct p; [congruence|]. now left.
    - destruct (G0 [c] fuel t') as (f & _ & E); [now constructor|exact Hl|]. right. exists c. eexists. split; [exact E|exact Hc]. }
  induction 1 as [g Hg|g w t ws Hg Hn Hb He H IH]; intros HW fuel Hl.
  - split; [|now apply G2]. destruct (G0 g fuel [] Hg) as (f & Hf & E); [now rewrite app_nil_r|]. rewrite app_nil_r in E. rewrite E.
    replace (remove_all f p []) with (@nil ascii) by (destruct f; [reflexivity|]; cbn; destruct p; [congruence|reflexivity]). rewrite app_nil_r. now constructor.
  - split; [|now apply G2]. destruct (G0 g fuel (w ++ t) Hg Hl) as (f & Hf & ->). cbn [filter].
    assert (HW' : forall w0, In w0 ws -> occurs p w0 -> w0 = p) by (intros; apply HW; auto; now right).
    destruct (str_eqb_spec w p) as [->|N].
    + cbn [negb]. apply spread_more; [exact Hg|]. destruct f as [|f]; [lia|]. cbn [remove_all].
      replace (strip_prefix p (p ++ t)) with (Some t) by (symmetry; now apply strip_prefix_some).
      apply IH; [exact HW'|]. rewrite app_length in Hf. destruct p; [congruence|]. cbn in Hf. lia.
    + cbn [negb]. destruct (G1 w t f Hb He) as (f' & Hf' & ->); [intros O; apply N; apply HW; auto; now left|exact Hf|].
      apply sp_word; [exact Hg|exact Hn|exact Hb|now apply G2|]. apply IH; auto.
Qed.
Lemma str_remove_words p t ws : p <> [] -> (forall c, In c p -> ~ blank c) -> spread t ws -> (forall w, In w ws -> occurs p w -> w = p) ->
  spread (str_remove p t) (filter (fun w => negb (str_eqb w p)) ws).
Proof. intros Hp Hb H HW. unfold str_remove. apply (remove_words p Hp Hb t ws H HW). lia. Qed.

(** ** Settings *)
Definition is_setting (w : str) : bool := chr_in "=" w.
Definition mark (c : ascii) : bool := Ascii.eqb c ":" || Ascii.eqb c "=".
Lemma run_no_mark (f : ascii -> bool) : (forall c, space c -> f c = false) ->
  forall w s u x r, (forall c, In c w -> f c = false) -> ended s -> w ++ s = u ++ x :: r -> forallb is_word u = true -> f x = true -> False.
Proof.
  intros Hf. induction w as [|c w IH]; intros s u x r Hw He E Hu Hx.
  - cbn in E. subst s. destruct He as [He|(c & t & E & Hc)]; [destruct u; discriminate|]. destruct u as [|y u]; injection E as -> E.
    + rewrite Hf in Hx; auto; discriminate.
    + cbn in Hu. rewrite space_word in Hu; auto. discriminate.
  - destruct u as [|y u]; cbn in E; injection E as -> E.
    + rewrite Hw in Hx; [discriminate|now left].
    + cbn in Hu. apply andb_true_iff in Hu as [_ Hu]. apply (IH s u x r); auto. intros; apply Hw; now right.
Qed.
Lemma space_mark c : space c -> mark c = false. Proof. now intros [->| ->]. Qed.
Lemma in_word_mark w c : in_word w -> In c w -> is_space c = false /\ mark c = false /\ c <> ";"%char /\ c <> "%"%char.
Proof.
  intros H Hc. destruct (H c Hc) as [B A]. rewrite blank_iff in B. split; [now destruct (is_space c)|].
  unfold mark. unfold among in A. cbn in A. split; [|split; intros ->; apply A; tauto].
  apply orb_false_iff. split; apply Ascii.eqb_neq; intros ->; apply A; tauto.
Qed.
Lemma val_skip w p s : (forall c, In c w -> mark c = false) -> ended s -> skips DEVEL_CODE_VAL_RE p w s.
Proof.
  revert p. induction w as [|c w IH]; intros p Hw He; [exact I|]. split; [|apply IH; auto; intros; apply Hw; now right].
  apply nomatch_den. intros p' s' c' D. unfold DEVEL_CODE_VAL_RE in D. cbn [RSeqs] in D.
  destruct D as (? & ? & ? & D1 & D). unfold RPlus, c_namechar in D1. apply den_rep_chr in D1 as (u & E & _ & _ & Hu & -> & <-).
  destruct D as (? & ? & ? & (x & -> & Hx & _) & _). 
  apply (run_no_mark mark space_mark (c :: w) s u x _ Hw He E Hu).
  revert Hx. unfold mark. destruct (Ascii.eqb x ":") eqn:E1; [reflexivity|]. cbn. rewrite E1. now rewrite orb_false_r.
Qed.
Lemma setting_parts w e : setting w e -> exists k v, w = k ++ "="%char :: v /\ k <> [] /\ forallb is_word k = true /\ v <> [] /\ in_word v /\
  normalise_key k = fst e /\ auto_type v = Ok (snd e).
Proof.
  intros H. inversion H; subst. exists k, v. apply word_iff in H0 as [H0 H0']. cbn. repeat split; auto; try (now apply H3).
  - now apply named_key.
  - now apply CellBlockFacts.single_auto.
Qed.
Lemma word_not c : is_word c = true -> mark c = false /\ is_space c = false /\ c <> "%"%char.
Proof.
  unfold is_word, is_alpha, is_digit, is_upper, is_lower, mark, is_space, in_range, ord.
  destruct c as [[] [] [] [] [] [] [] []]; cbn; intros; try discriminate; repeat split; discriminate.
Qed.
Lemma val_hit w e p s : setting w e -> ended s -> exists c', fp DEVEL_CODE_VAL_RE p w s [] c'.
Proof.
  intros H He. destruct (setting_parts _ _ H) as (k & v & -> & Kn & Kw & Vn & Vw & _). exists [].
  unfold DEVEL_CODE_VAL_RE. cbn [RSeqs]. change (k ++ "="%char :: v) with (k ++ ["="%char] ++ v).
  eapply fp_seq; [apply fp_plus_chr; [exact Kw|exact Kn|reflexivity]|].
  eapply fp_seq; [now apply fp_chr|]. apply fp_plus_chr; [|exact Vn|].
  - apply forallb_forall. intros c Hc. destruct (in_word_mark v c Vw Hc) as (B & _ & S & _).
    destruct (Ascii.eqb_spec c " "); [now subst|]. destruct (Ascii.eqb_spec c tab); [now subst|]. destruct (Ascii.eqb_spec c newline); [now subst|].
    destruct (Ascii.eqb_spec c ";"); [now subst|reflexivity].
  - destruct He as [->|(c & t & -> & [->| ->])]; [exact I|reflexivity|reflexivity].
Qed.
Lemma key_value_ok w e : setting w e -> key_value w = Ok e.
Proof.
  intros H. destruct (setting_parts _ _ H) as (k & v & -> & Kn & Kw & Vn & Vw & N & A). unfold key_value. fold mark.
  assert (S2 : forall v, (forall c, In c v -> mark c = false) -> split_on mark v = [v]).
  { induction v0 as [|c v0 IH]; intros Hv; [reflexivity|]. cbn. rewrite (Hv c) by now left. now rewrite IH by (intros; apply Hv; now right). }
  assert (S1 : forall k, forallb is_word k = true -> split_on mark (k ++ "="%char :: v) = [k; v]).
  { induction k0 as [|c k0 IH]; intros Hk.
    - cbn. rewrite S2; [reflexivity|]. intros c Hc. now apply (in_word_mark v c Vw Hc).
    - cbn in Hk. apply andb_true_iff in Hk as [Hc Hk]. cbn. apply word_not in Hc as [-> _]. now rewrite IH. }
  change (fun c => Ascii.eqb c ":" || Ascii.eqb c "=") with mark. rewrite S1 by exact Kw. rewrite A. unfold bind. rewrite N. now destruct e.
Qed.
Lemma setting_is w e : setting w e -> is_setting w = true.
Proof. intros H. destruct (setting_parts _ _ H) as (k & v & -> & _). apply chr_in_iff. apply in_or_app. right. now left. Qed.
Lemma plain_not w : (forall c, In c w -> mark c = false) -> is_setting w = false.
Proof.
  intros H. destruct (is_setting w) eqn:E; [|reflexivity]. apply chr_in_iff in E. now apply H in E.
Qed.
Lemma vals_of t ws : spread t ws -> (forall w, In w ws -> (exists e, setting w e) \/ (forall c, In c w -> mark c = false)) ->
  findall DEVEL_CODE_VAL_RE t = filter is_setting ws.
Proof.
  intros H HW. apply findall_spread with (1 := eq_refl); [now intros c [->| ->]|exact H|].
  intros w Hw p s _ He. destruct (HW w Hw) as [(e & X)|X].
  - rewrite (setting_is _ _ X). now apply val_hit with e.
  - rewrite (plain_not _ X). now apply val_skip.
Qed.

(** ** Flags *)
Definition is_flagc (c : ascii) : bool := is_alpha c || Ascii.eqb c "_" || Ascii.eqb c "-".
Lemma flag_char_word c : flag_char c -> is_word c = true /\ is_flagc c = true.
Proof.
  intros [H| ->]; [|split; reflexivity]. apply CastepFacts.letter_alpha in H.
  unfold is_word, is_alnum, is_flagc. now rewrite H.
Qed.
Lemma before_word p : before p -> match p with Some x => is_word x | None => false end = false.
Proof. intros [->|(c & -> & Hc)]; [reflexivity|now apply space_word]. Qed.
Lemma ended_word s : ended s -> match hd_error s with Some x => is_word x | None => false end = false.
Proof. intros [->|(c & t & -> & Hc)]; [reflexivity|now apply space_word]. Qed.
Lemma ended_hd (f : ascii -> bool) s : (forall c, space c -> f c = false) -> ended s -> hd_not f s.
Proof. intros Hf [->|(c & t & -> & Hc)]; [exact I|]. cbn. auto. Qed.
Lemma fp_seq0 a b p t s c c1 c2 : fp a p [] (t ++ s) c c1 -> fp b p t s c1 c2 -> fp (RSeq a b) p t s c c2.
Proof. intros H1 H2. exact (fp_seq a b p [] t s c c1 c2 H1 H2). Qed.
Lemma fp_seq1 a b p t s c c1 c2 : fp a p t s c c1 -> fp b (pa p t) [] s c1 c2 -> fp (RSeq a b) p t s c c2.
Proof. intros H1 H2. rewrite <- (app_nil_r t). exact (fp_seq a b p t [] s c c1 c2 H1 H2). Qed.
Lemma flag_hit w p s : flag w -> before p -> ended s -> exists c', fp PRESENT_RE p w s [] c'.
Proof.
  intros (Hw & (c0 & t0 & E0 & H0) & (t1 & c1 & E1 & H1)) Hp He. exists []. unfold PRESENT_RE. cbn [RSeqs].
  eapply fp_seq0; [apply fp_behind; destruct Hp as [->|(c & -> & [->| ->])]; reflexivity|].
  eapply fp_seq0; [apply fp_wordb|].
  { unfold word_boundary. cbn [pa]. rewrite before_word by exact Hp. rewrite E0. cbn. now rewrite (proj1 (flag_char_word _ H0)). }
  eapply fp_seq1; [apply fp_plus_chr|].
  - apply forallb_forall. intros c Hc. apply Hw in Hc as [Hc| ->]; [now apply flag_char_word|reflexivity].
  - rewrite E0. discriminate.
  - apply ended_hd; [now intros c [->| ->]|exact He].
  - eapply fp_seq1; [apply fp_wordb|].
    + unfold word_boundary. cbn [app]. rewrite ended_word by exact He. cbn [pa]. rewrite E1, pa_app. cbn. now rewrite (proj1 (flag_char_word _ H1)).
    + apply fp_ahead_neg. apply nomatch_first; [reflexivity|]. destruct He as [->|(c & t & -> & [->| ->])]; reflexivity.
Qed.
Lemma flagc_word c : is_flagc c = true -> is_word c = true \/ c = "-"%char.
Proof.
  unfold is_flagc, is_word, is_alnum. rewrite !orb_true_iff, Ascii.eqb_eq. intros [[H|H]|H]; auto. right. now apply Ascii.eqb_eq in H.
Qed.
Lemma alpha_letter c : is_alpha c = true -> SpecCell.letter c.
Proof. unfold is_alpha, is_upper, is_lower, in_range, ord, SpecCell.letter. rewrite orb_true_iff, !andb_true_iff, !N.leb_le. tauto. Qed.
Definition prevw (p : option ascii) : bool := match p with Some x => is_word x | None => false end.
Lemma pa_word l q : l <> [] -> forallb is_word l = true -> prevw (pa q l) = true.
Proof.
  intros Hn H. destruct l as [|c l _] using rev_ind; [congruence|]. rewrite pa_app. rewrite forallb_app in H. apply andb_true_iff in H as [_ H].
  cbn in *. now rewrite andb_true_r in H.
Qed.
(** What a match of the pattern for flags is *)
Lemma present_den p s c p' s' c' : den PRESENT_RE p s c p' s' c' -> exists u x r,
  s = (x :: u) ++ r /\ forallb is_flagc (x :: u) = true /\ match p with Some y => mark y | None => false end = false /\
  negb (Bool.eqb (prevw p) (is_word x)) = true /\ word_boundary (pa p (x :: u)) r = true /\ match r with y :: _ => mark y = false | [] => True end.
Proof.
  unfold PRESENT_RE. cbn [RSeqs]. intros D.
  destruct D as (? & ? & ? & (-> & -> & -> & D1) & D).
  destruct D as (? & ? & ? & (D2 & -> & -> & ->) & D).
  destruct D as (? & ? & ? & D3 & D). unfold RPlus in D3. apply den_rep_chr in D3 as (u & -> & Hl & _ & Hu & -> & ->).
  destruct D as (? & ? & ? & (D4 & <- & <- & <-) & D).
  destruct D as (<- & <- & <- & D). destruct u as [|x u]; [cbn in Hl; lia|]. match type of D4 with word_boundary _ ?r = _ => exists u, x, r; rename r into s' end. split; [reflexivity|]. split; [exact Hu|]. split; [symmetry; exact D1|].
  split; [exact D2|]. split; [exact D4|]. destruct s' as [|y r]; [exact I|]. revert D. cbn. unfold mark.
  destruct (Ascii.eqb y ":"); [discriminate|]. destruct (Ascii.eqb y "="); [discriminate|reflexivity].
Qed.
Lemma flag_skip w e p s : setting w e -> steady w -> ended s -> skips PRESENT_RE p w s.
Proof.
  intros H St He. destruct (setting_parts _ _ H) as (k & v & -> & Kn & Kw & Vn & Vw & _).
  (** in the value *)
  assert (V : forall v2 v1 q, v = v1 ++ v2 -> pa (Some "="%char) v1 = q -> skips PRESENT_RE q v2 s).
  { induction v2 as [|y v2 IH]; intros v1 q Ev Eq; [exact I|]. split.
    - apply nomatch_den. intros p' s' c' D. apply present_den in D as (u & x & r & E & Hu & Hm & Hx & _). cbn [app] in E. injection E as <- _.
      cbn in Hu. apply andb_true_iff in Hu as [Hy _].
      destruct v1 as [|z v1 _] using rev_ind; [cbn in Eq; subst q; discriminate|]. rewrite pa_app in Eq. cbn in Eq. subst q. cbn in Hx.
      destruct (St k v1 z y v2) as [S1 S2]; [rewrite Ev, <- app_assoc; reflexivity|].
      destruct (flagc_word y Hy) as [W| ->].
      + rewrite W in Hx. destruct (is_word z) eqn:Z; [discriminate|]. assert (X : word_char z).
        { apply S1. unfold is_flagc in Hy. rewrite !orb_true_iff, !Ascii.eqb_eq in Hy. destruct Hy as [[Hy| ->]| ->]; [left; now apply alpha_letter|now right|discriminate]. }
        apply word_char_iff in X. congruence.
      + assert (X : is_word z = false) by (destruct (is_word z) eqn:Z; [exfalso; apply S2; [reflexivity|now apply word_char_iff]|reflexivity]).
        rewrite X in Hx. discriminate.
    - apply (IH (v1 ++ [y])); [now rewrite <- app_assoc|]. rewrite pa_app. reflexivity. }
  (** the sign *)
  assert (E : forall q, skips PRESENT_RE q ("="%char :: v) s).
  { intros q. split; [|apply (V v []); reflexivity]. apply nomatch_den. intros p' s' c' D. apply present_den in D as (u & x & r & E & Hu & _). cbn [app] in E. injection E as <- _. discriminate. }
  (** the name *)
  assert (R : forall k2 u r rest, k2 ++ "="%char :: rest = u ++ r -> forallb is_word k2 = true -> forallb is_flagc u = true -> exists k3, k2 = u ++ k3 /\ r = k3 ++ "="%char :: rest).
  { induction k2 as [|c k2 IH]; intros u r rest Eq Hk Hu.
    - destruct u as [|y u]; [exists []; auto|]. cbn in Eq. injection Eq as <- _. discriminate.
    - destruct u as [|y u]; [exists (c :: k2); auto|]. cbn in Eq. injection Eq as <- Eq. cbn in Hk, Hu. apply andb_true_iff in Hk as [_ Hk]. apply andb_true_iff in Hu as [_ Hu].
      destruct (IH _ _ _ Eq Hk Hu) as (k3 & -> & ->). now exists k3. }
  assert (K : forall k2 q, forallb is_word k2 = true -> skips PRESENT_RE q (k2 ++ "="%char :: v) s).
  { induction k2 as [|c k2 IH]; intros q Hk; [apply E|]. cbn [app]. split; [|apply IH; cbn in Hk; now apply andb_true_iff in Hk].
    apply nomatch_den. intros p' s' c' D. apply present_den in D as (u & x & r & Eq & Hu & _ & _ & Hb & Hr).
    change (c :: k2 ++ "="%char :: v) with ((c :: k2) ++ "="%char :: v) in Eq. rewrite <- app_assoc in Eq. cbn [app] in Eq.
    destruct (R (c :: k2) (x :: u) r (v ++ s)) as (k3 & Ek & ->); auto.
    destruct k3 as [|y k3]; [discriminate|]. rewrite Ek in Hk. rewrite forallb_app in Hk. apply andb_true_iff in Hk as [Hk1 Hk2].
    unfold word_boundary in Hb. cbn [hd_error app] in Hb. cbn in Hk2. apply andb_true_iff in Hk2 as [Hy2 _]. rewrite Hy2 in Hb.
    assert (L : prevw (pa q (x :: u)) = true).
    { apply pa_word; [discriminate|exact Hk1]. }
    unfold prevw in L. rewrite L in Hb. discriminate. }
  now apply K.
Qed.
Lemma flag_plain w : flag w -> w <> [] /\ (forall c, In c w -> mark c = false /\ is_space c = false /\ c <> "%"%char).
Proof.
  intros (Hw & (c0 & t0 & -> & _) & _). split; [discriminate|]. intros c Hc. apply Hw in Hc as [Hc| ->]; [|repeat split; discriminate].
  apply word_not. now apply flag_char_word.
Qed.
Lemma flags_of t ws es fs : spread t ws -> listed ws es fs -> findall PRESENT_RE t = filter (fun w => negb (is_setting w)) ws.
Proof.
  intros H L. apply findall_spread with (1 := eq_refl); [|exact H|].
  - intros c [->| ->]; reflexivity.
  - intros w Hw p s Hp He. clear H. induction L as [|w0 e ws es fs X S L IH|w0 nm ws es fs X N L IH]; [destruct Hw| |]; destruct Hw as [->|Hw]; try exact (IH Hw).
    + rewrite (setting_is _ _ X). cbn. now apply flag_skip with e.
    + rewrite plain_not by (intros c Hc; now apply (proj2 (flag_plain _ X))). cbn. now apply flag_hit.
Qed.

(** ** Groups *)
(** A run up to the last place where something follows *)
Lemma m_chr_nil {R} f p c (k : kont R) : m (RChr f) p [] c k = None. Proof. reflexivity. Qed.
Lemma fp_star_last f r p w t s c c' : forallb f w = true ->
  (forall a b q, a <> [] -> t ++ s = a ++ b -> nomatch r q b c) -> (forall q, fp r q t s c c') ->
  fp (RSeq (RStar (RChr f)) r) p (w ++ t) s c c'.
Proof.
  intros Hw Hno Hr R k x Hk. rewrite <- app_assoc.
  change (m (RStar (RChr f)) p (w ++ t ++ s) c (fun p' s' c0 => m r p' s' c0 k) = Some x). unfold RStar. rewrite m_rep. cbn [rep_lo].
  assert (N : forall b a q n, a <> [] -> t ++ s = a ++ b -> rep_hi (m (RChr f)) true n q b c (fun p' s' c0 => m r p' s' c0 k) = None).
  { induction b as [|y b IH]; intros a q n Ha E.
    - destruct n; cbn [rep_hi]; [now apply (Hno a [])|]. rewrite m_chr_nil. now apply (Hno a []).
    - destruct n as [|n]; cbn [rep_hi]; [now apply (Hno a (y :: b))|]. rewrite m_chr. destruct (f y).
      + destruct (length b <? length (y :: b)); [|now apply (Hno a (y :: b))]. rewrite (IH (a ++ [y])); [now apply (Hno a (y :: b))|now destruct a|now rewrite <- app_assoc].
      + now apply (Hno a (y :: b)). }
  assert (L : length w <= length (w ++ t ++ s) ) by (rewrite app_length; lia).
  revert L. generalize (length (w ++ t ++ s)) as n. revert p Hk. induction w as [|y w IH]; intros p Hk n L.
  - cbn [app] in *. assert (K : m r p (t ++ s) c k = Some x) by (apply Hr; exact Hk). destruct n as [|n]; cbn [rep_hi]; [exact K|].
    destruct (t ++ s) as [|z l] eqn:E; [rewrite m_chr_nil; exact K|]. rewrite m_chr. destruct (f z); [|exact K].
    destruct (length l <? length (z :: l)); [|exact K]. rewrite (N l [z]); [exact K|discriminate|reflexivity].
  - cbn in Hw. apply andb_true_iff in Hw as [Hy Hw]. destruct n as [|n]; [cbn in L; lia|]. cbn [rep_hi app]. rewrite m_chr, Hy.
    replace (length (w ++ t ++ s) <? length (y :: w ++ t ++ s)) with true by (symmetry; apply Nat.ltb_lt; cbn; lia).
    rewrite IH; [reflexivity|exact Hw|exact Hk|cbn in L; lia].
Qed.
Notation GEN := DEVEL_CODE_BLOCK_GENERIC_RE.
Lemma fp_backref n p v s c : cap c n = Some v -> fp (RBackref n) p v s c c.
Proof.
  intros H R k x Hk. cbn [m]. rewrite H. replace (strip_prefix v (v ++ s)) with (Some s) by (symmetry; now apply strip_prefix_some).
  rewrite <- Hk. f_equal. clear. destruct v as [|y v _] using rev_ind; [reflexivity|]. rewrite rev_app_distr, pa_app. reflexivity.
Qed.
Lemma gen_hit p T b r : T <> [] -> forallb is_word T = true -> forallb Castep6Facts.is_any b = true -> ~ occurs (text_of ":end" ++ T) r ->
  fp GEN p (T ++ ":"%char :: b ++ text_of ":end" ++ T) r [] [("1"%string, T)].
Proof.
  intros Tn Tw Hb Ho. unfold GEN. cbn [RSeqs]. change (":"%char :: b ++ text_of ":end" ++ T) with ([":"%char] ++ b ++ text_of ":end" ++ T).
  eapply fp_seq; [apply fp_grp, fp_plus_chr; [exact Tw|exact Tn|reflexivity]|].
  eapply fp_seq; [apply fp_char|]. apply (fp_star_last Castep6Facts.is_any); [exact Hb| |].
  - intros a v q Ha E. apply nomatch_den. intros p' s' c' D.
    destruct D as (p1 & s1 & c1 & D1 & D2). apply (proj1 (den_lit _ _ _ _ _ _ _)) in D1 as (-> & -> & ->). destruct D2 as (w & D2 & -> & _). cbn in D2. injection D2 as <-.
    destruct (app_eq_app _ _ _ _ E) as (l & [[E1 E2]|[E1 E2]]).
    + destruct l as [|x l].
      * apply Ho. exists [], s'. cbn [app] in E2. rewrite <- E2. cbn [app]. now rewrite <- !app_assoc.
      * injection E2 as <- E2. assert (X : In ":"%char (text_of "end" ++ T)).
        { destruct a as [|y a]; [congruence|]. cbn in E1. injection E1 as _ E1. replace (text_of "end" ++ T) with (a ++ ":"%char :: l) by (symmetry; exact E1). apply in_or_app. right. now left. }
        apply in_app_or in X as [X|X]; [cbn in X; repeat (destruct X as [X|X]; [discriminate|]); destruct X|].
        rewrite forallb_forall in Tw. apply Tw in X. discriminate.
    + apply Ho. exists l, s'. rewrite E2. now rewrite <- !app_assoc.
  - intros q. eapply fp_seq; [apply fp_lit|]. now apply fp_backref.
Qed.
Lemma colon_space c : space c -> Ascii.eqb c ":" = false. Proof. now intros [->| ->]. Qed.
Lemma gen_skip t : forall p s, ~ In ":"%char t -> ended s -> skips GEN p t s.
Proof.
  induction t as [|c t IH]; intros p s Ht He; [exact I|]. split; [|apply IH; auto; intros H; apply Ht; now right].
  apply nomatch_den. intros p' s' c' D. unfold GEN in D. cbn [RSeqs] in D.
  destruct D as (? & ? & ? & (c0 & D1 & ->) & D). unfold RPlus, c_namechar in D1. apply den_rep_chr in D1 as (u & E & _ & _ & Hu & -> & <-).
  destruct D as (? & ? & ? & D1 & _). apply den_char in D1 as (D1 & _). 
  rewrite D1 in E. apply (run_no_mark (fun x => Ascii.eqb x ":") colon_space (c :: t) s u ":"%char _) in E; auto.
  intros y Hx. apply Ascii.eqb_neq. intros ->. contradiction.
Qed.
Definition spaced (t : str) : Prop := t = [] \/ exists u c, t = u ++ [c] /\ space c.
Lemma gen_skip_spaced t p s : ~ In ":"%char t -> spaced t -> skips GEN p t s.
Proof.
  intros Ht [->|(u & c & -> & Hc)]; [exact I|]. apply Castep7Facts.skips_app.
  - apply gen_skip; [intros H; apply Ht; apply in_or_app; now left|]. right. now exists c, s.
  - split; [|exact I]. apply nomatch_first; [reflexivity|]. destruct Hc as [->| ->]; reflexivity.
Qed.
Lemma lower_colon c : lower_c c = ":"%char -> c = ":"%char.
Proof. destruct c as [[] [] [] [] [] [] [] []]; cbn; intros; try discriminate; reflexivity. Qed.
Lemma lower_no_colon t : ~ In ":"%char t -> ~ In ":"%char (lower t).
Proof. intros H I. unfold lower in I. apply in_map_iff in I as (c & E & I). apply lower_colon in E. now subst. Qed.
Lemma lower_sp c : space c -> lower_c c = c. Proof. now intros [->| ->]. Qed.
Lemma lower_spaced t : spaced t -> spaced (lower t).
Proof. intros [->|(u & c & -> & Hc)]; [now left|]. right. exists (lower u), c. split; [|exact Hc]. rewrite CellFacts.lower_app. cbn. now rewrite lower_sp. Qed.
Lemma lower_isword c : is_word c = true -> is_word (lower_c c) = true.
Proof. destruct c as [[] [] [] [] [] [] [] []]; cbn; intros; try discriminate; reflexivity. Qed.
Lemma lower_isany c : Castep6Facts.is_any c = true -> Castep6Facts.is_any (lower_c c) = true.
Proof. destruct c as [[] [] [] [] [] [] [] []]; cbn; intros; try discriminate; reflexivity. Qed.
Lemma forallb_lower f w : (forall c, f c = true -> f (lower_c c) = true) -> forallb f w = true -> forallb f (lower w) = true.
Proof. intros H. induction w as [|c w IH]; [reflexivity|]. cbn. rewrite !andb_true_iff. intros [A B]. auto. Qed.
Lemma lower_len t : length (lower t) = length t. Proof. apply map_length. Qed.
Lemma spread_in t ws c : spread t ws -> In c t -> space c \/ exists w, In w ws /\ In c w.
Proof.
  induction 1 as [g Hg|g w t ws Hg Hn Hb He H IH]; intros I.
  - left. unfold spaces in Hg. rewrite Forall_forall in Hg. auto.
  - apply in_app_or in I as [I|I]; [left; unfold spaces in Hg; rewrite Forall_forall in Hg; auto|]. apply in_app_or in I as [I|I]; [right; exists w; split; [now left|exact I]|].
    destruct (IH I) as [X|(w' & X & Y)]; [now left|]. right. exists w'. split; [now right|exact Y].
Qed.
Lemma spread_app a wa : spread a wa -> spaced a -> forall b wb, spread b wb -> spread (a ++ b) (wa ++ wb).
Proof.
  induction 1 as [g Hg|g w t ws Hg Hn Hb He H IH]; intros Hs b wb Hb'; [now apply spread_more|].
  destruct t as [|x t _] using rev_ind.
  - exfalso. destruct Hs as [Hs|(u & c & Hs & Hc)].
    + destruct g; [|discriminate]. destruct w; [congruence|discriminate].
    + rewrite app_nil_r in Hs. destruct w as [|y w _] using rev_ind; [congruence|]. rewrite app_assoc in Hs. apply app_inj_tail in Hs as [_ ->].
      apply (Hb c); [apply in_or_app; right; now left|]. apply blank_iff. now apply space_blank.
  - rewrite <- !app_assoc. cbn [app]. apply sp_word; auto.
    + right. destruct He as [He|(c & t' & E & Hc)]; [destruct t; discriminate|]. destruct t as [|z t]; cbn in E; injection E as <- _; [now exists x, b|now exists z, (t ++ x :: b)].
    + replace (t ++ x :: b) with ((t ++ [x]) ++ b) by now rewrite <- app_assoc. apply IH; [|exact Hb'].
      destruct Hs as [Hs|(u & c & Hs & Hc)]; [destruct g; [destruct w; [congruence|discriminate]|discriminate]|].
      rewrite !app_assoc in Hs. apply app_inj_tail in Hs as [_ <-]. right. now exists t, x.
Qed.
(** ** What is in a group *)
Lemma word_text k : SpecMd.word k -> k <> [] /\ forallb is_word k = true. Proof. apply word_iff. Qed.
Lemma setting_word w e : setting w e -> w <> [] /\ (forall c, In c w -> is_space c = false /\ c <> ":"%char /\ c <> "%"%char).
Proof.
  intros H. destruct (setting_parts _ _ H) as (k & v & -> & Kn & Kw & Vn & Vw & _). split; [now destruct k|].
  intros c Hc. apply in_app_or in Hc as [Hc|[<-|Hc]].
  - rewrite forallb_forall in Kw. apply Kw in Hc. pose proof (word_not c Hc) as (M & S & P). repeat split; auto. intros ->. discriminate.
  - repeat split; discriminate.
  - destruct (in_word_mark v c Vw Hc) as (S & M & _ & P). repeat split; auto. intros ->. discriminate.
Qed.
Lemma inside_parts ws es ss xs : inside ws es ss xs -> ss = filter is_setting ws /\ Forall2 setting ss es /\
  mapM auto_type (filter (fun w => negb (is_setting w)) ws) = Ok xs /\
  (forall w, In w ws -> ((exists e, setting w e) \/ (forall c, In c w -> mark c = false)) /\ w <> [] /\ (forall c, In c w -> is_space c = false /\ c <> ":"%char /\ c <> "%"%char)).
Proof.
  induction 1 as [|w e ws es ss xs S I (E & F & M & A)|w x ws es ss xs N W V I (E & F & M & A)].
  - split; [reflexivity|]. split; [constructor|]. split; [reflexivity|]. intros w [].
  - cbn [filter]. rewrite (setting_is _ _ S). cbn [negb]. split; [now rewrite E|]. split; [now constructor|]. split; [exact M|].
    intros w' [<-|Hw]; [|now apply A]. split; [left; now exists e|]. now apply setting_word with e.
  - cbn [filter]. assert (P : forall c, In c w -> mark c = false) by (intros c Hc; now apply (in_word_mark w c W Hc)).
    rewrite (plain_not _ P). cbn [negb]. split; [exact E|]. split; [exact F|]. split.
    + cbn [mapM]. rewrite (CellBlockFacts.single_auto _ _ V). cbn [bind]. now rewrite M.
    + intros w' [<-|Hw]; [|now apply A]. split; [now right|]. split; [exact N|]. intros c Hc. destruct (in_word_mark w c W Hc) as (S & Mk & _ & Q). repeat split; auto. intros ->. discriminate.
Qed.
Lemma remove_each ps : forall t ws, spread t ws -> (forall p, In p ps -> p <> [] /\ (forall c, In c p -> ~ blank c)) ->
  (forall p w, In p ps -> In w ws -> occurs p w -> w = p) ->
  spread (fold_left (fun s p => str_remove p s) ps t) (filter (fun w => negb (existsb (str_eqb w) ps)) ws).
Proof.
  induction ps as [|p ps IH]; intros t ws H Hp HW.
  - cbn. replace (filter (fun _ => true) ws) with ws; [exact H|]. clear. induction ws; cbn; congruence.
  - cbn [fold_left]. destruct (Hp p (or_introl eq_refl)) as [Pn Pb].
    pose proof (str_remove_words p t ws Pn Pb H (fun w Hw => HW p w (or_introl eq_refl) Hw)) as X.
    apply IH in X; [| |].
    + replace (filter (fun w => negb (existsb (str_eqb w) (p :: ps))) ws) with
        (filter (fun w => negb (existsb (str_eqb w) ps)) (filter (fun w => negb (str_eqb w p)) ws)); [exact X|].
      clear. induction ws as [|w ws IH]; [reflexivity|]. cbn [filter existsb]. destruct (str_eqb w p); cbn [negb orb filter]; rewrite IH; reflexivity.
    + intros q Hq. apply Hp. now right.
    + intros q w Hq Hw. apply filter_In in Hw as [Hw _]. apply HW; [now right|exact Hw].
Qed.
Lemma settings_fold ss es : Forall2 setting ss es -> forall d,
  foldM (fun d par => ' (k, v) <- key_value par ;; Ok (dset key_eqb d (KStr k) v)) ss d = Ok (dupdate key_eqb d (map filed_as es)).
Proof.
  induction 1 as [|s e ss es H _ IH]; intros d; [reflexivity|]. cbn [foldM]. rewrite (key_value_ok _ _ H). destruct e as [k v]. cbn [bind]. now rewrite IH.
Qed.
Lemma group_parts n g e : group n g e -> exists b z t', g = n ++ ":"%char :: b ++ (":"%char :: z) ++ t' /\ lower z = text_of "end" /\ n <> [] /\ forallb is_word n = true /\
  lower t' = lower n /\ forallb is_word t' = true /\ ~ In ":"%char b /\ ~ In "%"%char b /\ forallb Castep6Facts.is_any b = true /\
  normalise_key n = fst e /\ exists d, snd e = VDict false d /\ Pspot.devel_block g = Ok d.
Proof.
  intros H. inversion H as [t' z0 b nm ws es ss xs d Wn Hz Lt Kn Sp In Un Mg]; subst.
  unfold SpecCell.spells in Hz. destruct z0 as [|zc z]; [discriminate|]. cbn in Hz. injection Hz as Hc Hz. apply lower_colon in Hc. subst zc.
  exists b, z, t'. cbn [fst snd].
  apply word_text in Wn as [Nn Wn]. destruct (inside_parts _ _ _ _ In) as (E & F & M & A).
  assert (Bc : forall c, List.In c b -> c <> ":"%char /\ c <> "%"%char /\ Castep6Facts.is_any c = true).
  { intros c Hc. destruct (spread_in _ _ _ Sp Hc) as [[->| ->]|(w & Hw & Hcw)]; [repeat split; discriminate|repeat split; discriminate|].
    destruct (A w Hw) as (_ & _ & P). destruct (P c Hcw) as (P1 & P2 & P3). split; [exact P2|]. split; [exact P3|]. unfold Castep6Facts.is_any.
    destruct (Ascii.eqb_spec c newline); [subst; discriminate|reflexivity]. }
  assert (Bn : ~ List.In ":"%char b) by (intros X; now apply Bc in X).
  assert (Tw : forallb is_word t' = true).
  { apply forallb_forall. intros c Hc. assert (X : List.In (lower_c c) (lower n)) by (rewrite <- Lt; unfold lower; now apply in_map).
    unfold lower in X. apply in_map_iff in X as (y & Ez & Hy). rewrite forallb_forall in Wn. apply Wn in Hy. apply lower_isword in Hy. rewrite Ez in Hy. revert Hy. clear.
    destruct c as [[] [] [] [] [] [] [] []]; cbn; intros; try discriminate; reflexivity. }
  assert (Wno : forall w, forallb is_word w = true -> ~ List.In ":"%char w) by (intros w Hw X; rewrite forallb_forall in Hw; now apply Hw in X).
  repeat split; auto.
  - intros X. now apply Bc in X.
  - apply forallb_forall. intros c Hc. now apply Bc.
  - now apply named_key.
  - exists d. split; [reflexivity|]. unfold Pspot.devel_block. rewrite split_chr_cut by now apply Wno.
    change ((":"%char :: z) ++ t') with (":"%char :: (z ++ t')). rewrite split_chr_cut by exact Bn. cbn [nthE nth_error bind].
    rewrite (vals_of b ws Sp) by (intros w Hw; now apply A). rewrite <- E. rewrite (settings_fold ss es F). cbn [bind].
    assert (L : spread (fold_left (fun s par => str_remove par s) ss b) (filter (fun w => negb (is_setting w)) ws)).
    { replace (filter (fun w => negb (is_setting w)) ws) with (filter (fun w => negb (existsb (str_eqb w) ss)) ws).
      - apply remove_each; [exact Sp| |exact Un]. intros p Hp. rewrite E in Hp. apply filter_In in Hp as [Hp _]. destruct (A p Hp) as (_ & P1 & P2). split; [exact P1|].
        intros c Hc. rewrite blank_iff. destruct (P2 c Hc) as [-> _]. discriminate.
      - apply filter_ext_in. intros w Hw. f_equal. destruct (is_setting w) eqn:Q.
        + apply existsb_exists. exists w. split; [rewrite E; now apply filter_In|]. now destruct (str_eqb_spec w w).
        + destruct (existsb (str_eqb w) ss) eqn:X; [|reflexivity]. apply existsb_exists in X as (y & Hy & X). destruct (str_eqb_spec w y) as [->|]; [|discriminate].
          rewrite E in Hy. apply filter_In in Hy as [_ Hy]. congruence. }
    rewrite (spread_empty _ _ L), (spread_split _ _ L). rewrite M. cbn [bind].
    apply (merged_fun key_eqb key_eqb_spec) in Mg. rewrite Mg.
    destruct (filter (fun w => negb (is_setting w)) ws) as [|w0 l0] eqn:W.
    + cbn in M. injection M as <-. cbn [isempty data_of]. now rewrite app_nil_r.
    + destruct xs as [|x xs]; [cbn [mapM] in M; destruct (auto_type w0); [|discriminate]; cbn [bind] in M; destruct (mapM auto_type l0); discriminate|].
      cbn [isempty data_of]. unfold dict_of. now rewrite dupdate_app.
Qed.

(** ** The text without its groups *)
Lemma remove_group P g n r b : g = n ++ ":"%char :: b -> n <> [] -> forallb is_word n = true -> ~ In ":"%char P -> spaced P -> ~ occurs g r ->
  str_remove g (P ++ g ++ r) = P ++ r.
Proof.
  intros Eg Nn Wn HP Sp Ho. unfold str_remove.
  assert (G : forall f, length (P ++ g ++ r) < f -> remove_all f g (P ++ g ++ r) = P ++ r).
  { revert HP Sp. induction P as [|c P IH]; intros HP Sp f Hf.
    - cbn [app] in *. destruct f as [|f]; [lia|]. cbn [remove_all]. replace (strip_prefix g (g ++ r)) with (Some r) by (symmetry; now apply strip_prefix_some).
      apply Castep6Facts.remove_none; [|exact Ho]. rewrite app_length in Hf. assert (length g <> 0) by (rewrite Eg; destruct n; [congruence|discriminate]). lia.
    - destruct f as [|f]; [cbn in Hf; lia|]. cbn [remove_all app]. destruct (strip_prefix g (c :: P ++ g ++ r)) as [s'|] eqn:Q.
      + exfalso. apply strip_prefix_some in Q. destruct Sp as [Sp|(u & z & Sp & Hz)]; [discriminate|].
        change (c :: P ++ g ++ r) with ((c :: P) ++ g ++ r) in Q. rewrite Sp in Q, HP. rewrite <- app_assoc in Q. rewrite Eg in Q at 2. rewrite <- app_assoc in Q. cbn [app] in Q.
        apply (run_no_mark (fun x => Ascii.eqb x ":") colon_space u (z :: g ++ r) n ":"%char _) in Q; auto.
        * intros y Hy. apply Ascii.eqb_neq. intros ->. apply HP. apply in_or_app. now left.
        * right. now exists z, (g ++ r).
      + f_equal. apply IH; [intros X; apply HP; now right| |cbn in Hf; lia].
        destruct Sp as [Sp|(u & z & Sp & Hz)]; [discriminate|]. destruct u as [|y u]; injection Sp as -> ->; [now left|]. right. now exists u, z. }
  apply G. lia.
Qed.
Lemma lower_group n b z t' : lower z = text_of "end" -> lower t' = lower n ->
  lower (n ++ ":"%char :: b ++ (":"%char :: z) ++ t') = lower n ++ ":"%char :: lower b ++ text_of ":end" ++ lower n.
Proof.
  intros Hz Ht. rewrite CellFacts.lower_app. f_equal. change (lower (":"%char :: b ++ (":"%char :: z) ++ t')) with (":"%char :: lower (b ++ (":"%char :: z) ++ t')).
  f_equal. rewrite CellFacts.lower_app. f_equal. rewrite CellFacts.lower_app, Ht. f_equal. change (lower (":"%char :: z)) with (":"%char :: lower z). now rewrite Hz.
Qed.
Lemma code_blocks main ws gs : code main ws gs -> (forall w, In w ws -> ~ In ":"%char w) -> exists gl, Forall2 (fun g e => group (fst g) (snd g) e) gl gs /\
  (forall fuel p, length main < fuel -> cut_along main (iter_from fuel GEN p (lower main)) = gl) /\
  (forall pre wp, spread pre wp -> spaced pre -> ~ In ":"%char pre -> spread (fold_left (fun s b => str_remove (snd b) s) gl (pre ++ main)) (wp ++ ws)).
Proof.
  assert (NC : forall t ws, spread t ws -> (forall w, In w ws -> ~ In ":"%char w) -> ~ In ":"%char t).
  { intros t ws0 Sp Hw X. destruct (spread_in _ _ _ Sp X) as [[?|?]|(w & A & B)]; [discriminate|discriminate|]. now apply (Hw w). }
  induction 1 as [t ws Sp|t ws n g e r ws' gs Sp Ss Gr Er Ho Co IH]; intros HW.
  - exists []. split; [constructor|]. split.
    + intros fuel p _. destruct fuel; [reflexivity|]. cbn [iter_from]. rewrite search_from_none; [reflexivity| |now apply nomatch_first].
      apply gen_skip; [|now left]. apply lower_no_colon. now apply NC with ws.
    + intros pre wp Hp Hs _. cbn [fold_left]. now apply spread_app.
  - destruct IH as (gl & F & C & R); [intros w Hw; apply HW; apply in_or_app; now right|].
    assert (NT : ~ In ":"%char t) by (apply NC with ws; [exact Sp|intros w Hw; apply HW; apply in_or_app; now left]).
    destruct (group_parts _ _ _ Gr) as (b & z & t' & Eg & Lz & Nn & Wn & Lt & Wt & Bc & _ & Ba & _).
    exists ((n, g) :: gl). split; [now constructor|]. split.
    + intros fuel p Hl. destruct fuel as [|f]; [lia|]. rewrite !CellFacts.lower_app.
      assert (Lg : lower g = lower n ++ ":"%char :: lower b ++ text_of ":end" ++ lower n) by (rewrite Eg; now apply lower_group).
      assert (Ft : fp GEN (pa p (lower t)) (lower g) (lower r) [] [("1"%string, lower n)]).
      { rewrite Lg. apply gen_hit; [now destruct n|now apply forallb_lower; [apply lower_isword|]|now apply forallb_lower; [apply lower_isany|]|exact Ho]. }
      cbn [iter_from]. rewrite (search_from_pre _ _ _ _ _ _ (gen_skip_spaced _ _ _ (lower_no_colon _ NT) (lower_spaced _ Ss)) Ft). cbn [m_text m_prev m_rest].
      destruct (lower g) as [|x lg] eqn:Q; [destruct n; [congruence|discriminate]|]. cbn [cut_along m_text]. rewrite <- Q. rewrite !lower_len.
      rewrite skipn_app, skipn_all, Nat.sub_diag. cbn [skipn app].
      replace (group_s _ "1") with (lower n) by reflexivity. rewrite lower_len.
      f_equal.
      * f_equal; [rewrite Eg at 1; rewrite <- app_assoc, firstn_app, firstn_all, Nat.sub_diag; cbn; apply app_nil_r|].
        rewrite firstn_app, firstn_all, Nat.sub_diag. cbn. apply app_nil_r.
      * rewrite skipn_app, skipn_all, Nat.sub_diag. cbn [skipn app]. apply C. rewrite !app_length in Hl. assert (length g <> 0) by (rewrite Eg; destruct n; [congruence|discriminate]). lia.
    + intros pre wp Hp Hs Hn. cbn [fold_left snd]. rewrite app_assoc.
      assert (Sp2 : spread (pre ++ t) (wp ++ ws)) by now apply spread_app.
      assert (Ss2 : spaced (pre ++ t)).
      { destruct Ss as [->|(u & c & -> & Hc)]; [now rewrite app_nil_r|]. right. exists (pre ++ u), c. now rewrite app_assoc. }
      assert (Hn2 : ~ In ":"%char (pre ++ t)) by (intros X; apply in_app_or in X as [X|X]; auto).
      rewrite (remove_group (pre ++ t) g n r _ Eg Nn Wn Hn2 Ss2).
      * rewrite (app_assoc wp). apply R; auto.
      * intros (a1 & a2 & ->). apply Ho. exists (lower a1 ++ lower n ++ ":"%char :: lower b), (lower a2). rewrite !CellFacts.lower_app, Eg. rewrite (lower_group n b z t' Lz Lt).
        rewrite <- !app_assoc. cbn [app]. rewrite <- !app_assoc. reflexivity.
Qed.

(** ** Whole blocks *)
Definition put (d : dict) (e : str * pyval) : dict := dset key_eqb d (free_name d (fst e)) (snd e).
Lemma filed_split a : forall d b d', filed d (a ++ b) d' -> exists d1, filed d a d1 /\ filed d1 b d'.
Proof.
  induction a as [|[k v] a IH]; intros d b d' H; [exists d; split; [constructor|exact H]|]. cbn in H. inversion H; subst.
  - match goal with H : filed _ _ _ |- _ => apply IH in H as (d1 & H1 & H2) end. exists d1. split; [now constructor|exact H2].
  - match goal with H : filed _ _ _ |- _ => apply IH in H as (d2 & H1 & H2) end. exists d2. split; [now apply fi_taken with d1|exact H2].
Qed.
Lemma filed_fold d es d' : filed d es d' -> NoDup (map fst d) -> fold_left put es d = d' /\ NoDup (map fst d').
Proof.
  induction 1 as [d|d k v es d' N H IH|d k v es d1 d' N M H IH]; intros Hd; [auto| |]; cbn [fold_left]; unfold put at 2; cbn [fst snd]; unfold free_name, dmem.
  - apply (dget_none key_eqb key_eqb_spec) in N. rewrite N. rewrite (dset_new key_eqb) by exact N. apply IH.
    rewrite <- (dset_new key_eqb) by exact N. now apply (dset_nodup key_eqb key_eqb_spec).
  - destruct (dget key_eqb d (KStr k)) eqn:E; [|apply (dget_none key_eqb key_eqb_spec) in E; contradiction].
    apply (merged_fun key_eqb key_eqb_spec) in M. rewrite (dict_of_snoc key_eqb), (dict_of_nodup key_eqb key_eqb_spec) in M by exact Hd.
    rewrite <- M. apply IH. rewrite M. now apply (dset_nodup key_eqb key_eqb_spec).
Qed.
Lemma put_settings ss es : Forall2 setting ss es -> forall d,
  foldM (fun d par => ' (k, v) <- key_value par ;; Ok (dset key_eqb d (free_name d k) v)) ss d = Ok (fold_left put es d).
Proof.
  induction 1 as [|s e ss es H _ IH]; intros d; [reflexivity|]. cbn [foldM]. rewrite (key_value_ok _ _ H). destruct e as [k v]. cbn [bind]. now rewrite IH.
Qed.
Lemma put_flags fs ws : Forall2 (fun w nm => normalise_key w = nm) ws fs -> forall d,
  fold_left (fun d par => dset key_eqb d (free_name d (normalise_key par)) VNone) ws d = fold_left put (map (fun f => (f, VNone)) fs) d.
Proof. induction 1 as [|w f ws fs <- _ IH]; intros d; [reflexivity|]. cbn [fold_left map]. now rewrite IH. Qed.
Lemma listed_parts ws es fs : listed ws es fs -> Forall2 setting (filter is_setting ws) es /\
  Forall2 (fun w nm => normalise_key w = nm) (filter (fun w => negb (is_setting w)) ws) fs /\
  (forall w, In w ws -> ((exists e, setting w e) \/ (forall c, In c w -> mark c = false)) /\ ~ In ":"%char w /\ ~ In "%"%char w).
Proof.
  induction 1 as [|w e ws es fs S St L (A & B & C)|w nm ws es fs F N L (A & B & C)]; cbn [filter].
  - split; [constructor|]. split; [constructor|]. intros w [].
  - rewrite (setting_is _ _ S). cbn [negb]. split; [now constructor|]. split; [exact B|]. intros w' [<-|Hw]; [|now apply C].
    destruct (setting_word _ _ S) as [_ W]. split; [left; now exists e|]. split; intros X; now apply W in X.
  - destruct (flag_plain _ F) as [_ W]. rewrite plain_not by (intros c Hc; now apply W). cbn [negb]. split; [exact A|]. split; [constructor; [now apply named_key|exact B]|].
    intros w' [<-|Hw]; [|now apply C]. split; [right; intros c Hc; now apply W|]. split; intros X; now apply W in X.
Qed.
Lemma groups_fold gl gs : Forall2 (fun g e => group (fst g) (snd g) e) gl gs -> NoDup (map fst gs) -> forall d0 main, (forall e, In e gs -> ~ In (KStr (fst e)) (map fst d0)) ->
  foldM devel_group gl (d0, main) = Ok (d0 ++ map filed_as gs, fold_left (fun s b => str_remove (snd b) s) gl main).
Proof.
  induction 1 as [|g e gl gs G _ IH]; intros Hn d0 main Hd; [cbn; now rewrite app_nil_r|].
  destruct (group_parts _ _ _ G) as (b & z & t' & _ & _ & _ & _ & _ & _ & _ & _ & _ & Nm & d & Ed & Bl).
  cbn [foldM]. unfold devel_group at 1. rewrite Bl. cbn [bind]. rewrite Nm.
  pose proof (Hd e (or_introl eq_refl)) as X. apply (dget_none key_eqb key_eqb_spec) in X. rewrite X. rewrite (dset_new key_eqb) by exact X.
  inversion Hn as [|? ? Hn1 Hn2]; subst. rewrite IH.
  - cbn [fold_left map]. rewrite <- app_assoc. unfold filed_as at 2. rewrite Ed. reflexivity.
  - exact Hn2.
  - intros e' He'. rewrite map_app. intros Y. apply in_app_or in Y as [Y|[Y|[]]]; [now apply (Hd e'); [right|]|]. cbn in Y. injection Y as Y. apply Hn1. rewrite Y. now apply in_map.
Qed.
Lemma main_read main ws gs es fs d : code main ws gs -> listed ws es fs -> NoDup (map fst gs) ->
  filed (map filed_as gs) (es ++ map (fun f => (f, VNone)) fs) d ->
  (' (d, main') <- foldM devel_group (devel_blocks main) ([], main) ;;
   d <- foldM (fun d par => ' (k, v) <- key_value par ;; Ok (dset key_eqb d (free_name d k) v)) (findall DEVEL_CODE_VAL_RE main') d ;;
   Ok (VDict false (fold_left (fun d par => dset key_eqb d (free_name d (normalise_key par)) VNone) (findall PRESENT_RE main') d))) = Ok (VDict false d).
Proof.
  intros Co Li Nd Fi. destruct (listed_parts _ _ _ Li) as (A & B & C). destruct (code_blocks _ _ _ Co) as (gl & F & Cu & R); [intros w Hw; now apply C|].
  unfold devel_blocks. rewrite Cu by lia. rewrite (groups_fold gl gs F Nd) by (intros e _ []). cbn [app bind].
  pose proof (R [] [] (sp_end [] (Forall_nil _)) (or_introl eq_refl) (fun X => X)) as Sp. cbn [app] in Sp. revert Sp. generalize (fold_left (fun s b => str_remove (snd b) s) gl main) as left. intros left Sp.
  rewrite (vals_of _ _ Sp) by (intros w Hw; now apply C). rewrite (put_settings _ _ A). cbn [bind].
  rewrite (flags_of _ _ _ _ Sp Li). rewrite (put_flags _ _ B). rewrite <- fold_left_app.
  destruct (filed_fold _ _ _ Fi) as [<- _]; [|reflexivity]. rewrite map_map. cbn [filed_as fst].
  rewrite <- (map_map fst KStr). apply FinFun.Injective_map_NoDup; [|exact Nd]. intros a b E. now injection E.
Qed.
Lemma code_no_percent main ws gs : code main ws gs -> (forall w, In w ws -> ~ In "%"%char w) -> ~ In "%"%char main.
Proof.
  assert (NC : forall t ws, spread t ws -> (forall w, In w ws -> ~ In "%"%char w) -> ~ In "%"%char t).
  { intros t ws0 Sp Hw X. destruct (spread_in _ _ _ Sp X) as [[?|?]|(w & A & B)]; [discriminate|discriminate|]. now apply (Hw w). }
  induction 1 as [t ws Sp|t ws n g e r ws' gs Sp Ss Gr Er Ho Co IH]; intros HW X; [now apply (NC t ws)|].
  apply in_app_or in X as [X|X]; [revert X; apply (NC t ws); [exact Sp|intros w Hw; apply HW; apply in_or_app; now left]|].
  apply in_app_or in X as [X|X]; [|revert X; apply IH; intros w Hw; apply HW; apply in_or_app; now right].
  destruct (group_parts _ _ _ Gr) as (b & z & t' & Eg & Lz & Nn & Wn & Lt & Wt & Bc & Bp & _). rewrite forallb_forall in Wn, Wt. rewrite Eg in X.
  apply in_app_or in X as [X|[X|X]]; [now apply Wn in X|discriminate|]. apply in_app_or in X as [X|X]; [contradiction|].
  apply in_app_or in X as [[X|X]|X]; [discriminate| |now apply Wt in X]. apply (in_map lower_c) in X. change (map lower_c z) with (lower z) in X. rewrite Lz in X.
  cbn in X. repeat (destruct X as [X|X]; [discriminate|]). destruct X.
Qed.
Lemma percent_skip main p s : ~ In "%"%char main -> skips ENDBLOCK_DEVEL_RE p main s.
Proof.
  intros H. apply skips_first; [reflexivity|]. apply forallb_forall. intros c Hc. destruct (first ENDBLOCK_DEVEL_RE c) eqn:E; [|reflexivity]. exfalso.
  apply H. replace "%"%char with c; [exact Hc|]. revert E. clear. destruct c as [[] [] [] [] [] [] [] []]; cbn; intros; try discriminate; reflexivity.
Qed.
Lemma percent_free main : ~ In "%"%char main -> re_sub ENDBLOCK_DEVEL_RE [] main = main.
Proof.
  intros H. unfold re_sub. cbn [sub_from]. rewrite search_from_none; [reflexivity|now apply percent_skip|now apply nomatch_first].
Qed.
Theorem devel_read ls d : devel_block ls d -> parse_devel_code_block ls = Ok (VDict false d).
Proof.
  intros H. inversion H as [? os ws gs es fs ? T Co Li Nd Fi]; subst. unfold parse_devel_code_block. rewrite (trimmed_lines _ _ T).
  rewrite join_joined. rewrite percent_free; [now apply main_read with ws gs es fs|].
  apply (code_no_percent _ _ _ Co). intros w Hw. now apply (listed_parts _ _ _ Li).
Qed.
(** *** With the closing line *)
Lemma spread_snoc t ws : spread t ws -> spread (t ++ [" "%char]) ws.
Proof.
  induction 1 as [g Hg|g w t ws Hg Hn Hb He H IH].
  - constructor. apply Forall_app. split; [exact Hg|]. constructor; [now left|constructor].
  - rewrite <- !app_assoc. apply sp_word; auto. right. destruct He as [->|(c & t' & -> & Hc)]; [exists " "%char, []; split; [reflexivity|now left]|]. now exists c, (t' ++ [" "%char]).
Qed.
Lemma code_snoc t ws gs : code t ws gs -> code (t ++ [" "%char]) ws gs.
Proof.
  induction 1 as [t ws Sp|t ws n g e r ws' gs Sp Ss Gr Er Ho Co IH]; [constructor; now apply spread_snoc|].
  rewrite <- !app_assoc. apply co_group with n; auto.
  - destruct Er as [->|(c & t' & -> & Hc)]; [right; exists " "%char, []; split; [reflexivity|now left]|]. right. now exists c, (t' ++ [" "%char]).
  - intros (a & b & E). rewrite CellFacts.lower_app in E. cbn [lower map] in E. destruct b as [|x b _] using rev_ind.
    + destruct (group_parts _ _ _ Gr) as (_ & _ & _ & _ & _ & Nn & Wn & _). destruct n as [|z n _] using rev_ind; [congruence|].
      rewrite CellFacts.lower_app in E. cbn [lower map] in E. rewrite app_nil_r in E. rewrite !app_assoc in E. apply app_inj_tail in E as [_ E].
      rewrite forallb_app in Wn. apply andb_true_iff in Wn as [_ Wn]. cbn in Wn. rewrite andb_true_r in Wn. apply lower_isword in Wn. rewrite <- E in Wn. discriminate.
    + rewrite !app_assoc in E. apply app_inj_tail in E as [E _]. apply Ho. exists a, b. now rewrite E, <- !app_assoc.
Qed.
Lemma joined_snoc sep os o : os <> [] -> joined sep (os ++ [o]) = joined sep os ++ sep ++ o.
Proof.
  induction os as [|x os IH]; [congruence|]. intros _. destruct os as [|y os]; [reflexivity|]. change ((x :: y :: os) ++ [o]) with (x :: y :: (os ++ [o])). rewrite !joined_cons2. change (y :: os ++ [o]) with ((y :: os) ++ [o]). rewrite IH by discriminate. now rewrite <- !app_assoc.
Qed.
Theorem devel_closed ls d e : devel_block ls d -> closing e -> parse_devel_code_block (ls ++ [e]) = Ok (VDict false d).
Proof.
  intros H (k & g & n & o & To & Eo & Hk & Gn & Hg & Hn). inversion H as [? os ws gs es fs ? T Co Li Nd Fi]; subst ls0 d0. unfold parse_devel_code_block.
  assert (T2 : Forall2 trimmed (ls ++ [e]) (os ++ [o])) by (apply Forall2_app; [exact T|now repeat constructor]). rewrite (trimmed_lines _ _ T2).
  rewrite join_joined.
  assert (P : ~ In "%"%char (joined (text_of " ") os)) by (apply (code_no_percent _ _ _ Co); intros w Hw; now apply (listed_parts _ _ _ Li)).
  assert (S : forall m0, ~ In "%"%char m0 -> re_sub ENDBLOCK_DEVEL_RE [] (m0 ++ o) = m0).
  { intros m0 Hm. unfold re_sub. cbn [sub_from]. 
    assert (Fo : forall p, fp ENDBLOCK_DEVEL_RE p o [] [] []).
    { intros p. rewrite Eo. unfold ENDBLOCK_DEVEL_RE. cbn [RSeqs]. eapply fp_seq; [apply CellFacts.fp_litI; rewrite Hk; reflexivity|].
      eapply fp_seq; [apply fp_plus_chr; [|exact Gn|]|].
      - apply forallb_forall. intros c Hc. apply blank_iff. unfold blanks in Hg. rewrite Forall_forall in Hg. auto.
      - rewrite app_nil_r. unfold SpecCell.spells in Hn. destruct n as [|c n]; [exact I|]. cbn in Hn. injection Hn as Hc _. cbn. rewrite <- FinalFacts.lower_space, Hc. reflexivity.
      - apply CellFacts.fp_litI. rewrite Hn. reflexivity. }
    pose proof (search_from_pre _ _ _ _ _ _ (percent_skip m0 None (o ++ []) Hm) (Fo _)) as Q. rewrite (app_nil_r o) in Q. rewrite Q. cbn [m_text].
    destruct o as [|x o']; [destruct k; discriminate|]. cbn [m_prev m_rest app]. destruct (length (m0 ++ x :: o')) as [|f]; [now rewrite app_nil_r|]. cbn [sub_from].
    rewrite search_from_none; [apply app_nil_r|exact I|now apply nomatch_first]. }
  destruct os as [|o1 os].
  - cbn [app joined]. change o with ([] ++ o). rewrite S by intros []. now apply main_read with ws gs es fs.
  - rewrite joined_snoc by discriminate. rewrite app_assoc. rewrite S.
    + apply main_read with ws gs es fs; auto. now apply code_snoc.
    + intros X. apply in_app_or in X as [X|[X|[]]]; [contradiction|discriminate].
Qed.
Theorem devel_file ls body e d : SpecCell.one_block ls ($"devel_code") (body ++ [e]) -> devel_block body d -> closing e ->
  parse_cell_param_file parse_devel_code_block parse_species_pot ls = Ok (VList [VDict false [(KStr ($"devel_code"), VDict false d)]]).
Proof. intros H B C. apply (PspotFacts.one_block_by _ _ _ _ _ _ H). exact (devel_closed body d e B C). Qed.
