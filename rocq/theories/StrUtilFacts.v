(** Proofs about the text helpers. *)
From Verif Require Import PyBase PyFacts Regex RegexFacts RegexComplete NumFacts NumVal SpecLine NumProps
  TypeConvFacts SpecStr StrUtil.
Local Open Scope list_scope.
Local Open Scope nat_scope.

Lemma join_joined sep ws : join sep ws = joined sep ws.
Proof.
  induction ws as [|w ws IH]; [reflexivity|]. cbn [join joined].
  destruct ws as [|w' ws]; [reflexivity|]. now rewrite IH.
Qed.

Lemma joined_cons2 sep w w' ws : joined sep (w :: w' :: ws) = w ++ sep ++ joined sep (w' :: ws).
Proof. reflexivity. Qed.

(** ** Cutting *)
Lemma cut_empty P ws : cut P ws [] -> ws = [].
Proof.
  intros H. remember (@nil ascii) as e eqn:Ee. destruct H as [|g w s ws _ Hne]; [reflexivity|].
  apply app_eq_nil in Ee as [_ Ee]. apply app_eq_nil in Ee as [Ee _]. congruence.
Qed.
Section Cut.
  Context (P : ascii -> Prop) (f : ascii -> bool) (HP : forall c, P c <-> f c = true).

  Lemma notP c : ~ P c <-> f c = false.
  Proof. rewrite HP. destruct (f c); intuition congruence. Qed.
  Lemma all_P w : (forall c, In c w -> P c) <-> forallb f w = true.
  Proof. rewrite forallb_forall. split; intros H c Hc; apply HP, H, Hc. Qed.
  Lemma none_P w : (forall c, In c w -> ~ P c) <-> forallb (fun c => negb (f c)) w = true.
  Proof.
    rewrite forallb_forall. split; intros H c Hc.
    - apply negb_true_iff, notP, H, Hc.
    - apply notP, negb_true_iff, H, Hc.
  Qed.
  Lemma hd_P s : (forall c t, s = c :: t -> ~ P c) <-> hd_not f s.
  Proof.
    destruct s as [|c s]; cbn; split; auto; try discriminate.
    - intros H. apply notP. eapply H; reflexivity.
    - intros H c' t E. injection E as <- _. now apply notP.
  Qed.

  Lemma cut_exists s : exists ws, cut P ws s.
  Proof.
    assert (G : forall n s, length s <= n -> exists ws, cut P ws s).
    { induction n as [|n IH]; intros s0 Hl.
      - destruct s0; [|cbn in Hl; lia]. exists []. constructor. intros c [].
      - rewrite <- (take_drop_while (fun c => negb (f c)) s0).
        pose proof (take_while_all (fun c => negb (f c)) s0) as Hg.
        pose proof (drop_while_hd (fun c => negb (f c)) s0) as Hh.
        pose proof (take_drop_while (fun c => negb (f c)) s0) as E.
        set (g := take_while _ s0) in *. set (r := drop_while _ s0) in *. clearbody g r.
        destruct r as [|x r].
        + exists []. rewrite app_nil_r. constructor. now apply none_P.
        + cbn in Hh. apply negb_false_iff in Hh.
          pose proof (take_while_all f (x :: r)) as Hw. pose proof (drop_while_hd f (x :: r)) as Hd.
          pose proof (take_drop_while f (x :: r)) as E2.
          assert (Hne : take_while f (x :: r) <> []) by (cbn; rewrite Hh; discriminate).
          destruct (IH (drop_while f (x :: r))) as [ws Hws].
          { apply (f_equal (@length ascii)) in E, E2. rewrite app_length in E, E2.
            destruct (take_while f (x :: r)); [congruence|]. cbn in E2 |- *. cbn in E. lia. }
          exists (take_while f (x :: r) :: ws). rewrite <- E2.
          rewrite E2. rewrite <- E2 at 2. constructor; auto; [now apply none_P|now apply all_P|now apply hd_P]. }
    apply (G (length s)). lia.
  Qed.

  Lemma cut_unique ws s : cut P ws s -> forall ws', cut P ws' s -> ws = ws'.
  Proof.
    induction 1 as [g Hg|g w s ws Hg Hne Hw Hs _ IH]; intros ws' H'.
    - inversion H' as [|g' w' s' ws'' Hg' Hne' Hw' Hs' _]; subst; [reflexivity|]. exfalso.
      destruct w' as [|x w']; [congruence|]. apply (Hg x); [|apply Hw'; now left].
      apply in_or_app. right. now left.
    - inversion H' as [g' Hg'|g' w' s' ws'' Hg' Hne' Hw' Hs' Hc E1 E2]; subst.
      + exfalso. destruct w as [|x w]; [congruence|]. apply (Hg' x); [|apply Hw; now left].
        apply in_or_app. right. now left.
      + apply none_P in Hg, Hg'. apply all_P in Hw, Hw'. apply hd_P in Hs, Hs'.
        assert (H1 : hd_not (fun c => negb (f c)) (w ++ s)).
        { destruct w as [|x w]; [congruence|]. cbn in Hw |- *. apply andb_true_iff in Hw as [-> _]. reflexivity. }
        assert (H2 : hd_not (fun c => negb (f c)) (w' ++ s')).
        { destruct w' as [|x w']; [congruence|]. cbn in Hw' |- *. apply andb_true_iff in Hw' as [-> _]. reflexivity. }
        symmetry in E2. destruct (class_split _ _ _ _ _ Hg Hg' H1 H2 E2) as [-> E].
        destruct (class_split _ _ _ _ _ Hw Hw' Hs Hs' E) as [-> ->].
        f_equal. now apply IH.
  Qed.

  Lemma cut_words ws s : cut P ws s -> Forall (fun w => w <> [] /\ forallb f w = true) ws.
  Proof. induction 1; constructor; auto. split; [auto|now apply all_P]. Qed.

  (** Words joined by a separator outside [P] are cut into the words. *)
  Lemma cut_joined sep ws : sep <> [] -> (forall c, In c sep -> ~ P c) ->
    Forall (fun w => w <> [] /\ forallb f w = true) ws -> cut P ws (joined sep ws).
  Proof.
    intros Hne Hsep. induction ws as [|w ws IH]; intros H; [constructor; intros c []|].
    inversion H as [|? ? [Hw1 Hw2] H']; subst. specialize (IH H').
    destruct ws as [|w' ws].
    - cbn [joined]. rewrite <- (app_nil_r w) at 2. apply (cut_cons P [] w [] []).
      + intros c [].
      + exact Hw1.
      + now apply all_P.
      + discriminate.
      + constructor. intros c [].
    - rewrite joined_cons2. apply (cut_cons P [] w (sep ++ joined sep (w' :: ws)) (w' :: ws)).
      + intros c [].
      + exact Hw1.
      + now apply all_P.
      + intros c t E. destruct sep as [|y sep]; [congruence|]. injection E as <- _. apply Hsep. now left.
      + remember (joined sep (w' :: ws)) as j eqn:Ej. remember (w' :: ws) as vs' eqn:Ev. clear Ej.
        inversion IH as [|g v s vs Hg Hv1 Hv2 Hs Hc E1 E2]; [subst; discriminate|].
        rewrite app_assoc. constructor; auto.
        intros c Hc'. apply in_app_or in Hc' as [Hc'|Hc']; auto.
  Qed.
End Cut.

(** ** normalise_string *)
Lemma nonblank_iff c : nonblank c <-> negb (is_space c) = true.
Proof. unfold nonblank. rewrite blank_iff, negb_true_iff. destruct (is_space c); intuition congruence. Qed.

Lemma neg_neg_space w : forallb (fun c => negb (negb (is_space c))) w = forallb is_space w.
Proof. induction w as [|x w IH]; [reflexivity|]. cbn. now rewrite negb_involutive, IH. Qed.

Lemma split_cut ws s : cut nonblank ws s -> split s = ws.
Proof.
  induction 1 as [g Hg|g w s ws Hg Hne Hw Hs _ IH].
  - apply (none_P _ _ nonblank_iff) in Hg. rewrite neg_neg_space in Hg. now apply split_all_ws.
  - apply (none_P _ _ nonblank_iff) in Hg. rewrite neg_neg_space in Hg.
    apply (all_P _ _ nonblank_iff) in Hw. apply (hd_P _ _ nonblank_iff) in Hs.
    rewrite split_ws_app by exact Hg. destruct s as [|x s].
    + rewrite app_nil_r. rewrite split_word_end by (split; auto). rewrite split_nil in IH. now subst.
    + rewrite <- (take_drop_while is_space (x :: s)). rewrite split_word_ws.
      * f_equal. rewrite <- IH. rewrite <- (take_drop_while is_space (x :: s)) at 2.
        rewrite split_ws_app; [reflexivity|apply take_while_all].
      * split; auto.
      * apply take_while_all.
      * cbn in Hs |- *. apply negb_false_iff in Hs. rewrite Hs. discriminate.
Qed.

Lemma split_aux_trail x : forall cur b, forallb is_space b = true -> split_aux cur (x ++ b) = split_aux cur x.
Proof.
  induction x as [|c x IH]; intros cur b Hb; cbn [app split_aux].
  - destruct b as [|c b]; [reflexivity|]. cbn in Hb |- *. apply andb_true_iff in Hb as [-> Hb].
    pose proof (split_all_ws b Hb) as E. unfold split in E. rewrite E. apply app_nil_r.
  - destruct (is_space c); rewrite IH by exact Hb; reflexivity.
Qed.
Lemma split_strip s : split (strip s) = split s.
Proof.
  destruct (strip_decomp s) as (a & b & E & Ha & Hb). rewrite E at 2.
  rewrite split_ws_app by exact Ha. unfold split. now rewrite split_aux_trail.
Qed.

Theorem normalise_string_words s : exists ws, cut nonblank ws s /\
  (forall ws', cut nonblank ws' s -> ws' = ws) /\ normalise_string s = joined ($" ") ws.
Proof.
  destruct (cut_exists _ _ nonblank_iff s) as [ws H]. exists ws. split; [exact H|]. split.
  - intros ws' H'. eapply (cut_unique _ _ nonblank_iff); eassumption.
  - unfold normalise_string. rewrite split_strip, (split_cut ws s H). apply join_joined.
Qed.

Theorem normalise_string_idem s : normalise_string (normalise_string s) = normalise_string s.
Proof.
  destruct (normalise_string_words s) as (ws & H & _ & E). rewrite E.
  destruct (normalise_string_words (joined ($" ") ws)) as (ws' & H' & U & E'). rewrite E'. f_equal.
  symmetry. apply U. apply (cut_joined _ _ nonblank_iff); [discriminate| |].
  - intros c [<-|[]] N. apply nonblank_iff in N. discriminate.
  - eapply (cut_words _ _ nonblank_iff), H.
Qed.

(** ** normalise_key *)
Definition alnum_not_sep (c : ascii) : bool := negb (is_sep c).
Lemma alnum_iff c : letter_or_digit c <-> alnum_not_sep c = true.
Proof.
  assert (E : alnum_not_sep c = is_alnum c).
  { apply Bool.eqb_prop. revert c. apply all_ascii. vm_compute. reflexivity. }
  rewrite E. unfold letter_or_digit, is_alnum, is_alpha, is_upper, is_lower, is_digit, in_range, ord.
  rewrite !orb_true_iff, !andb_true_iff, !N.leb_le. tauto.
Qed.

Lemma nomatch_plus_chr f p s c : hd_not f s -> nomatch (RPlus (RChr f)) p s c.
Proof.
  intros H. apply nomatch_den. intros p' s' c' D.
  apply (den_rep_chr true 1 None f) in D as (w & -> & Hl & _ & Hw & _).
  destruct w as [|x w]; [cbn in Hl; lia|]. cbn in H, Hw. apply andb_true_iff in Hw as [Hw _]. congruence.
Qed.
Lemma skips_plus_chr f w : forall p s, forallb (fun c => negb (f c)) w = true -> skips (RPlus (RChr f)) p w s.
Proof.
  induction w as [|x w IH]; intros p s H; cbn [skips]; [exact I|].
  cbn in H. apply andb_true_iff in H as [Hx Hw]. split; [|now apply IH].
  apply nomatch_plus_chr. cbn. now apply negb_true_iff.
Qed.

Section Sub.
  Context (f : ascii -> bool) (rep : str).
  Notation R := (RPlus (RChr f)).
  Lemma sub_none fuel p w : forallb (fun c => negb (f c)) w = true -> sub_from fuel R rep p w = w.
  Proof.
    intros H. destruct fuel; [reflexivity|]. cbn [sub_from].
    rewrite search_from_none; [reflexivity|now apply skips_plus_chr|now apply nomatch_plus_chr].
  Qed.
  Lemma sub_run fuel p w a s : forallb (fun c => negb (f c)) w = true -> forallb f a = true -> a <> [] -> hd_not f s ->
    sub_from (S fuel) R rep p (w ++ a ++ s) = w ++ rep ++ sub_from fuel R rep (pa (pa p w) a) s.
  Proof.
    intros Hw Ha Hne Hs. cbn [sub_from]. rewrite search_from_skip by now apply skips_plus_chr.
    rewrite (search_from_hit _ _ a s []) by now apply fp_plus_chr. cbn [m_text m_prev m_rest].
    rewrite app_nil_r. destruct a; [congruence|]. reflexivity.
  Qed.
  (** Unmatched text is passed through. *)
  Lemma sub_pass fuel p w s : length s < fuel -> forallb (fun c => negb (f c)) w = true ->
    hd_not (fun c => negb (f c)) s ->
    exists p', sub_from fuel R rep p (w ++ s) = w ++ sub_from fuel R rep p' s.
  Proof.
    intros Hf Hw Hs. exists (pa p w). destruct fuel as [|fuel]; [lia|].
    destruct s as [|x s].
    - rewrite app_nil_r, !sub_none; auto. now rewrite app_nil_r.
    - pose proof (take_while_all f (x :: s)) as Ha. pose proof (drop_while_hd f (x :: s)) as Hd.
      pose proof (take_drop_while f (x :: s)) as E.
      assert (Hne : take_while f (x :: s) <> []).
      { cbn in Hs |- *. apply negb_false_iff in Hs. rewrite Hs. discriminate. }
      rewrite <- E. rewrite sub_run by auto.
      change (take_while f (x :: s) ++ drop_while f (x :: s)) with ([] ++ take_while f (x :: s) ++ drop_while f (x :: s)).
      rewrite (sub_run fuel (pa p w) []) by auto. reflexivity.
  Qed.
End Sub.

Lemma neg_neg f (w : str) : forallb (fun c => negb (negb (f c))) w = forallb f w.
Proof. induction w as [|x w IH]; [reflexivity|]. cbn. now rewrite negb_involutive, IH. Qed.

Lemma hd_neg f (s : str) : hd_not (fun c => negb (f c)) s <-> match s with [] => True | x :: _ => f x = true end.
Proof. destruct s; cbn; [tauto|]. apply negb_false_iff. Qed.

Lemma sub_cut ws s : cut letter_or_digit ws s -> forall fuel p, length s < fuel ->
  exists trail, forallb (Ascii.eqb "_") trail = true /\
    sub_from fuel NORMALISE_RE ($"_") p s =
    (match s with [] => [] | x :: _ => if is_sep x then $"_" else [] end) ++ joined ($"_") ws ++ trail.
Proof.
  unfold NORMALISE_RE.
  induction 1 as [g Hg|g w s ws Hg Hne Hw Hs Hcut IH]; intros fuel p Hf.
  - apply (none_P _ _ alnum_iff) in Hg. unfold alnum_not_sep in Hg. rewrite neg_neg in Hg.
    exists []. split; [reflexivity|]. cbn [joined app]. rewrite app_nil_r. destruct g as [|x g].
    + now rewrite sub_none.
    + destruct fuel as [|fuel]; [lia|]. pose proof Hg as Hg'. cbn in Hg'. apply andb_true_iff in Hg' as [Hx _].
      rewrite Hx.
      pose proof (sub_run is_sep ($"_") fuel p [] (x :: g) [] eq_refl Hg ltac:(discriminate) I) as E.
      rewrite app_nil_r in E. cbn [app] in E. rewrite E, sub_none by reflexivity. reflexivity.
  - apply (none_P _ _ alnum_iff) in Hg. unfold alnum_not_sep in Hg. rewrite neg_neg in Hg.
    apply (all_P _ _ alnum_iff) in Hw. apply (hd_P _ _ alnum_iff) in Hs. unfold alnum_not_sep in Hw, Hs.
    rewrite !app_length in Hf.
    assert (Hwn : w <> []) by exact Hne.
    (* the part after the gap *)
    assert (G : forall fuel p, length s < fuel -> exists trail, forallb (Ascii.eqb "_") trail = true /\
              sub_from fuel (RPlus (RChr is_sep)) ($"_") p (w ++ s) = joined ($"_") (w :: ws) ++ trail).
    { intros fuel0 p0 Hf0. destruct (sub_pass is_sep ($"_") fuel0 p0 w s Hf0 Hw Hs) as [p1 E1].
      destruct (IH fuel0 p1 Hf0) as (trail & Ht & E2). rewrite E1, E2.
      cbn [joined]. destruct ws as [|w' ws].
      - cbn [joined app]. eexists. split; [|reflexivity]. rewrite forallb_app, Ht, andb_true_r.
        destruct s as [|x s']; [reflexivity|]. now destruct (is_sep x).
      - exists trail. split; [exact Ht|]. destruct s as [|x s'].
        + apply cut_empty in Hcut. discriminate.
        + apply hd_neg in Hs. rewrite Hs. rewrite <- !app_assoc. reflexivity. }
    destruct g as [|x g].
    + cbn [app]. destruct (G fuel p ltac:(cbn in Hf; lia)) as (trail & Ht & E). exists trail. split; [exact Ht|].
      rewrite E. destruct w as [|y w]; [congruence|]. cbn in Hw. apply andb_true_iff in Hw as [Hy _].
      apply negb_true_iff in Hy. cbn [app]. rewrite Hy. reflexivity.
    + destruct fuel as [|fuel]; [lia|].
      assert (Hh : hd_not is_sep (w ++ s)).
      { destruct w as [|y w]; [congruence|]. cbn in Hw |- *. apply andb_true_iff in Hw as [Hy _].
        now apply negb_true_iff. }
      pose proof (sub_run is_sep ($"_") fuel p [] (x :: g) (w ++ s) eq_refl Hg ltac:(discriminate) Hh) as E.
      cbn [app] in E |- *. rewrite E.
      destruct (G fuel (pa (Some x) g) ltac:(cbn in Hf; lia)) as (trail & Ht & E').
      exists trail. split; [exact Ht|]. cbn [pa]. rewrite E'. cbn in Hg. apply andb_true_iff in Hg as [-> _].
      reflexivity.
Qed.

Lemma last_not_forallb {A} (f : A -> bool) w : forallb (fun c => negb (f c)) w = true -> last_not f w.
Proof.
  intros H. unfold last_not. rewrite <- forallb_rev in H. destruct (rev w); cbn in *; [exact I|].
  apply andb_true_iff in H as [H _]. now apply negb_true_iff.
Qed.
Lemma last_not_app {A} (f : A -> bool) a b : b <> [] -> last_not f b -> last_not f (a ++ b).
Proof.
  intros Hne. unfold last_not. rewrite rev_app_distr. destruct (rev b) eqn:E; [|auto].
  apply (f_equal (@rev A)) in E. rewrite rev_involutive in E. now subst.
Qed.
Lemma joined_ends f (sep : str) ws : Forall (fun w => w <> [] /\ forallb (fun c => negb (f c)) w = true) ws -> ws <> [] ->
  hd_not f (joined sep ws) /\ last_not f (joined sep ws) /\ joined sep ws <> [].
Proof.
  induction ws as [|w ws IH]; [congruence|]. intros H _. inversion H as [|? ? [Hne Hw] H']; subst.
  assert (Hh : forall t, hd_not f (w ++ t)).
  { intros t. destruct w as [|x w]; [congruence|]. cbn in Hw |- *. apply andb_true_iff in Hw as [Hx _].
    now apply negb_true_iff. }
  destruct ws as [|w' ws].
  - cbn [joined]. split; [rewrite <- (app_nil_r w); apply Hh|]. split; [|exact Hne].
    apply last_not_forallb; auto.
  - destruct (IH H' ltac:(discriminate)) as (_ & Hl & Hn). rewrite joined_cons2. split; [apply Hh|]. split.
    + rewrite app_assoc. apply last_not_app; auto.
    + destruct w; [congruence|discriminate].
Qed.

Lemma lower_joined ws : lower (joined ($"_") ws) = joined ($"_") (map lower ws).
Proof.
  induction ws as [|w ws IH]; [reflexivity|]. destruct ws as [|w' ws]; [reflexivity|].
  rewrite joined_cons2. unfold lower at 1. rewrite !map_app. fold (lower (joined ($"_") (w' :: ws))).
  rewrite IH. reflexivity.
Qed.

Lemma normalise_key_cut ws s : cut letter_or_digit ws s -> normalise_key s = joined ($"_") (map lower ws).
Proof.
  intros H. unfold normalise_key, re_sub.
  destruct (sub_cut ws s H (S (length s)) None ltac:(lia)) as (trail & Ht & ->).
  rewrite <- lower_joined. f_equal.
  set (lead := match s with [] => [] | x :: _ => _ end).
  assert (Hl : forallb (Ascii.eqb "_") lead = true).
  { unfold lead. destruct s as [|x s]; [reflexivity|]. now destruct (is_sep x). }
  destruct ws as [|w ws].
  - cbn [joined app]. apply strip_by_all. now rewrite forallb_app, Hl, Ht.
  - assert (J := cut_words _ _ alnum_iff _ _ H).
    assert (J' : Forall (fun w => w <> [] /\ forallb (fun c => negb (Ascii.eqb "_" c)) w = true) (w :: ws)).
    { revert J. apply Forall_impl. intros v [Hv1 Hv2]. split; [exact Hv1|]. rewrite forallb_forall in *.
      intros c Hc. specialize (Hv2 c Hc). revert Hv2. unfold alnum_not_sep, is_sep. rewrite (Ascii.eqb_sym "_" c).
      destruct (Ascii.eqb c "_"); [discriminate|reflexivity]. }
    destruct (joined_ends _ ($"_") _ J' ltac:(discriminate)) as (H1 & H2 & H3).
    now apply strip_by_core.
Qed.

Lemma alnum_lower c : alnum_not_sep c = true -> alnum_not_sep (lower_c c) = true.
Proof.
  assert (G : forall c, implb (alnum_not_sep c) (alnum_not_sep (lower_c c)) = true)
    by (apply (all_ascii (fun c => implb (alnum_not_sep c) (alnum_not_sep (lower_c c)))); vm_compute; reflexivity).
  specialize (G c). intros H. rewrite H in G. exact G.
Qed.

Theorem normalise_key_words s : exists ws, cut letter_or_digit ws s /\
  (forall ws', cut letter_or_digit ws' s -> ws' = ws) /\ normalise_key s = joined ($"_") (map lower ws).
Proof.
  destruct (cut_exists _ _ alnum_iff s) as [ws H]. exists ws. split; [exact H|]. split.
  - intros ws' H'. eapply (cut_unique _ _ alnum_iff); eassumption.
  - now apply normalise_key_cut.
Qed.

Lemma lower_idem w : lower (lower w) = lower w.
Proof. unfold lower. rewrite map_map. apply map_ext. apply lower_lower. Qed.

Theorem normalise_key_idem s : normalise_key (normalise_key s) = normalise_key s.
Proof.
  destruct (normalise_key_words s) as (ws & H & _ & E). rewrite E.
  rewrite (normalise_key_cut (map lower ws)).
  - f_equal. rewrite map_map. apply map_ext, lower_idem.
  - apply (cut_joined _ _ alnum_iff); [discriminate| |].
    + intros c [<-|[]] N. apply alnum_iff in N. discriminate.
    + apply cut_words with (f := alnum_not_sep) in H; [|apply alnum_iff].
      apply Forall_map. revert H. apply Forall_impl. intros w [H1 H2]. split.
      * destruct w; [congruence|discriminate].
      * unfold lower. rewrite forallb_forall in *. intros c Hc. apply in_map_iff in Hc as (d & <- & Hd).
        apply alnum_lower, H2, Hd.
Qed.

Lemma canon_lower c : letter_or_digit c -> canonical_char (lower_c c).
Proof.
  unfold letter_or_digit, canonical_char.
  assert (G : forall c, implb (is_alnum c) (is_digit (lower_c c) || is_lower (lower_c c)) = true)
    by (apply all_ascii; vm_compute; reflexivity).
  intros H. assert (Ha : is_alnum c = true).
  { unfold is_alnum, is_alpha, is_upper, is_lower, is_digit, in_range, ord.
    rewrite !orb_true_iff, !andb_true_iff, !N.leb_le. tauto. }
  specialize (G c). rewrite Ha in G. cbn [implb] in G. right.
  unfold is_lower, is_digit, in_range, ord in G.
  now rewrite !orb_true_iff, !andb_true_iff, !N.leb_le in G.
Qed.

Theorem normalise_key_canonical s c : In c (normalise_key s) -> canonical_char c.
Proof.
  destruct (normalise_key_words s) as (ws & H & _ & ->).
  assert (G : forall w, In w ws -> forall x, In x w -> letter_or_digit x).
  { intros w Hw x Hx. apply cut_words with (f := alnum_not_sep) in H; [|apply alnum_iff].
    rewrite Forall_forall in H. destruct (H w Hw) as [_ F]. rewrite forallb_forall in F. apply alnum_iff, F, Hx. }
  clear H. induction ws as [|w ws IH]; [intros []|].
  assert (Gw : In c (lower w) -> canonical_char c).
  { intros Hc. apply in_map_iff in Hc as (d & <- & Hd). apply canon_lower. eapply G; [now left|exact Hd]. }
  assert (IH' : In c (joined ($"_") (map lower ws)) -> canonical_char c).
  { apply IH. intros v Hv. apply G. now right. }
  destruct ws as [|w' ws]; [exact Gw|].
  cbn [map]. rewrite joined_cons2. intros Hc. apply in_app_or in Hc as [Hc|Hc]; [auto|].
  apply in_app_or in Hc as [[<-|[]]|Hc]; [now left|]. now apply IH'.
Qed.

(** ** Comments *)
Lemma den_char x p s c p' s' c' : den (RChar x) p s c p' s' c' <-> s = x :: s' /\ p' = Some x /\ c' = c.
Proof.
  cbn [den RChar]. split.
  - intros (y & -> & Hy & -> & ->). apply Ascii.eqb_eq in Hy. subst. auto.
  - intros (-> & -> & ->). exists x. rewrite Ascii.eqb_refl. auto.
Qed.
Lemma den_lit t : forall p s c p' s' c', den (RLit_l t) p s c p' s' c' <-> s = t ++ s' /\ p' = pa p t /\ c' = c.
Proof.
  induction t as [|x t IH]; intros p s c p' s' c'.
  - cbn [RLit_l den app pa]. intuition congruence.
  - destruct t as [|y t].
    + cbn [RLit_l]. rewrite den_char. reflexivity.
    + change (RLit_l (x :: y :: t)) with (RSeq (RChar x) (RLit_l (y :: t))). cbn [den]. split.
      * intros (p1 & s1 & c1 & D & D'). apply den_char in D as (-> & -> & ->).
        apply IH in D' as (-> & -> & ->). auto.
      * intros (-> & -> & ->). exists (Some x), ((y :: t) ++ s'), c. split; [now apply den_char|now apply IH].
Qed.
Lemma rep_ok_lit t : rep_ok (RLit_l t) = true.
Proof.
  induction t as [|x t IH]; [reflexivity|]. destruct t as [|y t]; [reflexivity|].
  change (RLit_l (x :: y :: t)) with (RSeq (RChar x) (RLit_l (y :: t))). cbn [rep_ok]. now rewrite IH.
Qed.
Lemma den_alts rs p s c p' s' c' : den (RAlts rs) p s c p' s' c' <-> exists r, In r rs /\ den r p s c p' s' c'.
Proof.
  induction rs as [|r rs IH].
  - cbn [RAlts den]. split; [intros (x & _ & E & _); discriminate|intros (r & [] & _)].
  - destruct rs as [|r' rs].
    + cbn [RAlts]. split; [intros D; exists r; split; [now left|exact D]|intros (r1 & [<-|[]] & D); exact D].
    + change (RAlts (r :: r' :: rs)) with (RAlt r (RAlts (r' :: rs))). cbn [den]. rewrite IH. split.
      * intros [D|(r1 & H & D)]; [exists r; split; [now left|exact D]|exists r1; split; [now right|exact D]].
      * intros (r1 & [<-|H] & D); [now left|right; now exists r1].
Qed.
Lemma rep_ok_alts rs : forallb rep_ok rs = true -> rep_ok (RAlts rs) = true.
Proof.
  induction rs as [|r rs IH]; [reflexivity|]. cbn [forallb]. intros H. apply andb_true_iff in H as [H1 H2].
  destruct rs as [|r' rs]; [exact H1|].
  change (RAlts (r :: r' :: rs)) with (RAlt r (RAlts (r' :: rs))). cbn [rep_ok]. now rewrite H1, IH.
Qed.
Lemma rep_ok_comment ms : rep_ok (comment_alt ms) = true.
Proof.
  unfold comment_alt. destruct ms as [|m0 ms0]; [reflexivity|]. generalize (m0 :: ms0). intros ms.
  apply rep_ok_alts. rewrite forallb_forall. intros r H. apply in_map_iff in H as (t & <- & _). apply rep_ok_lit.
Qed.
Lemma den_comment ms p s c p' s' c' : ms <> [] -> den (comment_alt ms) p s c p' s' c' <->
  exists m, In m ms /\ s = m ++ s' /\ p' = pa p m /\ c' = c.
Proof.
  intros Hne. unfold comment_alt. destruct ms as [|m0 ms0]; [congruence|]. clear Hne.
  generalize (m0 :: ms0). intros ms. rewrite den_alts. split.
  - intros (r & H & D). apply in_map_iff in H as (t & <- & Ht). apply den_lit in D as (-> & -> & ->). eauto.
  - intros (t & Ht & -> & -> & ->). exists (RLit_l t). split; [now apply in_map|now apply den_lit].
Qed.

Lemma search_first r : rep_ok r = true -> forall s p pre x, search_from r p s = Some (pre, x) ->
  forall a b, s = a ++ b -> (exists p' s' c', den r (pa p a) b [] p' s' c') -> length pre <= length a.
Proof.
  intros W. induction s as [|y s IH]; intros p pre x H a b E D; cbn [search_from] in H.
  - destruct (match_at r p []); [|discriminate]. injection H as <- _. cbn. lia.
  - destruct (match_at r p (y :: s)) eqn:Em; [injection H as <- _; cbn; lia|].
    destruct (search_from r (Some y) s) as [[pre' x']|] eqn:Es; [|discriminate]. injection H as <- <-.
    destruct a as [|z a].
    + cbn in E, D. subst b. exfalso. eapply match_at_some; eassumption.
    + injection E as <- E. cbn [pa] in D. cbn [length].
      specialize (IH (Some y) _ _ Es a b E D). lia.
Qed.

Lemma before_match_spec ms l : ms <> [] -> before_marker ms l (before_match (comment_alt ms) l).
Proof.
  intros Hne. unfold before_match. destruct (search_from (comment_alt ms) None l) as [[pre x]|] eqn:E.
  - left. split.
    + apply search_sound in E as (s' & E & Es & D). apply (den_comment ms) in D as (m & Hm & D & _); [|exact Hne].
      exists m, (m_rest x). split; [exact Hm|]. rewrite E. rewrite <- Es, D. reflexivity.
    + intros h' m rest Hm E'. eapply (search_first _ (rep_ok_comment ms)); [exact E|exact E'|].
      exists (pa (pa None h') m), rest, []. apply den_comment; eauto.
  - right. split; [reflexivity|]. intros h' m rest Hm E'.
    assert (H : re_test (comment_alt ms) l = true).
    { apply (search_test_iff _ _ (rep_ok_comment ms)). exists h', (m ++ rest). split; [exact E'|].
      exists (pa (pa None h') m), rest, []. apply den_comment; eauto. }
    unfold re_test, re_search in H. rewrite E in H. discriminate.
Qed.
Lemma before_marker_unique ms l h h' : before_marker ms l h -> before_marker ms l h' -> h = h'.
Proof.
  intros [[(m & r & Hm & E) L]|[E N]] [[(m' & r' & Hm' & E') L']|[E' N']].
  - assert (length h = length h').
    { specialize (L _ _ _ Hm' E'). specialize (L' _ _ _ Hm E). lia. }
    rewrite E in E'. assert (Hf := f_equal (firstn (length h)) E').
    rewrite firstn_app, Nat.sub_diag, firstn_O, app_nil_r, firstn_all, H in Hf.
    now rewrite firstn_app, Nat.sub_diag, firstn_O, app_nil_r, firstn_all in Hf.
  - exfalso. eapply N'; eauto.
  - exfalso. eapply N; eauto.
  - congruence.
Qed.

Lemma right_stripped_rstrip l : right_stripped l (rstrip l).
Proof.
  unfold rstrip, rstrip_by. exists (rev (take_while is_space (rev l))). split; [|split].
  - rewrite <- rev_app_distr, take_drop_while, rev_involutive. reflexivity.
  - apply blanks_iff. rewrite forallb_rev. apply take_while_all.
  - intros t c E Hb. apply blank_iff in Hb. pose proof (drop_while_hd is_space (rev l)) as Hd.
    apply (f_equal (@rev ascii)) in E. rewrite rev_involutive, rev_app_distr in E. rewrite E in Hd. cbn in Hd. congruence.
Qed.
Lemma right_stripped_unique l o o' : right_stripped l o -> right_stripped l o' -> o = o'.
Proof.
  assert (G : forall o, right_stripped l o -> o = rstrip l).
  { clear. intros o (b & -> & Hb & Hl). unfold rstrip, rstrip_by. apply blanks_iff in Hb.
    rewrite rev_app_distr, drop_while_app; [now rewrite rev_involutive|now rewrite forallb_rev|].
    destruct (rev o) as [|c t] eqn:E; cbn; [exact I|]. apply (f_equal (@rev ascii)) in E.
    rewrite rev_involutive in E. cbn [rev] in E. specialize (Hl _ _ E).
    destruct (is_space c) eqn:Ec; [|reflexivity]. exfalso. now apply Hl, blank_iff. }
  intros H H'. now rewrite (G o H), (G o' H').
Qed.
Lemma blanks_rstrip l : blanks l <-> rstrip l = [].
Proof.
  rewrite blanks_iff. unfold rstrip, rstrip_by. split.
  - intros H. rewrite drop_while_none; [reflexivity|now rewrite forallb_rev].
  - intros H. pose proof (take_drop_while is_space (rev l)) as E.
    apply (f_equal (@rev ascii)) in H. rewrite rev_involutive in H. rewrite H in E. cbn in E.
    rewrite app_nil_r in E. rewrite <- forallb_rev, <- E. apply take_while_all.
Qed.

Lemma comment_line_test ms l : ms <> [] ->
  re_match_test (RSeqs [RBol; ws_star; comment_alt ms]) l = true <-> comment_line ms l.
Proof.
  intros Hne. rewrite match_test_iff by (cbn [RSeqs rep_ok ws_star RStar]; rewrite rep_ok_comment; reflexivity).
  cbn [RSeqs]. split.
  - intros (p' & s' & c' & p1 & s1 & c1 & D1 & p2 & s2 & c2 & D2 & D3).
    cbn [den] in D1. destruct D1 as (_ & <- & <- & <-).
    apply (den_rep_chr true 0 None is_space) in D2 as (w & -> & _ & _ & Hw & _).
    apply (den_comment ms) in D3 as (m & Hm & -> & _); [|exact Hne]. exists w, m, s'. split; [now apply blanks_iff|auto].
  - intros (w & m & rest & Hw & Hm & ->). apply blanks_iff in Hw.
    exists (pa (pa None w) m), rest, [], None, (w ++ m ++ rest), []. split; [cbn [den]; auto|].
    exists (pa None w), (m ++ rest), []. split.
    + apply (den_rep_intro true 0 None is_space); [exact Hw|lia|exact I].
    + apply den_comment; eauto.
Qed.

Theorem strip_initial_spec ms ls : ms <> [] ->
  stripped (initial_drops ms) (initial_keeps ms) ls (strip_comments ms false ls).
Proof.
  intros Hne. unfold strip_comments, strip_initial_comments.
  induction ls as [|l ls IH]; [constructor|]. cbn [filter].
  destruct (re_match_test _ l) eqn:E; cbn [negb].
  - apply st_drop; [|exact IH]. left. now apply comment_line_test in E.
  - cbn [map filter]. destruct (rstrip l) as [|x o] eqn:Er; cbn [isempty negb].
    + apply st_drop; [|exact IH]. right. now apply blanks_rstrip.
    + apply st_keep; [|exact IH]. split; [|split].
      * intros H. apply comment_line_test in H; [congruence|exact Hne].
      * discriminate.
      * rewrite <- Er. apply right_stripped_rstrip.
Qed.
Theorem strip_inline_spec ms ls : ms <> [] ->
  stripped (inline_drops ms) (inline_keeps ms) ls (strip_comments ms true ls).
Proof.
  intros Hne. unfold strip_comments, strip_inline_comments.
  induction ls as [|l ls IH]; [constructor|]. cbn [map filter].
  destruct (rstrip (before_match _ l)) as [|x o] eqn:Er; cbn [isempty negb].
  - apply st_drop; [|exact IH]. eexists. split; [now apply before_match_spec|]. now apply blanks_rstrip.
  - apply st_keep; [|exact IH]. eexists. split; [now apply before_match_spec|]. split; [discriminate|].
    rewrite <- Er. apply right_stripped_rstrip.
Qed.
Lemma blanks_not_kept l o : blanks l -> right_stripped l o -> o = [].
Proof.
  intros H R. apply blanks_rstrip in H. rewrite <- H. eapply right_stripped_unique; [exact R|apply right_stripped_rstrip].
Qed.
Lemma stripped_unique (D : str -> Prop) (K : str -> str -> Prop) :
  (forall l o, D l -> K l o -> False) -> (forall l o o', K l o -> K l o' -> o = o') ->
  forall ls out, stripped D K ls out -> forall out', stripped D K ls out' -> out = out'.
Proof.
  intros H1 H2 ls out. induction 1; intros out' H'; inversion H'; subst; auto.
  - exfalso; eauto.
  - exfalso; eauto.
  - f_equal; eauto.
Qed.
Theorem strip_initial_unique ms ls out out' :
  stripped (initial_drops ms) (initial_keeps ms) ls out ->
  stripped (initial_drops ms) (initial_keeps ms) ls out' -> out = out'.
Proof.
  intros H H'. eapply stripped_unique; [| |exact H|exact H'].
  - intros l o [D|D] (K1 & K2 & K3); [contradiction|]. apply K2. eapply blanks_not_kept; eassumption.
  - intros l o o' (_ & _ & K) (_ & _ & K'). eapply right_stripped_unique; eassumption.
Qed.
Theorem strip_inline_unique ms ls out out' :
  stripped (inline_drops ms) (inline_keeps ms) ls out ->
  stripped (inline_drops ms) (inline_keeps ms) ls out' -> out = out'.
Proof.
  intros H H'. eapply stripped_unique; [| |exact H|exact H'].
  - intros l o (h & D & D') (h' & K1 & K2 & K3). apply K2.
    rewrite (before_marker_unique _ _ _ _ D K1) in D'. eapply blanks_not_kept; eassumption.
  - intros l o o' (h & K1 & _ & K) (h' & K1' & _ & K'). rewrite (before_marker_unique _ _ _ _ K1 K1') in K.
    eapply right_stripped_unique; eassumption.
Qed.
