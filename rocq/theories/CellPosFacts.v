(** Facts about the .cell parser: positions and other blocks. *)
From Coq Require Import QArith Qreduction.
From Verif Require Import PyBase PyFacts PyVal Regex RegexFacts RegexComplete CastepRes NumSpec NumFacts NumProps
  StrUtil SpecStr StrUtilFacts SpecLine SpecType TypeConv TypeConvFacts IntStr DictUtil SpecDict DictFacts Stream StreamFacts
  SpecTable ColumnFacts Header HeaderFacts MdFacts CellParam SpecCell CellFacts.
Local Open Scope list_scope.
Local Open Scope nat_scope.

(** ** Coordinates *)
Lemma fp_alt_assoc a b d p t s c c' : fp (RAlt a (RAlt b d)) p t s c c' -> fp (RAlt (RAlt a b) d) p t s c c'.
Proof.
  intros H R k x Hk. specialize (H R k x Hk). cbn in H |- *. destruct (m a p (t ++ s) c k); [exact H|].
  destruct (m b p (t ++ s) c k); exact H.
Qed.
Lemma write_sign_numchars sg : forallb is_numchar (write_sign sg) = true.
Proof. now destruct sg. Qed.
Lemma write_digits_numchars d : forallb is_numchar (write_digits d) = true.
Proof.
  apply forallb_forall. intros x Hx. pose proof (write_digits_digits d) as E. rewrite forallb_forall in E. apply E in Hx.
  unfold is_numchar. now rewrite Hx.
Qed.
Lemma end_not_numchar s : token_end s -> hd_not is_numchar s.
Proof. intros H. apply token_end_hd in H. destruct s as [|x s]; [exact I|]. cbn in H |- *. apply negb_false_iff in H. revert x H. ascii_dec. Qed.
Lemma nomatch_rational_num n p s c : num_ok n -> token_end s -> nomatch RATIONAL_RE p (write_num n ++ s) c.
Proof.
  intros Hn Hs. apply nomatch_den. intros p' s' c' D. unfold RATIONAL_RE in D. cbn [RSeqs] in D.
  destruct D as (p1 & s1 & c1 & (_ & _ & <- & _) & p2 & s2 & c2 & D2 & p3 & s3 & c3 & (x & E3 & Hx & _) & _).
  apply den_INT in D2 as (sg & d & Hd & E & _). apply Ascii.eqb_eq in Hx. subst x s2.
  rewrite app_assoc in E. apply class_split with (f := is_numchar) in E as [_ E].
  - subst s. destruct (Hs "/"%char s3 eq_refl) as [H|H]; [discriminate|]. revert H. cbn. intuition discriminate.
  - apply write_num_numchars.
  - rewrite forallb_app. now rewrite write_sign_numchars, write_digits_numchars.
  - now apply end_not_numchar.
  - reflexivity.
Qed.
Definition prev_plain (p : option ascii) : Prop := match p with Some x => is_word x = false /\ x <> "."%char | None => True end.
Lemma prev_plain_ok p n : prev_plain p -> prev_ok p n.
Proof. intros H _ _ ->. destruct H. congruence. Qed.
Lemma fp_coord x p s c : coord_ok x -> token_end s -> prev_plain p -> fp FLOAT_RAT_RE p (coord_text x) s c c.
Proof.
  intros [_ Hx] Hs Hp. unfold FLOAT_RAT_RE. cbn [RAlts]. destruct x as [n|r]; cbn [coord_text].
  - apply fp_alt_r; [now apply nomatch_rational_num|]. unfold EXPFNUMBER_RE. apply fp_alt_assoc.
    apply (fp_NUMBER n); [exact Hx|now apply token_end_follow|now apply prev_plain_ok].
  - apply fp_alt_l. destruct Hx as ([H1 H2] & Hs0 & _). unfold write_ratio, RATIONAL_RE. rewrite Hs0. cbn [RSeqs write_sign app].
    destruct (r_num r) as [|d0 ds] eqn:Er; [congruence|]. rewrite <- Er.
    change (write_digits (r_num r) ++ "/"%char :: write_digits (r_den r)) with ([] ++ write_digits (r_num r) ++ ["/"%char] ++ write_digits (r_den r)).
    apply fp_seq with (c1 := c).
    { apply fp_wordb. rewrite Er. cbn [app write_digits map]. unfold word_boundary. cbn [hd_error].
      assert (is_word (digit_char d0) = true) as -> by now destruct d0. destruct p as [y|]; [|reflexivity]. destruct Hp as [-> _]. reflexivity. }
    cbn [pa]. apply fp_seq with (c1 := c).
    { apply (fp_INT NoSign (r_num r)); [congruence|reflexivity|]. intros _ ->. destruct Hp; congruence. }
    apply fp_seq with (c1 := c); [apply fp_char|]. rewrite <- (app_nil_r (write_digits (r_den r))).
    assert (Hm : hd_not is_mant s).
    { apply token_end_hd in Hs. destruct s as [|y s]; [exact I|]. cbn in Hs |- *. apply negb_false_iff in Hs. clear -Hs. revert y Hs. ascii_dec. }
    apply fp_seq with (c1 := c).
    { apply (fp_INT NoSign (r_den r)); [exact H2|exact Hm|]. intros _. cbn. congruence. }
    apply fp_wordb. destruct (pa_digits (pa (pa p (write_digits (r_num r))) ["/"%char]) (r_den r) H2) as (y & -> & Hy).
    apply wb_after_digit; [exact Hy|]. apply token_end_hd in Hs. destruct s as [|z s]; [exact I|]. cbn in Hs |- *.
    apply negb_false_iff in Hs. now apply space_not_word.
Qed.
Definition is_coordchar (c : ascii) : bool := is_numchar c || Ascii.eqb c "/".
Lemma coord_chars x : forallb is_coordchar (coord_text x) = true.
Proof.
  assert (M : forall w, forallb is_numchar w = true -> forallb is_coordchar w = true).
  { intros w H. apply forallb_forall. intros y Hy. rewrite forallb_forall in H. unfold is_coordchar. now rewrite (H y Hy). }
  destruct x as [n|r]; cbn [coord_text].
  - apply M, write_num_numchars.
  - unfold write_ratio. rewrite !forallb_app. cbn [forallb]. rewrite !M; [reflexivity|..]; auto using write_digits_numchars, write_sign_numchars.
Qed.
Lemma coord_nonempty x : coord_ok x -> coord_text x <> [].
Proof.
  intros [_ H]. destruct x as [n|r]; cbn in *; [now apply write_num_nonempty|]. unfold write_ratio.
  destruct (write_sign (r_sign r)), (write_digits (r_num r)); discriminate.
Qed.
Lemma coordchar_not_space x : is_coordchar x = true -> is_space x = false.
Proof. revert x. ascii_dec. Qed.
Lemma coord_hd x s : coord_ok x -> hd_not is_space (coord_text x ++ s).
Proof.
  intros H. pose proof (coord_chars x) as C. pose proof (coord_nonempty x H). destruct (coord_text x) as [|y t]; [congruence|].
  cbn in C |- *. apply andb_true_iff in C as [C _]. now apply coordchar_not_space.
Qed.
Lemma coord_last x : last_not is_space (coord_text x).
Proof.
  apply last_not_forallb, forallb_forall. intros y Hy. pose proof (coord_chars x) as C. rewrite forallb_forall in C.
  apply negb_true_iff. apply coordchar_not_space. auto.
Qed.
Lemma prev_plain_space p g : forallb is_space g = true -> g <> [] -> prev_plain (pa p g).
Proof.
  intros Hg H0. rewrite pa_rev. destruct (rev g) as [|x r] eqn:E.
  { exfalso. apply H0. rewrite <- (rev_involutive g), E. reflexivity. }
  assert (Hx : is_space x = true) by (rewrite forallb_forall in Hg; apply Hg, in_rev; rewrite E; now left).
  split; [now apply space_not_word|]. intros ->. discriminate.
Qed.
Lemma coords_hd xs t s : coords xs t -> token_end s -> token_end (t ++ s).
Proof.
  intros [|g x xs' t' Hg Hg0 _ _] Hs; [exact Hs|]. destruct g as [|y g]; [congruence|]. intros c u E. injection E as <- _. now inversion Hg.
Qed.
Definition coord_piece : re := RSeq ws_plus FLOAT_RAT_RE.
Lemma coords_pieces xs t : coords xs t -> forall s, token_end s ->
  exists ts, concat ts = t /\ length ts = length xs /\ forall p c, fps coord_piece p ts s c c.
Proof.
  induction 1 as [|g x xs t Hg Hg0 Hx Hc IH]; intros s Hs.
  - exists []. repeat split. intros; constructor.
  - apply blanks_iff in Hg. destruct (IH s Hs) as (ts & E & Hl & F). exists ((g ++ coord_text x) :: ts).
    split; [cbn; now rewrite E, <- app_assoc|]. split; [cbn; now rewrite Hl|].
    intros p c. econstructor; [|apply F]. apply fp_seq with (c1 := c).
    + apply fp_plus_chr; [exact Hg|exact Hg0|]. now apply coord_hd.
    + apply fp_coord; [exact Hx| |now apply prev_plain_space]. rewrite E. now apply coords_hd with (xs := xs).
Qed.
Lemma coord_word x : coord_ok x -> word (coord_text x).
Proof.
  intros H. split; [now apply coord_nonempty|]. apply forallb_forall. intros y Hy. pose proof (coord_chars x) as C.
  rewrite forallb_forall in C. apply negb_true_iff. apply coordchar_not_space. auto.
Qed.
Lemma split_coords xs t b : coords xs t -> forallb is_space b = true -> split (t ++ b) = map coord_text xs.
Proof.
  intros H Hb. induction H as [|g x xs t Hg Hg0 Hx Hc IH]; [now apply split_all_ws|].
  apply blanks_iff in Hg. rewrite <- !app_assoc, split_ws_app by exact Hg. cbn [map]. rewrite <- IH.
  destruct Hc as [|g' x' xs' t' Hg' Hg0' _ _].
  - cbn [app]. destruct b as [|y b]; [rewrite app_nil_r; now apply split_word_end, coord_word|].
    rewrite <- (app_nil_r (y :: b)) at 1. rewrite split_word_ws; [|now apply coord_word|exact Hb|discriminate].
    now rewrite split_nil, (split_all_ws (y :: b)).
  - apply blanks_iff in Hg'. rewrite <- !app_assoc, split_word_ws; [|now apply coord_word|exact Hg'|exact Hg0'].
    now rewrite (split_ws_app g').
Qed.
Lemma coord_denotes x : coord_ok x -> denotes (coord_text x) (coord_value x).
Proof.
  intros [_ H]. destruct x as [n|r]; cbn in *.
  - rewrite <- (app_nil_r (write_num n)). apply (den_num [] n []); [constructor|constructor|now apply ok_wf].
  - rewrite <- (app_nil_r (write_ratio r)). apply (den_ratio [] r []); [constructor|constructor|apply H|apply H].
Qed.
Lemma coord_to_float x : coord_ok x -> to_type TFloat (VStr (coord_text x)) = Ok (coord_float x).
Proof. intros H. apply float_value; [now apply coord_denotes|apply H]. Qed.
Lemma coords_ok xs t : coords xs t -> Forall coord_ok xs.
Proof. induction 1; constructor; auto. Qed.
Lemma coords_tuple xs : Forall coord_ok xs -> to_tuple TFloat (map coord_text xs) = Ok (VTuple (map coord_float xs)).
Proof.
  intros H. unfold to_tuple. cbn [to_type]. rewrite map_map, (TypeConvFacts.mapM_map _ _ coord_float); [reflexivity|].
  intros x Hx. rewrite Forall_forall in H. apply coord_to_float. auto.
Qed.

(** ** Looking for words in a line *)
Definition quiet (lit w s : str) : Prop := forall a b, w = a ++ b -> b <> [] -> startswith lit (lower (b ++ s)) = false.
Lemma quiet_app lit u v s : quiet lit u (v ++ s) -> quiet lit v s -> quiet lit (u ++ v) s.
Proof.
  intros Hu Hv a b E Hb. apply app_eq_app in E as (l & [[-> ->]|[-> ->]]).
  - destruct l as [|x l]; [apply (Hv []); [reflexivity|exact Hb]|]. rewrite <- app_assoc. apply (Hu a); [reflexivity|discriminate].
  - apply (Hv l); [reflexivity|exact Hb].
Qed.
Definition is_plain (c : ascii) : bool := negb (is_alpha c) || Ascii.eqb (lower_c c) "e".
Definition words : list str := [$"spin"; $"magmom"; $"mixture"].
Lemma quiet_plain lit w s : In lit words -> forallb is_plain w = true -> quiet lit w s.
Proof.
  intros Hl Hw a b -> Hb. destruct b as [|x b]; [congruence|]. rewrite forallb_app in Hw. apply andb_true_iff in Hw as [_ Hw].
  cbn [forallb] in Hw. apply andb_true_iff in Hw as [Hx _].
  assert (E : lower_c x <> "s"%char /\ lower_c x <> "m"%char).
  { assert (A : forall y, is_plain y = true -> Ascii.eqb (lower_c y) "s" = false) by ascii_dec.
    assert (B : forall y, is_plain y = true -> Ascii.eqb (lower_c y) "m" = false) by ascii_dec.
    split; intros E; [specialize (A x Hx)|specialize (B x Hx)]; rewrite E in *; discriminate. }
  cbn [app]. change (lower (x :: b ++ s)) with (lower_c x :: lower (b ++ s)). destruct E as [E1 E2].
  destruct Hl as [<-|[<-|[<-|[]]]]; unfold startswith; cbn [list_ascii_of_string strip_prefix].
  all: match goal with |- context [Ascii.eqb ?a ?b] => destruct (Ascii.eqb_spec a b) as [E|E]; [congruence|reflexivity] end.
Qed.
Lemma startswith_split lit u s : startswith lit (u ++ s) = true ->
  startswith lit u = true \/ (match s with [] => False | x :: _ => In x lit end).
Proof.
  unfold startswith. revert u. induction lit as [|y lit IH]; intros u H; [now left|]. destruct u as [|x u]; cbn in *.
  - destruct s as [|x s]; [discriminate|]. right. destruct (Ascii.eqb_spec y x); [now left|discriminate].
  - destruct (Ascii.eqb y x); [|discriminate]. apply IH in H as [H|H]; [now left|right]. destruct s; [exact H|now right].
Qed.
Lemma words_alpha lit x : In lit words -> In (lower_c x) lit -> is_alpha x = true.
Proof.
  intros H Hx. assert (A : forallb (fun y => is_alpha y) lit = true) by (destruct H as [<-|[<-|[<-|[]]]]; reflexivity).
  rewrite forallb_forall in A. apply A in Hx. revert x Hx. ascii_dec.
Qed.
Lemma quiet_word lit w s : In lit words -> hd_not is_alpha s ->
  (forall a b, w = a ++ b -> startswith lit (lower b) = false) -> quiet lit w s.
Proof.
  intros Hl Hs H a b E _. rewrite lower_app. destruct (startswith lit (lower b ++ lower s)) eqn:F; [|reflexivity].
  apply startswith_split in F as [F|F]; [now rewrite (H a b E) in F|]. destruct s as [|x s]; [destruct F|].
  cbn in F. apply (words_alpha _ _ Hl) in F. cbn in Hs. congruence.
Qed.
Fixpoint suffixes (w : str) : list str := w :: match w with [] => [] | _ :: w' => suffixes w' end.
Lemma suffixes_in a b : In b (suffixes (a ++ b)).
Proof. induction a as [|x a IH]; cbn; [destruct b; now left|now right]. Qed.
Lemma quiet_spelt lit kw k s : In lit words -> hd_not is_alpha s -> lower kw = k ->
  forallb (fun u => negb (startswith lit u)) (suffixes k) = true -> quiet lit kw s.
Proof.
  intros Hl Hs Hk H. apply quiet_word; [exact Hl|exact Hs|]. intros a b ->. rewrite forallb_forall in H.
  apply negb_true_iff, H. rewrite <- Hk, lower_app. apply suffixes_in.
Qed.
Lemma startswith_length lit u : startswith lit u = true -> length lit <= length u.
Proof.
  unfold startswith. revert u. induction lit as [|x lit IH]; intros [|y u] H; cbn in *; try lia; try discriminate.
  destruct (Ascii.eqb x y); [|discriminate]. apply IH in H. lia.
Qed.
Lemma quiet_short lit w s : In lit words -> hd_not is_alpha s -> length w <= 3 -> quiet lit w s.
Proof.
  intros Hl Hs H. apply quiet_word; [exact Hl|exact Hs|]. intros a b ->. rewrite app_length in H.
  destruct (startswith lit (lower b)) eqn:E; [|reflexivity]. apply startswith_length in E. unfold lower in E. rewrite map_length in E.
  destruct Hl as [<-|[<-|[<-|[]]]]; cbn in E; lia.
Qed.
Lemma litI_nomatch lit p s c : startswith (lower lit) (lower s) = false -> nomatch (RLitI_l lit) p s c.
Proof.
  intros H. apply nomatch_den. intros p' s' c' D. apply den_litI in D as (w & -> & E & _). rewrite lower_app in H.
  rewrite E in H. assert (F : startswith (lower lit) (lower lit ++ lower s') = true) by (apply startswith_iff; eauto). congruence.
Qed.
Lemma quiet_skips r lits : (forall p s c, Forall (fun lit => startswith lit (lower s) = false) lits -> nomatch r p s c) ->
  forall w p s, Forall (fun lit => quiet lit w s) lits -> skips r p w s.
Proof.
  intros Hr. induction w as [|x w IH]; intros p s H; [exact I|]. split.
  - apply Hr. eapply Forall_impl; [|exact H]. intros lit Hl. apply (Hl []); [reflexivity|discriminate].
  - apply IH. eapply Forall_impl; [|exact H]. intros lit Hl a b -> Hb. now apply (Hl (x :: a)).
Qed.
Lemma spin_nomatch p s c : Forall (fun lit => startswith lit (lower s) = false) [$"spin"; $"magmom"] -> nomatch POSITIONS_SPIN_RE p s c.
Proof.
  intros H. inversion H as [|? ? H1 H2]; subst. inversion H2 as [|? ? H3 _]; subst.
  unfold POSITIONS_SPIN_RE. cbn [RSeqs]. apply nomatch_seq_l, nomatch_alt; apply litI_nomatch; assumption.
Qed.
Lemma mixture_nomatch p s c : Forall (fun lit => startswith lit (lower s) = false) [$"mixture"] -> nomatch POSITIONS_MIXTURE_RE p s c.
Proof. intros H. inversion H; subst. unfold POSITIONS_MIXTURE_RE. cbn [RSeqs]. now apply nomatch_seq_l, litI_nomatch. Qed.
Lemma quiet_nil lit s : quiet lit [] s.
Proof. intros a b E Hb. symmetry in E. apply app_eq_nil in E as [_ ->]. congruence. Qed.
Lemma quiet_none r lits l : (forall p s c, Forall (fun lit => startswith lit (lower s) = false) lits -> nomatch r p s c) ->
  Forall (fun lit => In lit words) lits -> Forall (fun lit => quiet lit l []) lits -> re_search r l = None.
Proof.
  intros Hr Hw H. unfold re_search. rewrite search_from_none; [reflexivity| |].
  - eapply quiet_skips; eauto.
  - apply Hr. eapply Forall_impl; [|exact Hw]. intros lit Hl. destruct Hl as [<-|[<-|[<-|[]]]]; reflexivity.
Qed.
Lemma quiet_search r lits pre t s c' : (forall p s c, Forall (fun lit => startswith lit (lower s) = false) lits -> nomatch r p s c) ->
  Forall (fun lit => quiet lit pre (t ++ s)) lits -> fp r (pa None pre) t s [] c' ->
  exists x, re_search r (pre ++ t ++ s) = Some x /\ m_caps x = c'.
Proof.
  intros Hr H F. unfold re_search. rewrite (search_from_pre _ _ _ _ _ _ (quiet_skips r lits Hr pre None (t ++ s) H) F). eexists. split; reflexivity.
Qed.

(** *** The pieces of an atom line *)
Lemma plain_space w : forallb is_space w = true -> forallb is_plain w = true.
Proof. intros H. apply forallb_forall. intros x Hx. rewrite forallb_forall in H. apply H in Hx. revert x Hx. ascii_dec. Qed.
Lemma plain_coord x : forallb is_plain (coord_text x) = true.
Proof. apply forallb_forall. intros y Hy. pose proof (coord_chars x) as H. rewrite forallb_forall in H. apply H in Hy. revert y Hy. ascii_dec. Qed.
Lemma plain_coords xs t : coords xs t -> forallb is_plain t = true.
Proof.
  induction 1 as [|g x xs t Hg _ _ _ IH]; [reflexivity|]. apply blanks_iff in Hg. rewrite !forallb_app.
  now rewrite plain_space, plain_coord, IH.
Qed.
Lemma plain_sep sep : separator sep -> forallb is_plain sep = true.
Proof.
  assert (S : forall x, is_sepchar x = true -> is_plain x = true) by ascii_dec.
  intros [a x b Ha Hx Hb|a x Ha Hx]; apply blanks_iff in Ha; rewrite forallb_app; cbn [forallb].
  - apply blanks_iff in Hb. rewrite !plain_space, S; auto. apply sepchar_iff. auto.
  - rewrite plain_space, S; auto. apply sepchar_iff. auto.
Qed.
Lemma plain_num n : forallb is_plain (write_num n) = true.
Proof.
  apply forallb_forall. intros y Hy. pose proof (write_num_numchars n) as H. rewrite forallb_forall in H. apply H in Hy. revert y Hy. ascii_dec.
Qed.
Lemma plain_columns ns t : columns ns t -> forallb is_plain t = true.
Proof.
  induction 1 as [|g n ns t Hg _ _ _ IH]; [reflexivity|]. apply blanks_iff in Hg. rewrite !forallb_app. now rewrite plain_space, plain_num, IH.
Qed.
Lemma space_not_alpha x : is_space x = true -> is_alpha x = false.
Proof. revert x. ascii_dec. Qed.
Lemma sep_not_alpha x : is_sepchar x = true -> is_alpha x = false.
Proof. revert x. ascii_dec. Qed.
Lemma end_not_alpha s : token_end s -> hd_not is_alpha s.
Proof. intros H. apply token_end_hd in H. destruct s as [|x s]; [exact I|]. cbn in *. apply negb_false_iff in H. now apply space_not_alpha. Qed.
Lemma quiet_spin lit x t s : spin_text x t -> lit = $"mixture" -> quiet lit t s.
Proof.
  intros [g kw sep y Hg Hg0 Hk Hsep Hy] ->. assert (W : In ($"mixture") words) by (cbn; tauto). apply blanks_iff in Hg.
  apply quiet_app; [now apply quiet_plain, plain_space|].
  apply quiet_app; [|apply quiet_plain; [exact W|]; rewrite forallb_app; now rewrite plain_sep, plain_coord].
  assert (hd_not is_alpha ((sep ++ coord_text y) ++ s)).
  { rewrite <- app_assoc. apply separator_hd; [exact Hsep|apply space_not_alpha|apply sep_not_alpha]. }
  destruct Hk as [Hk|Hk]; eapply quiet_spelt; try exact Hk; eauto.
Qed.
Lemma mixsep_sep c : among ":= " c \/ c = TAB -> is_sepchar c = true.
Proof. intros H. apply sepchar_iff. unfold among in *. cbn in *. intuition. Qed.
Lemma quiet_mixture lit m t s : mixture_text m t -> lit = $"spin" \/ lit = $"magmom" -> quiet lit t s.
Proof.
  intros [g kw c i w t' Hg Hg0 Hk Hc Ht _ _] Hl. assert (W : In lit words) by (destruct Hl as [->| ->]; cbn; tauto). apply blanks_iff in Hg.
  apply mixsep_sep in Hc.
  apply quiet_app; [now apply quiet_plain, plain_space|]. apply quiet_app.
  - eapply quiet_spelt; [exact W| |exact Hk|]; [cbn; now apply sep_not_alpha|]. destruct Hl as [->| ->]; reflexivity.
  - apply quiet_plain; [exact W|]. cbn [forallb]. rewrite forallb_app. rewrite (plain_columns _ _ Ht). cbn [forallb andb].
    rewrite !andb_true_r. revert c Hc. ascii_dec.
Qed.
Lemma sep_last sep : separator sep -> exists x, (forall p, pa p sep = Some x) /\ is_space x || is_sepchar x = true.
Proof.
  intros [a x b Ha Hx Hb|a x Ha Hx].
  - destruct (rev b) as [|y r] eqn:E.
    + apply (f_equal (@rev ascii)) in E. rewrite rev_involutive in E. cbn in E. subst b. exists x. split; [intros p; now rewrite pa_snoc|].
      apply orb_true_iff. right. apply sepchar_iff. auto.
    + exists y. split; [intros p; rewrite pa_app; cbn [pa]; now rewrite pa_rev, E|]. apply orb_true_iff. left. apply blank_iff. unfold blanks in Hb.
      rewrite Forall_forall in Hb. apply Hb. apply in_rev. rewrite E. now left.
  - exists x. split; [intros p; now rewrite pa_snoc|]. apply orb_true_iff. right. apply sepchar_iff. auto.
Qed.
Lemma sep_prev_plain p sep : separator sep -> prev_plain (pa p sep).
Proof.
  intros H. apply sep_last in H as (x & E & Hx). rewrite E. clear E. split.
  - revert x Hx. ascii_dec.
  - intros ->. discriminate.
Qed.
Lemma coord_not_sep x s : coord_ok x -> hd_not is_sepchar (coord_text x ++ s).
Proof.
  intros H. pose proof (coord_chars x) as C. pose proof (coord_nonempty x H). destruct (coord_text x) as [|y t]; [congruence|].
  cbn in C |- *. apply andb_true_iff in C as [C _]. clear -C. revert y C. ascii_dec.
Qed.
Lemma fp_spin kw sep x p s : spells "spin" kw \/ spells "magmom" kw -> separator sep -> coord_ok x -> token_end s ->
  fp POSITIONS_SPIN_RE p (kw ++ sep ++ coord_text x) s [] [("spin"%string, coord_text x)].
Proof.
  intros Hk Hs Hx He. unfold POSITIONS_SPIN_RE. cbn [RSeqs]. apply fp_seq with (c1 := []).
  - destruct Hk as [Hk|Hk]; unfold spells in Hk.
    + apply fp_alt_l, fp_litI. exact Hk.
    + apply fp_alt_r; [|apply fp_litI; exact Hk]. apply litI_nomatch. rewrite lower_app, Hk. reflexivity.
  - unfold c_eq_sep. apply fp_separator; [|exact Hs|now apply coord_hd|now apply coord_not_sep|].
    + intros y. unfold is_sepchar. destruct (Ascii.eqb y "="), (Ascii.eqb y " "), (Ascii.eqb y ":"), (Ascii.eqb y tab); reflexivity.
    + apply fp_grp. apply fp_coord; [exact Hx|exact He|now apply sep_prev_plain].
Qed.
Lemma fp_mixture kw c i w t p s : spells "mixture" kw -> is_sepchar c = true -> columns [i; w] t ->
  fp POSITIONS_MIXTURE_RE p (kw ++ c :: "("%char :: t ++ [")"%char]) s [] [("ratio"%string, write_num w); ("mix"%string, write_num i)].
Proof.
  intros Hk Hc Ht. unfold POSITIONS_MIXTURE_RE. cbn [RSeqs]. apply fp_seq with (c1 := []); [apply fp_litI; exact Hk|].
  change (c :: "("%char :: t ++ [")"%char]) with ([c] ++ ["("%char] ++ t ++ [")"%char]).
  apply fp_seq with (c1 := []); [apply fp_chr; revert c Hc; ascii_dec|]. apply fp_seq with (c1 := []); [apply fp_char|].
  inversion Ht as [|g1 n1 ns1 t1 Hg1 Hg10 Hn1 Ht1]; subst. inversion Ht1 as [|g2 n2 ns2 t2 Hg2 Hg20 Hn2 Ht2]; subst.
  inversion Ht2; subst. rewrite app_nil_r. apply blanks_iff in Hg1, Hg2.
  destruct (exists_last Hg10) as (g & x & ->). rewrite forallb_app in Hg1. apply andb_true_iff in Hg1 as [Hg Hx]. cbn in Hx. rewrite andb_true_r in Hx.
  assert (Hs1 : hd_not is_space ((write_num i ++ (g2 ++ write_num w) ++ [")"%char]) ++ s)).
  { rewrite <- !app_assoc. pose proof (coord_chars (CNum i)) as C. pose proof (write_num_nonempty i Hn1). cbn [coord_text] in C.
    destruct (write_num i) as [|y u]; [congruence|]. cbn in C |- *. apply andb_true_iff in C as [C _]. now apply coordchar_not_space. }
  rewrite <- !app_assoc. change ([x] ++ ?u) with (x :: u). apply fp_star_back1; [exact Hg|exact Hx|..].
  - rewrite <- !app_assoc in Hs1 |- *. exact Hs1.
  - apply nomatch_first; [reflexivity|]. rewrite <- !app_assoc in Hs1 |- *.
    destruct (write_num i ++ g2 ++ write_num w ++ [")"%char] ++ s) as [|y u] eqn:E; [exact I|]. cbn in Hs1. clear -Hs1. apply negb_true_iff in Hs1. revert y Hs1. ascii_dec.
  - change (x :: write_num i ++ g2 ++ write_num w ++ [")"%char]) with (([x] ++ write_num i) ++ g2 ++ write_num w ++ [")"%char]).
    rewrite (app_assoc g2). rewrite app_assoc. apply fp_seq with (c1 := [("ratio"%string, write_num w); ("mix"%string, write_num i)]); [|apply fp_char].
    unfold labelled_floats. cbn [map RSeqs]. apply fp_seq with (c1 := [("mix"%string, write_num i)]).
    + apply fp_labelled1; [cbn; now rewrite Hx|discriminate|exact Hn1|]. apply token_end_follow. destruct g2 as [|y g2]; [congruence|].
      intros z u E. injection E as <- _. cbn in Hg2. apply andb_true_iff in Hg2 as [Hy _]. now apply blank_iff.
    + apply fp_labelled1; [exact Hg2|exact Hg20|exact Hn2|]. unfold follow_ok, follow_plain. destruct (n_exp w); reflexivity.
Qed.

(** *** Atom lines *)
Lemma upper_iff c : upper_letter c <-> is_upper c = true.
Proof. unfold upper_letter, is_upper, in_range. rewrite andb_true_iff, !N.leb_le. reflexivity. Qed.
Lemma lower_iff c : lower_letter c <-> is_lower c = true.
Proof. unfold lower_letter, is_lower, in_range. rewrite andb_true_iff, !N.leb_le. reflexivity. Qed.
Lemma fp_species w p s c : SpecCell.species w -> hd_not is_lower s -> fp SPECIES_RE p w s c c.
Proof.
  intros (x & t & -> & Hx & Hl & Ht) Hs. unfold SPECIES_RE. change (x :: t) with ([x] ++ t). apply fp_seq with (c1 := c).
  - apply fp_chr. now apply upper_iff.
  - apply fp_rep_chr; [|lia|now right]. apply forallb_forall. intros y Hy. now apply lower_iff, Ht.
Qed.
Lemma species_hd w s : SpecCell.species w -> hd_not is_space (w ++ s).
Proof. intros (x & t & -> & Hx & _). apply upper_iff in Hx. cbn. revert x Hx. ascii_dec. Qed.
Lemma extras_end sp mx e b : extras sp mx e -> blanks b -> token_end (e ++ b).
Proof.
  assert (G : forall g s, blanks g -> g <> [] -> token_end (g ++ s)).
  { intros [|x g] s Hg H0; [congruence|]. intros y u E. injection E as <- _. inversion Hg; auto. }
  intros He Hb. destruct He as [|x t Ht|m t Ht|x m t t' Ht Ht'|x m t t' Ht Ht'].
  - destruct b as [|x b]; intros y u E; [discriminate|]. injection E as <- _. now inversion Hb.
  - destruct Ht. rewrite <- app_assoc. now apply G.
  - destruct Ht. rewrite <- app_assoc. now apply G.
  - destruct Ht. rewrite <- !app_assoc. now apply G.
  - destruct Ht'. rewrite <- !app_assoc. now apply G.
Qed.
Lemma end_not_lower s : token_end s -> hd_not is_lower s.
Proof. intros H. apply token_end_hd in H. destruct s as [|x s]; [exact I|]. cbn in *. apply negb_false_iff in H. revert x H. ascii_dec. Qed.
Lemma atom_match a w t s xs : blanks a -> SpecCell.species w -> coords xs t -> length xs = 3 -> token_end s ->
  exists x, re_match POSITIONS_LINE_RE (a ++ w ++ t ++ s) = Some x /\ group_s x "spec" = w /\ group_s x "pos" = t.
Proof.
  intros Ha Hw Ht Hl Hs. apply blanks_iff in Ha.
  assert (F : fp POSITIONS_LINE_RE None ((a ++ w) ++ t) s [] [("pos"%string, t); ("spec"%string, w)]).
  { unfold POSITIONS_LINE_RE. cbn [RSeqs]. rewrite <- (app_nil_l ((a ++ w) ++ t)), <- app_assoc.
    apply fp_seq with (c1 := []); [now apply fp_bol|].
    apply fp_seq with (c1 := []); [apply fp_star_chr; [exact Ha|]; rewrite <- app_assoc; now apply species_hd|].
    apply fp_seq with (c1 := [("spec"%string, w)]).
    - apply fp_grp. apply fp_species; [exact Hw|]. now apply end_not_lower, (coords_hd xs).
    - apply fp_grp. destruct (coords_pieces _ _ Ht s Hs) as (ts & E & El & Fp). rewrite <- E. apply fp_times; [congruence|]. apply Fp. }
  apply fp_match_at in F. unfold re_match. rewrite <- !app_assoc in F. rewrite F. eexists. split; [reflexivity|]. split; reflexivity.
Qed.
Lemma plain_quiet lit w s : In lit words -> blanks w -> quiet lit w s.
Proof. intros H Hw. apply quiet_plain; [exact H|]. now apply plain_space, blanks_iff. Qed.
Lemma quiet_head lit a w t s xs : In lit words -> blanks a -> SpecCell.species w -> coords xs t -> token_end s -> quiet lit (a ++ w ++ t) s.
Proof.
  intros H Ha Hw Ht Hs. apply quiet_app; [now apply plain_quiet|]. apply quiet_app.
  - apply quiet_short; [exact H|now apply end_not_alpha, (coords_hd xs)|]. destruct Hw as (x & u & -> & _ & Hl & _). cbn. lia.
  - apply quiet_plain; [exact H|]. eapply plain_coords; eauto.
Qed.
Definition spin_lits : list str := [$"spin"; $"magmom"].
Lemma spin_words : Forall (fun lit => In lit words) spin_lits.
Proof. repeat constructor; cbn; tauto. Qed.
Lemma mix_words : Forall (fun lit => In lit words) [$"mixture"].
Proof. repeat constructor; cbn; tauto. Qed.
Lemma spin_found pre x t s : spin_text x t -> token_end s -> Forall (fun lit => forall s, token_end s -> quiet lit pre s) spin_lits ->
  exists y, re_search POSITIONS_SPIN_RE (pre ++ t ++ s) = Some y /\ group_s y "spin" = coord_text x.
Proof.
  intros [g kw sep z Hg Hg0 Hk Hsep Hz] Hs Hpre.
  replace (pre ++ (g ++ kw ++ sep ++ coord_text z) ++ s) with ((pre ++ g) ++ (kw ++ sep ++ coord_text z) ++ s) by now rewrite <- !app_assoc.
  destruct (quiet_search POSITIONS_SPIN_RE spin_lits (pre ++ g) (kw ++ sep ++ coord_text z) s [("spin"%string, coord_text z)] spin_nomatch) as (y & E & Ey).
  - rewrite Forall_forall in Hpre |- *. intros lit Hl. apply quiet_app.
    + apply Hpre; [exact Hl|]. destruct g as [|c g]; [congruence|]. intros c' u E. injection E as <- _. now inversion Hg.
    + apply plain_quiet; [|exact Hg]. pose proof spin_words as W. rewrite Forall_forall in W. auto.
  - now apply fp_spin.
  - exists y. split; [exact E|]. unfold group_s. rewrite Ey. reflexivity.
Qed.
Lemma mix_found pre i w t s : mixture_text (i, w) t -> (forall s, token_end s -> quiet ($"mixture") pre s) ->
  exists y, re_search POSITIONS_MIXTURE_RE (pre ++ t ++ s) = Some y /\ group_s y "mix" = write_num i /\ group_s y "ratio" = write_num w.
Proof.
  intros H Hpre. remember (i, w) as iw eqn:Eiw. destruct H as [g kw c i0 w0 t Hg Hg0 Hk Hc Ht _ _]. injection Eiw as -> ->.
  replace (pre ++ (g ++ kw ++ c :: "("%char :: t ++ [")"%char]) ++ s) with ((pre ++ g) ++ (kw ++ c :: "("%char :: t ++ [")"%char]) ++ s)
    by now rewrite <- !app_assoc.
  destruct (quiet_search POSITIONS_MIXTURE_RE [$"mixture"] (pre ++ g) (kw ++ c :: "("%char :: t ++ [")"%char]) s
    [("ratio"%string, write_num w); ("mix"%string, write_num i)] mixture_nomatch) as (y & E & Ey).
  - repeat constructor. apply quiet_app.
    + apply Hpre. destruct g as [|c' g]; [congruence|]. intros c'' u E. injection E as <- _. now inversion Hg.
    + apply plain_quiet; [cbn; tauto|exact Hg].
  - apply fp_mixture; [exact Hk|now apply mixsep_sep|exact Ht].
  - exists y. split; [exact E|]. unfold group_s. rewrite Ey. split; reflexivity.
Qed.
Definition spin_result (line : str) : option coord -> Prop := fun o =>
  match o with
  | None => re_search POSITIONS_SPIN_RE line = None
  | Some x => exists y, re_search POSITIONS_SPIN_RE line = Some y /\ group_s y "spin" = coord_text x /\ coord_ok x
  end.
Definition mix_result (line : str) : option (num * num) -> Prop := fun o =>
  match o with
  | None => re_search POSITIONS_MIXTURE_RE line = None
  | Some (i, w) => exists y, re_search POSITIONS_MIXTURE_RE line = Some y /\ group_s y "mix" = write_num i /\ group_s y "ratio" = write_num w /\
                   num_wf i /\ num_wf w /\ is_int i /\ fits (num_value w)
  end.
Lemma spin_ok x t : spin_text x t -> coord_ok x.
Proof. now intros []. Qed.
Lemma mix_ok i w t : mixture_text (i, w) t -> num_wf i /\ num_wf w /\ is_int i /\ fits (num_value w).
Proof.
  intros H. remember (i, w) as iw eqn:E. destruct H as [g kw c i0 w0 t Hg Hg0 Hk Hc Ht Hi Hw]. injection E as -> ->.
  apply columns_ok in Ht. inversion Ht as [|? ? H1 H2]; subst. inversion H2 as [|? ? H3 _]; subst. split; [now apply ok_wf|]. split; [now apply ok_wf|]. auto.
Qed.
Lemma extras_found a w t xs sp mx e b : blanks a -> SpecCell.species w -> coords xs t -> extras sp mx e -> blanks b ->
  spin_result (a ++ w ++ t ++ e ++ b) sp /\ mix_result (a ++ w ++ t ++ e ++ b) mx.
Proof.
  intros Ha Hw Ht He Hb. pose proof (extras_end _ _ _ _ He Hb) as Hend.
  assert (Q : forall lit s, In lit words -> token_end s -> quiet lit (a ++ w ++ t) s) by (intros; eapply quiet_head; eauto).
  assert (Bend : token_end b) by (destruct b as [|x b0]; intros y u E; [discriminate|]; injection E as <- _; now inversion Hb).
  assert (QS : Forall (fun lit => forall s, token_end s -> quiet lit (a ++ w ++ t) s) spin_lits).
  { pose proof spin_words as W. rewrite Forall_forall in W |- *. intros; auto. }
  assert (QM : forall s, token_end s -> quiet ($"mixture") (a ++ w ++ t) s) by (intros; apply Q; [cbn; tauto|assumption]).
  assert (NS : forall u, Forall (fun lit => quiet lit u []) spin_lits -> re_search POSITIONS_SPIN_RE u = None).
  { intros u H. eapply quiet_none; [apply spin_nomatch|apply spin_words|exact H]. }
  assert (NM : forall u, quiet ($"mixture") u [] -> re_search POSITIONS_MIXTURE_RE u = None).
  { intros u H. eapply quiet_none; [apply mixture_nomatch|apply mix_words|]. repeat constructor. exact H. }
  assert (SL : forall lit, In lit spin_lits -> In lit words /\ (lit = $"spin" \/ lit = $"magmom")) by (intros lit [<-|[<-|[]]]; cbn; tauto).
  assert (MW : In ($"mixture") words) by (cbn; tauto).
  replace (a ++ w ++ t ++ e ++ b) with ((a ++ w ++ t) ++ e ++ b) by now rewrite <- !app_assoc.
  destruct He as [|x u Hu|[i r] u Hu|x [i r] u u' Hu Hu'|x [i r] u u' Hu Hu']; cbn [spin_result mix_result].
  - split.
    + apply NS, Forall_forall. intros lit Hl. apply SL in Hl as [Hl _]. apply quiet_app; [now apply Q; [|rewrite app_nil_r]|]. now apply plain_quiet.
    + apply NM. apply quiet_app; [now apply Q; [|rewrite app_nil_r]|]. now apply plain_quiet.
  - split.
    + destruct (spin_found (a ++ w ++ t) x u b Hu Bend QS) as (y & E & Ey). exists y. split; [exact E|]. split; [exact Ey|]. eapply spin_ok; eauto.
    + apply NM. apply quiet_app; [apply QM; now rewrite app_nil_r|]. apply quiet_app; [now apply (quiet_spin _ x)|now apply plain_quiet].
  - split.
    + apply NS, Forall_forall. intros lit Hl. apply SL in Hl as [Hl Hl']. apply quiet_app; [now apply Q; [|rewrite app_nil_r]|].
      apply quiet_app; [now apply (quiet_mixture _ (i, r))|now apply plain_quiet].
    + destruct (mix_found (a ++ w ++ t) i r u b Hu QM) as (y & E & E1 & E2). exists y. pose proof (mix_ok _ _ _ Hu). tauto.
  - assert (Hend' : token_end (u' ++ b)) by (apply (extras_end None (Some (i, r))); [now constructor|exact Hb]). split.
    + rewrite <- (app_assoc u). destruct (spin_found (a ++ w ++ t) x u (u' ++ b) Hu Hend' QS) as (y & E & Ey). exists y.
      split; [exact E|]. split; [exact Ey|]. eapply spin_ok; eauto.
    + replace ((a ++ w ++ t) ++ (u ++ u') ++ b) with (((a ++ w ++ t) ++ u) ++ u' ++ b) by now rewrite <- !app_assoc.
      destruct (mix_found ((a ++ w ++ t) ++ u) i r u' b Hu') as (y & E & E1 & E2).
      * intros s Hs. apply quiet_app; [|now apply (quiet_spin _ x)]. apply QM. destruct Hu as [g kw sep z Hg Hg0 _ _ _]. destruct g as [|c g]; [congruence|].
        intros c' v E. injection E as <- _. now inversion Hg.
      * exists y. pose proof (mix_ok _ _ _ Hu'). tauto.
  - split.
    + replace ((a ++ w ++ t) ++ (u' ++ u) ++ b) with (((a ++ w ++ t) ++ u') ++ u ++ b) by now rewrite <- !app_assoc.
      destruct (spin_found ((a ++ w ++ t) ++ u') x u b Hu Bend) as (y & E & Ey).
      * apply Forall_forall. intros lit Hl s Hs. apply SL in Hl as [Hl Hl']. apply quiet_app; [|now apply (quiet_mixture _ (i, r))].
        apply Q; [exact Hl|]. destruct Hu'. rewrite <- !app_assoc. destruct g as [|z g]; [congruence|]. intros c' v E. injection E as <- _.
        match goal with H : blanks (z :: g) |- _ => now inversion H end.
      * exists y. split; [exact E|]. split; [exact Ey|]. eapply spin_ok; eauto.
    + rewrite <- (app_assoc u'). destruct (mix_found (a ++ w ++ t) i r u' (u ++ b) Hu' QM) as (y & E & E1 & E2). exists y.
      pose proof (mix_ok _ _ _ Hu'). tauto.
Qed.
Lemma int_of_num n : num_wf n -> is_int n -> to_type TInt (VStr (write_num n)) = Ok (VInt (int_value n)).
Proof.
  intros H Hi. apply int_accepts. exists [], n, []. rewrite app_nil_r. repeat split; try constructor; auto; try apply Hi; apply H.
Qed.
Lemma float_of_num n : num_wf n -> fits (num_value n) -> to_type TFloat (VStr (write_num n)) = Ok (float_of n).
Proof.
  intros H Hf. apply float_value; [|exact Hf]. rewrite <- (app_nil_r (write_num n)). now apply (den_num [] n []); [constructor|constructor|].
Qed.
Lemma atom_position units l x accum count : atom_line l x ->
  position_line units (accum, count) l =
  let n := (match dget str_eqb count (at_spec x) with Some n => n | None => 0 end + 1)%Z in
  Ok (dset key_eqb accum (KTuple [KStr (at_spec x); KInt n]) (atom_info units x), dset str_eqb count (at_spec x) n).
Proof.
  intros [a s t e b y Ha Hsp -> Hc Hl He Hb]. cbv zeta.
  destruct (atom_match a _ t (e ++ b) _ Ha Hsp Hc Hl (extras_end _ _ _ _ He Hb)) as (z & Ez & E1 & E2).
  destruct (extras_found _ _ _ _ _ _ _ _ Ha Hsp Hc He Hb) as [Fs Fm].
  unfold position_line. rewrite Ez, E1, E2. pose proof (split_coords _ _ [] Hc eq_refl) as Es. rewrite app_nil_r in Es. rewrite Es.
  rewrite (coords_tuple _ (coords_ok _ _ Hc)). cbv beta iota zeta delta [bind]. unfold atom_info.
  destruct (at_spin y) as [sp|]; cbn [spin_result] in Fs.
  - destruct Fs as (ys & -> & -> & Hok). rewrite (coord_to_float _ Hok). destruct (at_mix y) as [[i w]|]; cbn [mix_result] in Fm.
    + destruct Fm as (ym & -> & -> & -> & Hi & Hw & Hint & Hfit). rewrite (int_of_num _ Hi Hint), (float_of_num _ Hw Hfit).
      destruct units; reflexivity.
    + rewrite Fm. destruct units; reflexivity.
  - rewrite Fs. destruct (at_mix y) as [[i w]|]; cbn [mix_result] in Fm.
    + destruct Fm as (ym & -> & -> & -> & Hi & Hw & Hint & Hfit). rewrite (int_of_num _ Hi Hint), (float_of_num _ Hw Hfit).
      destruct units; reflexivity.
    + rewrite Fm. destruct units; reflexivity.
Qed.

(** ** The positions block *)
Lemma position_end units st e : end_line e -> position_line units st e = Ok st.
Proof.
  intros (a & q & rest & Ha & Hq & ->). apply blanks_iff in Ha. destruct st as [accum count]. unfold position_line.
  assert (N : nomatch POSITIONS_LINE_RE None (a ++ q ++ rest) []).
  { apply nomatch_den. intros p' s' c' D. unfold POSITIONS_LINE_RE in D. cbn [RSeqs] in D.
    destruct D as (p1 & s1 & c1 & (_ & _ & <- & _) & p2 & s2 & c2 & D2 & p3 & s3 & c3 & D3 & _).
    apply den_rep_chr in D2 as (w & E & _ & _ & Hw & _). unfold SPECIES_RE in D3. cbn [den] in D3.
    destruct D3 as (c4 & (p5 & s5 & c5 & (x & -> & Hx & _) & _) & _).
    destruct q as [|y q]; [discriminate|]. unfold spells in Hq. change (lower (y :: q)) with (lower_c y :: lower q) in Hq. injection Hq as Hy _.
    assert (Yp : y = "%"%char).
    { assert (A : forall z, Ascii.eqb (lower_c z) "%" = true -> Ascii.eqb z "%" = true) by ascii_dec.
      apply Ascii.eqb_eq, A. now rewrite Hy. }
    subst y. apply class_split with (f := is_space) in E as [_ E]; [|exact Ha|exact Hw|reflexivity|].
    - injection E as <- _. discriminate.
    - cbn. clear -Hx. revert x Hx. ascii_dec. }
  unfold re_match. rewrite (nomatch_match_at _ _ _ N). reflexivity.
Qed.
Lemma occ_snoc s before w : occurrences s (before ++ [w]) = occurrences s before + (if str_eqb w s then 1 else 0).
Proof.
  unfold occurrences. rewrite count_occ_app. cbn. f_equal. destruct (list_eq_dec ascii_dec w s) as [->|N].
  - now rewrite str_eqb_refl.
  - destruct (str_eqb w s) eqn:E; [|reflexivity]. apply str_eqb_eq in E. congruence.
Qed.
Lemma positions_loop units : forall ls atoms before accum count,
  Forall2 atom_line ls atoms ->
  (forall s, match dget str_eqb count s with Some n => n | None => 0%Z end = Z.of_nat (occurrences s before)) ->
  (forall k v, In (k, v) accum -> exists s i, k = KTuple [KStr s; KInt (Z.of_nat i)] /\ i <= occurrences s before) ->
  exists count', foldM (position_line units) ls (accum, count) = Ok (accum ++ numbered units before atoms, count').
Proof.
  intros ls atoms before accum count H. revert before accum count.
  induction H as [|l x ls atoms Hl _ IH]; intros before accum count Hc Ha.
  - exists count. cbn. now rewrite app_nil_r.
  - cbn [foldM numbered]. rewrite (atom_position _ _ _ _ _ Hl). cbv zeta. cbn [bind]. rewrite Hc.
    replace (Z.of_nat (occurrences (at_spec x) before) + 1)%Z with (Z.of_nat (S (occurrences (at_spec x) before))) by lia.
    set (n := S (occurrences (at_spec x) before)).
    rewrite dset_new.
    + destruct (IH (before ++ [at_spec x]) (accum ++ [(KTuple [KStr (at_spec x); KInt (Z.of_nat n)], atom_info units x)])
        (dset str_eqb count (at_spec x) (Z.of_nat n))) as (c' & E).
      * intros s. rewrite (dget_dset str_eqb str_eqb_spec), occ_snoc. destruct (str_eqb (at_spec x) s) eqn:E; [apply str_eqb_eq in E; subst s; unfold n; lia|].
        rewrite Hc. lia.
      * intros k v Hin. apply in_app_iff in Hin as [Hin|[Hin|[]]].
        -- apply Ha in Hin as (s & i & -> & Hi). exists s, i. split; [reflexivity|]. rewrite occ_snoc. lia.
        -- injection Hin as <- _. exists (at_spec x), n. split; [reflexivity|]. rewrite occ_snoc, str_eqb_refl. unfold n. lia.
      * exists c'. rewrite E, <- app_assoc. reflexivity.
    + destruct (dget key_eqb accum _) as [v|] eqn:E; [|reflexivity]. exfalso. apply (dget_in key_eqb key_eqb_spec) in E.
      apply Ha in E as (s & i & E & Hi). injection E as <- E. lia.
Qed.
Lemma positions_foldM units ls atoms e : Forall2 atom_line ls atoms -> end_line e ->
  exists count', foldM (position_line units) (ls ++ [e]) ([], []) = Ok (numbered units [] atoms, count').
Proof.
  intros H He. destruct (positions_loop units ls atoms [] [] [] H) as (c & E); [reflexivity|intros k v []|].
  exists c. rewrite foldM_app, E. cbn [bind foldM]. now rewrite position_end.
Qed.
Lemma units_found l u : unit_line l u -> exists x, re_match UNITS_RE l = Some x /\ group_s x "1" = u.
Proof.
  intros (a & b & Ha & Hb & Hu0 & Hu & ->). apply blanks_iff in Ha, Hb.
  assert (Hu' : forallb (fun c => negb (is_space c)) u = true).
  { apply forallb_forall. intros c Hc. apply negb_true_iff. destruct (is_space c) eqn:E; [|reflexivity]. apply blank_iff in E. destruct (Hu c Hc E). }
  assert (F : fp UNITS_RE None ((a ++ u) ++ b) [] [] [("1"%string, u)]).
  { unfold UNITS_RE. cbn [RSeqs]. rewrite <- (app_nil_l ((a ++ u) ++ b)), <- app_assoc.
    apply fp_seq with (c1 := []); [now apply fp_bol|].
    apply fp_seq with (c1 := []).
    { apply fp_star_chr; [exact Ha|]. destruct u as [|x u]; [congruence|]. cbn in Hu' |- *. apply andb_true_iff in Hu' as [Hx _]. now apply negb_true_iff. }
    apply fp_seq with (c1 := [("1"%string, u)]).
    - apply fp_grp. apply fp_plus_chr; [exact Hu'|exact Hu0|]. rewrite app_nil_r. destruct b as [|x b]; [exact I|].
      cbn in Hb |- *. apply andb_true_iff in Hb as [Hx _]. now rewrite Hx.
    - rewrite <- (app_nil_r b). apply fp_seq with (c1 := [("1"%string, u)]); [now apply fp_star_chr|]. now apply fp_eol. }
  apply fp_match_at in F. rewrite app_nil_r, <- !app_assoc in F. unfold re_match. rewrite F. eexists. split; reflexivity.
Qed.
Lemma no_units l x : atom_line l x -> re_match UNITS_RE l = None.
Proof.
  intros [a s t e b y Ha Hsp -> Hc Hl He Hb]. apply blanks_iff in Ha. apply nomatch_match_at, nomatch_den. intros p' s' c' D.
  unfold UNITS_RE in D. cbn [RSeqs] in D.
  destruct D as (p1 & s1 & c1 & (_ & _ & <- & _) & p2 & s2 & c2 & D2 & p3 & s3 & c3 & D3 & p4 & s4 & c4 & D4 & D5).
  apply den_rep_chr in D2 as (w & E & _ & _ & Hw & _). cbn [den] in D3. destruct D3 as (c5 & D3 & _).
  apply den_rep_chr in D3 as (u & -> & Hu0 & _ & Hu & _). apply den_rep_chr in D4 as (v & -> & _ & _ & Hv & _).
  assert (H5 : forallb is_space s4 = true).
  { cbn [den] in D5. destruct D5 as (H & _ & _ & _). destruct s4 as [|z [|]]; [reflexivity| |discriminate]. apply Ascii.eqb_eq in H. now subst z. }
  apply class_split with (f := is_space) in E as [_ E]; [|exact Ha|exact Hw|now apply species_hd|].
  2: { destruct u as [|z u]; [cbn in Hu0; lia|]. cbn in Hu |- *. apply andb_true_iff in Hu as [Hz _]. now apply negb_true_iff. }
  pose proof Hsp as (z & r & Es & Hz & _ & Hr).
  assert (Hs : forallb (fun c => negb (is_space c)) (at_spec y) = true).
  { rewrite Es. cbn [forallb]. apply andb_true_iff. split; [apply upper_iff in Hz; clear -Hz; revert z Hz; ascii_dec|].
    apply forallb_forall. intros q Hq. apply Hr, lower_iff in Hq. clear -Hq. revert q Hq. ascii_dec. }
  destruct (at_pos y) as [|x1 xs1] eqn:Ep; [discriminate|]. inversion Hc as [|g x2 xs t' Hg Hg0 Hx2 Hc']; subst.
  apply blanks_iff in Hg.
  apply class_split with (f := fun c => negb (is_space c)) in E as [_ E]; [|exact Hs|exact Hu| |].
  - assert (A : forallb is_space ((g ++ coord_text x1 ++ t') ++ e ++ b) = true) by (rewrite E, forallb_app, Hv; exact H5).
    rewrite !forallb_app, !andb_true_iff in A. destruct A as [[_ [A _]] _]. pose proof (coord_chars x1) as C. pose proof (coord_nonempty x1 Hx2).
    destruct (coord_text x1) as [|q cs]; [congruence|]. cbn in A, C. apply andb_true_iff in A as [A _]. apply andb_true_iff in C as [C _].
    apply coordchar_not_space in C. congruence.
  - destruct g as [|q g]; [congruence|]. cbn in Hg |- *. apply andb_true_iff in Hg as [-> _]. reflexivity.
  - destruct v as [|q v]; cbn in *.
    + destruct s4 as [|q s4]; [exact I|]. cbn in H5 |- *. apply andb_true_iff in H5 as [-> _]. reflexivity.
    + apply andb_true_iff in Hv as [-> _]. reflexivity.
Qed.
Lemma positions_frac ls atoms e : Forall2 atom_line ls atoms -> end_line e ->
  parse_positions false (ls ++ [e]) = Ok (VDict false (numbered None [] atoms)).
Proof. intros H He. unfold parse_positions. cbn [bind]. destruct (positions_foldM None _ _ _ H He) as (c & ->). reflexivity. Qed.
Lemma positions_abs l u ls atoms e : unit_line l u -> Forall2 atom_line ls atoms -> end_line e ->
  parse_positions true (l :: ls ++ [e]) = Ok (VDict false (numbered (Some u) [] atoms)).
Proof.
  intros Hu H He. unfold parse_positions, get_block_units. destruct (units_found _ _ Hu) as (x & -> & ->). cbn [bind].
  destruct (positions_foldM (Some u) _ _ _ H He) as (c & ->). reflexivity.
Qed.
Lemma positions_abs_default l ls atoms e : Forall2 atom_line (l :: ls) atoms -> end_line e ->
  parse_positions true ((l :: ls) ++ [e]) = Ok (VDict false (numbered (Some ($"Ang")) [] atoms)).
Proof.
  intros H He. unfold parse_positions, get_block_units. cbn [app]. inversion H as [|? x ? ? Hl]; subst. rewrite (no_units _ _ Hl). cbn [bind].
  destruct (positions_foldM (Some ($"Ang")) _ _ _ H He) as (c & E). cbn [app] in E. rewrite E. reflexivity.
Qed.
