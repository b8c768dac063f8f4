(** Facts about the .cell/.param parser: keyword lines. *)
From Coq Require Import QArith Qreduction.
From Verif Require Import PyBase PyFacts PyVal Regex RegexFacts RegexComplete CastepRes NumSpec NumFacts NumProps
  StrUtil SpecStr StrUtilFacts SpecLine SpecType TypeConv TypeConvFacts IntStr DictUtil SpecDict DictFacts Stream StreamFacts
  SpecTable ColumnFacts Header HeaderFacts CellParam SpecCell.
Local Open Scope list_scope.
Local Open Scope nat_scope.

(** ** More about first paths *)
(** A greedy class that has to give back its last character. *)
Lemma fp_star_back1 f b p w x t s c c' : forallb f w = true -> f x = true -> hd_not f (t ++ s) ->
  nomatch b (pa p (w ++ [x])) (t ++ s) c -> fp b (pa p w) (x :: t) s c c' ->
  fp (RSeq (RStar (RChr f)) b) p (w ++ x :: t) s c c'.
Proof.
  intros Hw Hx Ht Hn Hb R k y Hk. rewrite <- app_assoc. cbn [app].
  change (m (RStar (RChr f)) p (w ++ x :: t ++ s) c (fun p' s' c0 => m b p' s' c0 k) = Some y).
  unfold RStar; rewrite m_rep; cbn [rep_lo].
  assert (G : forall w p n, forallb f w = true -> length (w ++ [x]) <= n ->
      nomatch b (pa p (w ++ [x])) (t ++ s) c -> m b (pa p w) (x :: t ++ s) c k = Some y ->
      rep_hi (m (RChr f)) true n p (w ++ x :: t ++ s) c (fun p' s' c0 => m b p' s' c0 k) = Some y).
  { clear -Hx Ht. induction w as [|z w IH]; intros p n Hw Hl Hn Hk.
    - destruct n as [|n]; [cbn in Hl; lia|]. cbn [app rep_hi]. rewrite m_chr, Hx.
      replace (length (t ++ s) <? length (x :: t ++ s)) with true by (symmetry; apply Nat.ltb_lt; cbn; lia).
      assert (E : rep_hi (m (RChr f)) true n (Some x) (t ++ s) c (fun p' s' c0 => m b p' s' c0 k) = None).
      { cbn in Hn. destruct n as [|n]; cbn [rep_hi]; [apply Hn|].
        assert (E : m (RChr f) (Some x) (t ++ s) c (fun p' s' c' => if length s' <? length (t ++ s)
                    then rep_hi (m (RChr f)) true n p' s' c' (fun p' s' c0 => m b p' s' c0 k) else None) = None).
        { destruct (t ++ s) as [|z u] eqn:E; [reflexivity|]. cbn in Ht. cbn. now rewrite Ht. }
        rewrite E. apply Hn. }
      rewrite E. exact Hk.
    - cbn in Hw. apply andb_true_iff in Hw as [Hz Hw]. cbn in Hl. destruct n as [|n]; [lia|]. cbn [app rep_hi].
      rewrite m_chr, Hz.
      replace (length (w ++ x :: t ++ s) <? length (z :: w ++ x :: t ++ s)) with true by (symmetry; apply Nat.ltb_lt; cbn; lia).
      rewrite (IH (Some z) n); [reflexivity|exact Hw|lia|exact Hn|exact Hk]. }
  apply G; auto.
  - rewrite !app_length. cbn. lia.
  - apply (Hb R k y). now rewrite pa_app in Hk.
Qed.

(** An alternative followed by a rest that succeeds after its first branch. *)
Lemma fp_alt_seq a b r p t s c c' : fp (RSeq a r) p t s c c' -> fp (RSeq (RAlt a b) r) p t s c c'.
Proof. intros H R k x Hk. specialize (H R k x Hk). cbn in H |- *. now rewrite H. Qed.

(** Greedy repetition that could go on, but then the rest fails. *)
Lemma rep_hi_stop {R} a : forall ts n p s c c' (k : kont R) x,
  fps a p ts s c c' -> Forall (fun t => t <> []) ts -> length ts <= n ->
  (forall i p' s' c'', 1 <= i -> iter_den (den a) i (pa p (concat ts)) s c' p' s' c'' -> k p' s' c'' = None) ->
  k (pa p (concat ts)) s c' = Some x ->
  rep_hi (m a) true n p (concat ts ++ s) c k = Some x.
Proof.
  induction ts as [|t ts IH]; intros n p s c c' k x H Hne Hn Hs Hk; inversion H; subst; cbn [concat app] in Hk |- *.
  - destruct n as [|n]; [exact Hk|]. cbn [rep_hi].
    destruct (m a p s c' _) eqn:E; [|exact Hk]. exfalso.
    apply m_sound in E as (p1 & s1 & c1 & D & E). destruct (_ <? _); [|discriminate].
    apply (rep_hi_sound (m a) (den a)) in E as (i & p2 & s2 & c2 & _ & I & E).
    + rewrite (Hs (S i) p2 s2 c2) in E; [discriminate|lia|]. exists p1, s1, c1. auto.
    + intros; eapply m_sound; eassumption.
  - inversion Hne; subst. cbn in Hn. destruct n as [|n]; [lia|]. cbn [rep_hi].
    rewrite <- app_assoc.
    match goal with H : fp _ _ _ _ _ _ |- _ => erewrite H; [reflexivity|] end.
    replace (length (concat ts ++ s) <? length (t ++ concat ts ++ s)) with true.
    2: { symmetry; apply Nat.ltb_lt; rewrite (app_length t); destruct t; [congruence|cbn; lia]. }
    eapply IH; try eassumption.
    + lia.
    + intros i p' s' c'' Hi I. apply (Hs i p' s' c'' Hi). cbn [concat]. now rewrite pa_app.
    + now rewrite <- pa_app.
Qed.
Lemma fp_grp_plus_stop l a r p t ts u s c c1 c2 :
  fps a p (t :: ts) (u ++ s) c c1 -> Forall (fun t => t <> []) ts ->
  (forall i p' s' c' w, 1 <= i -> iter_den (den a) i (pa p (concat (t :: ts))) (u ++ s) c1 p' s' c' ->
     nomatch r p' s' ((l, w) :: c')) ->
  fp r (pa p (concat (t :: ts))) u s ((l, concat (t :: ts)) :: c1) c2 ->
  fp (RSeq (RGrp l (RPlus a)) r) p (concat (t :: ts) ++ u) s c c2.
Proof.
  intros H Hne Hs Hr R k x Hk. cbn [m].
  change (m (RPlus a) p ((concat (t :: ts) ++ u) ++ s) c
    (fun p' s' c' => m r p' s' ((l, firstn (length ((concat (t :: ts) ++ u) ++ s) - length s') ((concat (t :: ts) ++ u) ++ s)) :: c') k) = Some x).
  inversion H as [|p0 t0 ts0 s0 c0 c01 c02 F FS]; subst. unfold RPlus; rewrite m_rep; cbn [rep_lo].
  rewrite <- app_assoc. cbn [concat]. rewrite <- (app_assoc t).
  apply F.
  cbn [concat] in Hs, Hr. rewrite pa_app in Hs, Hr.
  eapply rep_hi_stop; try eassumption; auto.
  - rewrite app_length. pose proof (concat_nonempty_len ts Hne). lia.
  - intros i p' s' c'' Hi I. apply (Hs i p' s' c'' _ Hi I).
  - rewrite (app_assoc t), firstn_sub. apply Hr. cbn [concat] in Hk. now rewrite !pa_app in Hk.
Qed.

(** ** Separators *)
Definition is_sepchar (c : ascii) : bool := Ascii.eqb c " " || Ascii.eqb c tab || Ascii.eqb c ":" || Ascii.eqb c "=".
Lemma fp_separator (cls : ascii -> bool) r sep p t s c c' : (forall x, cls x = is_sepchar x) ->
  separator sep -> hd_not is_space (t ++ s) -> hd_not is_sepchar (t ++ s) ->
  fp r (pa p sep) t s c c' ->
  fp (RSeq ws_star (RSeq (RChr cls) (RSeq ws_star r))) p (sep ++ t) s c c'.
Proof.
  intros Hc [a x b Ha Hx Hb|a x Ha Hx] Hs Ht Hr; apply blanks_iff in Ha.
  - apply blanks_iff in Hb.
    assert (Hx1 : is_sepchar x = true /\ is_space x = false).
    { destruct Hx as [<-|[<-|[]]]; split; reflexivity. }
    replace ((a ++ x :: b) ++ t) with (a ++ [x] ++ b ++ t) by (rewrite <- app_assoc; reflexivity).
    replace (pa p (a ++ x :: b)) with (pa (pa (pa p a) [x]) b) in Hr by (rewrite (pa_app p); reflexivity).
    apply fp_seq with (c1 := c); [apply fp_star_chr; [exact Ha|exact (proj2 Hx1)]|].
    apply fp_seq with (c1 := c); [apply fp_chr; now rewrite Hc|].
    apply fp_seq with (c1 := c); [apply fp_star_chr; [exact Hb|exact Hs]|exact Hr].
  - replace ((a ++ [x]) ++ t) with (a ++ x :: t) by (rewrite <- app_assoc; reflexivity).
    assert (Hx1 : is_sepchar x = true /\ is_space x = true).
    { destruct Hx as [->| ->]; split; reflexivity. }
    apply fp_star_back1; [exact Ha|exact (proj2 Hx1)|exact Hs| |].
    + apply nomatch_seq_l, nomatch_first; [reflexivity|]. destruct (t ++ s) as [|y u]; [exact I|]. cbn in Ht |- *. now rewrite Hc.
    + change (x :: t) with ([x] ++ [] ++ t). apply fp_seq with (c1 := c); [apply fp_chr; now rewrite Hc|].
      apply fp_seq with (c1 := c); [apply fp_star_chr; [reflexivity|exact Hs]|]. cbn [pa].
      rewrite pa_snoc in Hr. exact Hr.
Qed.
Lemma sepchar_iff x : is_sepchar x = true <-> among ":=" x \/ x = " "%char \/ x = TAB.
Proof.
  unfold is_sepchar. rewrite !orb_true_iff, !Ascii.eqb_eq. change tab with TAB. unfold among. cbn. intuition.
Qed.
Lemma separator_hd f sep s : separator sep -> (forall x, is_space x = true -> f x = false) ->
  (forall x, is_sepchar x = true -> f x = false) -> hd_not f (sep ++ s).
Proof.
  intros [[|y a] x b Ha Hx Hb|[|y a] x Ha Hx] H1 H2; cbn; try (apply H2, sepchar_iff; tauto);
    inversion Ha; subst; apply H1; now apply blank_iff.
Qed.

(** ** Numbers *)
Definition num_piece : re := RSeq ws_star NUMBER_RE.
Lemma fp_num_piece p g n s c : forallb is_space g = true -> num_ok n -> token_end s -> (g = [] -> prev_ok p n) ->
  fp num_piece p (g ++ write_num n) s c c.
Proof.
  intros Hg Hn Hs Hp. apply fp_seq with (c1 := c).
  - apply fp_star_chr; [exact Hg|]. apply start_num_unspaced. now apply num_start.
  - apply fp_NUMBER; [exact Hn|now apply token_end_follow|]. destruct g as [|x g]; [auto|].
    apply prev_ok_space; [exact Hg|discriminate].
Qed.
Lemma columns_pieces ns t : columns ns t -> forall s, token_end s ->
  exists ts, concat ts = t /\ Forall (fun t => t <> []) ts /\ forall p c, fps num_piece p ts s c c.
Proof.
  induction 1 as [|g n ns t Hg Hg0 Hn Hc IH]; intros s Hs.
  - exists []. repeat split; [constructor|]. intros; constructor.
  - apply blanks_iff in Hg. destruct (IH s Hs) as (ts & E & Hne & F). exists ((g ++ write_num n) :: ts).
    split; [cbn; now rewrite E, <- app_assoc|]. split.
    + constructor; [destruct g; [congruence|discriminate]|exact Hne].
    + intros p c. econstructor; [|apply F]. apply fp_num_piece; auto; [|contradiction].
      rewrite E. now apply columns_hd with (ns := ns).
Qed.
(** The text of numbers consists of blanks and number characters. *)
Definition is_numchar (c : ascii) : bool := is_digit c || chr_in c ($"+-.eE").
Lemma numchar_among c : is_numchar c = true -> among "0123456789+-.eE" c.
Proof.
  intros H. assert (E : chr_in c ($"0123456789+-.eE") = true).
  { revert c H. apply ascii_imp. vm_compute. reflexivity. }
  apply (among_iff "0123456789+-.eE" (fun c => chr_in c ($"0123456789+-.eE"))); auto.
Qed.
Lemma write_num_numchars n : forallb is_numchar (write_num n) = true.
Proof. apply write_num_chars; [intros []; reflexivity|reflexivity]. Qed.
Lemma den_pieces i : forall p s c p' s' c', iter_den (den num_piece) i p s c p' s' c' ->
  exists w, s = w ++ s' /\ p' = pa p w /\ c' = c /\ forallb (fun c => is_space c || is_numchar c) w = true /\ i <= length w.
Proof.
  induction i as [|i IH]; intros p s c p' s' c' H; cbn in H.
  - destruct H as (-> & -> & ->). exists []. auto.
  - destruct H as (p1 & s1 & c1 & D & H). apply IH in H as (w & -> & -> & -> & Hw & Hl).
    unfold num_piece in D. destruct D as (p2 & s2 & c2 & D1 & D2).
    apply (den_rep_chr true 0 None is_space) in D1 as (g & -> & _ & _ & Hg & -> & ->).
    apply den_NUMBER in D2 as (n & Hn & -> & -> & ->). exists (g ++ write_num n ++ w).
    rewrite <- !app_assoc, !pa_app. repeat split; auto.
    + rewrite !forallb_app, Hw. rewrite !andb_true_iff. repeat split; auto; apply forallb_forall; intros x Hx; apply orb_true_iff.
      * left. rewrite forallb_forall in Hg. auto.
      * right. pose proof (write_num_numchars n) as E. rewrite forallb_forall in E. auto.
    + rewrite !app_length. pose proof (write_num_nonempty n Hn) as E. destruct (write_num n); [congruence|cbn; lia].
Qed.

(** ** The end of a keyword line *)
Definition tail_re : re := RSeqs [RCond "val" (ROpt (RGrp "unit" (RSeq c_space (RPlus c_nspace)))) REps; ws_star; REol].
Lemma at_end_nil : at_end [] = true. Proof. reflexivity. Qed.
Lemma fp_blank_end p b c : forallb is_space b = true -> fp (RSeq ws_star REol) p b [] c c.
Proof.
  intros Hb. replace b with (b ++ []) by apply app_nil_r. apply fp_seq with (c1 := c).
  - apply fp_star_chr; [exact Hb|exact I].
  - now apply fp_eol.
Qed.
Lemma fp_cond_some n a b p t s c c' v : cap c n = Some v -> fp a p t s c c' -> fp (RCond n a b) p t s c c'.
Proof. intros E H R k x Hk. cbn. rewrite E. now apply H. Qed.
Lemma fp_cond_none n a b p t s c c' : cap c n = None -> fp b p t s c c' -> fp (RCond n a b) p t s c c'.
Proof. intros E H R k x Hk. cbn. rewrite E. now apply H. Qed.
(** Without a unit: only blanks are left. *)
Lemma nomatch_unit_blanks p b c : forallb is_space b = true -> nomatch (RSeq c_space (RPlus c_nspace)) p b c.
Proof.
  intros Hb. apply nomatch_den. intros p' s' c' (p1 & s1 & c1 & (x & -> & _) & D).
  apply den_rep_chr in D as (w & -> & Hl & _ & Hw & _). cbn in Hb. apply andb_true_iff in Hb as [_ Hb].
  destruct w as [|y w]; [cbn in Hl; lia|]. cbn in Hb, Hw. apply andb_true_iff in Hb as [Hb _]. apply andb_true_iff in Hw as [Hw _].
  now rewrite Hb in Hw.
Qed.
Lemma fp_tail_plain p b c v : cap c "val" = Some v -> forallb is_space b = true -> fp tail_re p b [] c c.
Proof.
  intros E Hb. unfold tail_re. cbn [RSeqs]. change b with ([] ++ b). apply fp_seq with (c1 := c).
  - apply (fp_cond_some _ _ _ _ _ _ _ _ v E). apply fp_opt_none, nomatch_grp. rewrite app_nil_r. now apply nomatch_unit_blanks.
  - now apply fp_blank_end.
Qed.
Lemma fp_tail_word p b c : cap c "val" = None -> forallb is_space b = true -> fp tail_re p b [] c c.
Proof.
  intros E Hb. unfold tail_re. cbn [RSeqs]. change b with ([] ++ b). apply fp_seq with (c1 := c).
  - apply fp_cond_none; [exact E|]. apply fp_eps.
  - now apply fp_blank_end.
Qed.
Lemma nonspace_blank u : (forall c, In c u -> ~ blank c) -> forallb (fun c => negb (is_space c)) u = true.
Proof.
  intros H. apply forallb_forall. intros x Hx. apply H in Hx. rewrite blank_iff in Hx. now destruct (is_space x).
Qed.
Lemma blanks_hd_not b f : forallb is_space b = true -> (forall x, is_space x = true -> f x = false) -> hd_not f b.
Proof. destruct b as [|x b]; cbn; [auto|]. intros H Hf. apply andb_true_iff in H as [H _]. auto. Qed.
Lemma fp_tail_unit p x u b c v : cap c "val" = Some v -> is_space x = true -> u <> [] ->
  forallb (fun c => negb (is_space c)) u = true -> forallb is_space b = true ->
  fp tail_re p ((x :: u) ++ b) [] c (("unit"%string, x :: u) :: c).
Proof.
  intros E Hx Hu0 Hu Hb. unfold tail_re. cbn [RSeqs]. apply fp_seq with (c1 := ("unit"%string, x :: u) :: c).
  - apply (fp_cond_some _ _ _ _ _ _ _ _ v E). apply fp_opt_some; [discriminate|]. apply fp_grp.
    change (x :: u) with ([x] ++ u). apply fp_seq with (c1 := c); [now apply fp_chr|].
    apply fp_plus_chr; [exact Hu|exact Hu0|]. rewrite app_nil_r. apply blanks_hd_not; [exact Hb|]. intros y Hy. now rewrite Hy.
  - now apply fp_blank_end.
Qed.
(** A rest starting with something else than a blank. *)
Lemma nomatch_tail p x s c v : is_space x = false -> cap c "val" = Some v -> nomatch tail_re p (x :: s) c.
Proof.
  intros Hx E. apply nomatch_den. intros p' s' c' D. unfold tail_re in D. cbn [RSeqs] in D.
  destruct D as (p1 & s1 & c1 & D1 & p2 & s2 & c2 & D2 & (H & -> & -> & ->)).
  cbn [den] in D1. rewrite E in D1. destruct D1 as (n & _ & Hn & D1). cbn in Hn.
  destruct n as [|n].
  - cbn in D1. destruct D1 as (-> & <- & ->). apply (den_rep_chr true 0 None is_space) in D2 as (w & E2 & _ & _ & Hw & _).
    destruct w as [|y w].
    + cbn in E2. subst s'. unfold at_end in H. destruct s; [|discriminate]. apply Ascii.eqb_eq in H. subst. discriminate.
    + injection E2 as <- _. cbn in Hw. rewrite Hx in Hw. discriminate.
  - destruct D1 as (p3 & s3 & c3 & D1 & _). destruct D1 as (c4 & (p5 & s5 & c5 & (y & E5 & Hy & _) & _) & _).
    injection E5 as <- _. congruence.
Qed.

(** ** Values *)
Definition value_re : re :=
  RAlt (RGrp "val" (RPlus num_piece))
       (RGrp "str" (RSeq (RChr (fun c => negb (chr_in c ($"-+.") || is_digit c || is_space c)))
                         (RStar (RSeq ws_star (RPlus c_nspace))))).
(** What 146-165 make of the groups. *)
Definition keyword_value (c : caps) : result pyval :=
  match cap c "str" with
  | Some v => to_type (determine_type v) (VStr (strip v))
  | None =>
      let v := match cap c "val" with Some v => v | None => [] end in
      v' <- (if chr_in " " (strip v) then to_tuple (determine_type v) (split v)
             else to_type (determine_type v) (VStr v)) ;;
      match cap c "unit" with
      | Some (x :: u) => Ok (VTuple [v'; VStr (strip (x :: u))])
      | _ => Ok v'
      end
  end.
Lemma keyword_line_some curr line x : re_match PARAM_VALUE_RE line = Some x ->
  keyword_line curr line =
  (v <- keyword_value (m_caps x) ;; Ok (dset key_eqb curr (KStr (lower (strip (group_s x "key")))) v)).
Proof.
  intros E. unfold keyword_line, keyword_value. rewrite E. destruct (cap (m_caps x) "str"); [reflexivity|].
  unfold group_s. destruct (if chr_in " " _ then _ else _); [|reflexivity]. cbn [bind].
  destruct (cap (m_caps x) "unit") as [[|? ?]|]; reflexivity.
Qed.

Lemma word_hd s : word_text s -> exists c t, s = c :: t /\ is_space c = false /\ chr_in c ($"-+.") || is_digit c = false.
Proof.
  intros (H0 & H1 & H2 & _). destruct s as [|c t]; [congruence|]. exists c, t. split; [reflexivity|].
  specialize (H1 c t eq_refl). specialize (H2 c t eq_refl). rewrite blank_iff in H2. split; [now destruct (is_space c)|].
  destruct (chr_in c ($"-+.") || is_digit c) eqn:E; [|reflexivity]. exfalso. apply H1.
  apply (among_iff "+-.0123456789" (fun c => chr_in c ($"-+.") || is_digit c)); [|exact E].
  intros x. assert (H : forall x, Bool.eqb (chr_in x ($"-+.") || is_digit x) (chr_in x (list_ascii_of_string "+-.0123456789")) = true)
    by (apply all_ascii; vm_compute; reflexivity).
  now apply Bool.eqb_prop.
Qed.
(** Pieces of a text not ending with a blank. *)
Definition word_piece : re := RSeq ws_star (RPlus c_nspace).
Lemma fp_word_piece p g w s c : forallb is_space g = true -> w <> [] -> forallb (fun c => negb (is_space c)) w = true ->
  hd_not (fun c => negb (is_space c)) s -> fp word_piece p (g ++ w) s c c.
Proof.
  intros Hg Hw0 Hw Hs. apply fp_seq with (c1 := c).
  - apply fp_star_chr; [exact Hg|]. destruct w as [|x w]; [congruence|]. cbn in Hw |- *. apply andb_true_iff in Hw as [Hw _]. now apply negb_true_iff.
  - now apply fp_plus_chr.
Qed.
Lemma word_pieces b : forallb is_space b = true -> forall t, last_not is_space t ->
  exists ts, concat ts = t /\ Forall (fun t => t <> []) ts /\ forall p c, fps word_piece p ts b c c.
Proof.
  intros Hb. assert (G : forall n t, length t <= n -> last_not is_space t ->
    exists ts, concat ts = t /\ Forall (fun t => t <> []) ts /\ forall p c, fps word_piece p ts b c c).
  { induction n as [|n IH]; intros t Hl Ht.
    - destruct t; [|cbn in Hl; lia]. exists []. repeat split; constructor.
    - destruct t as [|x t]; [exists []; repeat split; constructor|].
      set (s := x :: t) in *. assert (Hs0 : s <> []) by discriminate. clearbody s. clear x t.
      pose proof (take_drop_while is_space s) as E1. set (g := take_while is_space s) in *.
      pose proof (take_while_all is_space s) as Hg. fold g in Hg. set (s1 := drop_while is_space s) in *.
      pose proof (drop_while_hd is_space s) as Hs1. fold s1 in Hs1.
      pose proof (take_drop_while (fun c => negb (is_space c)) s1) as E2. set (w := take_while (fun c => negb (is_space c)) s1) in *.
      pose proof (take_while_all (fun c => negb (is_space c)) s1) as Hw. fold w in Hw.
      set (r := drop_while (fun c => negb (is_space c)) s1) in *.
      pose proof (drop_while_hd (fun c => negb (is_space c)) s1) as Hr. fold r in Hr.
      assert (Hw0 : w <> []).
      { intros E. destruct s1 as [|y s1'].
        - rewrite app_nil_r in E1. unfold last_not in Ht. rewrite <- E1 in Ht. destruct (rev g) as [|z q] eqn:E3.
          + apply Hs0. rewrite <- E1. rewrite <- (rev_involutive g), E3. reflexivity.
          + cbn in Ht. rewrite <- forallb_rev, E3 in Hg. cbn in Hg. now rewrite Ht in Hg.
        - cbn in Hs1. unfold w in E. cbn in E. rewrite Hs1 in E. discriminate. }
      destruct (IH r) as (ts & E3 & Hne & F).
      { rewrite <- E1, <- E2, !app_length in Hl. destruct w; [congruence|cbn in Hl; lia]. }
      { unfold last_not in *. rewrite <- E1, <- E2 in Ht. rewrite !rev_app_distr, <- app_assoc in Ht.
        destruct (rev r) as [|z q]; [exact I|exact Ht]. }
      exists ((g ++ w) :: ts). split; [cbn; now rewrite E3, <- app_assoc, E2, E1|]. split.
      + constructor; [|exact Hne]. intros E. apply app_eq_nil in E as [_ E]. contradiction.
      + intros p c. econstructor; [|apply F]. apply fp_word_piece; auto. rewrite E3.
        destruct r as [|y r]; [|exact Hr]. apply blanks_hd_not; [exact Hb|]. intros y Hy. now rewrite Hy. }
  intros t. now apply (G (length t)).
Qed.
Lemma nomatch_word_piece p b c : forallb is_space b = true -> nomatch word_piece p b c.
Proof.
  intros Hb. apply nomatch_den. intros p' s' c' (p1 & s1 & c1 & D1 & D2).
  apply den_rep_chr in D1 as (g & -> & _). apply den_rep_chr in D2 as (w & -> & Hl & _ & Hw & _).
  rewrite !forallb_app in Hb. apply andb_true_iff in Hb as [_ Hb]. apply andb_true_iff in Hb as [Hb _].
  destruct w as [|y w]; [cbn in Hl; lia|]. cbn in Hb, Hw. apply andb_true_iff in Hb as [Hb _]. now rewrite Hb in Hw.
Qed.
Lemma last_not_blank s : (forall t c, s = t ++ [c] -> ~ blank c) -> last_not is_space s.
Proof.
  intros H. unfold last_not. destruct (rev s) as [|x r] eqn:E; [exact I|]. cbn.
  apply (f_equal (@rev ascii)) in E. rewrite rev_involutive in E. cbn in E. specialize (H _ _ E). rewrite blank_iff in H.
  now destruct (is_space x).
Qed.
Lemma fp_word s b p c : word_text s -> forallb is_space b = true -> cap c "val" = None ->
  fp (RSeq value_re tail_re) p (s ++ b) [] c (("str"%string, s) :: c).
Proof.
  intros Hs Hb Hc. pose proof (word_hd s Hs) as (x & t & -> & Hx1 & Hx2).
  apply fp_seq with (c1 := ("str"%string, x :: t) :: c).
  - apply fp_alt_r.
    + apply nomatch_grp. apply nomatch_first; [reflexivity|]. cbn [app]. clear -Hx1 Hx2.
      assert (H : forall x, implb (negb (is_space x) && negb (chr_in x ($"-+.") || is_digit x)) (negb (first (RPlus num_piece) x)) = true)
        by (apply all_ascii; vm_compute; reflexivity).
      specialize (H x). rewrite Hx1, Hx2 in H. cbn [negb andb implb] in H. now apply negb_true_iff.
    + apply fp_grp. change (x :: t) with ([x] ++ t). apply fp_seq with (c1 := c).
      * apply fp_chr. rewrite Hx2, Hx1. reflexivity.
      * assert (Ht : last_not is_space t).
        { apply last_not_blank. intros u y ->. destruct Hs as (_ & _ & _ & H). apply (H (x :: u) y). reflexivity. }
        destruct (word_pieces b Hb t Ht) as (ts & <- & Hne & F). rewrite app_nil_r.
        apply fp_star; [apply F|exact Hne|]. now apply nomatch_word_piece.
  - apply fp_tail_word; [exact Hc|exact Hb].
Qed.
Lemma strip_word s : word_text s -> strip s = s.
Proof.
  intros Hs. pose proof (word_hd s Hs) as (x & t & -> & Hx1 & _). apply strip_by_id; [exact Hx1|].
  destruct Hs as (_ & _ & _ & H). now apply last_not_blank.
Qed.
Lemma word_value s v c : word_text s -> word_means s v -> keyword_value (("str"%string, s) :: c) = Ok v.
Proof.
  intros Hs Hv. unfold keyword_value.
  change (cap (("str"%string, s) :: c) "str") with (Some s). cbv beta iota. rewrite (strip_word s Hs).
  pose proof (word_hd s Hs) as (x & t & E & Hx1 & Hx2).
  assert (U : forall c r, s = c :: r -> ~ blank c) by apply Hs.
  destruct (determine_exact [] s (Forall_nil _) U) as (H1 & H2 & H3 & H4). cbn [app] in *.
  assert (NI : ~ int_prefix s).
  { intros (sg & d & rest & Hd & E'). rewrite E in E'. destruct sg; [destruct d as [|[] d]; [congruence|..]| |]; cbn in E';
      injection E' as -> _; cbn in Hx2; discriminate. }
  assert (NF : ~ float_prefix s).
  { intros F. apply float_prefix_start in F. rewrite E in F. clear -Hx2 F.
    assert (is_sign x = false /\ is_mant x = false) as [A B].
    { split; (destruct (is_sign x || is_mant x) eqn:Y; [|apply orb_false_iff in Y; tauto]);
        (assert (chr_in x ($"-+.") || is_digit x = true); [|congruence]); revert Y; clear; revert x; apply ascii_imp; vm_compute; reflexivity. }
    cbn in F. rewrite A in F. unfold is_mant in B. apply orb_false_iff in B as [B1 B2]. cbn in F. rewrite B1, B2 in F. discriminate. }
  inversion Hv as [Hl Ht| Hl Ht|Hl]; subst v.
  - rewrite (proj2 H1 Hl). cbn [to_type parse_text]. now rewrite (proj2 (parse_logical_iff s) Ht).
  - rewrite (proj2 H1 Hl). cbn [to_type parse_text]. destruct (parse_logical s) eqn:Y; [|reflexivity]. apply parse_logical_iff in Y. contradiction.
  - rewrite (proj2 H4 (conj Hl (conj NI NF))). reflexivity.
Qed.

(** *** Numbers *)
Lemma cut_row n ns t : num_ok n -> columns ns t -> cut nonblank (map write_num (n :: ns)) (write_num n ++ t).
Proof.
  intros Hn Hc. pose proof (cols_cons [" "%char] n ns t) as C.
  assert (Hb : blanks [" "%char]) by (constructor; [apply blank_iff; reflexivity|constructor]).
  specialize (C Hb ltac:(discriminate) Hn Hc). pose proof (columns_cut _ _ [] C (Forall_nil _)) as X.
  rewrite app_nil_r in X. pose proof (split_cut _ _ X) as E.
  inversion Hc as [|g n' ns' t' Hg Hg0 Hn' Hc']; subst.
  - rewrite app_nil_r. change (write_num n) with ([] ++ write_num n). rewrite <- (app_nil_r ([] ++ write_num n)), <- app_assoc.
    constructor; [intros ? []|now apply write_num_nonempty| | |constructor; intros ? []].
    + intros c Hx. apply nonblank_iff. pose proof (write_num_numchars n) as W. rewrite forallb_forall in W. apply W in Hx.
      revert Hx. revert c. apply ascii_imp. vm_compute. reflexivity.
    + intros c t E'. discriminate.
  - change (write_num n ++ g ++ write_num n' ++ t') with ([] ++ write_num n ++ (g ++ write_num n' ++ t')).
    constructor; [intros ? []|now apply write_num_nonempty| | |].
    + intros c Hx. apply nonblank_iff. pose proof (write_num_numchars n) as W. rewrite forallb_forall in W. apply W in Hx.
      revert Hx. revert c. apply ascii_imp. vm_compute. reflexivity.
    + intros c t E'. destruct g as [|x g]; [congruence|]. injection E' as <- _. inversion Hg; subst. unfold nonblank. tauto.
    + pose proof (columns_cut _ _ [] Hc (Forall_nil _)) as Y. now rewrite app_nil_r in Y.
Qed.
Lemma ok_wf n : num_ok n -> num_wf n.
Proof. intros H. pose proof (Forall_wf [n] (Forall_cons _ H (Forall_nil _))) as X. now inversion X. Qed.
Lemma columns_ok ns t : columns ns t -> Forall num_ok ns.
Proof. induction 1; constructor; auto. Qed.
Lemma columns_end ns t : columns ns t -> token_end t.
Proof. intros H. pose proof (columns_hd ns t [] H) as X. rewrite app_nil_r in X. apply X. intros c u E; discriminate. Qed.
Lemma int_tuple ns : Forall num_wf ns -> Forall is_int ns ->
  to_tuple TInt (map write_num ns) = Ok (VTuple (map (fun n => VInt (int_value n)) ns)).
Proof.
  intros Hw Hi. unfold to_tuple. cbn [to_type]. rewrite map_map. rewrite (TypeConvFacts.mapM_map _ _ (fun n => VInt (int_value n))); [reflexivity|].
  intros n Hn. rewrite Forall_forall in Hw, Hi. apply int_accepts. exists [], n, []. rewrite app_nil_r.
  repeat split; auto; try constructor; try (apply Hi; auto). all: apply (Hw _ Hn).
Qed.
Lemma not_int_type n {A} (a b : A) : ~ is_int n -> (match n_frac n, n_exp n with None, None => a | _, _ => b end) = b.
Proof. intros H. unfold is_int in H. destruct (n_frac n), (n_exp n); auto. exfalso. apply H. auto. Qed.
Lemma int_type n {A} (a b : A) : is_int n -> (match n_frac n, n_exp n with None, None => a | _, _ => b end) = a.
Proof. intros [-> ->]. reflexivity. Qed.
Lemma strip_num_row n ns t : num_ok n -> columns ns t -> strip (write_num n ++ t) = write_num n ++ t.
Proof.
  intros Hn Hc. assert (L : forall n, num_ok n -> last_not is_space (write_num n)).
  { clear. intros n Hn. apply last_not_forallb. apply forallb_forall. intros x Hx.
    pose proof (write_num_numchars n) as W. rewrite forallb_forall in W. apply W in Hx. revert Hx. revert x. apply ascii_imp. vm_compute. reflexivity. }
  apply strip_by_id.
  - apply start_num_unspaced. now apply num_start.
  - destruct t as [|x t]; [rewrite app_nil_r; now apply L|]. apply last_not_app; [discriminate|].
    assert (G : forall ns t, columns ns t -> t <> [] -> last_not is_space t).
    { clear -L. induction 1 as [|g n ns t Hg Hg0 Hn Hc IH]; [congruence|]. intros _. apply last_not_app.
      - intros E. apply app_eq_nil in E as [E _]. revert E. now apply write_num_nonempty.
      - destruct t as [|x t]; [rewrite app_nil_r; now apply L|]. apply last_not_app; [discriminate|]. apply IH. discriminate. }
    now apply (G _ _ Hc).
Qed.
(** The value of the numbers. *)
Lemma numeric_value t v : numeric t v ->
  (if chr_in " " (strip t) then to_tuple (determine_type t) (split t) else to_type (determine_type t) (VStr t)) = Ok v.
Proof.
  intros [n v' Hn Hv|n ns u v' Hn Hc Hin Hv].
  - pose proof (strip_num_row n [] [] Hn cols_nil) as S. rewrite app_nil_r in S. rewrite S.
    replace (chr_in " " (write_num n)) with false.
    2: { symmetry. apply chr_in_false. apply forallb_forall. intros x Hx. pose proof (write_num_numchars n) as W.
         rewrite forallb_forall in W. apply W in Hx. revert Hx. revert x. apply ascii_imp. vm_compute. reflexivity. }
    pose proof (detect_num_end [] n [] (Forall_nil _) ltac:(intros; discriminate) (ok_wf n Hn)) as D. cbn [app] in D. rewrite app_nil_r in D.
    rewrite D. destruct Hv as [Hi|Hi Hf].
    + rewrite (int_type n) by exact Hi. apply int_accepts. exists [], n, []. rewrite app_nil_r. repeat split; auto; try constructor; try apply Hi; now apply ok_wf.
    + rewrite (not_int_type n) by exact Hi. apply float_value; [|exact Hf]. rewrite <- (app_nil_r (write_num n)).
      apply (den_num [] n []); [constructor|constructor|now apply ok_wf].
  - rewrite (strip_num_row n ns u Hn Hc).
    replace (chr_in " " (write_num n ++ u)) with true.
    2: { symmetry. apply existsb_exists. exists " "%char. split; [apply in_or_app; auto|reflexivity]. }
    rewrite (split_cut _ _ (cut_row n ns u Hn Hc)).
    pose proof (detect_num_end [] n u (Forall_nil _) (columns_end _ _ Hc) (ok_wf n Hn)) as D. cbn [app] in D. rewrite D.
    assert (W : Forall num_wf (n :: ns)) by (constructor; [now apply ok_wf|apply Forall_wf; eapply columns_ok; eassumption]).
    inversion Hv as [l Hi|l ns' Hi Hf]; subst.
    + rewrite (int_type n) by now inversion Hi. now apply int_tuple.
    + rewrite (not_int_type n) by exact Hi. now apply to_tuple_nums.
Qed.

Definition num_row (t : str) : Prop := exists n ns u, num_ok n /\ columns ns u /\ t = write_num n ++ u.
Lemma numeric_row t v : numeric t v -> num_row t.
Proof.
  intros [n v' Hn Hv|n ns u v' Hn Hc Hin Hv]; [exists n, [], []|exists n, ns, u]; (split; [exact Hn|]); (split; [try constructor; exact Hc|]); [now rewrite app_nil_r|reflexivity].
Qed.
Lemma numeric_fps t : num_row t -> forall s p c, token_end s -> (forall n, prev_ok p n) ->
  exists u us, t = concat (u :: us) /\ Forall (fun t => t <> []) us /\ fps num_piece p (u :: us) s c c.
Proof.
  intros (n & ns & u & Hn & Hc & ->) s p c Hs Hp.
  destruct (columns_pieces _ _ Hc s Hs) as (ts & E & Hne & F). exists (write_num n), ts. cbn. rewrite E. repeat split; [exact Hne|].
  econstructor; [|apply F]. apply (fp_num_piece p [] n); auto. rewrite E. now apply columns_hd with (ns := ns).
Qed.
Lemma nomatch_piece_blanks p b c : forallb is_space b = true -> nomatch num_piece p b c.
Proof.
  intros Hb. apply nomatch_den. intros p' s' c' (p1 & s1 & c1 & D1 & D2).
  apply den_rep_chr in D1 as (g & -> & _). apply den_NUMBER in D2 as (n & Hn & -> & _).
  rewrite !forallb_app in Hb. apply andb_true_iff in Hb as [_ Hb]. apply andb_true_iff in Hb as [Hb _].
  pose proof (start_num_unspaced _ (num_start n [] Hn)) as U. rewrite app_nil_r in U. pose proof (write_num_nonempty n Hn).
  destruct (write_num n); [congruence|]. cbn in U, Hb. now rewrite U in Hb.
Qed.
Lemma fp_numeric t b p c : num_row t -> forallb is_space b = true -> (forall n, prev_ok p n) -> cap c "val" = None ->
  fp (RSeq value_re tail_re) p (t ++ b) [] c (("val"%string, t) :: c).
Proof.
  intros Ht Hb Hp Hc. assert (Te : token_end (b ++ [])).
  { rewrite app_nil_r. apply token_end_hd, blanks_hd_not; [exact Hb|]. intros x Hx. now rewrite Hx. }
  destruct (numeric_fps t Ht (b ++ []) p c Te Hp) as (u & us & -> & Hne & F).
  apply fp_seq with (c1 := ("val"%string, concat (u :: us)) :: c).
  - apply fp_alt_l, fp_grp. apply fp_plus; [exact F|exact Hne|]. rewrite app_nil_r. now apply nomatch_piece_blanks.
  - eapply fp_tail_plain; [reflexivity|exact Hb].
Qed.
Lemma fp_unit t x u b p c : num_row t -> is_space x = true -> unit_text u -> forallb is_space b = true -> (forall n, prev_ok p n) ->
  fp (RSeq value_re tail_re) p (t ++ ((x :: u) ++ b)) [] c (("unit"%string, x :: u) :: ("val"%string, t) :: c).
Proof.
  intros Ht Hx (Hu & odd & Ho & Hodd) Hb Hp. assert (Te : token_end (((x :: u) ++ b) ++ [])).
  { intros y r E. injection E as <- _. now apply blank_iff. }
  destruct (numeric_fps t Ht _ p c Te Hp) as (w & ws & -> & Hne & F).
  apply fp_alt_seq. apply fp_grp_plus_stop with (c1 := c); [exact F|exact Hne| |].
  - intros i p' s' c' w0 Hi I. apply den_pieces in I as (z & E & -> & -> & Hz & Hl). rewrite app_nil_r in E.
    assert (G : exists u1 y u2, u = u1 ++ y :: u2 /\ s' = y :: u2 ++ b).
    { destruct z as [|x' z]; [cbn in Hl; lia|]. cbn in E. injection E as <- E. cbn in Hz. apply andb_true_iff in Hz as [_ Hz].
      clear Hl. revert z Hz E. clear -Hu Ho Hodd. induction u as [|y u IH]; intros z Hz E; [destruct Ho|].
      destruct z as [|y' z].
      - exists [], y, u. cbn in E. auto.
      - cbn in E. injection E as <- E. cbn in Hz. apply andb_true_iff in Hz as [Hy Hz]. destruct Ho as [->|Ho].
        + exfalso. assert (B : is_space odd = false).
          { destruct (is_space odd) eqn:Y; [|reflexivity]. exfalso. apply (Hu odd); [now left|now apply blank_iff]. }
          rewrite B in Hy. apply Hodd. now apply numchar_among.
        + destruct (IH (fun c H => Hu c (or_intror H)) Ho z Hz E) as (u1 & q & u2 & -> & E').
          exists (y :: u1), q, u2. auto. }
    destruct G as (u1 & y & u2 & Eu & ->). eapply nomatch_tail; [|reflexivity].
    destruct (is_space y) eqn:Y; [|reflexivity]. exfalso. apply (Hu y); [rewrite Eu; apply in_or_app; right; now left|now apply blank_iff].
  - apply (fp_tail_unit _ x u b _ (concat (w :: ws))); auto.
    + intros ->. destruct Ho.
    + now apply nonspace_blank.
Qed.
Lemma unit_strip x u : is_space x = true -> unit_text u -> strip (x :: u) = u.
Proof.
  intros Hx (Hu & odd & Ho & _). apply nonspace_blank in Hu. change (x :: u) with ([x] ++ u). rewrite <- (app_nil_r u) at 1.
  apply strip_by_core.
  - cbn. now rewrite Hx.
  - reflexivity.
  - destruct u as [|y u]; [destruct Ho|]. cbn in Hu |- *. apply andb_true_iff in Hu as [Hu _]. now apply negb_true_iff.
  - now apply last_not_forallb.
  - intros ->. destruct Ho.
Qed.
Lemma key_chars k : key_name k -> forallb (fun c => is_alpha c || Ascii.eqb c "_") k = true.
Proof.
  intros [_ H]. apply forallb_forall. intros x Hx. apply H in Hx as [Hx| ->]; [|reflexivity]. apply orb_true_iff. left.
  unfold letter in Hx. unfold is_alpha, is_upper, is_lower, in_range, ord. 
  destruct Hx as [[A B]|[A B]]; apply orb_true_iff; [left|right]; apply andb_true_iff; split; apply N.leb_le; assumption.
Qed.

(** ** Keyword lines *)
Lemma separator_prev p sep : separator sep -> forall n, prev_ok (pa p sep) n.
Proof.
  intros H n. unfold prev_ok. assert (E : exists x, pa p sep = Some x /\ is_space x || is_sepchar x = true).
  { destruct H as [a x b Ha Hx Hb|a x Ha Hx].
    - rewrite pa_app. cbn [pa]. destruct (rev b) as [|y r] eqn:E.
      + apply (f_equal (@rev ascii)) in E. rewrite rev_involutive in E. cbn in E. subst b. exists x. split; [reflexivity|].
        apply orb_true_iff. right. apply sepchar_iff. auto.
      + exists y. rewrite pa_rev, E. split; [reflexivity|]. apply orb_true_iff. left. apply blank_iff. unfold blanks in Hb.
        rewrite Forall_forall in Hb. apply Hb. apply in_rev. rewrite E. now left.
    - exists x. rewrite pa_snoc. split; [reflexivity|]. apply orb_true_iff. right. apply sepchar_iff. auto. }
  destruct E as (x & -> & Hx). intros. intros Y. injection Y as ->. discriminate.
Qed.
Lemma value_hd t v s : value_text t v -> hd_not is_space (t ++ s).
Proof.
  assert (N : forall t v s, numeric t v -> hd_not is_space (t ++ s)).
  { intros t' v' s' [n ? Hn _|n ns u ? Hn _ _ _]; [|rewrite <- app_assoc]; now apply start_num_unspaced, num_start. }
  intros [w ? Hw _|t' v' Ht|t' v' x u Ht _ _].
  - destruct (word_hd _ Hw) as (c & r & -> & H & _). exact H.
  - now apply N with (v := v').
  - rewrite <- app_assoc. now apply N with (v := v').
Qed.
Lemma value_nonempty t v : value_text t v -> t <> [].
Proof.
  intros H E. subst t. inversion H as [w ? Hw _|t' v' Ht|t' v' x u Ht _ _ E]; subst.
  - destruct Hw as [Hw _]. congruence.
  - inversion Ht as [n ? Hn _ E|n ns u ? Hn _ _ _ E]; [|apply app_eq_nil in E as [E _]]; revert E; now apply write_num_nonempty.
  - destruct t'; discriminate.
Qed.
(** What a line does, given the groups its value part is matched with. *)
Lemma keyword_line_gen a k' sep t b c' r curr : blanks a -> key_name k' -> separator sep -> hd_not is_space (t ++ b) ->
  hd_not is_sepchar (t ++ b) -> fp (RSeq value_re tail_re) (pa (pa (pa None a) k') sep) (t ++ b) [] [("key"%string, k')] c' ->
  keyword_value c' = r -> cap c' "key" = Some k' ->
  keyword_line curr (a ++ k' ++ sep ++ t ++ b) = (v <- r ;; Ok (dset key_eqb curr (KStr (lower k')) v)).
Proof.
  intros Ha Hk Hsep Hne Hns F Ev Ek. apply blanks_iff in Ha. pose proof (key_chars _ Hk) as Hkc. destruct Hk as [Hk0 _].
  set (c0 := [("key"%string, k')]).
  assert (M : re_match PARAM_VALUE_RE (a ++ k' ++ sep ++ t ++ b) =
              Some {| m_text := a ++ k' ++ sep ++ t ++ b; m_caps := c'; m_prev := pa None (a ++ k' ++ sep ++ t ++ b); m_rest := [] |}).
  { unfold re_match. pose proof (fp_match_at PARAM_VALUE_RE None (a ++ k' ++ sep ++ t ++ b) [] c') as X.
    rewrite app_nil_r in X. apply X. clear X. unfold PARAM_VALUE_RE. cbn [RSeqs].
    change (a ++ k' ++ sep ++ t ++ b) with ([] ++ a ++ k' ++ sep ++ t ++ b).
    apply fp_seq with (c1 := []); [apply fp_bol|]. cbn [pa].
    apply fp_seq with (c1 := []).
    { apply fp_star_chr; [exact Ha|]. destruct k' as [|x k']; [congruence|]. cbn in Hkc |- *. apply andb_true_iff in Hkc as [Hx _].
      clear -Hx. revert x Hx. ascii_dec. }
    apply fp_seq with (c1 := c0).
    { apply fp_grp. apply fp_plus_chr; [exact Hkc|exact Hk0|]. rewrite <- app_assoc. apply separator_hd; [exact Hsep| |]; clear; ascii_dec. }
    refine (fp_separator _ (RSeq value_re tail_re) _ _ _ _ _ _ _ Hsep _ _ F); [intros x; reflexivity| |]; now rewrite app_nil_r. }
  rewrite (keyword_line_some _ _ _ M). cbn [m_caps]. rewrite Ev. destruct r as [v|]; [|reflexivity]. cbn [bind]. unfold group_s. cbn [m_caps]. rewrite Ek.
  unfold strip. rewrite strip_by_id; [reflexivity| |].
  - destruct k' as [|x k']; [exact I|]. cbn in Hkc |- *. apply andb_true_iff in Hkc as [Hx _]. clear -Hx. revert x Hx. ascii_dec.
  - apply last_not_forallb. apply forallb_forall. intros x Hx. rewrite forallb_forall in Hkc. apply Hkc in Hx. clear -Hx. revert x Hx. ascii_dec.
Qed.
Lemma bind_ok_v {A B} (v : A) (f : A -> result B) : bind (Ok v) f = f v.
Proof. reflexivity. Qed.
Lemma keyword_code_line h k v curr : keyword_code h k v ->
  keyword_line curr h = Ok (dset key_eqb curr (KStr (lower k)) v).
Proof.
  intros [a k' sep t v' b Ha Hk Hsep Hnf Hv Hb].
  assert (Hne : hd_not is_space (t ++ b)) by now apply value_hd with (v := v').
  pose proof (value_nonempty _ _ Hv) as Ht0.
  assert (Hns : hd_not is_sepchar (t ++ b)).
  { destruct t as [|x t]; [congruence|]. cbn in Hne |- *. destruct (is_sepchar x) eqn:E; [|reflexivity].
    apply sepchar_iff in E as [E|[E|E]]; [destruct (Hnf x t eq_refl E)| |]; subst x; discriminate. }
  rewrite <- (bind_ok_v v' (fun v => Ok (dset key_eqb curr (KStr (lower k')) v))).
  assert (G : exists c', fp (RSeq value_re tail_re) (pa (pa (pa None a) k') sep) (t ++ b) [] [("key"%string, k')] c' /\ keyword_value c' = Ok v' /\ cap c' "key" = Some k').
  { apply blanks_iff in Hb. pose proof (separator_prev (pa (pa None a) k') _ Hsep) as Hp.
    destruct Hv as [w v'' Hw Hm|t v'' Hn|t v'' x u Hn Hx Hu].
    - eexists. split; [now apply fp_word|]. split; [now apply word_value|reflexivity].
    - eexists. split; [eapply fp_numeric; eauto using numeric_row|]. split; [|reflexivity].
      unfold keyword_value. change (cap _ "str") with (@None str). change (cap _ "val") with (Some t). cbv beta iota zeta.
      rewrite (numeric_value _ _ Hn). reflexivity.
    - apply blank_iff in Hx. eexists. split; [rewrite <- app_assoc; eapply fp_unit; eauto using numeric_row|]. split; [|reflexivity].
      unfold keyword_value. change (cap _ "str") with (@None str). change (cap _ "val") with (Some t).
      change (cap _ "unit") with (Some (x :: u)). cbv beta iota zeta.
      rewrite (numeric_value _ _ Hn). cbn [bind]. now rewrite (unit_strip x u). }
  destruct G as (c' & F & Ev & Ek). now apply keyword_line_gen with (c' := c').
Qed.

(** ** Literals ignoring case *)
Lemma fp_litI t : forall w p s c, lower w = lower t -> fp (RLitI_l t) p w s c c.
Proof.
  induction t as [|x t IH]; intros w p s c H.
  - destruct w; [|discriminate]. apply fp_eps.
  - destruct w as [|y w]; [discriminate|]. cbn in H. injection H as H1 H2. destruct t as [|x' t].
    + destruct w; [|discriminate]. apply fp_chr. rewrite H1. apply Ascii.eqb_refl.
    + change (RLitI_l (x :: x' :: t)) with (RSeq (RCharI x) (RLitI_l (x' :: t))). change (y :: w) with ([y] ++ w).
      apply fp_seq with (c1 := c); [apply fp_chr; rewrite H1; apply Ascii.eqb_refl|]. apply IH. exact H2.
Qed.
Lemma den_litI t : forall p s c p' s' c', den (RLitI_l t) p s c p' s' c' ->
  exists w, s = w ++ s' /\ lower w = lower t /\ p' = pa p w /\ c' = c.
Proof.
  induction t as [|x t IH]; intros p s c p' s' c' H.
  - destruct H as (-> & -> & ->). exists []. auto.
  - destruct t as [|x' t].
    + destruct H as (y & -> & Hy & -> & ->). apply Ascii.eqb_eq in Hy. exists [y]. cbn. rewrite Hy. auto.
    + change (RLitI_l (x :: x' :: t)) with (RSeq (RCharI x) (RLitI_l (x' :: t))) in H.
      destruct H as (p1 & s1 & c1 & (y & -> & Hy & -> & ->) & H). apply Ascii.eqb_eq in Hy.
      apply IH in H as (w & -> & Hw & -> & ->). exists (y :: w). cbn in Hw |- *. rewrite Hy, <- Hw. auto.
Qed.
Lemma rep_ok_litI t : rep_ok (RLitI_l t) = true.
Proof.
  induction t as [|x t IH]; [reflexivity|]. destruct t as [|y t]; [reflexivity|].
  change (RLitI_l (x :: y :: t)) with (RSeq (RCharI x) (RLitI_l (y :: t))). cbn [rep_ok]. now rewrite IH.
Qed.

(** ** Block markers *)
Definition marked (w : string) (l : str) : Prop := exists a p rest, blanks a /\ spells w p /\ l = a ++ p ++ rest.
Lemma pa_none a : pa None a = None -> a = [].
Proof. intros H. destruct a as [|x a] using rev_ind; [reflexivity|]. rewrite pa_snoc in H. discriminate. Qed.
Definition marker_re (w : string) : re := RSeqs [RBol; ws_star; RLitI w].
Lemma den_marker w p s p' s' c' : lower ($w) = $w -> den (marker_re w) p s [] p' s' c' -> p = None /\ marked w s.
Proof.
  intros Hl (p1 & s1 & c1 & (-> & <- & <- & <-) & p2 & s2 & c2 & D1 & D2). split; [reflexivity|].
  apply (den_rep_chr true 0 None is_space) in D1 as (a & -> & _ & _ & Ha & _).
  apply den_litI in D2 as (u & -> & Hu & _). exists a, u, s'. repeat split; [now apply blanks_iff|].
  unfold spells. rewrite Hu. exact Hl.
Qed.
Lemma marked_den w s : lower ($w) = $w -> hd_not is_space ($w) -> $w <> [] -> marked w s ->
  exists p' s' c', den (marker_re w) None s [] p' s' c'.
Proof.
  intros Hl Hh H0 (a & u & rest & Ha & Hu & ->). apply blanks_iff in Ha. do 3 eexists.
  replace (a ++ u ++ rest) with (([] ++ a ++ u) ++ rest) by (cbn; now rewrite <- app_assoc).
  apply fp_den. unfold marker_re. cbn [RSeqs]. apply fp_seq with (c1 := []); [apply fp_bol|]. cbn [pa].
  apply fp_seq with (c1 := []).
  - apply fp_star_chr; [exact Ha|]. unfold spells in Hu. destruct u as [|x u].
    + cbn in Hu. fold ($w) in Hu. exfalso. congruence.
    + cbn in Hu. fold ($w) in Hu. rewrite <- Hu in Hh. cbn in Hh |- *. clear -Hh.
      destruct (is_space x) eqn:E; [|reflexivity]. assert (is_space (lower_c x) = true); [|congruence].
      revert x E Hh. clear. intros x E _. revert x E. ascii_dec.
  - apply fp_litI. unfold spells in Hu. fold ($w) in Hu. now rewrite Hu, Hl.
Qed.
Lemma marker_test w s : lower ($w) = $w -> hd_not is_space ($w) -> $w <> [] ->
  (re_test (marker_re w) s = true <-> marked w s) /\ (re_match_test (marker_re w) s = true <-> marked w s).
Proof.
  intros Hl Hh H0. assert (Hok : rep_ok (marker_re w) = true) by (unfold marker_re; cbn; apply rep_ok_litI).
  split; (etransitivity; [first [apply (search_test_iff _ _ Hok)|apply (match_test_iff _ _ Hok)]|]); split.
  - intros (a & b & -> & p' & s' & c' & D). apply den_marker in D as [Ep D]; [|exact Hl]. apply pa_none in Ep. subst a. exact D.
  - intros H. exists [], s. split; [reflexivity|]. now apply marked_den.
  - intros (p' & s' & c' & D). now apply den_marker in D as [_ D].
  - intros H. now apply marked_den.
Qed.
Lemma endblock_test l : re_test ENDBLOCK_RE l = true <-> end_line l.
Proof. apply (marker_test "%endblock"); [reflexivity|reflexivity|discriminate]. Qed.
Lemma is_endblock_iff l : is_endblock l = true <-> end_line l.
Proof. apply (marker_test "%endblock"); [reflexivity|reflexivity|discriminate]. Qed.
Lemma block_test l : re_test BLOCK_RE l = true <-> marked "%block " l.
Proof. apply (marker_test "%block "); [reflexivity|reflexivity|discriminate]. Qed.
(** Lines whose first non-blank character is not a percent sign. *)
Lemma lower_percent x : lower_c x = "%"%char -> x = "%"%char.
Proof.
  intros H. assert (E : forall x, implb (Ascii.eqb (lower_c x) "%") (Ascii.eqb x "%") = true) by (apply all_ascii; vm_compute; reflexivity).
  specialize (E x). rewrite H in E. cbn in E. now apply Ascii.eqb_eq.
Qed.
Lemma not_marked w l : (exists v, $w = "%"%char :: v) -> (forall a r, l = a ++ "%"%char :: r -> ~ blanks a) -> ~ marked w l.
Proof.
  intros (v & Ew) H (a & p & rest & Ha & Hp & ->). unfold spells in Hp. fold ($w) in Hp. rewrite Ew in Hp.
  destruct p as [|x p]; [discriminate|]. cbn in Hp. injection Hp as Hx _. apply lower_percent in Hx. subst x.
  exact (H a (p ++ rest) eq_refl Ha).
Qed.
Lemma first_not_percent a x r : blanks a -> is_space x = false -> x <> "%"%char ->
  forall a' r', a ++ x :: r = a' ++ "%"%char :: r' -> ~ blanks a'.
Proof.
  intros Ha Hx Hn a' r' E Ha'. apply blanks_iff in Ha, Ha'. apply class_split with (f := is_space) in E as [_ E]; auto; [now injection E|reflexivity].
Qed.

(** ** Comments *)
Lemma search_comment l : forall p, search_from (c_of "#!") p l = search_from (comment_alt [["#"%char]; ["!"%char]]) p l.
Proof.
  assert (M : forall p s, match_at (c_of "#!") p s = match_at (comment_alt [["#"%char]; ["!"%char]]) p s).
  { intros p [|x s]; [reflexivity|]. unfold match_at. cbn.
    assert (E : Ascii.eqb x "#" || (Ascii.eqb x "!" || false) = Ascii.eqb "#" x || Ascii.eqb "!" x).
    { rewrite (Ascii.eqb_sym "#" x), (Ascii.eqb_sym "!" x), orb_false_r. reflexivity. }
    rewrite E. destruct (Ascii.eqb "#" x); [reflexivity|]. destruct (Ascii.eqb "!" x); reflexivity. }
  induction l as [|x l IH]; intros p; cbn [search_from]; rewrite M; [reflexivity|]. now rewrite IH.
Qed.
Lemma uncomment_code raw h : code_of raw h -> uncomment raw = h.
Proof.
  intros H. unfold uncomment, before_match. rewrite search_comment.
  refine (before_marker_unique _ _ _ _ (before_match_spec _ raw _) H). discriminate.
Qed.

(** ** Files *)
Lemma space_lower x : is_space (lower_c x) = is_space x.
Proof.
  assert (H : forall x, Bool.eqb (is_space (lower_c x)) (is_space x) = true) by (apply all_ascii; vm_compute; reflexivity).
  now apply Bool.eqb_prop.
Qed.
Lemma nonspace_lower s : forallb (fun c => negb (is_space c)) (lower s) = forallb (fun c => negb (is_space c)) s.
Proof. induction s as [|x s IH]; [reflexivity|]. change (lower (x :: s)) with (lower_c x :: lower s). cbn [forallb]. now rewrite space_lower, IH. Qed.
Lemma lower_app a b : lower (a ++ b) = lower a ++ lower b.
Proof. apply map_app. Qed.
Lemma lower_snoc p v x : lower p = v ++ [x] -> exists q y, p = q ++ [y] /\ lower q = v /\ lower_c y = x.
Proof.
  intros H. destruct p as [|y q _] using rev_ind; [destruct v; discriminate|]. rewrite lower_app in H.
  apply app_inj_tail in H as [H1 H2]. exists q, y. auto.
Qed.
Lemma block_head_title h title : block_head h title -> nthE (split h) 1 = Ok title.
Proof.
  intros [a p b t rest Ha Hp Hb Ht0 Ht Hr]. apply blanks_iff in Ha, Hb. unfold spells in Hp.
  apply (lower_snoc p ($"%block") " "%char) in Hp as (q & y & -> & Hq & Hy).
  assert (Ey : is_space y = true) by (rewrite <- space_lower, Hy; reflexivity).
  rewrite split_ws_app by exact Ha.
  replace ((q ++ [y]) ++ b ++ t ++ rest) with (q ++ (y :: b) ++ t ++ rest) by (rewrite <- app_assoc; reflexivity).
  rewrite split_word_ws.
  - unfold nthE. cbn [nth_error]. assert (Wt : word t) by (split; [exact Ht0|now apply nonspace_blank]).
    destruct rest as [|z rest].
    + rewrite app_nil_r, split_word_end by exact Wt. reflexivity.
    + change (t ++ z :: rest) with (t ++ [z] ++ rest). rewrite split_word_ws; [reflexivity|exact Wt| |discriminate].
      cbn. rewrite andb_true_r. apply blank_iff. now apply (Hr z rest).
  - split; [destruct q; discriminate|]. rewrite <- nonspace_lower, Hq. reflexivity.
  - cbn. now rewrite Ey.
  - discriminate.
Qed.
Lemma block_head_test h title : block_head h title -> re_test BLOCK_RE h = true.
Proof. intros [a p b t rest Ha Hp Hb Ht0 Ht Hr]. apply block_test. exists a, p, (b ++ t ++ rest). auto. Qed.
Lemma l_bool_cons h ls x : nthE (split h) 1 = Ok x -> l_bool (h :: ls) = true.
Proof.
  intros H. cbn. apply orb_true_iff. left. destruct (isempty (strip h)) eqn:E; [|reflexivity]. exfalso.
  rewrite <- split_strip in H. destruct (strip h); [|discriminate]. discriminate.
Qed.
Lemma keyword_not_block h k v : keyword_code h k v -> re_test BLOCK_RE h = false.
Proof.
  intros [a k' sep t v' b Ha Hk _ _ _ _]. apply (not_true _ (marked "%block " (a ++ k' ++ sep ++ t ++ b))); [symmetry; apply block_test|].
  pose proof (key_chars _ Hk) as Hc. destruct k' as [|x k']; [destruct Hk; congruence|]. cbn in Hc. apply andb_true_iff in Hc as [Hx _].
  apply not_marked; [eexists; reflexivity|]. cbn [app]. apply first_not_percent; [exact Ha| |intros ->; discriminate].
  clear -Hx. revert x Hx. ascii_dec.
Qed.
Lemma blanks_not_block h : blanks h -> re_test BLOCK_RE h = false.
Proof.
  intros H. apply (not_true _ (marked "%block " h)); [symmetry; apply block_test|].
  apply not_marked; [eexists; reflexivity|]. intros a r -> _. apply blanks_iff in H. rewrite forallb_app in H.
  apply andb_true_iff in H as [_ H]. discriminate.
Qed.
(** Lines without a keyword are skipped. *)
Lemma no_keyword curr h : (forall a x r, h = a ++ x :: r -> blanks a -> is_alpha x = false /\ x <> "_"%char) -> keyword_line curr h = Ok curr.
Proof.
  intros H. unfold keyword_line. destruct (re_match PARAM_VALUE_RE h) eqn:E; [|reflexivity]. exfalso.
  unfold re_match, match_at in E. apply m_sound in E as (p' & s' & c' & D & _). unfold PARAM_VALUE_RE in D. cbn [RSeqs] in D.
  destruct D as (p1 & s1 & c1 & (_ & _ & <- & _) & p2 & s2 & c2 & D2 & p3 & s3 & c3 & (c4 & D3 & _) & _).
  apply (den_rep_chr true 0 None is_space) in D2 as (a & -> & _ & _ & Ha & _).
  apply den_rep_chr in D3 as (w & -> & Hl & _ & Hw & _). destruct w as [|x w]; [cbn in Hl; lia|].
  destruct (H a x (w ++ s3) eq_refl) as [H1 H2]; [now apply blanks_iff|]. cbn in Hw. rewrite H1 in Hw.
  destruct (Ascii.eqb_spec x "_"); [contradiction|discriminate].
Qed.
Lemma blanks_no_keyword curr h : blanks h -> keyword_line curr h = Ok curr.
Proof.
  intros H. apply no_keyword. intros a x r -> _. apply blanks_iff in H. rewrite forallb_app in H. apply andb_true_iff in H as [_ H].
  cbn in H. apply andb_true_iff in H as [H _]. split; [|intros ->; discriminate]. clear -H. revert x H. ascii_dec.
Qed.
Section Loop.
  Context (dc sp : list str -> result pyval)
    (Hblk : forall title clean v, block_means title clean v -> block_parser dc sp title clean = Ok v).
  Lemma loop_plain f curr raw h ls : code_of raw h -> re_test BLOCK_RE h = false ->
    cell_loop dc sp (S f) curr (raw :: ls) = (c <- keyword_line curr h ;; cell_loop dc sp f c ls).
  Proof.
    intros Hc Hb. cbn [cell_loop]. rewrite (uncomment_code _ _ Hc). unfold l_from_re. rewrite Hb. reflexivity.
  Qed.
  Lemma loop_lines ls asg : cell_lines ls asg -> forall rest curr fuel, length (ls ++ rest) < fuel ->
    exists fuel', length rest < fuel' /\
      cell_loop dc sp fuel curr (ls ++ rest) = cell_loop dc sp fuel' (dupdate key_eqb curr asg) rest.
  Proof.
    induction 1 as [|raw h ls asg Hc Hb _ IH|raw h k v ls asg Hc Hk _ IH|raw h title body e clean v ls asg Hc Hh Hbody He Hs Hm _ IH];
      intros rest curr fuel Hf.
    - exists fuel. auto.
    - destruct fuel as [|fuel]; [cbn in Hf; lia|]. cbn [app]. rewrite (loop_plain fuel curr raw h _ Hc (blanks_not_block h Hb)).
      rewrite (blanks_no_keyword curr h Hb). cbn [bind]. apply IH. cbn in Hf. lia.
    - destruct fuel as [|fuel]; [cbn in Hf; lia|]. cbn [app]. rewrite (loop_plain fuel curr raw h _ Hc (keyword_not_block h k v Hk)).
      rewrite (keyword_code_line h k v curr Hk). cbn [bind]. apply IH. cbn in Hf. lia.
    - destruct fuel as [|fuel]; [cbn in Hf; lia|]. cbn [app cell_loop]. rewrite (uncomment_code _ _ Hc). unfold l_from_re.
      rewrite (block_head_test _ _ Hh). cbn [negb].
      replace ((body ++ e :: ls) ++ rest) with (body ++ e :: ls ++ rest) by (rewrite <- app_assoc; reflexivity).
      rewrite l_scan_first.
      + cbn [orb bind]. rewrite (l_bool_cons h _ title (block_head_title _ _ Hh)). cbn [bind tl].
        rewrite (block_head_title _ _ Hh). cbn [bind].
        replace (strip_comments [$"#"; $"!"] true (body ++ [e])) with clean.
        2: { refine (strip_inline_unique _ _ _ _ Hs (strip_inline_spec _ _ _)). discriminate. }
        rewrite (Hblk _ _ _ Hm). cbn [bind]. apply IH. cbn [app length] in Hf. rewrite !app_length in *. cbn in Hf. lia.
      + apply forallb_forall. intros l Hl. rewrite Forall_forall in Hbody. apply Hbody in Hl. apply negb_true_iff.
        apply (not_true _ (end_line l)); [symmetry; apply endblock_test|exact Hl].
      + now apply endblock_test.
  Qed.
  Theorem cell_file ls asg out : cell_lines ls asg -> merged asg out ->
    parse_cell_param_file dc sp ls = Ok (VList [VDict false out]).
  Proof.
    intros H Hm. unfold parse_cell_param_file. destruct (loop_lines ls asg H [] [] (S (length ls))) as (f & Hf & E).
    { rewrite app_nil_r. lia. }
    rewrite app_nil_r in E. rewrite E. destruct f as [|f]; [cbn in Hf; lia|]. cbn [cell_loop bind].
    apply (merged_fun _ key_eqb_spec) in Hm. unfold dict_of in Hm. now rewrite <- Hm.
  Qed.
  (** A line that raises stops the parser. *)
  Theorem cell_file_raises ls asg raw h rest e : cell_lines ls asg -> code_of raw h -> re_test BLOCK_RE h = false ->
    (forall curr, keyword_line curr h = Err e) -> parse_cell_param_file dc sp (ls ++ raw :: rest) = Err e.
  Proof.
    intros H Hc Hb He. unfold parse_cell_param_file.
    destruct (loop_lines ls asg H (raw :: rest) [] (S (length (ls ++ raw :: rest)))) as (f & Hf & E); [lia|].
    rewrite E. destruct f as [|f]; [cbn in Hf; lia|]. rewrite (loop_plain _ _ _ _ _ Hc Hb), He. reflexivity.
  Qed.
  (** So does a block that is not ended. *)
  Theorem cell_file_unended ls asg raw h title rest : cell_lines ls asg -> code_of raw h -> block_head h title ->
    Forall (fun l => ~ end_line l) rest -> parse_cell_param_file dc sp (ls ++ raw :: rest) = Err OSError.
  Proof.
    intros H Hc Hh Hr. unfold parse_cell_param_file.
    destruct (loop_lines ls asg H (raw :: rest) [] (S (length (ls ++ raw :: rest)))) as (f & Hf & E); [lia|].
    rewrite E. destruct f as [|f]; [cbn in Hf; lia|]. cbn [cell_loop]. rewrite (uncomment_code _ _ Hc). unfold l_from_re.
    rewrite (block_head_test _ _ Hh). cbn [negb]. rewrite l_scan_none; [reflexivity|].
    apply forallb_forall. intros l Hl. rewrite Forall_forall in Hr. apply Hr in Hl. apply negb_true_iff.
    apply (not_true _ (end_line l)); [symmetry; apply endblock_test|exact Hl].
  Qed.
End Loop.
