(** The texts that a pattern without assertions matches, and whole-line patterns. *)
From Verif Require Import PyBase PyFacts PyVal Regex RegexFacts RegexComplete SpecLine NumProps SpecStr SpecMd SpecBands CastepRes CastepBlocks CastepRest CastepFile.
From Verif Require Import SpecCastepRun.
Local Open Scope list_scope.
Local Open Scope nat_scope.

Fixpoint many (L : str -> Prop) (n : nat) (u : str) : Prop :=
  match n with O => u = [] | S n => exists a b, u = a ++ b /\ L a /\ many L n b end.
Fixpoint lang (r : re) (u : str) : Prop :=
  match r with
  | REps => u = []
  | RChr f => exists c, u = [c] /\ f c = true
  | RSeq a b => exists v w, u = v ++ w /\ lang a v /\ lang b w
  | RAlt a b => lang a u \/ lang b u
  | RRep _ lo hi a => exists n, lo <= n /\ match hi with Some h => n <= lo + (h - lo) | None => True end /\ many (lang a) n u
  | RGrp _ a => lang a u
  | _ => False
  end.
Fixpoint free (r : re) : bool :=
  match r with
  | REps | RChr _ => true
  | RSeq a b | RAlt a b => free a && free b
  | RRep _ _ _ a | RGrp _ a => free a
  | _ => false
  end.
Lemma den_lang r : forall p s c p' s' c', free r = true -> den r p s c p' s' c' -> exists u, s = u ++ s' /\ lang r u /\ p' = pa p u.
Proof.
  induction r as [|f|a IHa b IHb|a IHa b IHb|g lo hi a IHa|n a IHa|b a IHa|b f| | | |n|n a IHa b IHb]; intros p s c p' s' c' W D; try discriminate W.
  - destruct D as (-> & -> & _). now exists [].
  - destruct D as (x & -> & Hx & -> & _). exists [x]. repeat split. now exists x.
  - cbn [free] in W. apply andb_true_iff in W as [Wa Wb]. destruct D as (p1 & s1 & c1 & D1 & D2).
    destruct (IHa _ _ _ _ _ _ Wa D1) as (u & -> & Lu & ->). destruct (IHb _ _ _ _ _ _ Wb D2) as (w & -> & Lw & ->).
    exists (u ++ w). repeat split; [now rewrite app_assoc|now exists u, w|now rewrite pa_app].
  - cbn [free] in W. apply andb_true_iff in W as [Wa Wb]. destruct D as [D|D].
    + destruct (IHa _ _ _ _ _ _ Wa D) as (u & -> & Lu & ->). exists u. repeat split. now left.
    + destruct (IHb _ _ _ _ _ _ Wb D) as (u & -> & Lu & ->). exists u. repeat split. now right.
  - cbn [free] in W. destruct D as (n & Hl & Hh & D). assert (E : exists u, s = u ++ s' /\ many (lang a) n u /\ p' = pa p u).
    { clear Hl Hh. revert p s c D. induction n as [|n IH]; intros p s c D; cbn [iter_den] in D.
      - destruct D as (-> & -> & _). now exists [].
      - destruct D as (p1 & s1 & c1 & D1 & D2). destruct (IHa _ _ _ _ _ _ W D1) as (u & -> & Lu & ->).
        destruct (IH _ _ _ D2) as (w & -> & Lw & ->). exists (u ++ w). repeat split; [now rewrite app_assoc|now exists u, w|now rewrite pa_app]. }
    destruct E as (u & E & M & ->). exists u. repeat split; [exact E|]. exists n. auto.
  - cbn [free] in W. destruct D as (c1 & D & _). eauto.
Qed.
Lemma lang_den r : forall u p s' c, free r = true -> lang r u -> exists c', den r p (u ++ s') c (pa p u) s' c'.
Proof.
  induction r as [|f|a IHa b IHb|a IHa b IHb|g lo hi a IHa|n a IHa|b a IHa|b f| | | |n|n a IHa b IHb]; intros u p s' c W L; try discriminate W.
  - cbn in L. subst. now exists c.
  - destruct L as (x & -> & Hx). exists c. now exists x.
  - cbn [free] in W. apply andb_true_iff in W as [Wa Wb]. destruct L as (v & w & -> & Lv & Lw). rewrite <- app_assoc.
    destruct (IHa v p (w ++ s') c Wa Lv) as (c1 & D1). destruct (IHb w (pa p v) s' c1 Wb Lw) as (c2 & D2). exists c2. cbn [den].
    exists (pa p v), (w ++ s'), c1. split; [exact D1|]. now rewrite pa_app.
  - cbn [free] in W. apply andb_true_iff in W as [Wa Wb]. destruct L as [L|L].
    + destruct (IHa u p s' c Wa L) as (c1 & D). exists c1. now left.
    + destruct (IHb u p s' c Wb L) as (c1 & D). exists c1. now right.
  - cbn [free] in W. destruct L as (n & Hl & Hh & M). assert (E : exists c', iter_den (den a) n p (u ++ s') c (pa p u) s' c').
    { clear Hl Hh. revert u p c M. induction n as [|n IH]; intros u p c M; cbn [many] in M.
      - subst u. now exists c.
      - destruct M as (v & w & -> & Lv & Mw). rewrite <- app_assoc. destruct (IHa v p (w ++ s') c W Lv) as (c1 & D1).
        destruct (IH w (pa p v) c1 Mw) as (c2 & D2). exists c2. cbn [iter_den]. exists (pa p v), (w ++ s'), c1. rewrite pa_app. auto. }
    destruct E as (c' & E). exists c'. exists n. auto.
  - cbn [free] in W. destruct (IHa u p s' c W L) as (c1 & D). eexists. exists c1. split; [exact D|reflexivity].
Qed.
(** A pattern for the whole line: up to a final newline *)
Lemma whole_iff r l : free r = true -> rep_ok r = true ->
  re_test (RSeqs [RBol; r; REol]) l = true <-> exists u e, l = u ++ e /\ lang r u /\ (e = [] \/ e = empty_line).
Proof.
  intros W R. rewrite search_test_iff by (cbn; now rewrite R). cbn [RSeqs fold_right]. split.
  - intros (a & b & -> & p' & s' & c' & D). destruct D as (p1 & s1 & c1 & (Hp & E1 & E2 & E3) & p2 & s2 & c2 & D & D').
    assert (a = []) as ->. { destruct a as [|x a _] using rev_ind; [reflexivity|]. rewrite pa_snoc in Hp. discriminate. }
    subst. destruct (den_lang _ _ _ _ _ _ _ W D) as (u & -> & L & _). exists u, s2. repeat split; [exact L|].
    assert (He : at_end s2 = true) by (destruct D' as (He & _); exact He).
    unfold at_end in He. destruct s2 as [|x [|]]; [now left|right|discriminate]. apply Ascii.eqb_eq in He. now subst.
  - intros (u & e & -> & L & He). exists [], (u ++ e). split; [reflexivity|]. destruct (lang_den r u None e [] W L) as (c' & D).
    exists (pa None u), e, c'. cbn [pa]. exists None, (u ++ e), []. split; [now repeat split|]. exists (pa None u), e, c'. split; [exact D|].
    split; [|now repeat split]. now destruct He as [->| ->].
Qed.
(** A pattern anywhere on the line *)
Lemma somewhere_iff r l : free r = true -> rep_ok r = true -> re_test r l = true <-> exists a u b, l = a ++ u ++ b /\ lang r u.
Proof.
  intros W R. rewrite search_test_iff by exact R. split.
  - intros (a & b & -> & p' & s' & c' & D). destruct (den_lang _ _ _ _ _ _ _ W D) as (u & -> & L & _). now exists a, u, s'.
  - intros (a & u & b & -> & L). exists a, (u ++ b). split; [reflexivity|]. destruct (lang_den r u (pa None a) b [] W L) as (c' & D). eauto.
Qed.
Lemma start_iff r l : free r = true -> rep_ok r = true -> re_test (RSeqs [RBol; r]) l = true <-> exists u b, l = u ++ b /\ lang r u.
Proof.
  intros W R. rewrite search_test_iff by (cbn; now rewrite R). cbn [RSeqs fold_right]. split.
  - intros (a & b & -> & p' & s' & c' & D). destruct D as (p1 & s1 & c1 & (Hp & E1 & E2 & E3) & D).
    assert (a = []) as ->. { destruct a as [|x a _] using rev_ind; [reflexivity|]. rewrite pa_snoc in Hp. discriminate. }
    subst. destruct (den_lang _ _ _ _ _ _ _ W D) as (u & -> & L & _). now exists u, s'.
  - intros (u & b & -> & L). exists [], (u ++ b). split; [reflexivity|]. destruct (lang_den r u None b [] W L) as (c' & D).
    exists (pa None u), b, c'. cbn [pa]. exists None, (u ++ b), []. split; [now repeat split|exact D].
Qed.

(** ** Common patterns *)
Lemma lang_chr f u : lang (RChr f) u <-> exists c, u = [c] /\ f c = true.
Proof. reflexivity. Qed.
Lemma many_chr f n : forall u, many (lang (RChr f)) n u <-> length u = n /\ forallb f u = true.
Proof.
  induction n as [|n IH]; intros u; cbn [many].
  - split; [intros ->; auto|]. intros [H _]. now destruct u.
  - split.
    + intros (a & b & -> & (c & -> & Hc) & M). apply IH in M as [L A]. cbn. now rewrite L, Hc.
    + intros [L A]. destruct u as [|c u]; [discriminate|]. cbn in L, A. apply andb_true_iff in A as [Hc A]. injection L as L.
      exists [c], u. split; [reflexivity|]. split; [now exists c|]. now apply IH.
Qed.
Lemma lang_star f u : lang (RStar (RChr f)) u <-> forallb f u = true.
Proof.
  unfold RStar. cbn [lang]. split.
  - intros (n & _ & _ & M). now apply many_chr in M.
  - intros H. exists (length u). split; [lia|]. split; [exact I|]. now apply many_chr.
Qed.
Lemma lang_plus f u : lang (RPlus (RChr f)) u <-> forallb f u = true /\ u <> [].
Proof.
  unfold RPlus. cbn [lang]. split.
  - intros (n & Hn & _ & M). apply many_chr in M as [L A]. split; [exact A|]. intros ->. cbn in L. lia.
  - intros [H Hu]. exists (length u). split; [destruct u; [congruence|cbn; lia]|]. split; [exact I|]. now apply many_chr.
Qed.
Lemma lang_blanks u : lang ws_star u <-> blanks u.
Proof. unfold ws_star, c_space. now rewrite lang_star, blanks_iff. Qed.
Lemma lang_seq a b u : lang (RSeq a b) u <-> exists v w, u = v ++ w /\ lang a v /\ lang b w.
Proof. reflexivity. Qed.
Lemma lang_char c u : lang (RChar c) u <-> u = [c].
Proof.
  unfold RChar. cbn [lang]. split; [intros (x & -> & E); apply Ascii.eqb_eq in E; now subst|]. intros ->. exists c. split; [reflexivity|apply Ascii.eqb_refl].
Qed.
Lemma lang_lit_l s : forall u, lang (RLit_l s) u <-> u = s.
Proof.
  induction s as [|c s IH]; intros u; [reflexivity|]. destruct s as [|c' s]; [apply lang_char|].
  change (RLit_l (c :: c' :: s)) with (RSeq (RChar c) (RLit_l (c' :: s))). rewrite lang_seq. split.
  - intros (v & w & -> & Hv & Hw). apply lang_char in Hv. apply IH in Hw. now subst.
  - intros ->. exists [c], (c' :: s). split; [reflexivity|]. split; [now apply lang_char|now apply IH].
Qed.
Lemma lang_lit s u : lang (RLit s) u <-> u = text_of s.
Proof. apply lang_lit_l. Qed.
Lemma lang_row c u : lang (row_of c) u <-> exists n, u = repeat c (S n).
Proof.
  unfold row_of, RChar. rewrite lang_plus. split.
  - intros [A H]. destruct u as [|x u]; [congruence|]. exists (length u). clear H. revert x A.
    induction u as [|y u IH]; intros x A; cbn in A; apply andb_true_iff in A as [A1 A2]; apply Ascii.eqb_eq in A1; subst x; [reflexivity|].
    cbn [length repeat]. cbn [repeat] in IH. now rewrite <- (IH y A2).
  - intros (n & ->). split; [|discriminate]. apply forallb_forall. intros x Hx. apply repeat_spec in Hx. subst. apply Ascii.eqb_refl.
Qed.
Lemma blanks_app a b : blanks (a ++ b) <-> blanks a /\ blanks b.
Proof. unfold blanks. apply Forall_app. Qed.
Lemma newline_blanks e : e = [] \/ e = empty_line -> blanks e.
Proof. intros [->| ->]; apply blanks_iff; reflexivity. Qed.

(** "\s*X\s*", whatever the pieces between are *)
Lemma table_split content border l : free border = true -> rep_ok border = true -> free content = true -> rep_ok content = true ->
  re_test (table_re (Some content) border) l = true <->
  exists a b1 g t g' b2 b, blanks a /\ lang border b1 /\ blanks g /\ lang content t /\ blanks g' /\ lang border b2 /\ blanks b /\
    l = a ++ b1 ++ g ++ t ++ g' ++ b2 ++ b.
Proof.
  intros W1 R1 W2 R2. unfold table_re, gen_table_re. rewrite whole_iff by (cbn; rewrite ?W1, ?R1, ?W2, ?R2; reflexivity).
  unfold gen_table_core. cbn [RSeqs]. split.
  - intros (u & e & -> & L & He). apply newline_blanks in He.
    apply lang_seq in L as (x1 & u1 & -> & H1 & L). apply lang_seq in L as (x2 & u2 & -> & H2 & L). apply lang_seq in L as (x3 & u3 & -> & H3 & L).
    apply lang_seq in L as (b1 & u4 & -> & H4 & L). apply lang_seq in L as (g & u5 & -> & H5 & L). apply lang_seq in L as (t & u6 & -> & H6 & L).
    apply lang_seq in L as (g' & u7 & -> & H7 & L). apply lang_seq in L as (b2 & u8 & -> & H8 & L). apply lang_seq in L as (y1 & u9 & -> & H9 & L).
    apply lang_seq in L as (y2 & y3 & -> & H10 & L). cbn [lang] in H2, H10. subst x2 y2. apply lang_blanks in H1, H3, H5, H7, H9, L.
    exists (x1 ++ x3), b1, g, t, g', b2, (y1 ++ y3 ++ e). repeat match goal with |- _ /\ _ => split end; try assumption;
      try (repeat (apply blanks_app; split); assumption). now rewrite <- !app_assoc.
  - intros (a & b1 & g & t & g' & b2 & b & Ha & L1 & Hg & Lt & Hg' & L2 & Hb & ->).
    exists (a ++ b1 ++ g ++ t ++ g' ++ b2 ++ b), []. split; [now rewrite app_nil_r|]. split; [|now left].
    exists a, (b1 ++ g ++ t ++ g' ++ b2 ++ b). split; [reflexivity|]. split; [now apply lang_blanks|].
    exists [], (b1 ++ g ++ t ++ g' ++ b2 ++ b). split; [reflexivity|]. split; [reflexivity|].
    exists [], (b1 ++ g ++ t ++ g' ++ b2 ++ b). split; [reflexivity|]. split; [apply lang_blanks; constructor|].
    exists b1, (g ++ t ++ g' ++ b2 ++ b). split; [reflexivity|]. split; [exact L1|].
    exists g, (t ++ g' ++ b2 ++ b). split; [reflexivity|]. split; [now apply lang_blanks|].
    exists t, (g' ++ b2 ++ b). split; [reflexivity|]. split; [exact Lt|].
    exists g', (b2 ++ b). split; [reflexivity|]. split; [now apply lang_blanks|].
    exists b2, b. split; [reflexivity|]. split; [exact L2|].
    exists [], b. split; [reflexivity|]. split; [apply lang_blanks; constructor|].
    exists [], b. split; [reflexivity|]. split; [reflexivity|]. now apply lang_blanks.
Qed.
Lemma free_lit s : free (RLit_l s) = true /\ rep_ok (RLit_l s) = true.
Proof. induction s as [|c s [IH1 IH2]]; [now split|]. destruct s; [now split|]. cbn in *. now rewrite IH1, IH2. Qed.
Lemma heading_iff t l : heading t l <-> titled t l = true.
Proof.
  unfold titled, table. rewrite table_split by (reflexivity || apply free_lit). unfold heading. split.
  - intros (a & b & Ha & Hb & ->). exists a, [], [], (text_of t), b, [], []. repeat match goal with |- _ /\ _ => split end; try (apply lang_blanks; constructor); try (constructor; fail); try assumption.
    + now apply lang_lit.
    + now rewrite !app_nil_r.
  - intros (a & b1 & g & u & g' & b2 & b & Ha & L1 & Hg & Lt & Hg' & L2 & Hb & ->). apply lang_lit in Lt. subst u. apply lang_blanks in L1, L2.
    exists (a ++ b1 ++ g), (g' ++ b2 ++ b). repeat split; try (repeat (apply blanks_app; split); assumption). now rewrite <- !app_assoc.
Qed.
Lemma framed_iff c t l : framed c t l <-> table (RLit t) (RChar c) l = true.
Proof.
  unfold table. rewrite table_split by (reflexivity || apply free_lit). unfold framed. split.
  - intros (a & g & g' & b & Ha & Hg & Hg' & Hb & ->). exists a, [c], g, (text_of t), g', [c], b.
    repeat match goal with |- _ /\ _ => split end; try assumption; try (now apply lang_char); [now apply lang_lit|reflexivity].
  - intros (a & b1 & g & u & g' & b2 & b & Ha & L1 & Hg & Lt & Hg' & L2 & Hb & ->). apply lang_lit in Lt. apply lang_char in L1, L2. subst.
    exists a, g, g', b. now repeat split.
Qed.
Lemma ruled_iff c l : ruled c l <-> rule_of c l = true.
Proof.
  unfold rule_of, row_re, table_re, gen_table_re. rewrite whole_iff by reflexivity. unfold gen_table_core. cbn [RSeqs]. split.
  - intros (a & n & b & Ha & Hb & ->). exists (a ++ repeat c (S n) ++ b), []. split; [now rewrite app_nil_r|]. split; [|now left].
    exists a, (repeat c (S n) ++ b). split; [reflexivity|]. split; [now apply lang_blanks|].
    exists [], (repeat c (S n) ++ b). split; [reflexivity|]. split; [reflexivity|].
    exists [], (repeat c (S n) ++ b). split; [reflexivity|]. split; [apply lang_blanks; constructor|].
    exists (repeat c (S n)), b. split; [reflexivity|]. split; [apply lang_row; eauto|].
    exists [], b. split; [reflexivity|]. split; [apply lang_blanks; constructor|].
    exists [], b. split; [reflexivity|]. split; [reflexivity|]. now apply lang_blanks.
  - intros (u & e & -> & L & He). apply newline_blanks in He.
    apply lang_seq in L as (x1 & u1 & -> & H1 & L). apply lang_seq in L as (x2 & u2 & -> & H2 & L). apply lang_seq in L as (x3 & u3 & -> & H3 & L).
    apply lang_seq in L as (b1 & u4 & -> & H4 & L). apply lang_seq in L as (y1 & u9 & -> & H9 & L).
    apply lang_seq in L as (y2 & y3 & -> & H10 & L). cbn [lang] in H2, H10. subst x2 y2. apply lang_blanks in H1, H3, H9, L. apply lang_row in H4 as (n & ->).
    exists (x1 ++ x3), n, (y1 ++ y3 ++ e). repeat match goal with |- _ /\ _ => split end; try (repeat (apply blanks_app; split); assumption).
    now rewrite <- !app_assoc.
Qed.
