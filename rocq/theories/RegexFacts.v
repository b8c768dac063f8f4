(** Reasoning principles for the matcher of [Regex.v]:
    - [den], the relational meaning of a pattern, and soundness of the matcher;
    - [nomatch], absence of any match, with a first-character criterion;
    - [fp], "the first path tried by the matcher consumes exactly this text". *)
From Verif Require Import PyBase PyFacts Regex.
From Coq Require Import Morphisms.

(** The character before the position after consuming [w]. *)
Fixpoint pa (p : option ascii) (w : str) : option ascii :=
  match w with [] => p | x :: w' => pa (Some x) w' end.

Lemma pa_app p a b : pa p (a ++ b) = pa (pa p a) b.
Proof. revert p; induction a as [|x a IH]; intros p; cbn; auto. Qed.

Lemma pa_snoc p a x : pa p (a ++ [x]) = Some x.
Proof. rewrite pa_app; reflexivity. Qed.

Lemma pa_rev p w : pa p w = match rev w with x :: _ => Some x | [] => p end.
Proof.
  induction w as [|x w IH] using rev_ind; [reflexivity|].
  rewrite pa_snoc, rev_app_distr; reflexivity.
Qed.

Lemma firstn_sub {A} (w s : list A) : firstn (length (w ++ s) - length s) (w ++ s) = w.
Proof.
  rewrite app_length, Nat.add_sub, firstn_app, Nat.sub_diag; cbn.
  now rewrite app_nil_r, firstn_all.
Qed.

(** ** Continuations that agree give the same answer *)
Definition keq {R} (k k' : kont R) := forall p s c, k p s c = k' p s c.

Lemma rep_lo_ext {R} (M : mt R) (HM : forall p s c k k', keq k k' -> M p s c k = M p s c k') :
  forall n p s c k k', keq k k' -> rep_lo M n p s c k = rep_lo M n p s c k'.
Proof.
  induction n as [|n IH]; cbn; intros p s c k k' Hk; [apply Hk|].
  apply HM; intros p' s' c'; now apply IH.
Qed.

Lemma rep_hi_ext {R} (M : mt R) (HM : forall p s c k k', keq k k' -> M p s c k = M p s c k') :
  forall g n p s c k k', keq k k' -> rep_hi M g n p s c k = rep_hi M g n p s c k'.
Proof.
  intros g; induction n as [|n IH]; intros p s c k k' Hk; cbn [rep_hi]; [apply Hk|].
  assert (E : M p s c (fun p' s' c' => if length s' <? length s then rep_hi M g n p' s' c' k else None)
            = M p s c (fun p' s' c' => if length s' <? length s then rep_hi M g n p' s' c' k' else None)).
  { apply HM; intros p' s' c'; destruct (_ <? _); auto. }
  rewrite E, (Hk p s c); reflexivity.
Qed.

Lemma m_ext (r : re) : forall R p s c (k k' : kont R), keq k k' -> m r p s c k = m r p s c k'.
Proof.
  induction r as [|f|a IHa b IHb|a IHa b IHb|g lo hi a IHa|n a IHa|pos a IHa|pos f| | | |n|n a IHa b IHb];
    intros R p s c k k' Hk; cbn.
  - apply Hk.
  - destruct s as [|x s]; [reflexivity|]; destruct (f x); auto.
  - apply IHa; intros p' s' c'; now apply IHb.
  - now rewrite (IHa _ p s c k k' Hk), (IHb _ p s c k k' Hk).
  - apply rep_lo_ext; [intros; now apply IHa|].
    intros p' s' c'; apply rep_hi_ext; [intros; now apply IHa|exact Hk].
  - apply IHa; intros p' s' c'; apply Hk.
  - destruct pos; destruct (m a p s c _); auto.
  - destruct (Bool.eqb _ _); auto.
  - destruct p; auto.
  - destruct (at_end s); auto.
  - destruct (word_boundary p s); auto.
  - destruct (cap c n); [|reflexivity]; destruct (strip_prefix _ _); auto.
  - destruct (cap c n); auto.
Qed.

(** ** Relational meaning *)
Section Iter.
  Variable D : option ascii -> str -> caps -> option ascii -> str -> caps -> Prop.
  Fixpoint iter_den (n : nat) (p : option ascii) (s : str) (c : caps) p' s' c' : Prop :=
    match n with
    | O => p = p' /\ s = s' /\ c = c'
    | S n' => exists p1 s1 c1, D p s c p1 s1 c1 /\ iter_den n' p1 s1 c1 p' s' c'
    end.
End Iter.

Fixpoint den (r : re) (p : option ascii) (s : str) (c : caps) (p' : option ascii) (s' : str) (c' : caps)
  : Prop :=
  match r with
  | REps => p = p' /\ s = s' /\ c = c'
  | RChr f => exists x, s = x :: s' /\ f x = true /\ p' = Some x /\ c = c'
  | RSeq a b => exists p1 s1 c1, den a p s c p1 s1 c1 /\ den b p1 s1 c1 p' s' c'
  | RAlt a b => den a p s c p' s' c' \/ den b p s c p' s' c'
  | RRep g lo hi a =>
      exists n, lo <= n /\ match hi with Some h => n <= lo + (h - lo) | None => True end /\
                iter_den (den a) n p s c p' s' c'
  | RGrp n a => exists c1, den a p s c p' s' c1 /\ c' = (n, firstn (length s - length s') s) :: c1
  | RAhead true a => p = p' /\ s = s' /\ m a p s c (fun _ _ c' => Some c') = Some c'
  | RAhead false a => p = p' /\ s = s' /\ c = c' /\ m a p s c (fun _ _ c' => Some c') = None
  | RBehind b f => p = p' /\ s = s' /\ c = c' /\ b = match p with Some x => f x | None => false end
  | RBol => p = None /\ p = p' /\ s = s' /\ c = c'
  | REol => at_end s = true /\ p = p' /\ s = s' /\ c = c'
  | RWordB => word_boundary p s = true /\ p = p' /\ s = s' /\ c = c'
  | RBackref n => exists v, cap c n = Some v /\ s = v ++ s' /\ p' = pa p v /\ c = c'
  | RCond n a b => match cap c n with
                   | Some _ => den a p s c p' s' c'
                   | None => den b p s c p' s' c'
                   end
  end.

Lemma strip_prefix_some p : forall s s', strip_prefix p s = Some s' <-> s = p ++ s'.
Proof.
  induction p as [|x p IH]; cbn; intros s s'.
  - split; congruence.
  - destruct s as [|y s]; [split; discriminate|].
    destruct (Ascii.eqb_spec x y) as [->|Hn].
    + rewrite IH; split; congruence.
    + split; [discriminate|]; intros H; inversion H; congruence.
Qed.

Lemma rep_lo_sound {R} (M : mt R) D
  (HM : forall p s c k x, M p s c k = Some x ->
        exists p' s' c', D p s c p' s' c' /\ k p' s' c' = Some x) :
  forall n p s c k x, rep_lo M n p s c k = Some x ->
  exists p' s' c', iter_den D n p s c p' s' c' /\ k p' s' c' = Some x.
Proof.
  induction n as [|n IH]; cbn; intros p s c k x H.
  - exists p, s, c; auto.
  - apply HM in H as (p1 & s1 & c1 & HD & H1).
    apply IH in H1 as (p2 & s2 & c2 & HI & Hk).
    exists p2, s2, c2; split; [|exact Hk]; exists p1, s1, c1; auto.
Qed.

Lemma rep_hi_sound {R} (M : mt R) D
  (HM : forall p s c k x, M p s c k = Some x ->
        exists p' s' c', D p s c p' s' c' /\ k p' s' c' = Some x) :
  forall g n p s c k x, rep_hi M g n p s c k = Some x ->
  exists i p' s' c', i <= n /\ iter_den D i p s c p' s' c' /\ k p' s' c' = Some x.
Proof.
  intros g; induction n as [|n IH]; intros p s c k x H; cbn [rep_hi] in H.
  - exists 0, p, s, c; cbn; auto.
  - assert (Hstop : k p s c = Some x ->
              exists i p' s' c', i <= S n /\ iter_den D i p s c p' s' c' /\ k p' s' c' = Some x).
    { intros Hk; exists 0, p, s, c; cbn; split; [lia|auto]. }
    assert (Hgo : M p s c (fun p' s' c' => if length s' <? length s then rep_hi M g n p' s' c' k else None)
                  = Some x ->
              exists i p' s' c', i <= S n /\ iter_den D i p s c p' s' c' /\ k p' s' c' = Some x).
    { intros HG; apply HM in HG as (p1 & s1 & c1 & HD & H1).
      destruct (_ <? _); [|discriminate].
      apply IH in H1 as (i & p2 & s2 & c2 & Hi & HI & Hk).
      exists (S i), p2, s2, c2; split; [lia|]; split; [|exact Hk].
      exists p1, s1, c1; auto. }
    destruct g.
    + destruct (M p s c _) eqn:E; [|auto]. apply Hgo; congruence.
    + destruct (k p s c) eqn:E; [|auto]. apply Hstop; congruence.
Qed.

Lemma iter_den_app D n1 n2 : forall p s c p' s' c',
  (exists p1 s1 c1, iter_den D n1 p s c p1 s1 c1 /\ iter_den D n2 p1 s1 c1 p' s' c') ->
  iter_den D (n1 + n2) p s c p' s' c'.
Proof.
  induction n1 as [|n1 IH]; cbn; intros p s c p' s' c' (p1 & s1 & c1 & H1 & H2).
  - destruct H1 as (-> & -> & ->); exact H2.
  - destruct H1 as (p0 & s0 & c0 & HD & HI).
    exists p0, s0, c0; split; [exact HD|]. apply IH; eauto.
Qed.

(** Every success of the matcher goes through an end of the relational meaning. *)
Theorem m_sound (r : re) : forall R p s c (k : kont R) x, m r p s c k = Some x ->
  exists p' s' c', den r p s c p' s' c' /\ k p' s' c' = Some x.
Proof.
  induction r as [|f|a IHa b IHb|a IHa b IHb|g lo hi a IHa|n a IHa|pos a IHa|pos f| | | |n|n a IHa b IHb];
    intros R p s c k x H; cbn in H.
  - exists p, s, c; cbn; auto.
  - destruct s as [|y s]; [discriminate|]. destruct (f y) eqn:Hf; [|discriminate].
    exists (Some y), s, c; cbn; split; [exists y; auto|exact H].
  - apply IHa in H as (p1 & s1 & c1 & H1 & H2). apply IHb in H2 as (p2 & s2 & c2 & H3 & H4).
    exists p2, s2, c2; cbn; split; [exists p1, s1, c1; auto|exact H4].
  - destruct (m a p s c k) eqn:E.
    + inversion H; subst. apply IHa in E as (p1 & s1 & c1 & H1 & H2).
      exists p1, s1, c1; cbn; auto.
    + apply IHb in H as (p1 & s1 & c1 & H1 & H2). exists p1, s1, c1; cbn; auto.
  - apply (rep_lo_sound _ (den a)) in H as (p1 & s1 & c1 & H1 & H2); [|intros; eapply IHa; eassumption].
    apply (rep_hi_sound _ (den a)) in H2 as (i & p2 & s2 & c2 & Hi & H2 & H3);
      [|intros; eapply IHa; eassumption].
    exists p2, s2, c2; cbn; split; [|exact H3].
    exists (lo + i); split; [lia|]; split; [destruct hi; [lia|exact I]|].
    apply iter_den_app; eauto.
  - apply IHa in H as (p1 & s1 & c1 & H1 & H2).
    eexists p1, s1, _; cbn; split; [exists c1; split; [exact H1|reflexivity]|exact H2].
  - destruct pos.
    + destruct (m a p s c _) eqn:E; [|discriminate]. exists p, s, c0; cbn; auto.
    + destruct (m a p s c _) eqn:E; [discriminate|]. exists p, s, c; cbn; auto.
  - destruct (Bool.eqb _ _) eqn:E; [|discriminate]. apply Bool.eqb_prop in E.
    exists p, s, c; cbn; auto.
  - destruct p; [discriminate|]. exists None, s, c; cbn; auto.
  - destruct (at_end s) eqn:E; [|discriminate]. exists p, s, c; cbn; auto.
  - destruct (word_boundary p s) eqn:E; [|discriminate]. exists p, s, c; cbn; auto.
  - destruct (cap c n) as [v|] eqn:E; [|discriminate].
    destruct (strip_prefix v s) as [s'|] eqn:E2; [|discriminate].
    apply strip_prefix_some in E2. eexists _, s', c; cbn; split; [|exact H].
    exists v; rewrite pa_rev; auto.
  - destruct (cap c n) eqn:E.
    + apply IHa in H as (p1 & s1 & c1 & H1 & H2). exists p1, s1, c1; cbn; rewrite E; auto.
    + apply IHb in H as (p1 & s1 & c1 & H1 & H2). exists p1, s1, c1; cbn; rewrite E; auto.
Qed.

(** ** Consumed text, nullable patterns, first characters *)
Fixpoint nullable (r : re) : bool :=
  match r with
  | REps => true
  | RChr _ => false
  | RSeq a b => nullable a && nullable b
  | RAlt a b => nullable a || nullable b
  | RRep _ lo _ a => match lo with O => true | S _ => nullable a end
  | RGrp _ a => nullable a
  | RAhead _ _ | RBehind _ _ | RBol | REol | RWordB | RBackref _ => true
  | RCond _ a b => nullable a || nullable b
  end.

Fixpoint first (r : re) (x : ascii) : bool :=
  match r with
  | RChr f => f x
  | RSeq a b => first a x || (nullable a && first b x)
  | RAlt a b => first a x || first b x
  | RRep _ _ _ a => first a x
  | RGrp _ a => first a x
  | RBackref _ => true
  | RCond _ a b => first a x || first b x
  | _ => false
  end.

Definition consumed (r : re) (p : option ascii) (s : str) (p' : option ascii) (s' : str) : Prop :=
  exists w, s = w ++ s' /\ p' = pa p w /\
    match w with [] => nullable r = true | x :: _ => first r x = true end.

Lemma iter_consumed a (D : option ascii -> str -> caps -> option ascii -> str -> caps -> Prop)
  (HD : forall p s c p' s' c', D p s c p' s' c' -> consumed a p s p' s') :
  forall n p s c p' s' c', iter_den D n p s c p' s' c' ->
  exists w, s = w ++ s' /\ p' = pa p w /\
    match w with [] => n = 0 \/ nullable a = true | x :: _ => first a x = true end.
Proof.
  induction n as [|n IH]; cbn; intros p s c p' s' c' H.
  - destruct H as (-> & -> & _); exists []; auto.
  - destruct H as (p1 & s1 & c1 & H1 & H2).
    apply HD in H1 as (w1 & -> & -> & Hw1). apply IH in H2 as (w2 & -> & -> & Hw2).
    exists (w1 ++ w2); rewrite app_assoc, pa_app; repeat split; auto.
    destruct w1 as [|x w1]; cbn; [|exact Hw1].
    destruct w2; auto.
Qed.

Theorem den_consumed (r : re) : forall p s c p' s' c', den r p s c p' s' c' -> consumed r p s p' s'.
Proof.
  induction r as [|f|a IHa b IHb|a IHa b IHb|g lo hi a IHa|n a IHa|pos a IHa|pos f| | | |n|n a IHa b IHb];
    intros p s c p' s' c' H; cbn in H.
  - destruct H as (-> & -> & _); exists []; auto.
  - destruct H as (x & -> & Hf & -> & _); exists [x]; auto.
  - destruct H as (p1 & s1 & c1 & H1 & H2).
    apply IHa in H1 as (w1 & -> & -> & Hw1). apply IHb in H2 as (w2 & -> & -> & Hw2).
    exists (w1 ++ w2); rewrite app_assoc, pa_app; repeat split; auto.
    destruct w1 as [|x w1]; cbn.
    + destruct w2 as [|y w2]; rewrite Hw1; cbn; [exact Hw2|]. rewrite Hw2; apply orb_true_r.
    + rewrite Hw1; reflexivity.
  - destruct H as [H|H]; [apply IHa in H|apply IHb in H];
      destruct H as (w & -> & -> & Hw); exists w; repeat split; auto;
      destruct w; cbn; rewrite Hw; auto using orb_true_r.
  - destruct H as (i & Hlo & _ & H).
    apply (iter_consumed a _ IHa) in H as (w & -> & -> & Hw).
    exists w; repeat split; auto. destruct w; cbn; [|exact Hw].
    destruct lo; [reflexivity|]. destruct Hw as [->|Hw]; [lia|exact Hw].
  - destruct H as (c1 & H & _); apply IHa in H as (w & -> & -> & Hw); exists w; auto.
  - destruct pos; destruct H as (-> & -> & _); exists []; auto.
  - destruct H as (-> & -> & _); exists []; auto.
  - destruct H as (_ & -> & -> & _); exists []; auto.
  - destruct H as (_ & -> & -> & _); exists []; auto.
  - destruct H as (_ & -> & -> & _); exists []; auto.
  - destruct H as (v & _ & -> & -> & _); exists v; repeat split; destruct v; auto.
  - destruct (cap c n); [apply IHa in H|apply IHb in H];
      destruct H as (w & -> & -> & Hw); exists w; repeat split; auto;
      destruct w; cbn; rewrite Hw; auto using orb_true_r.
Qed.

(** ** No match at all *)
Definition nomatch (r : re) (p : option ascii) (s : str) (c : caps) : Prop :=
  forall R (k : kont R), m r p s c k = None.

Lemma nomatch_den r p s c : (forall p' s' c', ~ den r p s c p' s' c') -> nomatch r p s c.
Proof.
  intros H R k; destruct (m r p s c k) eqn:E; [|reflexivity].
  apply m_sound in E as (p' & s' & c' & Hd & _). now apply H in Hd.
Qed.

Lemma nomatch_first r p s c :
  nullable r = false -> match s with [] => True | x :: _ => first r x = false end -> nomatch r p s c.
Proof.
  intros Hn Hf; apply nomatch_den; intros p' s' c' Hd.
  apply den_consumed in Hd as (w & -> & _ & Hw).
  destruct w as [|x w]; [congruence|]; cbn in Hf; congruence.
Qed.

Lemma nomatch_seq_l a b p s c : nomatch a p s c -> nomatch (RSeq a b) p s c.
Proof. intros H R k; cbn; apply H. Qed.

Lemma nomatch_alt a b p s c : nomatch a p s c -> nomatch b p s c -> nomatch (RAlt a b) p s c.
Proof. intros Ha Hb R k; cbn; rewrite Ha; apply Hb. Qed.

Lemma nomatch_grp n a p s c : nomatch a p s c -> nomatch (RGrp n a) p s c.
Proof. intros H R k; cbn; apply H. Qed.

(** ** First path: the text [t] is consumed on the first path tried, leaving
    captures [c'] *)
Definition fp (r : re) (p : option ascii) (t s : str) (c c' : caps) : Prop :=
  forall R (k : kont R) x, k (pa p t) s c' = Some x -> m r p (t ++ s) c k = Some x.

Lemma fp_eps p s c : fp REps p [] s c c.
Proof. intros R k x H; exact H. Qed.

Lemma fp_chr f x p s c : f x = true -> fp (RChr f) p [x] s c c.
Proof. intros Hf R k y H; cbn; rewrite Hf; exact H. Qed.

Lemma fp_seq a b p t1 t2 s c c1 c2 :
  fp a p t1 (t2 ++ s) c c1 -> fp b (pa p t1) t2 s c1 c2 -> fp (RSeq a b) p (t1 ++ t2) s c c2.
Proof.
  intros Ha Hb R k x H; rewrite <- app_assoc; cbn.
  apply Ha, Hb. now rewrite <- pa_app.
Qed.

Lemma fp_alt_l a b p t s c c' : fp a p t s c c' -> fp (RAlt a b) p t s c c'.
Proof. intros H R k x Hk; cbn; now rewrite (H _ _ _ Hk). Qed.

Lemma fp_alt_r a b p t s c c' : nomatch a p (t ++ s) c -> fp b p t s c c' -> fp (RAlt a b) p t s c c'.
Proof. intros Hn H R k x Hk; cbn; rewrite Hn; now apply H. Qed.

Lemma fp_grp n a p t s c c' : fp a p t s c c' -> fp (RGrp n a) p t s c ((n, t) :: c').
Proof. intros H R k x Hk; cbn; apply H; now rewrite firstn_sub. Qed.

Lemma fp_behind b f p s c :
  b = match p with Some x => f x | None => false end -> fp (RBehind b f) p [] s c c.
Proof.
  intros Hb R k x Hk; subst b; cbn [m app pa] in *.
  rewrite Bool.eqb_reflx; exact Hk.
Qed.

Lemma fp_ahead_neg a p s c : nomatch a p s c -> fp (RAhead false a) p [] s c c.
Proof. intros H R k x Hk; cbn; rewrite H; exact Hk. Qed.

Lemma fp_eol p s c : at_end s = true -> fp REol p [] s c c.
Proof. intros H R k x Hk; cbn; rewrite H; exact Hk. Qed.

Lemma fp_bol s c : fp RBol None [] s c c.
Proof. intros R k x Hk; exact Hk. Qed.

Lemma fp_wordb p s c : word_boundary p s = true -> fp RWordB p [] s c c.
Proof. intros H R k x Hk; cbn; rewrite H; exact Hk. Qed.

Lemma fp_lit p t s c : fp (RLit_l t) p t s c c.
Proof.
  revert p; induction t as [|x t IH]; intros p; [apply fp_eps|].
  destruct t as [|y t].
  - apply fp_chr, Ascii.eqb_refl.
  - change (x :: y :: t) with ([x] ++ (y :: t)).
    change (RLit_l ([x] ++ y :: t)) with (RSeq (RChar x) (RLit_l (y :: t))).
    eapply fp_seq; [apply fp_chr, Ascii.eqb_refl|apply IH].
Qed.

Lemma m_rep {R} g lo hi a p s c (k : kont R) :
  m (RRep g lo hi a) p s c k =
  rep_lo (m a) lo p s c
    (fun p' s' c' => rep_hi (m a) g (match hi with Some h => h - lo | None => length s' end)
                       p' s' c' k).
Proof. reflexivity. Qed.

Lemma m_chr {R} f p y s c (k : kont R) :
  m (RChr f) p (y :: s) c k = if f y then k (Some y) s c else None.
Proof. reflexivity. Qed.

(** Head of the remaining text is not in a class (or the text is over). *)

(** Greedy repetition of a character class. *)
Lemma rep_hi_chr_greedy {R} f : forall w n p s c (k : kont R) x,
  forallb f w = true -> length w <= n ->
  (length w = n \/ hd_not f s) ->
  k (pa p w) s c = Some x ->
  rep_hi (m (RChr f)) true n p (w ++ s) c k = Some x.
Proof.
  induction w as [|y w IH]; intros n p s c k x Hf Hn Hs Hk.
  - cbn in *. destruct n as [|n]; [exact Hk|]. cbn.
    destruct s as [|z s]; [exact Hk|]. destruct Hs as [Hs|Hs]; [discriminate|].
    cbn in Hs; rewrite Hs; exact Hk.
  - cbn in Hf; apply andb_true_iff in Hf as [Hy Hw].
    cbn in Hn. destruct n as [|n]; [lia|]. cbn [rep_hi app].
    rewrite m_chr, Hy.
    replace (length (w ++ s) <? length (y :: w ++ s)) with true by (symmetry; apply Nat.ltb_lt; cbn; lia).
    rewrite (IH n (Some y) s c k x); [reflexivity|exact Hw|lia| |exact Hk].
    destruct Hs as [Hs|Hs]; [left; cbn in Hs; lia|right; exact Hs].
Qed.

Lemma fp_star_chr f p w s c :
  forallb f w = true -> hd_not f s -> fp (RStar (RChr f)) p w s c c.
Proof.
  intros Hw Hs R k x Hk; unfold RStar; rewrite m_rep; cbn [rep_lo].
  apply rep_hi_chr_greedy; auto. rewrite app_length; lia.
Qed.

Lemma fp_plus_chr f p w s c :
  forallb f w = true -> w <> [] -> hd_not f s -> fp (RPlus (RChr f)) p w s c c.
Proof.
  intros Hw Hne Hs R k x Hk. destruct w as [|y w]; [congruence|].
  cbn in Hw; apply andb_true_iff in Hw as [Hy Hw].
  unfold RPlus; rewrite m_rep; cbn [rep_lo app]; rewrite m_chr, Hy.
  apply rep_hi_chr_greedy; auto. rewrite app_length; lia.
Qed.

Lemma rep_lo_chr {R} f : forall w p s c (k : kont R),
  forallb f w = true -> rep_lo (m (RChr f)) (length w) p (w ++ s) c k = k (pa p w) s c.
Proof.
  induction w as [|y w IH]; intros p s c k Hw; [reflexivity|].
  cbn in Hw; apply andb_true_iff in Hw as [Hy Hw].
  cbn [length rep_lo app]. rewrite m_chr, Hy. now apply IH.
Qed.

(** [f{lo,hi}] greedy: [w] with [lo <= |w| <= hi], maximal. *)
Lemma fp_rep_chr f lo hi p w s c :
  forallb f w = true -> lo <= length w <= hi -> (length w = hi \/ hd_not f s) ->
  fp (RRep true lo (Some hi) (RChr f)) p w s c c.
Proof.
  intros Hw Hl Hs R k x Hk; rewrite m_rep.
  rewrite <- (firstn_skipn lo w) in Hk |- *.
  rewrite <- (firstn_skipn lo w) in Hw. rewrite forallb_app in Hw.
  apply andb_true_iff in Hw as [Hw1 Hw2].
  assert (L1 : length (firstn lo w) = lo) by (rewrite firstn_length; lia).
  rewrite <- app_assoc, <- L1 at 1. rewrite rep_lo_chr by exact Hw1.
  apply rep_hi_chr_greedy; auto.
  - rewrite skipn_length; lia.
  - rewrite skipn_length. destruct Hs; [left; lia|right; auto].
  - now rewrite <- pa_app.
Qed.

Lemma fp_times_chr f n p w s c :
  forallb f w = true -> length w = n -> fp (RTimes n (RChr f)) p w s c c.
Proof. intros Hw Hl; apply fp_rep_chr; auto; lia. Qed.

(** Optional single character. *)
Lemma fp_opt_chr_some f p x s c : f x = true -> fp (ROpt (RChr f)) p [x] s c c.
Proof. intros H; apply fp_rep_chr; cbn; auto; now rewrite H. Qed.
Lemma fp_opt_chr_none f p s c : hd_not f s -> fp (ROpt (RChr f)) p [] s c c.
Proof. intros H; apply fp_rep_chr; cbn; auto. Qed.

(** Optional pattern, taken or absent. *)
Lemma fp_opt_some a p t s c c' : t <> [] -> fp a p t s c c' -> fp (ROpt a) p t s c c'.
Proof.
  intros Hne H R k x Hk; unfold ROpt; rewrite m_rep; cbn [rep_lo rep_hi Nat.sub].
  erewrite H; [reflexivity|].
  replace (length s <? length (t ++ s)) with true; [exact Hk|].
  symmetry; apply Nat.ltb_lt; rewrite app_length; destruct t; [congruence|cbn; lia].
Qed.
Lemma fp_opt_none a p s c : nomatch a p s c -> fp (ROpt a) p [] s c c.
Proof. intros H R k x Hk; unfold ROpt; rewrite m_rep; cbn [rep_lo rep_hi Nat.sub app]; rewrite H; exact Hk. Qed.

(** Lazy repetition of whitespace (or any class) before a pattern that cannot
    start inside it. *)
Lemma rep_hi_chr_lazy {R} f : forall w n p s c (k : kont R) x,
  forallb f w = true -> length w <= n ->
  (forall p' y s', f y = true -> k p' (y :: s') c = None) ->
  k (pa p w) s c = Some x ->
  rep_hi (m (RChr f)) false n p (w ++ s) c k = Some x.
Proof.
  induction w as [|y w IH]; intros n p s c k x Hf Hn Hno Hk.
  - cbn in *. destruct n as [|n]; [exact Hk|]. cbn. rewrite Hk; reflexivity.
  - cbn in Hf; apply andb_true_iff in Hf as [Hy Hw].
    cbn in Hn. destruct n as [|n]; [lia|]. cbn [rep_hi app].
    rewrite m_chr, (Hno p y (w ++ s) Hy), Hy.
    replace (length (w ++ s) <? length (y :: w ++ s)) with true by (symmetry; apply Nat.ltb_lt; cbn; lia).
    apply IH; auto; lia.
Qed.

Lemma fp_lazy_plus_seq f a p w t s c c' :
  forallb f w = true -> w <> [] ->
  (forall p' y s', f y = true -> nomatch a p' (y :: s') c) ->
  fp a (pa p w) t s c c' ->
  fp (RSeq (RPlusLazy (RChr f)) a) p (w ++ t) s c c'.
Proof.
  intros Hw Hne Hno Ha R k x Hk. destruct w as [|y w]; [congruence|].
  cbn in Hw; apply andb_true_iff in Hw as [Hy Hw].
  rewrite <- app_assoc. change (m (RPlusLazy (RChr f)) p ((y :: w) ++ t ++ s) c (fun p' s' c0 => m a p' s' c0 k) = Some x). unfold RPlusLazy; rewrite m_rep; cbn [rep_lo app]; rewrite m_chr, Hy.
  apply rep_hi_chr_lazy; auto.
  - rewrite !app_length; lia.
  - intros p' z s' Hz; now apply Hno.
  - apply Ha. rewrite <- pa_app. exact Hk.
Qed.

(** Greedy repetition of a class followed by a pattern needing something else
    is covered by [fp_seq] with [fp_star_chr].  Exact repetitions of a general
    pattern: *)
Inductive fps (a : re) : option ascii -> list str -> str -> caps -> caps -> Prop :=
| fps_nil p s c : fps a p [] s c c
| fps_cons p t ts s c c1 c2 :
    fp a p t (concat ts ++ s) c c1 -> fps a (pa p t) ts s c1 c2 -> fps a p (t :: ts) s c c2.

Lemma rep_lo_fps {R} a : forall ts p s c c' (k : kont R) x,
  fps a p ts s c c' -> k (pa p (concat ts)) s c' = Some x ->
  rep_lo (m a) (length ts) p (concat ts ++ s) c k = Some x.
Proof.
  induction ts as [|t ts IH]; intros p s c c' k x H Hk; inversion H; subst; cbn.
  - exact Hk.
  - rewrite <- app_assoc. match goal with H : fp _ _ _ _ _ _ |- _ => apply H end.
    eapply IH; [eassumption|]. now rewrite <- pa_app.
Qed.

Lemma fp_times a n p ts s c c' :
  length ts = n -> fps a p ts s c c' -> fp (RTimes n a) p (concat ts) s c c'.
Proof.
  intros Hl H R k x Hk; unfold RTimes; rewrite m_rep. rewrite Nat.sub_diag. subst n.
  eapply rep_lo_fps; [eassumption|]. exact Hk.
Qed.

(** Greedy unbounded repetition of a general pattern, stopping where it cannot
    match any more. *)
Lemma rep_hi_fps {R} a : forall ts n p s c c' (k : kont R) x,
  fps a p ts s c c' -> Forall (fun t => t <> []) ts -> length ts <= n ->
  (length ts = n \/ nomatch a (pa p (concat ts)) s c') ->
  k (pa p (concat ts)) s c' = Some x ->
  rep_hi (m a) true n p (concat ts ++ s) c k = Some x.
Proof.
  induction ts as [|t ts IH]; intros n p s c c' k x H Hne Hn Hs Hk; inversion H; subst; cbn [concat app] in Hk |- *.
  - destruct n as [|n]; [exact Hk|]. cbn [rep_hi]. destruct Hs as [Hs|Hs]; [discriminate|].
    cbn in Hs. rewrite Hs. exact Hk.
  - inversion Hne; subst. cbn in Hn. destruct n as [|n]; [lia|]. cbn [rep_hi].
    rewrite <- app_assoc.
    match goal with H : fp _ _ _ _ _ _ |- _ => erewrite H; [reflexivity|] end.
    replace (length (concat ts ++ s) <? length (t ++ concat ts ++ s)) with true.
    2: { symmetry; apply Nat.ltb_lt; rewrite (app_length t); destruct t; [congruence|cbn; lia]. }
    eapply IH; try eassumption.
    + lia.
    + destruct Hs as [Hs|Hs]; [left; cbn in Hs; lia|right]. cbn in Hs. now rewrite pa_app in Hs.
    + now rewrite <- pa_app.
Qed.

Lemma concat_nonempty_len {A} (ts : list (list A)) :
  Forall (fun t => t <> []) ts -> length ts <= length (concat ts).
Proof.
  induction 1 as [|t ts Ht _ IH]; cbn; [lia|].
  rewrite app_length; destruct t; [congruence|cbn; lia].
Qed.

Lemma fp_star a p ts s c c' :
  fps a p ts s c c' -> Forall (fun t => t <> []) ts ->
  nomatch a (pa p (concat ts)) s c' ->
  fp (RStar a) p (concat ts) s c c'.
Proof.
  intros H Hne Hs R k x Hk; unfold RStar; rewrite m_rep; cbn [rep_lo].
  eapply rep_hi_fps; try eassumption; auto.
  rewrite app_length. pose proof (concat_nonempty_len ts Hne). lia.
Qed.

Lemma fp_plus a p t ts s c c' :
  fps a p (t :: ts) s c c' -> Forall (fun t => t <> []) ts ->
  nomatch a (pa p (concat (t :: ts))) s c' ->
  fp (RPlus a) p (concat (t :: ts)) s c c'.
Proof.
  intros H Hne Hs R k x Hk; inversion H; subst. unfold RPlus; rewrite m_rep; cbn [rep_lo concat].
  rewrite <- app_assoc.
  match goal with H : fp _ _ _ _ _ _ |- _ => apply H end.
  cbn [concat] in Hs, Hk. rewrite pa_app in Hs, Hk.
  eapply rep_hi_fps; try eassumption; auto.
  rewrite app_length. pose proof (concat_nonempty_len ts Hne). lia.
Qed.

(** ** From paths to [re_match], [re_search], [findall] *)
Lemma fp_match_at r p t s c' :
  fp r p t s [] c' ->
  match_at r p (t ++ s) = Some {| m_text := t; m_caps := c'; m_prev := pa p t; m_rest := s |}.
Proof.
  intros H; unfold match_at. apply H. now rewrite firstn_sub.
Qed.

Lemma nomatch_match_at r p s : nomatch r p s [] -> match_at r p s = None.
Proof. intros H; apply H. Qed.

(** No match starts inside [pre] when followed by [s]. *)
Fixpoint skips (r : re) (p : option ascii) (pre s : str) : Prop :=
  match pre with
  | [] => True
  | x :: pre' => nomatch r p (pre ++ s) [] /\ skips r (Some x) pre' s
  end.

Lemma search_from_skip r : forall pre p s,
  skips r p pre s ->
  search_from r p (pre ++ s) =
  match search_from r (pa p pre) s with
  | Some (pre', x) => Some (pre ++ pre', x)
  | None => None
  end.
Proof.
  induction pre as [|x pre IH]; intros p s H.
  - cbn [app pa]. now destruct (search_from r p s) as [[? ?]|].
  - destruct H as [Hn Hs]. cbn [app] in Hn. cbn [app search_from].
    rewrite (nomatch_match_at r p _ Hn), (IH (Some x) s Hs). cbn [pa].
    now destruct (search_from r (pa (Some x) pre) s) as [[? ?]|].
Qed.

Lemma search_from_hit r p t s c' :
  fp r p t s [] c' ->
  search_from r p (t ++ s) =
  Some ([], {| m_text := t; m_caps := c'; m_prev := pa p t; m_rest := s |}).
Proof.
  intros H. pose proof (fp_match_at _ _ _ _ _ H) as E.
  destruct (t ++ s); cbn [search_from]; rewrite E; reflexivity.
Qed.

Lemma search_from_none r : forall s p, skips r p s [] -> nomatch r (pa p s) [] [] -> search_from r p s = None.
Proof.
  induction s as [|x s IH]; intros p H Hn.
  - cbn [search_from]. cbn in Hn. now rewrite (nomatch_match_at r _ _ Hn).
  - cbn in H. destruct H as [H1 H2]. rewrite app_nil_r in H1. cbn [search_from].
    rewrite (nomatch_match_at r p _ H1), (IH (Some x)); auto.
Qed.

Lemma search_sound r : forall s p pre x, search_from r p s = Some (pre, x) ->
  exists s', s = pre ++ m_text x ++ m_rest x /\ s' = m_text x ++ m_rest x /\
  den r (pa p pre) s' [] (m_prev x) (m_rest x) (m_caps x).
Proof.
  assert (Hat : forall p s x, match_at r p s = Some x ->
            s = m_text x ++ m_rest x /\ den r p s [] (m_prev x) (m_rest x) (m_caps x)).
  { intros p s x H. unfold match_at in H. apply m_sound in H as (p' & s' & c' & Hd & Hx).
    inversion Hx; subst; cbn. pose proof (den_consumed _ _ _ _ _ _ _ Hd) as (w & -> & -> & _).
    rewrite firstn_sub. auto. }
  induction s as [|ch s IH]; intros p pre x H; cbn [search_from] in H;
    destruct (match_at r p _) as [y|] eqn:E.
  - inversion H; subst. apply Hat in E as [E1 E2]. eexists; split; [exact E1|].
    split; [reflexivity|]. rewrite <- E1. exact E2.
  - discriminate.
  - inversion H; subst. apply Hat in E as [E1 E2]. eexists; split; [exact E1|].
    split; [reflexivity|]. rewrite <- E1. exact E2.
  - destruct (search_from r (Some ch) s) as [[pre' y]|] eqn:E2; [|discriminate].
    inversion H; subst. apply IH in E2 as (s' & Hs & -> & Hd).
    eexists; split; [cbn; now rewrite <- Hs|]. split; [reflexivity|]. exact Hd.
Qed.

Lemma fp_char x p s c : fp (RChar x) p [x] s c c.
Proof. apply fp_chr. apply Ascii.eqb_refl. Qed.

(** No match starts in a text without a possible first character. *)
Lemma skips_first r : forall w p s, nullable r = false -> forallb (fun c => negb (first r c)) w = true -> skips r p w s.
Proof.
  induction w as [|x w IH]; intros p s Hn H; cbn in *; [exact I|].
  apply andb_true_iff in H as [H1 H2]. split; [|auto].
  apply nomatch_first; [exact Hn|]. now destruct (first r x).
Qed.
Lemma search_from_pre r p pre t s c' : skips r p pre (t ++ s) -> fp r (pa p pre) t s [] c' ->
  search_from r p (pre ++ t ++ s) = Some (pre, {| m_text := t; m_caps := c'; m_prev := pa (pa p pre) t; m_rest := s |}).
Proof.
  intros H F. rewrite search_from_skip by exact H. rewrite (search_from_hit _ _ _ _ _ F). now rewrite app_nil_r.
Qed.
