(** What every match of a pattern must contain: one of some phrases. *)
From Verif Require Import PyBase PyFacts Regex RegexFacts RegexComplete StreamFacts NeedFacts.
Local Open Scope list_scope.
Local Open Scope nat_scope.

Section Phrases.
  Context (g : ascii -> ascii).
  (** The only character of a class, up to [g]. *)
  Definition single (f : ascii -> bool) : option ascii :=
    match filter f all_chars with
    | [] => None
    | x :: l => if forallb (fun y => Ascii.eqb (g y) (g x)) l then Some (g x) else None
    end.
  Fixpoint lit_of (r : re) : option str :=
    match r with
    | REps => Some []
    | RChr f => option_map (fun c => [c]) (single f)
    | RSeq a b => match lit_of a, lit_of b with Some s, Some t => Some (s ++ t) | _, _ => None end
    | RGrp _ a => lit_of a
    | _ => None
    end.
  Fixpoint must (ws : list str) (r : re) : bool :=
    match lit_of r with
    | Some s => existsb (fun w => contains w s) ws
    | None =>
        match r with
        | RSeq a b => must ws a || must ws b
        | RAlt a b | RCond _ a b => must ws a && must ws b
        | RRep _ lo _ a => negb (lo =? 0) && must ws a
        | RGrp _ a => must ws a
        | _ => false
        end
    end.
  Lemma all_chars_in c : In c all_chars.
  Proof.
    unfold all_chars. apply in_map_iff. exists (nat_of_ascii c). split; [apply ascii_nat_embedding|].
    apply in_seq. pose proof (nat_ascii_bounded c). lia.
  Qed.
  Lemma single_ok f c : single f = Some c -> forall x, f x = true -> g x = c.
  Proof.
    unfold single. intros H x Hx. assert (I : In x (filter f all_chars)) by (apply filter_In; split; [apply all_chars_in|exact Hx]).
    destruct (filter f all_chars) as [|y l]; [destruct I|]. destruct (forallb _ l) eqn:E; [|discriminate]. injection H as <-.
    destruct I as [<-|I]; [reflexivity|]. rewrite forallb_forall in E. apply E in I. now apply Ascii.eqb_eq in I.
  Qed.
  Local Opaque single.
  Lemma lit_den r : forall l p s c p' s' c', lit_of r = Some l -> den r p s c p' s' c' -> exists u, s = u ++ s' /\ map g u = l.
  Proof.
    induction r; intros l p s c p' s' c' L D; cbn [lit_of] in L; try discriminate L.
    - injection L as <-. destruct D as (_ & -> & _). now exists [].
    - destruct (single f) eqn:E; [|discriminate]. injection L as <-. destruct D as (x & -> & Hx & _). exists [x]. split; [reflexivity|].
      apply (f_equal (fun y => [y])). exact (single_ok _ _ E x Hx).
    - destruct (lit_of r1) as [l1|] eqn:E1; [|discriminate]. destruct (lit_of r2) as [l2|] eqn:E2; [|discriminate]. injection L as <-.
      destruct D as (p1 & s1 & c1 & D1 & D2). destruct (IHr1 _ _ _ _ _ _ _ eq_refl D1) as (u1 & -> & <-).
      destruct (IHr2 _ _ _ _ _ _ _ eq_refl D2) as (u2 & -> & <-). exists (u1 ++ u2). split; [now rewrite app_assoc|apply map_app].
    - destruct D as (c1 & D & _). eauto.
  Qed.
  Definition one_in (ws : list str) (s : str) : Prop := exists w, In w ws /\ contains w (map g s) = true.
  Lemma one_in_mid ws a b c : one_in ws b -> one_in ws (a ++ b ++ c).
  Proof.
    intros (w & I & H). exists w. split; [exact I|]. apply contains_iff in H as (x & y & H). apply contains_iff.
    exists (map g a ++ x), (y ++ map g c). rewrite !map_app, H. now rewrite !app_assoc.
  Qed.
  Lemma one_in_l ws a b : one_in ws a -> one_in ws (a ++ b).
  Proof. exact (one_in_mid ws [] a b). Qed.
  Lemma one_in_r ws a b : one_in ws b -> one_in ws (a ++ b).
  Proof. intros H. apply (one_in_mid ws a b []) in H. now rewrite app_nil_r in H. Qed.
  Lemma must_den ws r : forall p s c p' s' c', must ws r = true -> den r p s c p' s' c' -> exists u, s = u ++ s' /\ one_in ws u.
  Proof.
    assert (Lit : forall r l p s c p' s' c', lit_of r = Some l -> existsb (fun w => contains w l) ws = true -> den r p s c p' s' c' ->
      exists u, s = u ++ s' /\ one_in ws u).
    { intros r0 l p s c p' s' c' L E D. destruct (lit_den _ _ _ _ _ _ _ _ L D) as (u & E1 & E2). exists u. split; [exact E1|].
      apply existsb_exists in E as (w & I & E). exists w. split; [exact I|]. now rewrite E2. }
    induction r as [|f|a IHa b IHb|a IHa b IHb|gr lo hi a IHa|n a IHa|b a IHa|b f| | | |n|n a IHa b IHb]; intros p s c p' s' c' M D.
    - cbn [must lit_of] in M. exact (Lit REps [] _ _ _ _ _ _ eq_refl M D).
    - cbn [must] in M. destruct (lit_of (RChr f)) as [l|] eqn:L; [exact (Lit _ _ _ _ _ _ _ _ L M D)|discriminate].
    - cbn [must] in M. destruct (lit_of (RSeq a b)) as [l|] eqn:L; [exact (Lit _ _ _ _ _ _ _ _ L M D)|].
      destruct D as (p1 & s1 & c1 & D1 & D2). pose proof (den_split _ _ _ _ _ _ _ D1) as (w1 & E1). pose proof (den_split _ _ _ _ _ _ _ D2) as (w2 & E2).
      exists (w1 ++ w2). split; [subst; now rewrite app_assoc|]. apply orb_true_iff in M as [M|M].
      + destruct (IHa _ _ _ _ _ _ M D1) as (w & E & H). rewrite E in E1. apply app_inv_tail in E1. subst w. now apply one_in_l.
      + destruct (IHb _ _ _ _ _ _ M D2) as (w & E & H). rewrite E in E2. apply app_inv_tail in E2. subst w. now apply one_in_r.
    - cbn [must lit_of] in M. apply andb_true_iff in M as [M1 M2]. destruct D as [D|D]; eauto.
    - cbn [must lit_of] in M. apply andb_true_iff in M as [M1 M2]. destruct D as (k & Hk & _ & D). destruct k as [|k]; [destruct lo; [discriminate|lia]|].
      destruct D as (p1 & s1 & c1 & D1 & D2). destruct (IHa _ _ _ _ _ _ M2 D1) as (w & -> & H).
      apply iter_den_split_text in D2 as (w2 & ->). exists (w ++ w2). split; [now rewrite app_assoc|]. now apply one_in_l.
    - cbn [must] in M. destruct (lit_of (RGrp n a)) as [l|] eqn:L; [exact (Lit _ _ _ _ _ _ _ _ L M D)|]. destruct D as (c1 & D & _). eauto.
    - discriminate M.
    - discriminate M.
    - discriminate M.
    - discriminate M.
    - discriminate M.
    - discriminate M.
    - cbn [must lit_of] in M. apply andb_true_iff in M as [M1 M2]. cbn [den] in D. destruct (cap c n); eauto.
  Qed.
  Lemma must_search ws r s : must ws r = true -> re_test r s = true -> one_in ws s.
  Proof.
    intros M T. unfold re_test, re_search in T. destruct (search_from r None s) as [[pre x]|] eqn:E; [|discriminate].
    apply search_sound in E as (s' & E & E' & D). destruct (must_den _ _ _ _ _ _ _ _ M D) as (u & Eu & H).
    rewrite E' in Eu. apply app_inv_tail in Eu. rewrite E, Eu. now apply one_in_mid.
  Qed.
  Lemma must_match ws r s : must ws r = true -> re_match_test r s = true -> one_in ws s.
  Proof.
    intros M T. apply (must_search ws r s M). unfold re_match_test, re_match in T. unfold re_test, re_search.
    destruct s; cbn [search_from]; destruct (match_at r None _); try discriminate; reflexivity.
  Qed.
End Phrases.
