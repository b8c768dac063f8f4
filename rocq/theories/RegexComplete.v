(** Completeness of the matcher: when no repetition body can match the empty
    string, the matcher succeeds whenever the relational meaning has an end
    from which the continuation succeeds. *)
From Verif Require Import PyBase PyFacts Regex RegexFacts.
Local Open Scope list_scope.
Local Open Scope nat_scope.

Fixpoint rep_ok (r : re) : bool :=
  match r with
  | RSeq a b | RAlt a b | RCond _ a b => rep_ok a && rep_ok b
  | RRep _ _ _ a => negb (nullable a) && rep_ok a
  | RGrp _ a | RAhead _ a => rep_ok a
  | _ => true
  end.

Definition complete {R} (M : mt R) (D : option ascii -> str -> caps -> option ascii -> str -> caps -> Prop) : Prop :=
  forall p s c p' s' c' k, D p s c p' s' c' -> k p' s' c' <> None -> M p s c k <> None.

Lemma rep_lo_complete {R} (M : mt R) D : complete M D -> forall n, complete (fun p s c k => rep_lo M n p s c k) (iter_den D n).
Proof.
  intros HM. induction n as [|n IH]; intros p s c p' s' c' k H Hk; cbn in *.
  - destruct H as (-> & -> & ->). exact Hk.
  - destruct H as (p1 & s1 & c1 & H1 & H2). eapply HM; [exact H1|]. cbn. eapply IH; eassumption.
Qed.

Lemma rep_hi_complete {R} (M : mt R) D g :
  complete M D ->
  (forall p s c p' s' c', D p s c p' s' c' -> length s' < length s) ->
  forall n i p s c p' s' c' k, i <= n -> iter_den D i p s c p' s' c' -> k p' s' c' <> None ->
  rep_hi M g n p s c k <> None.
Proof.
  intros HM HS. induction n as [|n IH]; intros i p s c p' s' c' k Hi H Hk; cbn [rep_hi].
  - assert (i = 0) by lia. subst i. cbn in H. destruct H as (-> & -> & ->). exact Hk.
  - assert (A : forall i, i <= S n -> iter_den D i p s c p' s' c' ->
       k p s c = None ->
       M p s c (fun p' s' c' => if length s' <? length s then rep_hi M g n p' s' c' k else None) <> None).
    { intros [|j] Hj Hd Hn.
      - cbn in Hd. destruct Hd as (-> & -> & ->). congruence.
      - cbn in Hd. destruct Hd as (p1 & s1 & c1 & H1 & H2). eapply HM; [exact H1|]. cbv beta.
        apply HS in H1. apply Nat.ltb_lt in H1. rewrite H1. eapply (IH j); eauto. lia. }
    destruct g.
    + destruct (M p s c _) eqn:E; [discriminate|]. destruct (k p s c) eqn:Ek; [discriminate|].
      exfalso. now apply (A i Hi H eq_refl).
    + destruct (k p s c) eqn:Ek; [discriminate|]. apply (A i Hi H eq_refl).
Qed.

Lemma den_shrinks r p s c p' s' c' : nullable r = false -> den r p s c p' s' c' -> length s' < length s.
Proof.
  intros Hn H. apply den_consumed in H as (w & -> & _ & Hw). rewrite app_length.
  destruct w; [congruence|cbn; lia].
Qed.

Lemma iter_den_length a n : forall p s c p' s' c', nullable a = false ->
  iter_den (den a) n p s c p' s' c' -> n + length s' <= length s.
Proof.
  induction n as [|n IH]; intros p s c p' s' c' Hn H; cbn in H.
  - destruct H as (_ & -> & _). lia.
  - destruct H as (p1 & s1 & c1 & H1 & H2). apply den_shrinks in H1; [|exact Hn]. apply IH in H2; [|exact Hn]. lia.
Qed.

Lemma iter_den_split D n1 n2 : forall p s c p' s' c',
  iter_den D (n1 + n2) p s c p' s' c' ->
  exists p1 s1 c1, iter_den D n1 p s c p1 s1 c1 /\ iter_den D n2 p1 s1 c1 p' s' c'.
Proof.
  induction n1 as [|n1 IH]; cbn; intros p s c p' s' c' H.
  - exists p, s, c. auto.
  - destruct H as (p0 & s0 & c0 & H0 & H). apply IH in H as (p1 & s1 & c1 & H1 & H2).
    exists p1, s1, c1. split; [exists p0, s0, c0; auto|exact H2].
Qed.

Theorem m_complete r : rep_ok r = true -> forall R, complete (@m R r) (den r).
Proof.
  induction r as [|f|a IHa b IHb|a IHa b IHb|g lo hi a IHa|n a IHa|pos a IHa|pos f| | | |n|n a IHa b IHb];
    cbn [rep_ok]; intros W R p s c p' s' c' k H Hk; cbn [den] in H; cbn [m].
  - destruct H as (-> & -> & ->). exact Hk.
  - destruct H as (x & -> & Hx & -> & ->). now rewrite Hx.
  - apply andb_true_iff in W as [Wa Wb]. destruct H as (p1 & s1 & c1 & H1 & H2).
    eapply (IHa Wa); [exact H1|]. cbn. eapply (IHb Wb); eassumption.
  - apply andb_true_iff in W as [Wa Wb]. destruct H as [H|H].
    + destruct (m a p s c k) eqn:E; [discriminate|]. exfalso. eapply (IHa Wa); eassumption.
    + destruct (m a p s c k) eqn:E; [discriminate|]. eapply (IHb Wb); eassumption.
  - apply andb_true_iff in W as [Wn Wa]. apply negb_true_iff in Wn.
    destruct H as (n & Hlo & Hhi & H). replace n with (lo + (n - lo)) in H by lia.
    apply iter_den_split in H as (p1 & s1 & c1 & H1 & H2).
    eapply (rep_lo_complete (m a) (den a) (IHa Wa R)); [exact H1|]. cbn.
    eapply (rep_hi_complete (m a) (den a) g (IHa Wa R)) with (i := n - lo); [| |exact H2|exact Hk].
    + intros. eapply den_shrinks; eassumption.
    + destruct hi as [h|]; [lia|]. apply iter_den_length in H2; [|exact Wn]. lia.
  - destruct H as (c1 & H & ->). eapply (IHa W); [exact H|]. cbn. exact Hk.
  - destruct pos.
    + destruct H as (-> & -> & H). rewrite H. exact Hk.
    + destruct H as (-> & -> & -> & H). rewrite H. exact Hk.
  - destruct H as (-> & -> & -> & H). rewrite H, Bool.eqb_reflx. exact Hk.
  - destruct H as (-> & <- & -> & ->). exact Hk.
  - destruct H as (He & -> & -> & ->). rewrite He. exact Hk.
  - destruct H as (He & -> & -> & ->). rewrite He. exact Hk.
  - destruct H as (v & Hv & -> & -> & ->). rewrite Hv.
    assert (E : strip_prefix v (v ++ s') = Some s') by now apply strip_prefix_some.
    rewrite E. rewrite pa_rev in Hk. exact Hk.
  - apply andb_true_iff in W as [Wa Wb]. destruct (cap c n); [eapply (IHa Wa)|eapply (IHb Wb)]; eassumption.
Qed.

(** [re.match] succeeds exactly when the meaning has an end. *)
Theorem match_test_iff r s : rep_ok r = true ->
  (re_match_test r s = true <-> exists p' s' c', den r None s [] p' s' c').
Proof.
  intros W. unfold re_match_test, re_match, match_at. split.
  - destruct (m r None s [] _) as [x|] eqn:E; [|discriminate]. intros _.
    apply m_sound in E as (p' & s' & c' & H & _). eauto.
  - intros (p' & s' & c' & H). destruct (m r None s [] _) eqn:E; [reflexivity|]. exfalso.
    eapply (m_complete r W); [exact H| |exact E]. discriminate.
Qed.

Lemma match_at_some r p s : rep_ok r = true ->
  (exists p' s' c', den r p s [] p' s' c') -> match_at r p s <> None.
Proof.
  intros W (p' & s' & c' & H) E. unfold match_at in E.
  eapply (m_complete r W); [exact H| |exact E]. discriminate.
Qed.

(** [re.search] succeeds exactly when the meaning has an end starting somewhere. *)
Theorem search_test_iff r s : rep_ok r = true ->
  (re_test r s = true <-> exists a b, s = a ++ b /\ exists p' s' c', den r (pa None a) b [] p' s' c').
Proof.
  intros W. unfold re_test, re_search. split.
  - destruct (search_from r None s) as [[pre x]|] eqn:E; [|discriminate]. intros _.
    apply search_sound in E as (s' & E & -> & H). exists pre, (m_text x ++ m_rest x). eauto 6.
  - intros (a & b & -> & H).
    assert (G : forall a p, (exists p' s' c', den r (pa p a) b [] p' s' c') -> search_from r p (a ++ b) <> None).
    { clear a H. induction a as [|x a IH]; intros p H; cbn [app pa] in *.
      - destruct b; cbn [search_from]; destruct (match_at r p _) eqn:E; try discriminate;
          exfalso; eapply match_at_some; eassumption.
      - cbn [search_from]. destruct (match_at r p (x :: a ++ b)); [discriminate|].
        specialize (IH (Some x) H). destruct (search_from r (Some x) (a ++ b)) as [[]|]; congruence. }
    specialize (G a None H). destruct (search_from r None (a ++ b)); [reflexivity|congruence].
Qed.
