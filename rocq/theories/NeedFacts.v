(** What every match of a pattern must contain: used to show that lines without
    certain characters do not match. *)
From Verif Require Import PyBase PyFacts Regex RegexFacts RegexComplete.
Local Open Scope list_scope.
Local Open Scope nat_scope.

Definition all_chars : list ascii := map ascii_of_nat (seq 0 256).
Definition incl_class (f g : ascii -> bool) : bool := forallb (fun c => implb (f c) (g c)) all_chars.
Lemma incl_class_ok f g : incl_class f g = true -> forall c, f c = true -> g c = true.
Proof.
  unfold incl_class. intros H c Hc. rewrite forallb_forall in H.
  assert (I : In c all_chars).
  { unfold all_chars. apply in_map_iff. exists (nat_of_ascii c). split; [apply ascii_nat_embedding|].
    apply in_seq. pose proof (nat_ascii_bounded c). lia. }
  specialize (H c I). now rewrite Hc in H.
Qed.

(** Every match of [r] takes a character satisfying [P]. *)
Fixpoint needs (P : ascii -> bool) (r : re) : bool :=
  match r with
  | RChr f => incl_class f P
  | RSeq a b => needs P a || needs P b
  | RAlt a b | RCond _ a b => needs P a && needs P b
  | RRep _ lo _ a => negb (lo =? 0) && needs P a
  | RGrp _ a => needs P a
  | _ => false
  end.

Lemma den_split r p s c p' s' c' : den r p s c p' s' c' -> exists w, s = w ++ s'.
Proof. intros D. apply den_consumed in D. destruct D as (w & E & _). now exists w. Qed.

Lemma iter_den_split_text a n : forall p s c p' s' c', iter_den (den a) n p s c p' s' c' -> exists w, s = w ++ s'.
Proof.
  induction n as [|n IH]; intros p s c p' s' c' D.
  - destruct D as (<- & <- & _). now exists [].
  - destruct D as (p1 & s1 & c1 & D1 & D2). apply den_split in D1 as (w1 & ->). apply IH in D2 as (w2 & ->).
    exists (w1 ++ w2). now rewrite app_assoc.
Qed.

Lemma needs_den P r : forall p s c p' s' c', needs P r = true -> den r p s c p' s' c' ->
  exists w, s = w ++ s' /\ existsb P w = true.
Proof.
  induction r as [|f|a IHa b IHb|a IHa b IHb|g lo hi a IHa|n a IHa|b a IHa|b f| | | |n|n a IHa b IHb];
    intros p s c p' s' c' N D; cbn [needs] in N; try discriminate.
  - destruct D as (x & -> & Hx & _). exists [x]. split; [reflexivity|]. cbn. now rewrite (incl_class_ok _ _ N _ Hx).
  - destruct D as (p1 & s1 & c1 & D1 & D2). pose proof (den_split _ _ _ _ _ _ _ D1) as (w1 & E1).
    pose proof (den_split _ _ _ _ _ _ _ D2) as (w2 & E2). exists (w1 ++ w2). split; [subst; now rewrite app_assoc|].
    rewrite existsb_app. apply orb_true_iff in N as [N|N].
    + destruct (IHa _ _ _ _ _ _ N D1) as (w & E & H). rewrite E in E1. apply app_inv_tail in E1. subst w. now rewrite H.
    + destruct (IHb _ _ _ _ _ _ N D2) as (w & E & H). rewrite E in E2. apply app_inv_tail in E2. subst w. rewrite H. apply orb_true_r.
  - apply andb_true_iff in N as [N1 N2]. destruct D as [D|D]; eauto.
  - apply andb_true_iff in N as [N1 N2]. destruct D as (n & Hn & _ & D). destruct n as [|n]; [destruct lo; [discriminate|lia]|].
    destruct D as (p1 & s1 & c1 & D1 & D2). destruct (IHa _ _ _ _ _ _ N2 D1) as (w & -> & H).
    apply iter_den_split_text in D2 as (w2 & ->). exists (w ++ w2). split; [now rewrite app_assoc|]. rewrite existsb_app, H. reflexivity.
  - destruct D as (c1 & D & _). eauto.
  - apply andb_true_iff in N as [N1 N2]. cbn [den] in D. destruct (cap c n); eauto.
Qed.

Definition lacks (P : ascii -> bool) (s : str) : Prop := forallb (fun c => negb (P c)) s = true.
Lemma lacks_existsb P s : lacks P s -> existsb P s = false.
Proof. unfold lacks. induction s as [|x s IH]; [reflexivity|]. cbn. intros H. apply andb_true_iff in H as [H1 H2].
  apply negb_true_iff in H1. rewrite H1. now apply IH. Qed.
Lemma lacks_app P a b : lacks P (a ++ b) <-> lacks P a /\ lacks P b.
Proof. unfold lacks. rewrite forallb_app. apply andb_true_iff. Qed.
Lemma needs_nomatch P r p s c : needs P r = true -> lacks P s -> nomatch r p s c.
Proof.
  intros N L. apply nomatch_den. intros p' s' c' D. destruct (needs_den _ _ _ _ _ _ _ _ N D) as (w & -> & H).
  apply lacks_app in L as [L _]. apply lacks_existsb in L. congruence.
Qed.
Lemma needs_match P r s : needs P r = true -> lacks P s -> re_match r s = None.
Proof. intros N L. apply nomatch_match_at. now apply (needs_nomatch P). Qed.
Lemma needs_skips P r s : needs P r = true -> forall p b, lacks P (s ++ b) -> skips r p s b.
Proof.
  intros N. induction s as [|x s IH]; intros p b L; [exact I|]. cbn [skips]. split; [now apply (needs_nomatch P)|].
  apply IH. cbn [app] in L. change (x :: s ++ b) with ([x] ++ (s ++ b)) in L. apply lacks_app in L. tauto.
Qed.
Lemma needs_search P r s : needs P r = true -> lacks P s -> re_search r s = None.
Proof.
  intros N L. unfold re_search. rewrite search_from_none; [reflexivity| |].
  - apply (needs_skips P); [exact N|]. now rewrite app_nil_r.
  - apply (needs_nomatch P); [exact N|reflexivity].
Qed.
Lemma needs_test P r s : needs P r = true -> lacks P s -> re_test r s = false.
Proof. intros N L. unfold re_test. now rewrite (needs_search P). Qed.
