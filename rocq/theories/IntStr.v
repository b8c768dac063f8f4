(** Facts about [str(n)] and about comparison of dictionary keys. *)
From Verif Require Import PyBase PyFacts NumVal PyVal.
Local Open Scope list_scope.

Lemma digit_chr_spec d : (0 <= d < 10)%Z -> is_digit (digit_chr d) = true /\ digits_val [digit_chr d] = d.
Proof.
  intros H. assert (E : (d = 0 \/ d = 1 \/ d = 2 \/ d = 3 \/ d = 4 \/ d = 5 \/ d = 6 \/ d = 7 \/ d = 8 \/ d = 9)%Z) by lia.
  destruct E as [->|[->|[->|[->|[->|[->|[->|[->|[->| ->]]]]]]]]]; vm_compute; auto.
Qed.
Lemma digits_val_snoc w d : digits_val (w ++ [d]) = (digits_val w * 10 + digits_val [d])%Z.
Proof. unfold digits_val. rewrite fold_left_app. cbn. lia. Qed.
Lemma nat_digits_spec fuel : forall n, (0 <= n)%Z -> (n < 2 ^ Z.of_nat fuel)%Z -> (fuel > 0)%nat ->
  forallb is_digit (nat_digits fuel n) = true /\ digits_val (nat_digits fuel n) = n /\ nat_digits fuel n <> [].
Proof.
  induction fuel as [|fuel IH]; intros n H0 H1 Hf; [lia|]. cbn [nat_digits].
  destruct (n <? 10)%Z eqn:E.
  - apply Z.ltb_lt in E. destruct (digit_chr_spec n ltac:(lia)) as [H2 H3].
    split; [cbn [forallb]; now rewrite H2|]. split; [exact H3|discriminate].
  - apply Z.ltb_ge in E.
    assert (Hd : (n = 10 * (n / 10) + n mod 10)%Z) by (apply Z.div_mod; lia).
    assert (Hm := Z.mod_pos_bound n 10 ltac:(lia)).
    assert (Hp : (2 ^ Z.of_nat (S fuel) = 2 * 2 ^ Z.of_nat fuel)%Z).
    { rewrite Nat2Z.inj_succ, Z.pow_succ_r; lia. }
    destruct fuel as [|fuel]; [cbn in H1; lia|].
    destruct (IH (n / 10)%Z) as (I1 & I2 & I3); [lia|lia|lia|].
    destruct (digit_chr_spec (n mod 10) Hm) as [D1 D2].
    split; [|split].
    + rewrite forallb_app, I1. cbn [forallb]. now rewrite D1.
    + rewrite digits_val_snoc, I2, D2. lia.
    + destruct (nat_digits (S fuel) (n / 10)); [congruence|discriminate].
Qed.
Lemma str_of_Z_parts z : exists w, forallb is_digit w = true /\ w <> [] /\ digits_val w = Z.abs z /\
  str_of_Z z = (if (z <? 0)%Z then ["-"%char] else []) ++ w.
Proof.
  unfold str_of_Z. set (f := S _).
  destruct (nat_digits_spec f (Z.abs z)) as (H1 & H2 & H3); [lia| |unfold f; lia|].
  - unfold f. rewrite Nat2Z.inj_succ, Z2Nat.id by apply Z.log2_nonneg.
    destruct (Z.eq_dec z 0) as [->|Hz]; [reflexivity|]. apply Z.log2_spec. lia.
  - exists (nat_digits f (Z.abs z)). split; [exact H1|]. split; [exact H3|]. split; [exact H2|].
    now destruct (z <? 0)%Z.
Qed.
(** [int(str(n)) == n] *)
Theorem int_str z : py_int (str_of_Z z) = Ok z.
Proof.
  destruct (str_of_Z_parts z) as (w & H1 & H2 & H3 & ->). unfold py_int.
  assert (Hsp : forallb (fun c => negb (is_space c)) ((if (z <? 0)%Z then ["-"%char] else []) ++ w) = true).
  { rewrite forallb_app. assert (Hw : forallb (fun c => negb (is_space c)) w = true).
    { rewrite forallb_forall in *. intros c Hc. now rewrite (digit_not_space c) by auto. }
    rewrite Hw. now destruct (z <? 0)%Z. }
  rewrite strip_nospace by exact Hsp.
  assert (Hd : isdigit w = true) by (unfold isdigit; rewrite H1; destruct w; [congruence|reflexivity]).
  destruct (z <? 0)%Z eqn:E.
  - apply Z.ltb_lt in E. cbn [app split_sign]. rewrite Ascii.eqb_refl. rewrite Hd, H3. f_equal. lia.
  - apply Z.ltb_ge in E. cbn [app].
    assert (Hs : split_sign w = (false, w)).
    { destruct w as [|x w]; [congruence|]. cbn in H1. apply andb_true_iff in H1 as [H1 _]. unfold split_sign.
      destruct (Ascii.eqb_spec x "-") as [->|]; [discriminate|].
      destruct (Ascii.eqb_spec x "+") as [->|]; [discriminate|]. reflexivity. }
    rewrite Hs, Hd, H3. f_equal. lia.
Qed.
Lemma str_of_Z_inj a b : str_of_Z a = str_of_Z b -> a = b.
Proof. intros H. pose proof (int_str a) as E. rewrite H, int_str in E. congruence. Qed.
Lemma str_of_Z_ne z : str_of_Z z <> [].
Proof. destruct (str_of_Z_parts z) as (w & _ & H & _ & ->). destruct w; [congruence|]. now destruct (z <? 0)%Z. Qed.
Lemma str_of_Z_chars z c : In c (str_of_Z z) -> c = "-"%char \/ is_digit c = true.
Proof.
  destruct (str_of_Z_parts z) as (w & H & _ & _ & ->). rewrite forallb_forall in H. intros Hc.
  apply in_app_or in Hc as [Hc|Hc]; [|right; auto]. destruct (z <? 0)%Z; [|destruct Hc].
  destruct Hc as [<-|[]]. now left.
Qed.

(** ** Keys *)
Lemma Q_eqb_eq a b : Q_eqb a b = true <-> a = b.
Proof.
  unfold Q_eqb. rewrite andb_true_iff, !Z.eqb_eq. destruct a as [n d], b as [n' d']; cbn.
  split; [intros [-> E]; congruence|intros E; split; congruence].
Qed.
Lemma float_eqb_eq a b : float_eqb a b = true <-> a = b.
Proof.
  destruct a, b; cbn; try (split; [discriminate|congruence]).
  - rewrite Q_eqb_eq. split; congruence.
  - rewrite str_eqb_eq. split; congruence.
Qed.
Lemma key_eqb_eq a : forall b, key_eqb a b = true <-> a = b.
Proof.
  induction a as [|x|x|x|x|l IH] using key_ind'; intros b; destruct b as [|y|y|y|y|l']; cbn;
    try (split; [discriminate|congruence]); try (split; reflexivity).
  - rewrite Bool.eqb_true_iff. split; congruence.
  - rewrite Z.eqb_eq. split; congruence.
  - rewrite float_eqb_eq. split; congruence.
  - rewrite str_eqb_eq. split; congruence.
  - revert l'. induction IH as [|x l Hx _ IHl]; intros l'; destruct l' as [|y l']; try (split; [discriminate|congruence]).
    + split; reflexivity.
    + rewrite andb_true_iff, Hx. specialize (IHl l').
      split.
      * intros [-> E]. apply IHl in E. congruence.
      * intros E. injection E as -> ->. split; [reflexivity|]. now apply IHl.
Qed.
Lemma key_eqb_spec a b : reflect (a = b) (key_eqb a b).
Proof. apply iff_reflect. symmetry. apply key_eqb_eq. Qed.
Lemma str_eqb_spec a b : reflect (a = b) (str_eqb a b).
Proof. apply iff_reflect. symmetry. apply str_eqb_eq. Qed.
