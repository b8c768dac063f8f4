(** Facts about [int()], [Fraction()] and [float(Fraction())] of [PyBase.v]
    against the token semantics of [NumSpec.v]. *)
From Verif Require Import PyBase PyFacts Regex RegexFacts CastepRes NumSpec NumFacts.
From Coq Require Import Qpower Qfield Lqa.
Local Open Scope list_scope.
Local Open Scope nat_scope.

(** ** Tokens and whitespace *)
Lemma digit_not_space c : is_digit c = true -> is_space c = false.
Proof. revert c; ascii_dec. Qed.

Lemma write_digits_nospace ds : forallb (fun c => negb (is_space c)) (write_digits ds) = true.
Proof. induction ds as [|[] ds IH]; cbn; auto. Qed.

Lemma write_sign_nospace s : forallb (fun c => negb (is_space c)) (write_sign s) = true.
Proof. destruct s; reflexivity. Qed.

Lemma write_num_nospace n : forallb (fun c => negb (is_space c)) (write_num n) = true.
Proof.
  unfold write_num. rewrite !forallb_app, write_sign_nospace, write_digits_nospace. cbn.
  destruct (n_frac n) as [f|]; cbn; [rewrite write_digits_nospace; cbn|];
  (destruct (n_exp n) as [[[cap s] e]|]; [|reflexivity]; cbn;
   rewrite forallb_app, write_sign_nospace, write_digits_nospace; destruct cap; reflexivity).
Qed.

Lemma write_ratio_nospace r : forallb (fun c => negb (is_space c)) (write_ratio r) = true.
Proof.
  unfold write_ratio. rewrite !forallb_app, write_sign_nospace, write_digits_nospace. cbn.
  apply write_digits_nospace.
Qed.

Lemma strip_nospace w : forallb (fun c => negb (is_space c)) w = true -> strip w = w.
Proof.
  intros H. apply strip_by_id.
  - destruct w as [|x w]; cbn in *; [exact I|]. apply andb_true_iff in H as [H _]. now apply negb_true_iff.
  - unfold last_not. rewrite <- forallb_rev in H. destruct (rev w) as [|x t]; cbn in *; [exact I|].
    apply andb_true_iff in H as [H _]. now apply negb_true_iff.
Qed.

Lemma strip_pad a w b :
  forallb is_space a = true -> forallb is_space b = true ->
  forallb (fun c => negb (is_space c)) w = true -> strip (a ++ w ++ b) = w.
Proof.
  intros Ha Hb H. destruct w as [|x w].
  - cbn [app]. apply strip_by_all. now rewrite forallb_app, Ha, Hb.
  - apply strip_by_core; auto; [| |discriminate].
    + cbn in *. apply andb_true_iff in H as [H _]. now apply negb_true_iff.
    + unfold last_not. rewrite <- forallb_rev in H. destruct (rev (x :: w)) as [|y t]; cbn in *; [exact I|].
      apply andb_true_iff in H as [H _]. now apply negb_true_iff.
Qed.

(** ** Splitting the sign *)
Lemma split_sign_write sg X : hd_not is_sign X ->
  split_sign (write_sign sg ++ X) = (match sg with Minus => true | _ => false end, X).
Proof.
  intros H. destruct sg; cbn [write_sign app]; [|reflexivity|reflexivity].
  destruct X as [|x X]; [reflexivity|]. cbn in H |- *. unfold is_sign in H.
  apply orb_false_iff in H as [H1 H2]. now rewrite H1, H2.
Qed.

Lemma isdigit_written ds : ds <> [] -> isdigit (write_digits ds) = true.
Proof. intros H. unfold isdigit. rewrite write_digits_digits. destruct ds; [congruence|reflexivity]. Qed.

Lemma sign_apply sg z : (if match sg with Minus => true | _ => false end then - z else z)%Z = apply_sign sg z.
Proof. destruct sg; reflexivity. Qed.

(** ** Rational arithmetic *)
Lemma frac_pos (a : Z) (b : Z) : (0 < b)%Z -> a # Z.to_pos b == inject_Z a / inject_Z b.
Proof. intros H. rewrite Qmake_Qdiv, Z2Pos.id by exact H. reflexivity. Qed.

Lemma ten_neq : ~ 10 # 1 == 0.
Proof. discriminate. Qed.

Lemma ten_to_pos n : (0 < ten_to n)%Z.
Proof. apply Z.pow_pos_nonneg; lia. Qed.

Lemma inject_ten_to n : inject_Z (ten_to n) == (10 # 1) ^ Z.of_nat n.
Proof. unfold ten_to. rewrite Zpower_Qpower by lia. reflexivity. Qed.

Lemma mkfrac_pos z e k :
  mkfrac (z * ten_to e) (ten_to k) = Qred (inject_Z z * (10 # 1) ^ (Z.of_nat e - Z.of_nat k)).
Proof.
  unfold mkfrac. apply Qred_complete. rewrite frac_pos by apply ten_to_pos.
  unfold Z.sub. rewrite Qpower_plus by exact ten_neq. rewrite Qpower_opp.
  rewrite inject_Z_mult, !inject_ten_to. unfold Qdiv. ring.
Qed.

Lemma mkfrac_neg z e k :
  mkfrac z (ten_to k * ten_to e) = Qred (inject_Z z * (10 # 1) ^ (- Z.of_nat e - Z.of_nat k)).
Proof.
  unfold mkfrac. apply Qred_complete.
  pose proof (ten_to_pos k); pose proof (ten_to_pos e).
  rewrite frac_pos by nia.
  unfold Z.sub. rewrite Qpower_plus by exact ten_neq. rewrite !Qpower_opp.
  rewrite inject_Z_mult, !inject_ten_to. unfold Qdiv. rewrite Qinv_mult_distr. ring.
Qed.

Lemma mkfrac_one z : mkfrac z 1 = Qred (inject_Z z * (10 # 1) ^ (0 - Z.of_nat 0)).
Proof. unfold mkfrac. apply Qred_complete. cbn. now rewrite Qmult_1_r. Qed.

(** ** Fraction of a token *)
Lemma isempty_nil {A} (l : list A) : isempty l = true <-> l = [].
Proof. destruct l; cbn; split; congruence. Qed.

Lemma num_ok_wf n : num_ok n -> num_wf n.
Proof.
  intros (H1 & H2 & H3); split; [exact H1|split; [exact H2|]].
  destruct (n_exp n) as [[[? ?] e]|]; [|exact I]. destruct e; [cbn in H3; lia|discriminate].
Qed.

Lemma wf_mant n : num_wf n -> mant_ok (n_int n) (n_frac n).
Proof. intros (H1 & H2 & _); split; auto. Qed.

Lemma tw_digits ds s : hd_not is_digit s -> take_while is_digit (write_digits ds ++ s) = write_digits ds.
Proof. intros; apply take_while_app; auto using write_digits_digits. Qed.
Lemma dw_digits ds s : hd_not is_digit s -> drop_while is_digit (write_digits ds ++ s) = s.
Proof. intros; apply drop_while_app; auto using write_digits_digits. Qed.

Lemma exp_txt_hd e : hd_not is_digit (exp_txt e).
Proof. destruct e as [[[[] ?] ?]|]; reflexivity || exact I. Qed.

Lemma frac_exp_written e :
  match e with Some (_, _, d) => d <> [] | None => True end ->
  exists neg ed, frac_exp (exp_txt e) = Some (neg, ed) /\
    match e with Some (_, s, d) => apply_sign s (decimal d) | None => 0%Z end
    = (if neg then - digits_val ed else digits_val ed)%Z /\ (0 <= digits_val ed)%Z.
Proof.
  destruct e as [[[cap s] d]|]; intros H.
  - exists (match s with Minus => true | _ => false end), (write_digits d).
    cbn [exp_txt expo frac_exp]. replace (is_e _) with true by (destruct cap; reflexivity).
    rewrite split_sign_write, isdigit_written by (exact H || destruct d as [|[] d]; try congruence; reflexivity).
    split; [reflexivity|]. rewrite digits_val_written. split; [destruct s; reflexivity|].
    apply decimal_nonneg.
  - exists false, ["0"%char]. cbn. split; [reflexivity|split; [reflexivity|]]. cbn; lia.
Qed.

Lemma write_digits_app a b : write_digits a ++ write_digits b = write_digits (a ++ b).
Proof. unfold write_digits; now rewrite map_app. Qed.

Theorem py_fraction_num n : num_wf n -> py_fraction (write_num n) = Ok (Qred (num_value n)).
Proof.
  intros Hn. unfold py_fraction. rewrite strip_nospace by apply write_num_nospace.
  rewrite write_num_split. pose proof (wf_mant n Hn) as Hm.
  rewrite split_sign_write by now apply mant_hd_not_sign.
  unfold mant. rewrite <- app_assoc.
  destruct Hn as (H1 & H2 & H3). unfold num_value, exp_value.
  destruct (frac_exp_written (n_exp n) H3) as (neg & ed & HE & HV & HP). rewrite HV. clear HV.
  assert (EXP : forall dec l, length dec = l ->
    (if neg then Ok (mkfrac (apply_sign (n_sign n) (decimal (n_int n ++ dec))) (ten_to l * ten_to (Z.to_nat (digits_val ed))))
     else Ok (mkfrac (apply_sign (n_sign n) (decimal (n_int n ++ dec)) * ten_to (Z.to_nat (digits_val ed))) (ten_to l)))
    = Ok (Qred (inject_Z (apply_sign (n_sign n) (decimal (n_int n ++ dec))) *
          (10 # 1) ^ ((if neg then - digits_val ed else digits_val ed) - Z.of_nat (length dec))))).
  { intros dec l <-. destruct neg.
    - rewrite mkfrac_neg, Z2Nat.id by exact HP. reflexivity.
    - rewrite mkfrac_pos, Z2Nat.id by exact HP. reflexivity. }
  unfold frac_digits in *. destruct (n_frac n) as [f|].
  - cbn [app]. rewrite tw_digits, dw_digits by reflexivity.
    change (Ascii.eqb "." "/") with false. change (Ascii.eqb "." ".") with true. cbv iota.
    rewrite tw_digits, dw_digits by apply exp_txt_hd.
        rewrite HE, write_digits_app, digits_val_written, write_digits_len, !sign_apply.
    replace (isempty (write_digits (n_int n)) && isempty (write_digits f)) with false.
    { now apply EXP. }
    symmetry. apply andb_false_iff. destruct (n_int n) as [|d i]; [|left; reflexivity].
    right. destruct f; [now elim H1|reflexivity].
  - rewrite tw_digits, dw_digits by apply exp_txt_hd.
    destruct (exp_txt (n_exp n)) as [|x t] eqn:Et.
    + cbn in HE. injection HE as <- <-.
      replace (isempty (write_digits (n_int n))) with false
        by (specialize (H2 eq_refl); destruct (n_int n); [congruence|reflexivity]).
      rewrite digits_val_written, sign_apply, app_nil_r. cbn [length].
      rewrite mkfrac_one, app_nil_r. reflexivity.
    + cbn [app]. assert (Hx : is_e x = true).
      { cbn [frac_exp] in HE. destruct (is_e x); [reflexivity|discriminate]. }
      replace (Ascii.eqb x "/") with false by (symmetry; clear - Hx; revert x Hx; ascii_dec).
      replace (Ascii.eqb x ".") with false by (symmetry; clear - Hx; revert x Hx; ascii_dec).
      replace (isempty (write_digits (n_int n))) with false
        by (specialize (H2 eq_refl); destruct (n_int n); [congruence|reflexivity]).
      cbn [andb]. cbv iota. rewrite HE, !app_nil_r, digits_val_written, !sign_apply.
      specialize (EXP [] 0 eq_refl). rewrite app_nil_r in EXP. exact EXP.
Qed.

Theorem py_fraction_ratio r : ratio_ok r ->
  py_fraction (write_ratio r) =
  if (decimal (r_den r) =? 0)%Z then Err ZeroDivisionError else Ok (Qred (ratio_value r)).
Proof.
  intros [H1 H2]. unfold py_fraction. rewrite strip_nospace by apply write_ratio_nospace.
  unfold write_ratio. rewrite split_sign_write
    by (destruct (r_num r) as [|[] ?]; try congruence; reflexivity).
  rewrite tw_digits, dw_digits by reflexivity.
  change (Ascii.eqb "/" "/") with true. cbv iota.
  rewrite isdigit_written by exact H2.
  replace (isempty (write_digits (r_num r))) with false by (destruct (r_num r); [congruence|reflexivity]).
  cbn [negb andb]. rewrite !digits_val_written, sign_apply.
  destruct (Z.eqb_spec (decimal (r_den r)) 0) as [E|E]; [reflexivity|].
  f_equal. unfold mkfrac. apply Qred_complete. unfold ratio_value. apply frac_pos.
  pose proof (decimal_nonneg (r_den r)). lia.
Qed.

(** Padding with blanks does not matter. *)
Lemma strip_strip_pad a w b :
  forallb is_space a = true -> forallb is_space b = true ->
  forallb (fun c => negb (is_space c)) w = true -> strip (a ++ w ++ b) = strip w.
Proof. intros. rewrite strip_pad, strip_nospace; auto. Qed.

Lemma py_fraction_pad a w b :
  forallb is_space a = true -> forallb is_space b = true ->
  forallb (fun c => negb (is_space c)) w = true -> py_fraction (a ++ w ++ b) = py_fraction w.
Proof. intros; unfold py_fraction. now rewrite strip_strip_pad. Qed.

Lemma py_int_pad a w b :
  forallb is_space a = true -> forallb is_space b = true ->
  forallb (fun c => negb (is_space c)) w = true -> py_int (a ++ w ++ b) = py_int w.
Proof. intros; unfold py_int. now rewrite strip_strip_pad. Qed.

(** ** Converse: what is accepted is a token *)
Lemma strip_decomp s : exists a b, s = a ++ strip s ++ b /\
  forallb is_space a = true /\ forallb is_space b = true.
Proof.
  unfold strip, strip_by, rstrip_by, lstrip_by.
  exists (take_while is_space s), (rev (take_while is_space (rev (drop_while is_space s)))).
  split; [|split; [apply take_while_all|rewrite forallb_rev; apply take_while_all]].
  rewrite <- rev_app_distr, take_drop_while, rev_involutive. symmetry; apply take_drop_while.
Qed.

Lemma split_sign_inv s neg X : split_sign s = (neg, X) ->
  exists sg, s = write_sign sg ++ X /\ neg = match sg with Minus => true | _ => false end.
Proof.
  destruct s as [|x s]; cbn.
  - intros H; injection H as <- <-. exists NoSign; auto.
  - destruct (Ascii.eqb_spec x "-"); [subst x|destruct (Ascii.eqb_spec x "+"); [subst x|]];
      intros H; injection H as <- <-; [exists Minus|exists Plus|exists NoSign]; auto.
Qed.

Lemma isdigit_inv s : isdigit s = true -> exists ds, ds <> [] /\ s = write_digits ds.
Proof.
  unfold isdigit. intros H; apply andb_true_iff in H as [H1 H2].
  apply digits_written in H2 as [ds <-]. exists ds; split; [|reflexivity].
  intros ->; discriminate.
Qed.

Lemma frac_exp_inv s neg ed : frac_exp s = Some (neg, ed) ->
  exists e, s = exp_txt e /\ match e with Some (_, _, d) => d <> [] | None => True end.
Proof.
  destruct s as [|x s]; cbn.
  - intros _. exists None; auto.
  - destruct (is_e x) eqn:Ex; [|discriminate]. destruct (split_sign s) as [n d] eqn:Es.
    destruct (isdigit d) eqn:Ed; [|discriminate]. intros _.
    apply split_sign_inv in Es as (sg & -> & _). apply isdigit_inv in Ed as (ds & Hds & ->).
    unfold is_e in Ex. apply orb_true_iff in Ex as [Ex|Ex]; apply Ascii.eqb_eq in Ex; subst x.
    + exists (Some (false, sg, ds)); auto.
    + exists (Some (true, sg, ds)); auto.
Qed.

(** A numeric text: a token or a ratio between blanks. *)
Definition numeric_text (s : str) : Prop :=
  exists a w b, s = a ++ w ++ b /\ forallb is_space a = true /\ forallb is_space b = true /\
    ((exists n, num_wf n /\ w = write_num n) \/ (exists r, ratio_ok r /\ w = write_ratio r)).

Theorem py_fraction_inv s : py_fraction s <> Err ValueError -> numeric_text s.
Proof.
  intros H. destruct (strip_decomp s) as (a & b & E & Ha & Hb).
  exists a, (strip s), b. split; [exact E|split; [exact Ha|split; [exact Hb|]]]. clear E Ha Hb a b.
  unfold py_fraction in H. destruct (split_sign (strip s)) as [neg body] eqn:Es.
  apply split_sign_inv in Es as (sg & -> & _).
  rewrite <- (take_drop_while is_digit body).
  pose proof (take_while_all is_digit body) as HN. apply digits_written in HN as [i Hi].
  rewrite <- Hi in H |- *. destruct (drop_while is_digit body) as [|c rest] eqn:Er.
  - destruct i as [|d i]; [now elim H|]. left.
    exists {| n_sign := sg; n_int := d :: i; n_frac := None; n_exp := None |}. split.
    + split; [discriminate|split; [discriminate|exact I]].
    + unfold write_num; cbn [n_sign n_int n_frac n_exp]. now rewrite !app_nil_r.
  - destruct (Ascii.eqb_spec c "/") as [->|Hc].
    + destruct (negb (isempty (write_digits i)) && isdigit rest) eqn:E; [|now elim H].
      apply andb_true_iff in E as [E1 E2]. apply isdigit_inv in E2 as (d & Hd & ->).
      right. exists {| r_sign := sg; r_num := i; r_den := d |}. split; [|reflexivity].
      split; [intros E; cbn in E; subst i; discriminate|exact Hd].
    + set (dec := if Ascii.eqb c "." then _ else _) in H.
      set (rest2 := if Ascii.eqb c "." then drop_while is_digit rest else _) in H.
      destruct (isempty (write_digits i) && isempty dec) eqn:Em; [now elim H|].
      destruct (frac_exp rest2) as [[en ed]|] eqn:Ee; [|now elim H].
      apply frac_exp_inv in Ee as (e & Ee & He). left. subst dec rest2.
      destruct (Ascii.eqb_spec c ".") as [->|Hc2].
      * pose proof (take_while_all is_digit rest) as HF. apply digits_written in HF as [f Hf].
        exists {| n_sign := sg; n_int := i; n_frac := Some f; n_exp := e |}. split.
        { split; [|split; [discriminate|exact He]]. cbn. intros E. apply app_eq_nil in E as [-> ->].
          rewrite <- Hf in Em. discriminate. }
        rewrite write_num_split; cbn [n_sign n_int n_frac n_exp]. unfold mant.
        rewrite <- (take_drop_while is_digit rest), Ee, <- Hf. 
        now rewrite <- app_assoc.
      * exists {| n_sign := sg; n_int := i; n_frac := None; n_exp := e |}. split.
        { assert (i <> []) by (intros ->; discriminate).
          split; [|split; [|exact He]]; cbn; [rewrite app_nil_r|]; auto. }
        rewrite write_num_split; cbn [n_sign n_int n_frac n_exp]. unfold mant.
         rewrite <- Ee, app_nil_r. reflexivity.
Qed.

(** ** Integers *)
Theorem py_int_num n : num_wf n -> is_int n -> py_int (write_num n) = Ok (int_value n).
Proof.
  intros (H1 & H2 & _) [Hf He]. specialize (H2 Hf).
  unfold py_int. rewrite strip_nospace by apply write_num_nospace.
  rewrite write_num_split, Hf, He. unfold mant. rewrite !app_nil_r.
  rewrite split_sign_write by (destruct (n_int n) as [|[] ?]; try congruence; reflexivity).
  rewrite isdigit_written by exact H2. rewrite digits_val_written, sign_apply. reflexivity.
Qed.

Theorem py_int_inv s : py_int s <> Err ValueError ->
  exists a n b, s = a ++ write_num n ++ b /\ forallb is_space a = true /\ forallb is_space b = true /\
    num_wf n /\ is_int n.
Proof.
  intros H. destruct (strip_decomp s) as (a & b & E & Ha & Hb).
  unfold py_int in H. destruct (split_sign (strip s)) as [neg body] eqn:Es.
  apply split_sign_inv in Es as (sg & Es & _).
  destruct (isdigit body) eqn:Ed; [|now elim H]. apply isdigit_inv in Ed as (d & Hd & ->).
  exists a, {| n_sign := sg; n_int := d; n_frac := None; n_exp := None |}, b.
  rewrite write_num_split; cbn [n_sign n_int n_frac n_exp]. unfold mant. rewrite !app_nil_r.
  rewrite <- Es. repeat split; auto. cbn. now rewrite app_nil_r.
Qed.

(** Decimal rendering. *)
Lemma digit_chr_ok d : (0 <= d < 10)%Z -> exists g, digit_chr d = digit_char g /\ digit_value g = d.
Proof.
  intros H. assert (C : (d = 0 \/ d = 1 \/ d = 2 \/ d = 3 \/ d = 4 \/ d = 5 \/ d = 6 \/ d = 7 \/ d = 8 \/ d = 9)%Z) by lia.
  repeat destruct C as [C|C]; subst d;
    [exists d0|exists d1|exists d2|exists d3|exists d4|exists d5|exists d6|exists d7|exists d8|exists d9];
    split; reflexivity.
Qed.

Lemma decimal_app a b : decimal (a ++ b) = (decimal a * 10 ^ Z.of_nat (length b) + decimal b)%Z.
Proof.
  induction a as [|d a IH]; cbn [app decimal]; [ring|].
  rewrite IH, app_length, Nat2Z.inj_add, Z.pow_add_r by lia. ring.
Qed.

Lemma nat_digits_ok : forall fuel n, (0 <= n < 2 ^ Z.of_nat fuel)%Z -> 0 < fuel ->
  exists ds, ds <> [] /\ nat_digits fuel n = write_digits ds /\ decimal ds = n.
Proof.
  induction fuel as [|fuel IH]; intros n Hn Hf; [lia|]. cbn [nat_digits].
  destruct (Z.ltb_spec n 10) as [Hlt|Hge].
  - destruct (digit_chr_ok n) as (g & Hg & Hv); [lia|].
    exists [g]. split; [discriminate|]. split; [cbn; now rewrite Hg|].
    cbn. rewrite Hv. ring.
  - rewrite Nat2Z.inj_succ, Z.pow_succ_r in Hn by lia.
    assert (Hfuel : 0 < fuel).
    { destruct fuel; [cbn in Hn; lia|lia]. }
    destruct (IH (n / 10)%Z) as (ds & Hne & Hd & Hv); [|exact Hfuel|].
    { split; [apply Z.div_pos; lia|]. apply Z.div_lt_upper_bound; [lia|].
      assert (0 < 2 ^ Z.of_nat fuel)%Z by (apply Z.pow_pos_nonneg; lia). lia. }
    destruct (digit_chr_ok (n mod 10)%Z) as (g & Hg & Hgv); [apply Z.mod_pos_bound; lia|].
    exists (ds ++ [g]). split; [destruct ds; discriminate|]. split.
    + rewrite Hd, Hg. unfold write_digits. now rewrite map_app.
    + rewrite decimal_app, Hv. cbn [decimal length]. rewrite Hgv.
      pose proof (Z.div_mod n 10). cbn [Z.of_nat Z.pow Pos.of_succ_nat]. change (10 ^ 1)%Z with 10%Z.
      change (10 ^ 0)%Z with 1%Z. lia.
Qed.

Lemma nat_digits_abs z : exists ds, ds <> [] /\
  nat_digits (S (Z.to_nat (Z.log2 (Z.abs z)))) (Z.abs z) = write_digits ds /\ decimal ds = Z.abs z.
Proof.
  apply nat_digits_ok; [|lia].
  rewrite Nat2Z.inj_succ, Z2Nat.id by apply Z.log2_nonneg.
  destruct (Z.eq_dec (Z.abs z) 0) as [E|E]; [rewrite E; cbn; lia|].
  pose proof (Z.log2_spec (Z.abs z)). lia.
Qed.

(** [str(z)] is an integer token denoting [z]. *)
Lemma str_of_Z_num z : exists n, num_wf n /\ is_int n /\ n_sign n <> Plus /\ str_of_Z z = write_num n /\ int_value n = z.
Proof.
  destruct (nat_digits_abs z) as (ds & Hne & Hd & Hv). unfold str_of_Z. rewrite Hd.
  exists {| n_sign := if (z <? 0)%Z then Minus else NoSign; n_int := ds; n_frac := None; n_exp := None |}.
  unfold num_wf, is_int, write_num, int_value; cbn [n_sign n_int n_frac n_exp frac_digits].
  rewrite !app_nil_r. repeat split; auto.
  - now destruct (z <? 0)%Z.
  - now destruct (z <? 0)%Z.
  - rewrite Hv. destruct (Z.ltb_spec z 0); cbn; lia.
Qed.

Theorem py_int_str z : py_int (str_of_Z z) = Ok z.
Proof. destruct (str_of_Z_num z) as (n & H1 & H2 & _ & -> & <-). now apply py_int_num. Qed.

Lemma str_of_Z_inj a b : str_of_Z a = str_of_Z b -> a = b.
Proof. intros H. assert (E : Ok a = Ok b) by (rewrite <- !py_int_str; now rewrite H). congruence. Qed.

(** ** Floats *)
Lemma fits_dec q : (float_limit * Zpos (Qden (Qred q)) <=? Z.abs (Qnum (Qred q)))%Z = false <-> fits q.
Proof.
  assert (E : fits q <-> fits (Qred q)) by (unfold fits; rewrite Qred_correct; reflexivity).
  rewrite E. clear E. generalize (Qred q) as r. intros [n d]. unfold fits.
  rewrite Z.leb_gt. unfold Qlt, Qopp, inject_Z; cbn [Qnum Qden].
  change (2 ^ 1024 - 2 ^ 970)%Z with float_limit. generalize float_limit as L; intros L. lia.
Qed.

Theorem py_float_num n : num_wf n -> fits (num_value n) -> py_float (write_num n) = Ok (Qred (num_value n)).
Proof.
  intros Hn Hf. unfold py_float. rewrite py_fraction_num by exact Hn. cbn [bind].
  apply fits_dec in Hf. now rewrite Hf.
Qed.

Theorem py_float_num_overflow n : num_wf n -> ~ fits (num_value n) -> py_float (write_num n) = Err OverflowError.
Proof.
  intros Hn Hf. unfold py_float. rewrite py_fraction_num by exact Hn. cbn [bind].
  destruct (_ <=? _)%Z eqn:E; [reflexivity|]. apply fits_dec in E. contradiction.
Qed.
