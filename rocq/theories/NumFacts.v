(** Facts about the number patterns of [CastepRes.v] and about numeric
    conversion, relating them to [NumSpec.v]. *)
From Verif Require Import PyBase PyFacts Regex RegexFacts CastepRes NumSpec.
From Coq Require Import Qpower.
Local Open Scope list_scope.
Local Open Scope nat_scope.

(** ** Digits *)
Lemma write_digits_digits ds : forallb is_digit (write_digits ds) = true.
Proof. induction ds as [|[] ds IH]; cbn; auto. Qed.

Lemma digits_written w : forallb is_digit w = true -> exists ds, write_digits ds = w.
Proof.
  induction w as [|x w IH]; cbn; intros H; [exists []; reflexivity|].
  apply andb_true_iff in H as [Hx Hw]. destruct (IH Hw) as [ds <-].
  assert (E : exists d, digit_char d = x).
  { assert (C : existsb (fun d => Ascii.eqb (digit_char d) x) [d0;d1;d2;d3;d4;d5;d6;d7;d8;d9] = true).
    { revert x Hx. ascii_dec. }
    apply existsb_exists in C as (d & _ & Hd). apply Ascii.eqb_eq in Hd; eauto. }
  destruct E as [d <-]. exists (d :: ds); reflexivity.
Qed.

Lemma write_digits_len ds : length (write_digits ds) = length ds.
Proof. apply map_length. Qed.

Lemma write_digits_nil ds : write_digits ds = [] <-> ds = [].
Proof. destruct ds; cbn; split; congruence. Qed.

Lemma digits_val_written ds : digits_val (write_digits ds) = decimal ds.
Proof.
  unfold digits_val.
  assert (G : forall ds acc, fold_left (fun acc c => acc * 10 + digit_val c)%Z (write_digits ds) acc
                        = (acc * 10 ^ Z.of_nat (length ds) + decimal ds)%Z).
  { clear. induction ds as [|d ds IH]; intros acc; [cbn; ring|].
    cbn [write_digits map fold_left]. fold (write_digits ds). rewrite IH.
    cbn [decimal length]. rewrite Nat2Z.inj_succ, Z.pow_succ_r by lia.
    replace (digit_val (digit_char d)) with (digit_value d) by (destruct d; reflexivity). ring. }
  rewrite G. ring.
Qed.

Lemma decimal_nonneg ds : (0 <= decimal ds)%Z.
Proof.
  induction ds as [|d ds IH]; cbn [decimal]; [lia|].
  assert (0 <= digit_value d)%Z by (destruct d; cbn; lia).
  assert (0 <= 10 ^ Z.of_nat (length ds))%Z by (apply Z.pow_nonneg; lia).
  nia.
Qed.

(** ** Inverting the meaning of the patterns *)
Lemma iter_den_chr f : forall n p s c p' s' c', iter_den (den (RChr f)) n p s c p' s' c' ->
  exists w, s = w ++ s' /\ length w = n /\ forallb f w = true /\ p' = pa p w /\ c = c'.
Proof.
  induction n as [|n IH]; cbn; intros p s c p' s' c' H.
  - destruct H as (-> & -> & ->). exists []; auto.
  - destruct H as (p1 & s1 & c1 & (x & -> & Hx & -> & ->) & H).
    apply IH in H as (w & -> & Hl & Hw & -> & ->).
    exists (x :: w); cbn. rewrite Hx, Hw, Hl; auto.
Qed.

Lemma den_rep_chr g lo hi f p s c p' s' c' : den (RRep g lo hi (RChr f)) p s c p' s' c' ->
  exists w, s = w ++ s' /\ lo <= length w /\ match hi with Some h => length w <= lo + (h - lo) | None => True end /\
    forallb f w = true /\ p' = pa p w /\ c = c'.
Proof.
  intros (n & Hlo & Hhi & H). apply iter_den_chr in H as (w & -> & Hl & Hw & -> & ->).
  exists w; rewrite Hl; auto 10.
Qed.

Definition sgn (w : str) : Prop := exists s, w = write_sign s.

Lemma den_SIGN p s c p' s' c' : den SIGN p s c p' s' c' ->
  exists sg, s = write_sign sg ++ s' /\ p' = pa p (write_sign sg) /\ c = c'.
Proof.
  unfold SIGN, ROpt, c_of. intros H. apply den_rep_chr in H as (w & -> & _ & Hl & Hw & -> & ->).
  destruct w as [|x [|y w]]; cbn in Hl; [exists NoSign; auto| |lia].
  cbn in Hw. rewrite andb_true_r in Hw.
  unfold chr_in in Hw; cbn in Hw. rewrite orb_false_r in Hw.
  apply orb_true_iff in Hw as [Hw|Hw]; apply Ascii.eqb_eq in Hw; subst x.
  - exists Plus; auto.
  - exists Minus; auto.
Qed.

Definition mant_frac (a b : list digit) : str := write_digits a ++ "."%char :: write_digits b.

Lemma den_FNUMBER p s c p' s' c' : den FNUMBER_RE p s c p' s' c' ->
  exists sg a b, a ++ b <> [] /\ s = write_sign sg ++ mant_frac a b ++ s' /\
    p' = pa p (write_sign sg ++ mant_frac a b) /\ c = c'.
Proof.
  cbn [FNUMBER_RE den]. intros (p1 & s1 & c1 & H1 & H2).
  apply den_SIGN in H1 as (sg & -> & -> & ->).
  cbn [RSeqs den] in H2. destruct H2 as [H2|H2].
  - destruct H2 as (p2 & s2 & c2 & H2 & p3 & s3 & c3 & (x & -> & Hx & -> & ->) & H3).
    apply Ascii.eqb_eq in Hx; subst x.
    apply den_rep_chr in H2 as (w1 & -> & _ & _ & Hw1 & _ & ->).
    apply den_rep_chr in H3 as (w2 & -> & Hl & _ & Hw2 & -> & ->).
    apply digits_written in Hw1 as [a <-]. apply digits_written in Hw2 as [b <-].
    exists sg, a, b. split; [|split; [|split]].
    + rewrite write_digits_len in Hl. destruct b; [cbn in Hl; lia|]. destruct a; discriminate.
    + unfold mant_frac. rewrite <- app_assoc; reflexivity.
    + unfold mant_frac. rewrite !pa_app. reflexivity.
    + reflexivity.
  - destruct H2 as (p2 & s2 & c2 & H2 & p3 & s3 & c3 & (x & -> & Hx & -> & ->) & H3).
    apply Ascii.eqb_eq in Hx; subst x.
    apply den_rep_chr in H2 as (w1 & -> & Hl & _ & Hw1 & _ & ->).
    apply den_rep_chr in H3 as (w2 & -> & _ & _ & Hw2 & -> & ->).
    apply digits_written in Hw1 as [a <-]. apply digits_written in Hw2 as [b <-].
    exists sg, a, b. split; [|split; [|split]].
    + rewrite write_digits_len in Hl. destruct a; [cbn in Hl; lia|discriminate].
    + unfold mant_frac. rewrite <- app_assoc; reflexivity.
    + unfold mant_frac. rewrite !pa_app. reflexivity.
    + reflexivity.
Qed.

Lemma den_INT p s c p' s' c' : den INTNUMBER_RE p s c p' s' c' ->
  exists sg d, d <> [] /\ s = write_sign sg ++ write_digits d ++ s' /\
    p' = pa p (write_sign sg ++ write_digits d) /\ c = c' /\
    hd_not (Ascii.eqb ".") s' /\ pa p (write_sign sg) <> Some "."%char.
Proof.
  unfold INTNUMBER_RE; cbn [RSeqs den].
  intros (p1 & s1 & c1 & H1 & p2 & s2 & c2 & (-> & -> & -> & Hb) & p3 & s3 & c3 & H2 & (-> & -> & -> & Ha)).
  apply den_SIGN in H1 as (sg & -> & -> & ->).
  apply den_rep_chr in H2 as (w & -> & Hl & _ & Hw & -> & ->).
  apply digits_written in Hw as [d <-].
  exists sg, d. split; [|split; [reflexivity|split; [|split; [reflexivity|split]]]].
  - rewrite write_digits_len in Hl. intros ->; cbn in Hl; lia.
  - now rewrite pa_app.
  - destruct s' as [|y s']; [exact I|]. cbn [hd_not]. unfold RChar in Ha. cbn [m] in Ha.
    destruct (Ascii.eqb "." y); [discriminate|reflexivity].
  - intros E. rewrite E in Hb. discriminate.
Qed.

(** Mantissa: digits with or without a point. *)
Definition mant (i : list digit) (f : option (list digit)) : str :=
  write_digits i ++ match f with Some f => "."%char :: write_digits f | None => [] end.
Definition mant_ok (i : list digit) (f : option (list digit)) : Prop :=
  i ++ (match f with Some f => f | None => [] end) <> [] /\ (f = None -> i <> []).
Definition expo (e : bool * sign * list digit) : str :=
  let '(cap, s, d) := e in (if cap then "E"%char else "e"%char) :: write_sign s ++ write_digits d.

Lemma den_FINT p s c p' s' c' : den (RAlt FNUMBER_RE INTNUMBER_RE) p s c p' s' c' ->
  exists sg i f, mant_ok i f /\ s = write_sign sg ++ mant i f ++ s' /\
    p' = pa p (write_sign sg ++ mant i f) /\ c = c'.
Proof.
  intros [H|H].
  - apply den_FNUMBER in H as (sg & a & b & Hab & -> & -> & ->).
    exists sg, a, (Some b). unfold mant_ok, mant, mant_frac.
    repeat split; auto. discriminate.
  - apply den_INT in H as (sg & d & Hd & -> & -> & -> & _).
    exists sg, d, None. unfold mant_ok, mant. rewrite !app_nil_r. auto.
Qed.

Lemma den_EXP p s c p' s' c' : den EXPNUMBER_RE p s c p' s' c' ->
  exists sg i f e, mant_ok i f /\ 1 <= length (snd e) <= 3 /\
    s = write_sign sg ++ mant i f ++ expo e ++ s' /\
    p' = pa p (write_sign sg ++ mant i f ++ expo e) /\ c = c'.
Proof.
  cbn [EXPNUMBER_RE RSeqs den].
  intros (p1 & s1 & c1 & H1 & p2 & s2 & c2 & H2 & p3 & s3 & c3 & H3 & H4).
  apply den_FINT in H1 as (sg & i & f & Hok & -> & -> & ->).
  cbn in H2. destruct H2 as (x & -> & Hx & -> & ->).
  apply den_SIGN in H3 as (sg2 & -> & -> & ->).
  apply (den_rep_chr true 1 (Some 3) is_digit) in H4 as (w & -> & Hlo & Hhi & Hw & -> & ->).
  apply digits_written in Hw as [d <-]. rewrite write_digits_len in Hlo, Hhi.
  unfold chr_in in Hx; cbn in Hx. rewrite orb_false_r in Hx.
  assert (E : exists cap, x = if cap : bool then "E"%char else "e"%char).
  { apply orb_true_iff in Hx as [Hx|Hx]; apply Ascii.eqb_eq in Hx; subst x; [exists true|exists false]; auto. }
  destruct E as [cap ->].
  exists sg, i, f, (cap, sg2, d). cbn [snd expo].
  split; [exact Hok|]. split; [lia|]. split; [|split; [|reflexivity]].
  - cbn [app]. now rewrite <- app_assoc.
  - rewrite !pa_app. cbn. rewrite pa_app. reflexivity.
Qed.

Definition exp_txt (e : option (bool * sign * list digit)) : str :=
  match e with Some e => expo e | None => [] end.

Lemma write_num_split n :
  write_num n = write_sign (n_sign n) ++ mant (n_int n) (n_frac n) ++ exp_txt (n_exp n).
Proof.
  unfold write_num, mant, exp_txt, expo. rewrite <- app_assoc.
  destruct (n_exp n) as [[[? ?] ?]|]; reflexivity.
Qed.

Lemma num_ok_mant n : num_ok n -> mant_ok (n_int n) (n_frac n).
Proof. intros (H1 & H2 & _); split; auto. Qed.

(** Every match of the general number pattern is a number token. *)
Lemma den_NUMBER p s c p' s' c' : den NUMBER_RE p s c p' s' c' ->
  exists n, num_ok n /\ s = write_num n ++ s' /\ p' = pa p (write_num n) /\ c = c'.
Proof.
  cbn [NUMBER_RE RAlts den]. intros [H|H].
  - apply den_EXP in H as (sg & i & f & e & [H1 H2] & Hl & -> & -> & ->).
    exists {| n_sign := sg; n_int := i; n_frac := f; n_exp := Some e |}.
    rewrite write_num_split; cbn [n_sign n_int n_frac n_exp exp_txt]. split; [|rewrite <- !app_assoc; auto].
    destruct e as [[? ?] ?]. unfold num_ok; cbn [n_sign n_int n_frac n_exp frac_digits snd] in *; auto.
  - apply den_FINT in H as (sg & i & f & [H1 H2] & -> & -> & ->).
    exists {| n_sign := sg; n_int := i; n_frac := f; n_exp := None |}.
    rewrite write_num_split; cbn [n_sign n_int n_frac n_exp exp_txt]. rewrite app_nil_r.
    split; [|rewrite <- !app_assoc; auto].
    unfold num_ok; cbn [n_sign n_int n_frac n_exp frac_digits]; auto.
Qed.

(** ** Unique decompositions *)
Definition is_sign (c : ascii) : bool := Ascii.eqb c "+" || Ascii.eqb c "-".
Definition is_mant (c : ascii) : bool := is_digit c || Ascii.eqb c ".".

Lemma mant_chars i f : forallb is_mant (mant i f) = true.
Proof.
  unfold mant. rewrite forallb_app. apply andb_true_iff; split.
  - apply forallb_forall; intros x Hx. pose proof (write_digits_digits i) as H.
    rewrite forallb_forall in H. unfold is_mant; now rewrite (H x Hx).
  - destruct f as [f|]; [|reflexivity]. cbn. apply forallb_forall; intros x Hx.
    pose proof (write_digits_digits f) as H. rewrite forallb_forall in H.
    unfold is_mant; now rewrite (H x Hx).
Qed.

Lemma mant_nonempty i f : mant_ok i f -> mant i f <> [].
Proof.
  intros [H1 H2] E. unfold mant in E. apply app_eq_nil in E as [E1 E2].
  apply write_digits_nil in E1 as ->. destruct f as [f|]; [discriminate|]. now apply H2.
Qed.

Lemma mant_cons i f : mant_ok i f -> exists x t, mant i f = x :: t /\ is_mant x = true.
Proof.
  intros H. pose proof (mant_nonempty i f H). pose proof (mant_chars i f) as C.
  destruct (mant i f) as [|x t]; [congruence|]. cbn in C. apply andb_true_iff in C as [C _]; eauto.
Qed.

Lemma is_mant_not_sign c : is_mant c = true -> is_sign c = false.
Proof. revert c; ascii_dec. Qed.
Lemma is_e_not_mant c : is_e c = true -> is_mant c = false.
Proof. revert c; ascii_dec. Qed.
Lemma is_digit_mant c : is_digit c = true -> is_mant c = true.
Proof. unfold is_mant; intros ->; reflexivity. Qed.

Lemma sign_split sg sg' X X' :
  hd_not is_sign X -> hd_not is_sign X' ->
  write_sign sg ++ X = write_sign sg' ++ X' -> sg = sg' /\ X = X'.
Proof.
  intros H H' E. destruct sg, sg'; cbn in E; try (inversion E; auto; fail);
    try (subst X; cbn in H; discriminate); try (subst X'; cbn in H'; discriminate); try discriminate.
Qed.

Lemma mant_hd_not_sign i f s : mant_ok i f -> hd_not is_sign (mant i f ++ s).
Proof.
  intros H. destruct (mant_cons i f H) as (x & t & -> & Hx). cbn. now apply is_mant_not_sign.
Qed.

Lemma class_split (f : ascii -> bool) a a' s s' :
  forallb f a = true -> forallb f a' = true -> hd_not f s -> hd_not f s' ->
  a ++ s = a' ++ s' -> a = a' /\ s = s'.
Proof.
  intros Ha Ha' Hs Hs' E.
  assert (E1 : a = a') by (rewrite <- (take_while_app f a s), <- (take_while_app f a' s'); auto; now rewrite E).
  subst a'. split; [reflexivity|]. now apply app_inv_head in E.
Qed.

Lemma expo_hd e s : hd_not is_mant (expo e ++ s) /\ exists x t, expo e = x :: t /\ is_e x = true.
Proof. destruct e as [[[] ?] ?]; cbn; split; eauto. Qed.

(** ** First paths through the number patterns *)
Definition follow_plain (s : str) : Prop := hd_not (fun c => is_mant c || is_e c) s.
Definition follow_ok (n : num) (s : str) : Prop :=
  match n_exp n with Some _ => hd_not is_digit s | None => follow_plain s end.
(** What may precede: an unsigned integer mantissa must not be glued to a point. *)
Definition prev_ok (p : option ascii) (n : num) : Prop :=
  n_sign n = NoSign -> n_frac n = None -> p <> Some "."%char.

Lemma hd_not_or_l {A} (f g : A -> bool) s : hd_not (fun c => f c || g c) s -> hd_not f s.
Proof. destruct s; cbn; [auto|]. rewrite orb_false_iff; tauto. Qed.
Lemma hd_not_or_r {A} (f g : A -> bool) s : hd_not (fun c => f c || g c) s -> hd_not g s.
Proof. destruct s; cbn; [auto|]. rewrite orb_false_iff; tauto. Qed.
Lemma hd_not_mant_digit s : hd_not is_mant s -> hd_not is_digit s.
Proof. apply hd_not_or_l. Qed.
Lemma hd_not_mant_dot s : hd_not is_mant s -> hd_not (Ascii.eqb ".") s.
Proof.
  destruct s as [|x s]; cbn; [auto|]. unfold is_mant. rewrite orb_false_iff.
  intros [_ H]. now rewrite Ascii.eqb_sym.
Qed.

Lemma fp_SIGN sg p s c : hd_not is_sign s -> fp SIGN p (write_sign sg) s c c.
Proof.
  intros H. unfold SIGN, c_of. destruct sg; cbn [write_sign].
  - apply fp_opt_chr_none. destruct s as [|x s]; cbn in *; [exact I|].
    unfold chr_in; cbn. now rewrite orb_false_r.
  - now apply fp_opt_chr_some.
  - now apply fp_opt_chr_some.
Qed.

Lemma nomatch_alt1 a p s c : hd_not is_digit s ->
  nomatch (RSeqs [RStar c_digit; RChar "."; RPlus c_digit]) p (write_digits a ++ "."%char :: s) c.
Proof.
  intros Hs. apply nomatch_den; intros p' s' c' H. cbn [RSeqs den] in H.
  destruct H as (p2 & s2 & c2 & H2 & p3 & s3 & c3 & (x & -> & Hx & -> & ->) & H3).
  apply Ascii.eqb_eq in Hx; subst x.
  apply den_rep_chr in H2 as (w1 & E & _ & _ & Hw1 & _ & _).
  apply den_rep_chr in H3 as (w2 & -> & Hl & _ & Hw2 & _ & _).
  apply (class_split is_digit) in E as [_ E]; auto using write_digits_digits; try reflexivity.
  injection E as ->. destruct w2 as [|y w2]; [cbn in Hl; lia|].
  cbn in Hs, Hw2. rewrite Hs in Hw2. discriminate.
Qed.

Lemma fp_FNUMBER sg a b p s c :
  a ++ b <> [] -> hd_not is_digit s -> fp FNUMBER_RE p (write_sign sg ++ mant_frac a b) s c c.
Proof.
  intros Hab Hs. unfold FNUMBER_RE. apply fp_seq with (c1 := c).
  { apply fp_SIGN. unfold mant_frac. destruct a as [|[] a]; reflexivity. }
  unfold mant_frac. destruct b as [|d b].
  - apply fp_alt_r.
    + rewrite <- app_assoc. apply nomatch_alt1. exact Hs.
    + cbn [RSeqs]. eapply fp_seq.
      * apply fp_plus_chr; [apply write_digits_digits| |reflexivity].
        rewrite write_digits_nil. intros ->; now apply Hab.
      * change ("."%char :: write_digits []) with (["."%char] ++ []). eapply fp_seq; [now apply fp_chr|].
        apply fp_star_chr; auto.
  - apply fp_alt_l. cbn [RSeqs]. eapply fp_seq.
    + apply fp_star_chr; [apply write_digits_digits|reflexivity].
    + change ("."%char :: write_digits (d :: b)) with (["."%char] ++ write_digits (d :: b)).
      eapply fp_seq; [now apply fp_chr|].
      apply fp_plus_chr; auto using write_digits_digits. discriminate.
Qed.

Lemma nomatch_FNUMBER_int sg d p s c :
  d <> [] -> hd_not is_mant s -> nomatch FNUMBER_RE p (write_sign sg ++ write_digits d ++ s) c.
Proof.
  intros Hd Hs. apply nomatch_den; intros p' s' c' H.
  apply den_FNUMBER in H as (sg' & a & b & Hab & E & _).
  apply sign_split in E as [_ E].
  - unfold mant_frac in E. rewrite <- app_assoc in E.
    apply (class_split is_digit) in E as [_ E]; auto using write_digits_digits, hd_not_mant_digit;
      try reflexivity.
    subst s. cbn in Hs. discriminate.
  - destruct d as [|[] d]; try congruence; reflexivity.
  - apply (mant_hd_not_sign a (Some b)). split; [exact Hab|discriminate].
Qed.

Lemma fp_INT sg d p s c :
  d <> [] -> hd_not is_mant s -> (sg = NoSign -> p <> Some "."%char) ->
  fp INTNUMBER_RE p (write_sign sg ++ write_digits d) s c c.
Proof.
  intros Hd Hs Hp. unfold INTNUMBER_RE; cbn [RSeqs]. eapply fp_seq.
  { apply fp_SIGN. destruct d as [|[] d]; try congruence; reflexivity. }
  change (write_digits d) with ([] ++ write_digits d). eapply fp_seq.
  { apply fp_behind. destruct sg; cbn; auto. destruct p as [x|]; [|reflexivity].
    specialize (Hp eq_refl). destruct (Ascii.eqb_spec "." x); congruence. }
  cbn [pa]. rewrite <- (app_nil_r (write_digits d)). eapply fp_seq.
  { apply fp_plus_chr; auto using write_digits_digits, hd_not_mant_digit.
    now rewrite write_digits_nil. }
  apply fp_ahead_neg. apply nomatch_first; [reflexivity|].
  apply hd_not_mant_dot in Hs. destruct s; [exact I|exact Hs].
Qed.

Lemma fp_FINT sg i f p s c :
  mant_ok i f -> hd_not is_mant s -> (sg = NoSign -> f = None -> p <> Some "."%char) ->
  fp (RAlt FNUMBER_RE INTNUMBER_RE) p (write_sign sg ++ mant i f) s c c.
Proof.
  intros [H1 H2] Hs Hp. destruct f as [f|].
  - apply fp_alt_l. apply fp_FNUMBER; auto using hd_not_mant_digit.
  - unfold mant. rewrite app_nil_r. apply fp_alt_r.
    + rewrite <- app_assoc. apply nomatch_FNUMBER_int; auto.
    + apply fp_INT; auto.
Qed.

Lemma nomatch_EXP_plain sg i f p s c :
  mant_ok i f -> follow_plain s ->
  nomatch EXPNUMBER_RE p (write_sign sg ++ mant i f ++ s) c.
Proof.
  intros Hok Hs. apply nomatch_den; intros p' s' c' H.
  apply den_EXP in H as (sg' & i' & f' & e & Hok' & _ & E & _).
  apply sign_split in E as [_ E]; auto using mant_hd_not_sign.
  apply (class_split is_mant) in E as [_ E]; auto using mant_chars.
  - subst s. unfold follow_plain in Hs. destruct (expo_hd e s') as [_ (x & t & Ex & Hx)].
    rewrite Ex in Hs. cbn in Hs. rewrite Hx, orb_true_r in Hs. discriminate.
  - now apply hd_not_or_l in Hs.
  - apply expo_hd.
Qed.

Lemma fp_EXP sg i f e p s c :
  mant_ok i f -> 1 <= length (snd e) <= 3 -> hd_not is_digit s ->
  (sg = NoSign -> f = None -> p <> Some "."%char) ->
  fp EXPNUMBER_RE p (write_sign sg ++ mant i f ++ expo e) s c c.
Proof.
  intros Hok Hl Hs Hp. unfold EXPNUMBER_RE; cbn [RSeqs]. rewrite app_assoc. eapply fp_seq.
  { apply fp_FINT; auto. apply expo_hd. }
  destruct e as [[cap sg2] d]. cbn [expo snd] in *.
  match goal with |- fp _ _ (?x :: ?t) _ _ _ => change (x :: t) with ([x] ++ t) end.
  eapply fp_seq.
  { unfold c_of. apply fp_chr. destruct cap; reflexivity. }
  eapply fp_seq.
  { apply fp_SIGN. destruct d as [|[] d]; cbn in Hl; try lia; reflexivity. }
  apply fp_rep_chr; auto using write_digits_digits. now rewrite write_digits_len.
Qed.

(** The general number pattern consumes exactly a token that is not glued to
    what follows. *)
Theorem fp_NUMBER n p s c :
  num_ok n -> follow_ok n s -> prev_ok p n -> fp NUMBER_RE p (write_num n) s c c.
Proof.
  intros Hn Hs Hp. rewrite write_num_split. unfold NUMBER_RE; cbn [RAlts].
  pose proof (num_ok_mant n Hn) as Hm. unfold follow_ok in Hs.
  destruct Hn as (_ & _ & He). destruct (n_exp n) as [e|]; cbn [exp_txt].
  - apply fp_alt_l. apply fp_EXP; auto. destruct e as [[? ?] ?]; exact He.
  - rewrite app_nil_r. apply fp_alt_r.
    + rewrite <- app_assoc. now apply nomatch_EXP_plain.
    + apply fp_FINT; auto. now apply hd_not_or_l in Hs.
Qed.

(** ** No number starts here *)
Definition start_mant (s : str) : bool :=
  match s with
  | x :: s' => is_digit x || (Ascii.eqb x "." && match s' with y :: _ => is_digit y | [] => false end)
  | [] => false
  end.
Definition start_num (s : str) : bool :=
  match s with
  | x :: s' => if is_sign x then start_mant s' else start_mant s
  | [] => false
  end.

Lemma mant_start i f s : mant_ok i f -> start_mant (mant i f ++ s) = true.
Proof.
  intros [H1 H2]. unfold mant. destruct i as [|d i].
  - destruct f as [f|]; [|exfalso; now apply H2]. cbn in *.
    destruct f as [|d f]; [congruence|]. destruct d; reflexivity.
  - destruct d; reflexivity.
Qed.

Lemma num_start n s : num_ok n -> start_num (write_num n ++ s) = true.
Proof.
  intros H. rewrite write_num_split, <- !app_assoc. apply num_ok_mant in H.
  pose proof (mant_start _ _ (exp_txt (n_exp n) ++ s) H) as E.
  destruct (mant_cons _ _ H) as (x & t & Ex & Hx).
  rewrite Ex in E |- *. destruct (n_sign n); cbn in *; auto.
  now rewrite (is_mant_not_sign x Hx).
Qed.

Lemma nomatch_NUMBER p s c : start_num s = false -> nomatch NUMBER_RE p s c.
Proof.
  intros H. apply nomatch_den; intros p' s' c' Hd.
  apply den_NUMBER in Hd as (n & Hn & -> & _). rewrite num_start in H by exact Hn. discriminate.
Qed.

Definition bad_last (c : ascii) : bool := is_sign c || Ascii.eqb c ".".

Lemma last_not_cons {A} (f : A -> bool) x l : l <> [] -> last_not f (x :: l) -> last_not f l.
Proof.
  intros Hne. unfold last_not; cbn. destruct (rev l) as [|y t] eqn:E.
  - apply (f_equal (@rev A)) in E. rewrite rev_involutive in E. now subst l.
  - cbn; auto.
Qed.

Lemma start_sep sep s :
  sep <> [] -> forallb (fun c => negb (is_digit c)) sep = true ->
  (last_not bad_last sep \/ s = []) -> start_num (sep ++ s) = false.
Proof.
  assert (SM : forall x sep s, forallb (fun c => negb (is_digit c)) (x :: sep) = true ->
             (last_not bad_last (x :: sep) \/ s = []) -> start_mant ((x :: sep) ++ s) = false).
  { intros x [|y sep0] s0 H Hl; cbn in H |- *; apply andb_true_iff in H as [Hx H].
    - apply negb_true_iff in Hx; rewrite Hx; cbn.
      destruct (Ascii.eqb_spec x "."); [|reflexivity]. subst x.
      destruct Hl as [Hl|Hl]; [cbn in Hl; discriminate|]. subst s0; reflexivity.
    - apply andb_true_iff in H as [Hy H]. apply negb_true_iff in Hx, Hy. rewrite Hx, Hy.
      now rewrite andb_false_r. }
  intros Hne H Hl. destruct sep as [|x sep]; [congruence|]. cbn [start_num app].
  destruct (is_sign x) eqn:Ex; [|now apply SM].
  destruct sep as [|y sep].
  - destruct Hl as [Hl|Hl]; [|subst s; reflexivity].
    unfold last_not in Hl; cbn in Hl. unfold bad_last in Hl. rewrite Ex in Hl; discriminate.
  - apply SM.
    + cbn in H |- *. apply andb_true_iff in H as [_ H]; exact H.
    + destruct Hl as [Hl|Hl]; [left|right; exact Hl]. apply last_not_cons in Hl; [exact Hl|discriminate].
Qed.

Lemma skips_NUMBER sep s : forall p,
  forallb (fun c => negb (is_digit c)) sep = true ->
  (last_not bad_last sep \/ s = []) -> skips NUMBER_RE p sep s.
Proof.
  induction sep as [|x sep IH]; intros p H Hl; cbn [skips]; [exact I|]. split.
  - apply nomatch_NUMBER, start_sep; auto. discriminate.
  - apply IH; [cbn in H; apply andb_true_iff in H; tauto|].
    destruct Hl as [Hl|Hl]; [|right; exact Hl].
    destruct sep as [|y sep]; [left; exact I|]. left. apply last_not_cons in Hl; [exact Hl|discriminate].
Qed.

(** ** get_numbers on separated tokens *)

(** Text of a line: leading text, then tokens each followed by some text. *)
Definition body (l : list (num * str)) : str :=
  concat (map (fun x => write_num (fst x) ++ snd x) l).

Definition no_digit (s : str) : Prop := forallb (fun c => negb (is_digit c)) s = true.

(** Separators: no digits, not glued to the neighbouring tokens. *)
Fixpoint seps_ok (l : list (num * str)) : Prop :=
  match l with
  | [] => True
  | (n, s) :: l' =>
      num_ok n /\ no_digit s /\ follow_ok n s /\
      match l' with
      | [] => True
      | (n', _) :: _ => last_not bad_last s /\
                        (s = [] -> n_sign n' <> NoSign)
      end /\ seps_ok l'
  end.

Lemma follow_ok_app n s t :
  follow_ok n s -> (s = [] -> follow_ok n t) -> follow_ok n (s ++ t).
Proof. intros H Ht. destruct s as [|x s]; [now apply Ht|]. unfold follow_ok in *. destruct (n_exp n); exact H. Qed.

Lemma follow_ok_nil n : follow_ok n [].
Proof. unfold follow_ok; destruct (n_exp n); exact I. Qed.

Lemma follow_ok_signed n n' t : n_sign n' <> NoSign -> follow_ok n (write_num n' ++ t).
Proof.
  intros H. rewrite write_num_split. unfold follow_ok, follow_plain.
  destruct (n_sign n'); [congruence| |]; destruct (n_exp n); reflexivity.
Qed.

Lemma write_num_nonempty n : num_ok n -> write_num n <> [].
Proof.
  intros H E. rewrite write_num_split in E. apply app_eq_nil in E as [_ E]. apply app_eq_nil in E as [E _].
  now apply (mant_nonempty _ _ (num_ok_mant n H)).
Qed.

Lemma prev_ok_last p s n :
  last_not bad_last s -> (s = [] -> n_sign n = NoSign -> p <> Some "."%char) ->
  prev_ok (pa p s) n.
Proof.
  intros Hl Hp Hs _ E. rewrite pa_rev in E. unfold last_not in Hl.
  destruct (rev s) as [|x t] eqn:Er.
  - apply (f_equal (@rev ascii)) in Er. rewrite rev_involutive in Er. now apply (Hp Er).
  - injection E as ->. cbn in Hl. discriminate.
Qed.

Lemma iter_tokens : forall l fuel p s0,
  length l < fuel ->
  no_digit s0 -> (l <> [] -> last_not bad_last s0) ->
  (s0 = [] -> match l with [] => True | (n, _) :: _ => prev_ok p n end) ->
  seps_ok l ->
  map (fun x => m_text (snd x)) (iter_from fuel NUMBER_RE p (s0 ++ body l)) = map (fun x => write_num (fst x)) l.
Proof.
  induction l as [|[n s] l IH]; intros fuel p s0 Hf Hd Hl Hp Hok;
    destruct fuel as [|fuel]; try (cbn in Hf; lia); cbn [iter_from].
  - cbn [body map concat]. rewrite app_nil_r, search_from_none; [reflexivity| |].
    + apply skips_NUMBER; auto.
    + apply nomatch_NUMBER; reflexivity.
  - destruct Hok as (Hn & Hs & Hfol & Hnext & Hok).
    cbn [body map concat fst snd]. fold (body l). rewrite <- app_assoc.
    rewrite search_from_skip.
    2: { apply skips_NUMBER; auto. left. apply Hl; discriminate. }
    assert (FP : fp NUMBER_RE (pa p s0) (write_num n) (s ++ body l) [] []).
    { apply fp_NUMBER; auto.
      - apply follow_ok_app; [exact Hfol|]. intros ->.
        destruct l as [|[n' s'] l']; [apply follow_ok_nil|].
        cbn [body map concat fst snd]. rewrite <- app_assoc. apply follow_ok_signed. now apply Hnext.
      - destruct s0 as [|x s0]; [cbn; now apply Hp|].
        apply prev_ok_last; [apply Hl; discriminate|discriminate]. }
    rewrite (search_from_hit _ _ _ _ _ FP). cbn [map snd m_text m_prev m_rest fst].
    destruct (write_num n) as [|z tl] eqn:Ez; [exfalso; now apply (write_num_nonempty n)|].
    f_equal. apply IH; auto.
    + cbn in Hf; lia.
    + intros Hne. destruct l as [|[n' s'] l']; [congruence|]. apply Hnext.
    + intros ->. destruct l as [|[n' s'] l']; [exact I|]. intros Hsg; exfalso.
      destruct Hnext as [_ Hnext]. now apply Hnext.
Qed.

Lemma body_len l : seps_ok l -> length l <= length (body l).
Proof.
  induction l as [|[n s] l IH]; cbn; intros H; [lia|].
  fold (body l). destruct H as (Hn & _ & _ & _ & Hok).
  pose proof (write_num_nonempty n Hn). rewrite !app_length.
  specialize (IH Hok). destruct (write_num n); [congruence|cbn; lia].
Qed.

Theorem get_numbers_tokens s0 l :
  no_digit s0 -> (l <> [] -> last_not bad_last s0) -> seps_ok l ->
  get_numbers (s0 ++ body l) = map (fun x => write_num (fst x)) l.
Proof.
  intros H0 Hl Hok. unfold get_numbers, findall, finditer. rewrite map_map.
  apply iter_tokens; auto.
  - rewrite app_length. pose proof (body_len l Hok). lia.
  - intros _. destruct l as [|[n s] l]; [exact I|]. intros _ _. discriminate.
Qed.

(** ** get_numbers on any line *)
Lemma iter_sound r : forall fuel p s,
  exists rest, s = concat (map (fun x => fst x ++ m_text (snd x)) (iter_from fuel r p s)) ++ rest \/
               Exists (fun x => m_text (snd x) = []) (iter_from fuel r p s).
Proof.
  induction fuel as [|fuel IH]; intros p s; cbn [iter_from].
  - exists s; left; reflexivity.
  - destruct (search_from r p s) as [[pre x]|] eqn:E; [|exists s; left; reflexivity].
    apply search_sound in E as (s' & -> & _ & _). 
    destruct (m_text x) as [|y t] eqn:Et.
    + exists []; right. left. cbn. exact Et.
    + destruct (IH (m_prev x) (m_rest x)) as (rest & [Hr|Hr]).
      * exists rest; left. cbn [map concat fst snd]. rewrite Et. rewrite Hr at 1.
        now rewrite <- !app_assoc.
      * exists rest; right. now right.
Qed.

Lemma iter_texts fuel : forall p s, Forall (fun x => exists n, num_ok n /\ m_text (snd x) = write_num n)
                               (iter_from fuel NUMBER_RE p s).
Proof.
  induction fuel as [|fuel IH]; intros p s; cbn [iter_from]; [constructor|].
  destruct (search_from NUMBER_RE p s) as [[pre x]|] eqn:E; [|constructor].
  apply search_sound in E as (s' & -> & -> & Hd).
  apply den_NUMBER in Hd as (n & Hn & E & _ & _). apply app_inv_tail in E.
  constructor; [exists n; auto|].
  destruct (m_text x); [|apply IH]. destruct (m_rest x); [constructor|apply IH].
Qed.

(** The tokens of any line are number tokens, occurring in order without overlap. *)
Theorem get_numbers_sound line :
  exists parts rest,
    line = concat (map (fun x => fst x ++ write_num (snd x)) parts) ++ rest /\
    Forall num_ok (map snd parts) /\
    get_numbers line = map (fun x => write_num (snd x)) parts.
Proof.
  unfold get_numbers, findall, finditer.
  set (its := iter_from (S (length line)) NUMBER_RE None line).
  pose proof (iter_texts (S (length line)) None line) as HT. fold its in HT.
  destruct (iter_sound NUMBER_RE (S (length line)) None line) as (rest & [Hr|Hr]); fold its in Hr.
  - assert (exists parts, concat (map (fun x => fst x ++ m_text (snd x)) its) = concat (map (fun x => fst x ++ write_num (snd x)) parts)
      /\ Forall num_ok (map snd parts) /\ map m_text (map snd its) = map (fun x => write_num (snd x)) parts) as (parts & H1 & H2 & H3).
    { revert HT. generalize its. clear.
      induction 1 as [|x l (n & Hn & Ht) _ (parts & H1 & H2 & H3)].
      - exists []; cbn; auto.
      - exists ((fst x, n) :: parts). cbn. rewrite H1, H3. rewrite Ht. auto. }
    exists parts, rest. rewrite <- H1. auto.
  - exfalso. apply Exists_exists in Hr as (x & Hin & Hx). rewrite Forall_forall in HT.
    destruct (HT x Hin) as (n & Hn & Ht). rewrite Ht in Hx. now apply (write_num_nonempty n).
Qed.
