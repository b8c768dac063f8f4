(** Proofs about type_conv.py (text part). *)
From Verif Require Import PyBase PyFacts Regex RegexFacts RegexComplete CastepRes NumSpec NumFacts NumVal
  SpecLine PyVal TypeConv NumProps SpecType.
Local Open Scope list_scope.
Local Open Scope nat_scope.

Ltac norm_app := repeat first [rewrite <- app_assoc | progress cbn [app]].

(** ** Case-insensitive words *)
Lemma lower_upper c : lower_c (upper_c c) = lower_c c.
Proof. apply Ascii.eqb_eq. revert c. apply all_ascii. vm_compute. reflexivity. Qed.
Lemma upper_lower c : upper_c (lower_c c) = upper_c c.
Proof. apply Ascii.eqb_eq. revert c. apply all_ascii. vm_compute. reflexivity. Qed.
Lemma lower_lower c : lower_c (lower_c c) = lower_c c.
Proof. apply Ascii.eqb_eq. revert c. apply all_ascii. vm_compute. reflexivity. Qed.
Lemma alpha_lower c : is_alpha (lower_c c) = is_alpha c.
Proof. apply Bool.eqb_prop. revert c. apply all_ascii. vm_compute. reflexivity. Qed.

Lemma lower_title s : lower (title s) = lower s.
Proof.
  unfold title. generalize false. induction s as [|c s IH]; intros b; [reflexivity|].
  cbn [title_aux lower map]. f_equal; [|apply IH].
  destruct b; [apply lower_lower|apply lower_upper].
Qed.
Lemma title_lower s : title (lower s) = title s.
Proof.
  unfold title. generalize false. induction s as [|c s IH]; intros b; [reflexivity|].
  cbn [title_aux lower map]. f_equal; [destruct b; [apply lower_lower|apply upper_lower]|].
  rewrite alpha_lower. apply IH.
Qed.

Lemma title_eq s w : lower w = w -> title s = title w <-> lower s = w.
Proof.
  intros Hw. split; intros H.
  - rewrite <- lower_title, H, lower_title. exact Hw.
  - rewrite <- title_lower, H. reflexivity.
Qed.

Lemma title_in s ws : Forall (fun w => lower ($w) = $w) ws ->
  existsb (str_eqb (title s)) (map (fun w => title ($w)) ws) = true <-> one_of ws s.
Proof.
  intros Hw. rewrite existsb_exists. unfold one_of. split.
  - intros (x & Hx & E). apply in_map_iff in Hx as (w & <- & Hi).
    rewrite Forall_forall in Hw. apply str_eqb_eq in E. exists w. split; [exact Hi|].
    apply (title_eq s _ (Hw w Hi)), E.
  - intros (w & Hi & E). rewrite Forall_forall in Hw. exists (title ($w)). split.
    + apply (in_map (fun w => title ($w))), Hi.
    + apply str_eqb_eq. now apply (title_eq s _ (Hw w Hi)).
Qed.

Theorem parse_logical_iff s : parse_logical s = true <-> is_true_word s.
Proof.
  unfold parse_logical, is_true_word.
  change [$"T"; $"True"; $"1"] with (map (fun w => title ($w)) ["t"; "true"; "1"]%string).
  apply title_in. repeat constructor.
Qed.
Lemma logical_iff s : existsb (str_eqb (title s)) [$"T"; $"True"; $"F"; $"False"] = true <-> is_logical s.
Proof.
  unfold is_logical.
  change [$"T"; $"True"; $"F"; $"False"] with (map (fun w => title ($w)) ["t"; "true"; "f"; "false"]%string).
  apply title_in. repeat constructor.
Qed.

(** ** The patterns of determine_type, exactly *)
Lemma iter_den_chr_intro f : forall w p s c, forallb f w = true ->
  iter_den (den (RChr f)) (length w) p (w ++ s) c (pa p w) s c.
Proof.
  induction w as [|x w IH]; intros p s c H; cbn in *; [auto|].
  apply andb_true_iff in H as [Hx Hw]. exists (Some x), (w ++ s), c. split; [exists x; auto|]. now apply IH.
Qed.
Lemma den_rep_intro g lo hi f w p s c : forallb f w = true -> lo <= length w ->
  match hi with Some h => length w <= lo + (h - lo) | None => True end ->
  den (RRep g lo hi (RChr f)) p (w ++ s) c (pa p w) s c.
Proof. intros Hw Hl Hh. exists (length w). split; [exact Hl|split; [destruct hi; auto|]]. now apply iter_den_chr_intro. Qed.

Lemma den_SIGN_intro sg p s c : den SIGN p (write_sign sg ++ s) c (pa p (write_sign sg)) s c.
Proof. apply den_rep_intro; destruct sg; cbn; auto with arith. Qed.

Lemma digits_len d : d <> [] -> 1 <= length (write_digits d).
Proof. destruct d; [congruence|cbn; lia]. Qed.

Lemma den_FNUMBER_intro sg a b p s c : a ++ b <> [] ->
  exists p', den FNUMBER_RE p (write_sign sg ++ write_digits a ++ "."%char :: write_digits b ++ s) c p' s c.
Proof.
  intros Hab. eexists. cbn [FNUMBER_RE den]. exists (pa p (write_sign sg)). do 2 eexists. split; [apply den_SIGN_intro|].
  cbn [RSeqs den]. destruct b as [|d b].
  - right. rewrite app_nil_r in Hab. do 3 eexists. split.
    + apply (den_rep_intro true 1 None is_digit (write_digits a)); auto using write_digits_digits, digits_len.
    + do 3 eexists. split; [exists "."%char; cbn; auto|].
      apply (den_rep_intro true 0 None is_digit (write_digits [])); auto.
  - left. do 3 eexists. split.
    + apply (den_rep_intro true 0 None is_digit (write_digits a)); auto using write_digits_digits with arith.
    + do 3 eexists. split; [exists "."%char; cbn; auto|].
      apply (den_rep_intro true 1 None is_digit (write_digits (d :: b))); auto using write_digits_digits, digits_len.
      apply digits_len. discriminate.
Qed.

Lemma den_INT_intro sg d p s c : d <> [] -> hd_not (Ascii.eqb ".") s -> pa p (write_sign sg) <> Some "."%char ->
  den INTNUMBER_RE p (write_sign sg ++ write_digits d ++ s) c (pa (pa p (write_sign sg)) (write_digits d)) s c.
Proof.
  intros Hd Hs Hp. unfold INTNUMBER_RE; cbn [RSeqs den].
  do 3 eexists. split; [apply den_SIGN_intro|].
  do 3 eexists. split.
  { repeat split. destruct (pa p (write_sign sg)) as [x|]; [|reflexivity].
    destruct (Ascii.eqb_spec "." x); [congruence|reflexivity]. }
  do 3 eexists. split.
  { apply (den_rep_intro true 1 None is_digit (write_digits d)); auto using write_digits_digits, digits_len. }
  repeat split. destruct s as [|y s]; [reflexivity|]. unfold hd_not in Hs. cbn [m RChar]. now rewrite Hs.
Qed.

Lemma spaced_iff r s : rep_ok (spaced r) = true ->
  re_match_test (spaced r) s = true <->
  exists w t, s = w ++ t /\ forallb is_space w = true /\
    exists p' s' c', den r (pa None w) t [] p' s' c'.
Proof.
  intros W. rewrite match_test_iff by exact W. split.
  - intros (p' & s' & c' & n & Hlo & _ & H). destruct n as [|n]; [lia|]. cbn [iter_den] in H.
    destruct H as (p1 & s1 & c1 & H & _). cbn [den] in H. destruct H as (p2 & s2 & c2 & H & H').
    apply (den_rep_chr true 0 None is_space) in H as (w & -> & _ & _ & Hw & -> & <-).
    exists w, s2. eauto 8.
  - intros (w & t & -> & Hw & p' & s' & c' & H). exists p', s', c'. exists 1.
    split; [lia|]. split; [exact I|]. cbn [iter_den]. do 3 eexists. split; [|auto].
    cbn [den]. do 3 eexists. split; [|exact H].
    apply (den_rep_intro true 0 None is_space); auto with arith.
Qed.

Definition unspaced (t : str) : Prop := hd_not is_space t.

Lemma start_num_unspaced t : start_num t = true -> unspaced t.
Proof.
  destruct t as [|x t]; [discriminate|]. cbn. intros H.
  assert (C : is_sign x || is_digit x || Ascii.eqb x "." = true).
  { destruct (is_sign x); [reflexivity|]. unfold start_mant in H.
    destruct (is_digit x); [reflexivity|]. cbn in *. now destruct (Ascii.eqb x "."). }
  revert x C H. assert (G : forall x, is_sign x || is_digit x || Ascii.eqb x "." = true -> is_space x = false)
    by ascii_dec. intros; auto.
Qed.

(** With the leading blanks removed, only one place to start remains. *)
Lemma spaced_at r w t : rep_ok (spaced r) = true -> forallb is_space w = true -> unspaced t ->
  (forall p s p' s' c', den r p s [] p' s' c' -> start_num s = true) ->
  re_match_test (spaced r) (w ++ t) = true <-> exists p' s' c', den r (pa None w) t [] p' s' c'.
Proof.
  intros W Hw Ht Hr. rewrite spaced_iff by exact W. split.
  - intros (w' & t' & E & Hw' & p' & s' & c' & H).
    assert (U : unspaced t') by (eapply start_num_unspaced, Hr, H).
    destruct (class_split is_space w w' t t' Hw Hw' Ht U E) as [-> ->]. eauto.
  - intros H. exists w, t. auto.
Qed.

Lemma pa_space w : forallb is_space w = true -> pa None w = None \/ exists x, pa None w = Some x /\ is_space x = true.
Proof.
  intros H. rewrite pa_rev. rewrite <- forallb_rev in H.
  destruct (rev w) as [|x r]; [now left|]. right. exists x. cbn in H. apply andb_true_iff in H. tauto.
Qed.

Lemma space_not_dot w sg : forallb is_space w = true -> pa (pa None w) (write_sign sg) <> Some "."%char.
Proof.
  intros H. destruct sg; cbn [write_sign pa]; try discriminate.
  destruct (pa_space w H) as [->|(x & -> & Hx)]; [discriminate|]. intros E. injection E as ->. discriminate.
Qed.

Lemma sg_start sg d s : d <> [] -> start_num (write_sign sg ++ write_digits d ++ s) = true.
Proof. destruct d as [|[] d]; [congruence|..]; intros _; destruct sg; reflexivity. Qed.
Lemma frac_start sg a b s : a ++ b <> [] ->
  start_num (write_sign sg ++ write_digits a ++ "."%char :: write_digits b ++ s) = true.
Proof.
  destruct a as [|a0 a].
  - destruct b as [|b0 b]; [now intros []|]. intros _. destruct b0, sg; reflexivity.
  - intros _. destruct a0, sg; reflexivity.
Qed.
Lemma float_prefix_cases t : float_prefix t <->
  (exists sg a b rest, a ++ b <> [] /\ t = write_sign sg ++ write_digits a ++ "."%char :: write_digits b ++ rest) \/
  (exists sg i e rest, i <> [] /\ 1 <= length (snd e) <= 3 /\ t = write_sign sg ++ write_digits i ++ expo e ++ rest).
Proof.
  split.
  - intros (n & rest & (H1 & H2 & H3) & H & ->). rewrite write_num_split. destruct n as [sg i f e].
    unfold frac_digits in *; cbn [n_sign n_int n_frac n_exp] in *.
    unfold mant. destruct f as [f|].
    + left. exists sg, i, f, (exp_txt e ++ rest). split; [exact H1|].
      now norm_app.
    + right. destruct e as [[[cap es] ed]|]; [|destruct H; congruence].
      exists sg, i, (cap, es, ed), rest. split; [auto|]. split; [exact H3|].
      rewrite app_nil_r, <- !app_assoc. reflexivity.
  - intros [(sg & a & b & rest & Hab & ->)|(sg & i & [[cap es] ed] & rest & Hi & He & ->)].
    + exists {| n_sign := sg; n_int := a; n_frac := Some b; n_exp := None |}, rest.
      split; [|split].
      * split; [exact Hab|]. split; [discriminate|exact I].
      * left; discriminate.
      * unfold write_num; cbn [n_sign n_int n_frac n_exp]. rewrite <- !app_assoc. cbn. reflexivity.
    + exists {| n_sign := sg; n_int := i; n_frac := None; n_exp := Some (cap, es, ed) |}, rest.
      split; [|split].
      * split; [cbn; now rewrite app_nil_r|]. split; [auto|exact He].
      * right; discriminate.
      * rewrite write_num_split. cbn [n_sign n_int n_frac n_exp exp_txt]. unfold mant.
        rewrite app_nil_r, <- !app_assoc. reflexivity.
Qed.

Lemma den_EXPF_prefix p s c p' s' c' : den EXPFNUMBER_RE p s c p' s' c' -> float_prefix s.
Proof.
  rewrite float_prefix_cases. intros [H|H].
  - apply den_EXP in H as (sg & i & f & e & [M1 M2] & He & -> & _). unfold mant. destruct f as [f|].
    + left. exists sg, i, f, (expo e ++ s'). split; [exact M1|]. rewrite <- !app_assoc. reflexivity.
    + right. exists sg, i, e, s'. rewrite app_nil_r. auto.
  - apply den_FNUMBER in H as (sg & a & b & Hab & -> & _). left. exists sg, a, b, s'.
    split; [exact Hab|]. unfold mant_frac. rewrite <- !app_assoc. reflexivity.
Qed.

Lemma den_EXPF_intro w t : forallb is_space w = true -> float_prefix t ->
  exists p' s' c', den EXPFNUMBER_RE (pa None w) t [] p' s' c'.
Proof.
  intros Hw. rewrite float_prefix_cases.
  intros [(sg & a & b & rest & Hab & ->)|(sg & i & [[cap es] ed] & rest & Hi & He & ->)].
  - destruct (den_FNUMBER_intro sg a b (pa None w) rest [] Hab) as [p' H].
    exists p', rest, []. right. exact H.
  - do 3 eexists. left. unfold EXPNUMBER_RE. cbn [RSeqs den].
    do 3 eexists. split.
    { right. apply den_INT_intro; [exact Hi| |now apply space_not_dot]. destruct cap; reflexivity. }
    cbn [expo]. norm_app. do 3 eexists. split.
    { eexists. split; [reflexivity|]. split; [destruct cap; reflexivity|]. auto. }
    do 3 eexists. split; [norm_app; apply den_SIGN_intro|].
    apply (den_rep_intro true 1 (Some 3) is_digit (write_digits ed)); auto using write_digits_digits;
      rewrite write_digits_len; cbn [snd] in He; lia.
Qed.

Lemma float_prefix_start t : float_prefix t -> start_num t = true.
Proof.
  rewrite float_prefix_cases. intros [(sg & a & b & rest & H & ->)|(sg & i & e & rest & H & _ & ->)];
  [now apply frac_start|now apply sg_start].
Qed.

Lemma match_EXPF w t : forallb is_space w = true -> unspaced t ->
  re_match_test (spaced EXPFNUMBER_RE) (w ++ t) = true <-> float_prefix t.
Proof.
  intros Hw Ht. rewrite spaced_at; auto.
  - split; [intros (p' & s' & c' & H); eapply den_EXPF_prefix, H|now apply den_EXPF_intro].
  - intros. eapply float_prefix_start, den_EXPF_prefix; eassumption.
Qed.

(** Rationals *)
Lemma word_or_point_iff c : word_or_point c <-> is_word c || Ascii.eqb "." c = true.
Proof.
  unfold word_or_point, is_word, is_alnum, is_alpha, is_upper, is_lower, is_digit, in_range, ord.
  rewrite !orb_true_iff, !andb_true_iff, !N.leb_le, !Ascii.eqb_eq. intuition.
Qed.

Lemma digit_word c : is_digit c = true -> is_word c = true.
Proof. revert c; ascii_dec. Qed.

Lemma pa_digits p d : d <> [] -> exists x, pa p (write_digits d) = Some x /\ is_digit x = true.
Proof.
  intros H. rewrite pa_rev. pose proof (write_digits_digits d) as D. rewrite <- forallb_rev in D.
  destruct (rev (write_digits d)) as [|x r] eqn:E.
  - apply (f_equal (@rev ascii)) in E. rewrite rev_involutive in E. destruct d; [congruence|discriminate].
  - exists x. cbn in D. apply andb_true_iff in D. tauto.
Qed.

Lemma wb_after_digit x s : is_digit x = true -> word_boundary (Some x) s = true <-> hd_not is_word s.
Proof.
  intros H. unfold word_boundary. rewrite (digit_word x H). destruct s as [|y s]; cbn; [tauto|].
  destruct (is_word y); cbn; intuition congruence.
Qed.

Lemma match_RATIONAL w t : forallb is_space w = true -> unspaced t ->
  re_match_test (spaced RATIONAL_RE) (w ++ t) = true <-> ratio_prefix t.
Proof.
  intros Hw Ht. rewrite spaced_at; auto.
  - split.
    + intros (p' & s' & c' & H). unfold RATIONAL_RE in H. cbn [RSeqs den] in H.
      destruct H as (? & ? & ? & (Hb & <- & <- & <-) & ? & ? & ? & H1 & ? & ? & ? & (x & -> & Hx & -> & ->) & ? & ? & ? & H2 & (Hb2 & -> & -> & ->)).
      apply den_INT in H1 as (sg & a & Ha & -> & -> & <- & Hd1 & _).
      apply Ascii.eqb_eq in Hx. subst x.
      apply den_INT in H2 as (sg2 & b & Hb' & -> & -> & <- & Hd2 & _).
      assert (sg = NoSign) as ->.
      { destruct sg; [reflexivity|exfalso|exfalso];
        (unfold word_boundary in Hb; destruct (pa_space w Hw) as [E|(y & E & Hy)]; rewrite E in Hb; [discriminate|];
         assert (is_word y = false) as Hy' by (revert y Hy E Hb; assert (G : forall y, is_space y = true -> is_word y = false) by ascii_dec; auto);
         rewrite Hy' in Hb; discriminate). }
      exists a, sg2, b, s'. split; [exact Ha|]. split; [exact Hb'|]. split; [reflexivity|].
      rewrite pa_app in Hb2. destruct (pa_digits (pa (Some "/"%char) (write_sign sg2)) b Hb') as (y & Ey & Hy).
      rewrite Ey in Hb2. apply wb_after_digit in Hb2; [|exact Hy].
      intros z r -> Hz. apply word_or_point_iff in Hz. cbn in Hb2, Hd2. rewrite Hb2, Hd2 in Hz. discriminate.
    + intros (a & sg & b & rest & Ha & Hb & -> & Hr).
      assert (Hr1 : hd_not is_word rest).
      { destruct rest as [|z r]; [exact I|]. cbn. destruct (is_word z) eqn:E; [|reflexivity].
        exfalso. apply (Hr z r eq_refl), word_or_point_iff. now rewrite E. }
      assert (Hr2 : hd_not (Ascii.eqb ".") rest).
      { destruct rest as [|z r]; [exact I|]. cbn. destruct (Ascii.eqb "." z) eqn:E; [|reflexivity].
        exfalso. apply (Hr z r eq_refl), word_or_point_iff. rewrite E. apply orb_true_r. }
      do 3 eexists. unfold RATIONAL_RE. cbn [RSeqs den].
      do 3 eexists. split.
      { split; [|auto]. destruct a as [|a0 a]; [congruence|].
        unfold word_boundary. destruct (pa_space w Hw) as [->|(y & -> & Hy)]; [now destruct a0|].
        assert (is_word y = false) as -> by (revert y Hy; ascii_dec). now destruct a0. }
      do 3 eexists. split.
      { apply (den_INT_intro NoSign a (pa None w)); [exact Ha|reflexivity|now apply (space_not_dot w NoSign)]. }
      do 3 eexists. split; [exists "/"%char; auto|].
      do 3 eexists. split.
      { apply (den_INT_intro sg b); [exact Hb|exact Hr2|]. destruct sg; discriminate. }
      split; [|auto].
      destruct (pa_digits (pa (Some "/"%char) (write_sign sg)) b Hb) as (y & -> & Hy).
      now apply wb_after_digit.
  - intros p s p' s' c' H. unfold RATIONAL_RE in H. cbn [RSeqs den] in H.
    destruct H as (? & ? & ? & (Hb & <- & <- & <-) & ? & ? & ? & H1 & _).
    apply den_INT in H1 as (sg & a & Ha & -> & _). now apply sg_start.
Qed.

Lemma match_INT w t : forallb is_space w = true -> unspaced t -> ~ float_prefix t ->
  re_match_test (spaced INTNUMBER_RE) (w ++ t) = true <-> int_prefix t.
Proof.
  intros Hw Ht Hf. rewrite spaced_at; auto.
  - split.
    + intros (p' & s' & c' & H). apply den_INT in H as (sg & d & Hd & -> & _). exists sg, d, s'. auto.
    + intros (sg & d & rest & Hd & ->).
      (* take all the digits *)
      pose (d' := write_digits d ++ take_while is_digit rest).
      assert (D' : forallb is_digit d' = true).
      { unfold d'. rewrite forallb_app, write_digits_digits. apply take_while_all. }
      apply digits_written in D' as [ds Hds].
      assert (E : write_digits d ++ rest = write_digits ds ++ drop_while is_digit rest).
      { rewrite Hds. unfold d'. now rewrite <- app_assoc, take_drop_while. }
      rewrite E in Hf |- *.
      assert (Hne : ds <> []).
      { intros ->. unfold d' in Hds. symmetry in Hds. apply app_eq_nil in Hds as [Hds _].
        now apply write_digits_nil in Hds. }
      do 3 eexists. apply den_INT_intro; [exact Hne| |now apply space_not_dot].
      destruct (drop_while is_digit rest) as [|y r]; [exact I|]. cbn.
      destruct (Ascii.eqb_spec "." y); [|reflexivity]. subst y. exfalso. apply Hf.
      apply float_prefix_cases. left. exists sg, ds, [], r. rewrite app_nil_r. auto.
  - intros p s p' s' c' H. apply den_INT in H as (sg & d & Hd & -> & _). now apply sg_start.
Qed.

(** ** determine_type, exactly *)
Lemma logical_start s w t : s = w ++ t -> forallb is_space w = true -> is_logical s -> start_num t = true -> False.
Proof.
  intros -> Hw (x & Hx & E) Hs.
  assert (Hw0 : w = []).
  { destruct w as [|c w]; [reflexivity|]. exfalso. cbn in Hw. apply andb_true_iff in Hw as [Hc _].
    assert (Hl : lower_c c = c) by (revert c Hc E; intros c Hc _; apply Ascii.eqb_eq; revert c Hc; ascii_dec).
    cbn in E. rewrite Hl in E. cbn in Hx.
    repeat destruct Hx as [<-|Hx]; try contradiction; cbn in E; injection E as Ec _; subst c; discriminate. }
  subst w. cbn in E, Hs. destruct t as [|c t]; [discriminate|].
  assert (C : is_sign c || is_digit c || Ascii.eqb c "." = true).
  { cbn in Hs. destruct (is_sign c); [reflexivity|]. unfold start_mant in Hs.
    destruct (is_digit c); [reflexivity|]. cbn in *. now destruct (Ascii.eqb c "."). }
  assert (Hl : lower_c c = c) by (apply Ascii.eqb_eq; revert c C Hs E; intros c C _ _; revert c C; ascii_dec).
  cbn in E. rewrite Hl in E. cbn in Hx.
  repeat destruct Hx as [<-|Hx]; try contradiction; cbn in E; injection E as Ec _; subst c; discriminate.
Qed.

Lemma determine_cases w t : forallb is_space w = true -> unspaced t ->
  (is_logical (w ++ t) /\ determine_type (w ++ t) = TBool) \/
  (~ is_logical (w ++ t) /\ (float_prefix t \/ ratio_prefix t) /\ determine_type (w ++ t) = TFloat) \/
  (~ is_logical (w ++ t) /\ ~ float_prefix t /\ ~ ratio_prefix t /\ int_prefix t /\ determine_type (w ++ t) = TInt) \/
  (~ is_logical (w ++ t) /\ ~ float_prefix t /\ ~ ratio_prefix t /\ ~ int_prefix t /\ determine_type (w ++ t) = TStr).
Proof.
  intros Hw Ht. unfold determine_type.
  destruct (existsb (str_eqb (title (w ++ t))) _) eqn:E1.
  { left. split; [now apply logical_iff|reflexivity]. }
  right. assert (NL : ~ is_logical (w ++ t)) by (intros H; apply logical_iff in H; congruence).
  destruct (re_match_test (spaced EXPFNUMBER_RE) (w ++ t)) eqn:E2.
  { left. apply match_EXPF in E2; auto. }
  assert (NF : ~ float_prefix t) by (intros H; apply (match_EXPF w) in H; auto; congruence).
  destruct (re_match_test (spaced RATIONAL_RE) (w ++ t)) eqn:E3.
  { left. apply match_RATIONAL in E3; auto. }
  assert (NR : ~ ratio_prefix t) by (intros H; apply (match_RATIONAL w) in H; auto; congruence).
  right. destruct (re_match_test (spaced INTNUMBER_RE) (w ++ t)) eqn:E4.
  { left. apply match_INT in E4; auto. }
  right. repeat split; auto. intros H. apply (match_INT w) in H; auto. congruence.
Qed.

Lemma split_blanks s : exists w t, s = w ++ t /\ forallb is_space w = true /\ unspaced t.
Proof.
  exists (take_while is_space s), (drop_while is_space s).
  split; [symmetry; apply take_drop_while|]. split; [apply take_while_all|apply drop_while_hd].
Qed.

Lemma unspaced_iff t : (forall c r, t = c :: r -> ~ blank c) -> unspaced t.
Proof.
  intros H. destruct t as [|c r]; [exact I|]. cbn. destruct (is_space c) eqn:E; [|reflexivity].
  exfalso. apply (H c r eq_refl). now apply blank_iff.
Qed.

Theorem determine_exact w t : blanks w -> (forall c r, t = c :: r -> ~ blank c) ->
  (determine_type (w ++ t) = TBool <-> is_logical (w ++ t)) /\
  (determine_type (w ++ t) = TFloat <-> float_prefix t \/ ratio_prefix t) /\
  (determine_type (w ++ t) = TInt <-> int_prefix t /\ ~ float_prefix t /\ ~ ratio_prefix t) /\
  (determine_type (w ++ t) = TStr <-> ~ is_logical (w ++ t) /\ ~ int_prefix t /\ ~ float_prefix t).
Proof.
  intros Hw Ht. apply blanks_iff in Hw. apply unspaced_iff in Ht.
  assert (RS : ratio_prefix t -> start_num t = true).
  { intros (a & sg & b & rest & Ha & _ & -> & _). now apply (sg_start NoSign). }
  assert (RI : ratio_prefix t -> int_prefix t).
  { intros (a & sg & b & rest & Ha & _ & -> & _). exists NoSign, a. eexists. split; [exact Ha|reflexivity]. }
  assert (IS : int_prefix t -> start_num t = true).
  { intros (sg & d & rest & Hd & ->). now apply sg_start. }
  assert (L : is_logical (w ++ t) -> start_num t = true -> False) by (intros; eapply logical_start; eauto).
  pose proof (float_prefix_start t) as FS.
  destruct (determine_cases w t Hw Ht) as [[H ->]|[(N & H & ->)|[(N & H1 & H2 & H3 & ->)|(N & H1 & H2 & H3 & ->)]]].
  - assert (~ float_prefix t) by (intros X; auto). assert (~ ratio_prefix t) by (intros X; auto).
    assert (~ int_prefix t) by (intros X; auto).
    intuition discriminate.
  - intuition discriminate.
  - intuition discriminate.
  - intuition discriminate.
Qed.

(** ** Values whose detected type accepts them *)
Lemma detect_num_end a n b : blanks a -> (forall c t, b = c :: t -> blank c) -> num_wf n ->
  determine_type (a ++ write_num n ++ b) = (match n_frac n, n_exp n with None, None => TInt | _, _ => TFloat end).
Proof.
  intros Ha Hb Hn.
  assert (Hh : start_num (write_num n ++ b) = true).
  { rewrite write_num_split, <- !app_assoc.
    pose proof (mant_start _ _ (exp_txt (n_exp n) ++ b) (wf_mant n Hn)) as E.
    destruct (mant_cons _ _ (wf_mant n Hn)) as (x & t & Ex & Hx).
    rewrite Ex in E |- *. destruct (n_sign n); cbn in *; auto. now rewrite (is_mant_not_sign x Hx). }
  assert (U : forall c r, write_num n ++ b = c :: r -> ~ blank c).
  { intros c r E B. apply blank_iff in B. pose proof (start_num_unspaced _ Hh) as X. rewrite E in X. cbn in X. congruence. }
  pose proof (determine_exact a _ Ha U) as (_ & HF & HI & _).
  destruct Hn as (H1 & H2 & H3).
  destruct (n_frac n) as [f|] eqn:Ef.
  - apply HF. left. apply float_prefix_cases. left. exists (n_sign n), (n_int n), f, (exp_txt (n_exp n) ++ b).
    split; [unfold frac_digits in H1; now rewrite Ef in H1|].
    rewrite write_num_split, Ef. unfold mant. now norm_app.
  - specialize (H2 eq_refl). destruct (n_exp n) as [[[cap es] ed]|] eqn:Ee.
    + apply HF. left. apply float_prefix_cases. right.
      exists (n_sign n), (n_int n), (cap, es, firstn 3 ed), (write_digits (skipn 3 ed) ++ b). split; [exact H2|]. split.
      { cbn [snd]. rewrite firstn_length. destruct ed; [congruence|cbn [length]; lia]. }
      rewrite write_num_split, Ef, Ee. unfold mant, exp_txt, expo. rewrite app_nil_r.
      rewrite <- (firstn_skipn 3 ed) at 1. unfold write_digits. rewrite map_app.
      now norm_app.
    + assert (E : write_num n ++ b = write_sign (n_sign n) ++ write_digits (n_int n) ++ b).
      { rewrite write_num_split, Ef, Ee. unfold mant. cbn [exp_txt]. now rewrite !app_nil_r, <- app_assoc. }
      assert (B : hd_not (fun c => negb (is_space c)) b).
      { destruct b as [|c b]; [exact I|]. cbn. apply negb_false_iff, blank_iff. now apply (Hb c b). }
      assert (HB : hd_not is_digit b /\ hd_not (Ascii.eqb "/") b /\ hd_not (Ascii.eqb ".") b /\ hd_not is_e b).
      { destruct b as [|c b]; [cbn; auto|]. cbn in B |- *. apply negb_false_iff in B.
        clear -B. repeat split; revert c B; ascii_dec. }
      destruct HB as (B1 & B2 & B3 & B4).
      apply HI. rewrite E. split; [exists (n_sign n), (n_int n), b; auto|].
      assert (HS : forall d X, d <> [] -> hd_not is_sign (write_digits d ++ X)).
      { intros [|[] d] X H; try congruence; reflexivity. }
      split.
      * rewrite float_prefix_cases. intros [(sg & x & y & rest & Hxy & E2)|(sg & i & e & rest & Hi & _ & E2)].
        -- assert (HS2 : hd_not is_sign (write_digits x ++ "."%char :: write_digits y ++ rest))
             by (destruct x as [|[] x]; reflexivity).
           apply sign_split in E2 as [_ E2]; auto.
           apply class_split with (f := is_digit) in E2 as [_ E2]; auto using write_digits_digits.
           subst b. discriminate.
           reflexivity.
        -- apply sign_split in E2 as [_ E2]; auto.
           apply class_split with (f := is_digit) in E2 as [_ E2]; auto using write_digits_digits.
           subst b. destruct e as [[[] ?] ?]; discriminate.
           destruct e as [[[] ?] ?]; reflexivity.
      * intros (x & sg & y & rest & Hx & Hy & E2 & _).
        change (write_digits x ++ ?r) with (write_sign NoSign ++ write_digits x ++ r) in E2.
        apply sign_split in E2 as [_ E2]; auto.
        apply class_split with (f := is_digit) in E2 as [_ E2]; auto using write_digits_digits.
        subst b. discriminate.
        reflexivity.
Qed.

Lemma detect_num a n b : blanks a -> blanks b -> num_wf n ->
  determine_type (a ++ write_num n ++ b) = (match n_frac n, n_exp n with None, None => TInt | _, _ => TFloat end).
Proof. intros Ha Hb. apply detect_num_end; [exact Ha|]. intros c t ->. now inversion Hb. Qed.

Lemma detect_ratio a r b : blanks a -> blanks b -> ratio_ok r -> r_sign r = NoSign ->
  determine_type (a ++ write_ratio r ++ b) = TFloat.
Proof.
  intros Ha Hb [H1 H2] Hs. unfold write_ratio. rewrite Hs. cbn [write_sign app].
  apply determine_exact; auto.
  - intros c t E B. apply blank_iff in B. destruct (r_num r) as [|[] ds]; try congruence;
      cbn in E; injection E as <- _; discriminate.
  - right. exists (r_num r), NoSign, (r_den r), b. rewrite <- app_assoc. repeat split; auto.
    intros c t -> W. assert (B : blank c) by now inversion Hb. apply blank_iff in B. apply word_or_point_iff in W.
    assert (G : forall c, is_word c || Ascii.eqb "." c = true -> is_space c = false) by ascii_dec.
    rewrite (G c W) in B. discriminate.
Qed.

(** ** to_type over structures *)
Lemma mapM_ok {A B} (f : A -> result B) l l' : mapM f l = Ok l' <-> Forall2 (fun a b => f a = Ok b) l l'.
Proof.
  revert l'. induction l as [|x l IH]; intros l'; cbn.
  - split; [intros H; injection H as <-; constructor|inversion 1; reflexivity].
  - split.
    + intros H. destruct (f x) eqn:E; [|discriminate]. cbn in H.
      destruct (mapM f l) as [ys|] eqn:Em; [|discriminate]. cbn in H. injection H as <-.
      constructor; [exact E|]. now apply IH.
    + inversion 1 as [|? b ? bs H1 H2]; subst. rewrite H1. cbn. apply IH in H2. rewrite H2. reflexivity.
Qed.
Lemma mapM_err {A B} (f : A -> result B) l e : mapM f l = Err e -> exists x, In x l /\ f x = Err e.
Proof.
  induction l as [|x l IH]; cbn; [discriminate|].
  destruct (f x) eqn:E; cbn.
  - destruct (mapM f l) eqn:Em; cbn; [discriminate|]. intros H. injection H as ->.
    destruct (IH eq_refl) as (y & Hy & Ey). eauto.
  - intros H. injection H as ->. eauto.
Qed.

Lemma reads_iff t s v : parse_text t s = Ok v <-> reads t s v.
Proof.
  split.
  - intros H. destruct t; cbn [parse_text] in H.
    + destruct (py_int s) as [z|] eqn:E; [|discriminate]. cbn in H. injection H as <-.
      assert (E' : to_type TInt (VStr s) = Ok (VInt z)) by (cbn; now rewrite E).
      apply int_accepts in E' as (a & n & b & Ha & Hb & Hn & Hi & -> & <-). now constructor.
    + destruct (fraction_cases s) as [(q & D)|[[_ E]|(_ & _ & E)]].
      * pose proof (denotes_fraction _ _ D) as P. destruct (float_of_fraction _ _ P) as [[F E]|[F E]];
          rewrite E in H; [|discriminate]. cbn in H. injection H as <-. now constructor.
      * unfold py_float in H. rewrite E in H. discriminate.
      * unfold py_float in H. rewrite E in H. discriminate.
    + injection H as <-. destruct (parse_logical s) eqn:E.
      * apply reads_true, parse_logical_iff, E.
      * apply reads_false. intros X. apply parse_logical_iff in X. congruence.
    + injection H as <-. constructor.
  - destruct 1 as [a n b Ha Hb Hn Hi|s q D F|s H|s H|s].
    + change (to_type TInt (VStr (a ++ write_num n ++ b)) = Ok (VInt (int_value n))). apply int_accepts.
      exists a, n, b. auto 8.
    + exact (float_value s q D F).
    + cbn [parse_text]. apply parse_logical_iff in H. now rewrite H.
    + cbn [parse_text]. destruct (parse_logical s) eqn:E; [|reflexivity]. apply parse_logical_iff in E. contradiction.
    + reflexivity.
Qed.

Lemma Forall2_imp {A B} (P : A -> Prop) (R S : A -> B -> Prop) l l' :
  Forall P l -> (forall a b, P a -> R a b -> S a b) -> Forall2 R l l' -> Forall2 S l l'.
Proof.
  intros HP HI H. revert HP. induction H; intros HP; constructor; inversion HP; subst; auto.
Qed.

Theorem to_type_iff t v v' : to_type t v = Ok v' <-> converted t v v'.
Proof.
  revert v'. induction v as [|b|z|f|a b|s|s|l IH|l IH|d items IH] using pyval_ind'; intros v';
    try (cbn; split; [intros H; injection H as <-; apply cv_scalar; exact I|
         inversion 1; subst; reflexivity]).
  - cbn [to_type]. rewrite reads_iff. split; [constructor; auto|]. inversion 1; subst; [auto|].
    match goal with H : scalar _ |- _ => destruct H end.
  - cbn [to_type]. split; [intros H; injection H as <-; constructor|].
    inversion 1; subst; [reflexivity|]. match goal with H : scalar _ |- _ => destruct H end.
  - cbn [to_type]. split.
    + intros H. destruct (mapM (to_type t) l) as [l'|] eqn:E; [|discriminate]. cbn in H. injection H as <-.
      constructor. apply mapM_ok in E. eapply Forall2_imp; [exact IH| |exact E]. cbn. intros a b P Q. now apply P.
    + inversion 1 as [| |l0 l' F E1 E2| | |? S]; subst; [|destruct S].
      assert (E : mapM (to_type t) l = Ok l'). { apply mapM_ok. eapply Forall2_imp; [exact IH| |exact F]. cbn. intros a b P Q. now apply P. }
      now rewrite E.
  - cbn [to_type]. split.
    + intros H. destruct (mapM (to_type t) l) as [l'|] eqn:E; [|discriminate]. cbn in H. injection H as <-.
      constructor. apply mapM_ok in E. eapply Forall2_imp; [exact IH| |exact E]. cbn. intros a b P Q. now apply P.
    + inversion 1 as [| | |l0 l' F E1 E2| |? S]; subst; [|destruct S].
      assert (E : mapM (to_type t) l = Ok l'). { apply mapM_ok. eapply Forall2_imp; [exact IH| |exact F]. cbn. intros a b P Q. now apply P. }
      now rewrite E.
  - cbn [to_type]. set (g := fun kv => rmap (pair (fst kv)) (to_type t (snd kv))). split.
    + intros H. destruct (mapM g items) as [l'|] eqn:E; [|discriminate]. cbn in H. injection H as <-.
      constructor. apply mapM_ok in E. eapply Forall2_imp; [exact IH| |exact E]. cbn.
      intros [k a] [k' b] P Q. unfold g in Q. cbn in *. destruct (to_type t a) eqn:Ea; [|discriminate].
      cbn in Q. injection Q as <- <-. split; [reflexivity|]. now apply P.
    + inversion 1 as [|? ? l' F| | | |? S]; subst; [|destruct S].
      assert (E : mapM g items = Ok l').
      { apply mapM_ok. eapply Forall2_imp; [exact IH| |exact F]. intros [k a] [k' b] P [Q1 Q2]. unfold g. cbn in *. subst k'.
        apply P in Q2. now rewrite Q2. }
      now rewrite E.
Qed.

Theorem to_type_err t v e : to_type t v = Err e -> exists s, leaf s v /\ to_type t (VStr s) = Err e.
Proof.
  induction v as [|b|z|f|a b|s|s|l IH|l IH|d items IH] using pyval_ind'; try discriminate.
  - intros H. exists s. split; [constructor|exact H].
  - cbn [to_type]. intros H. destruct (mapM (to_type t) l) as [|e'] eqn:E; [discriminate|]. cbn in H. injection H as ->.
    apply mapM_err in E as (x & Hx & Ex). rewrite Forall_forall in IH.
    destruct (IH x Hx Ex) as (s & Hs & Es). exists s. split; [econstructor; eauto|exact Es].
  - cbn [to_type]. intros H. destruct (mapM (to_type t) l) as [|e'] eqn:E; [discriminate|]. cbn in H. injection H as ->.
    apply mapM_err in E as (x & Hx & Ex). rewrite Forall_forall in IH.
    destruct (IH x Hx Ex) as (s & Hs & Es). exists s. split; [econstructor; eauto|exact Es].
  - cbn [to_type]. intros H. destruct (mapM _ items) as [|e'] eqn:E; [discriminate|]. cbn in H. injection H as ->.
    apply mapM_err in E as ([k x] & Hx & Ex). rewrite Forall_forall in IH.
    cbn in Ex. destruct (to_type t x) as [|e'] eqn:Et; [discriminate|]. cbn in Ex. injection Ex as ->.
    destruct (IH (k, x) Hx Et) as (s & Hs & Es). exists s. split; [econstructor; eauto|exact Es].
Qed.

Lemma leaf_err t s v : leaf s v -> (exists e, to_type t (VStr s) = Err e) -> exists e, to_type t v = Err e.
Proof.
  intros H [e He]. induction H as [|dd items k v Hi _ [e' IH]|l v Hi _ [e' IH]|l v Hi _ [e' IH]].
  - eauto.
  - cbn [to_type]. destruct (mapM _ items) as [l'|e2] eqn:E; [|cbn; eauto]. exfalso.
    apply mapM_ok in E. revert Hi. induction E as [|a b l l' Ha _ IHl]; [easy|]. intros [->|Hi]; [|auto].
    cbn in Ha. rewrite IH in Ha. discriminate.
  - cbn [to_type]. destruct (mapM _ l) as [l'|e2] eqn:E; [|cbn; eauto]. exfalso.
    apply mapM_ok in E. revert Hi. induction E as [|a b l l' Ha _ IHl]; [easy|]. intros [->|Hi]; [|auto]. congruence.
  - cbn [to_type]. destruct (mapM _ l) as [l'|e2] eqn:E; [|cbn; eauto]. exfalso.
    apply mapM_ok in E. revert Hi. induction E as [|a b l l' Ha _ IHl]; [easy|]. intros [->|Hi]; [|auto]. congruence.
Qed.

Theorem to_type_fails t v : (exists e, to_type t v = Err e) <-> exists s, leaf s v /\ ~ exists w, reads t s w.
Proof.
  split.
  - intros [e H]. apply to_type_err in H as (s & Hs & E). exists s. split; [exact Hs|].
    intros [w R]. apply reads_iff in R. cbn in E. congruence.
  - intros (s & Hs & N). apply (leaf_err t s v Hs). cbn. destruct (parse_text t s) as [w|e] eqn:E; [|eauto].
    exfalso. apply N. exists w. now apply reads_iff.
Qed.

(** ** parse_int_or_float *)
Lemma isdigit_unsigned s : isdigit s = true <-> exists d, d <> [] /\ s = write_digits d.
Proof.
  split; [apply isdigit_inv|]. intros (d & Hd & ->). now apply isdigit_written.
Qed.

Lemma forallb_char s : s <> [] -> forallb (fun c => isdigit [c]) s = isdigit s.
Proof.
  intros H. unfold isdigit at 2. replace (negb (isempty s)) with true by now destruct s.
  cbn [andb]. clear H. induction s as [|c s IH]; [reflexivity|].
  cbn [forallb]. rewrite IH. f_equal. unfold isdigit. cbn. apply andb_true_r.
Qed.

Definition unsigned_int (n : num) : Prop := n_sign n = NoSign /\ is_int n.

Lemma isdigit_num n : num_wf n -> isdigit (write_num n) = true <-> unsigned_int n.
Proof.
  intros Hn. split.
  - intros H. unfold isdigit in H. apply andb_true_iff in H as [_ H]. unfold write_num in H.
    rewrite !forallb_app in H. apply andb_true_iff in H as [H1 H]. apply andb_true_iff in H as [_ H].
    apply andb_true_iff in H as [H2 H3]. repeat split.
    + destruct (n_sign n); [reflexivity|discriminate..].
    + destruct (n_frac n); [discriminate|reflexivity].
    + destruct (n_exp n) as [[[[] ?] ?]|]; [discriminate..|reflexivity].
  - intros (Hs & Hf & He). unfold write_num. rewrite Hs, Hf, He. cbn [write_sign app]. rewrite app_nil_r.
    apply isdigit_written. destruct Hn as (_ & H & _). auto.
Qed.

Lemma forallb_isdigit l : Forall num_wf l ->
  forallb isdigit (map write_num l) = true <-> Forall unsigned_int l.
Proof.
  intros H. rewrite forallb_forall, Forall_forall. rewrite Forall_forall in H. split.
  - intros A n Hn. apply isdigit_num; [auto|]. apply A, in_map, Hn.
  - intros A x Hx. apply in_map_iff in Hx as (n & <- & Hn). apply isdigit_num; auto.
Qed.

Lemma mapM_map {A B C} (g : A -> B) (f : B -> result C) (h : A -> C) l :
  (forall a, In a l -> f (g a) = Ok (h a)) -> mapM f (map g l) = Ok (map h l).
Proof.
  intros H. induction l as [|a l IH]; [reflexivity|]. cbn.
  rewrite (H a) by now left. cbn. rewrite IH by (intros; apply H; now right). reflexivity.
Qed.

Theorem int_or_float_seq l : Forall num_wf l -> Forall (fun n => fits (num_value n)) l ->
  (Forall unsigned_int l ->
     parse_int_or_float_seq (map write_num l) = Ok (VTuple (map (fun n => VInt (int_value n)) l))) /\
  (~ Forall unsigned_int l ->
     parse_int_or_float_seq (map write_num l) = Ok (VTuple (map (fun n => VFloat (FQ (Qred (num_value n)))) l))).
Proof.
  intros Hw Hf. unfold parse_int_or_float_seq. split; intros H.
  - pose proof H as H'. apply forallb_isdigit in H'; [|exact Hw]. rewrite H'.
    cbn [to_type]. rewrite map_map.
    rewrite (mapM_map (fun n => VStr (write_num n)) (to_type TInt) (fun n => VInt (int_value n))); [reflexivity|].
    intros n Hn. rewrite Forall_forall in Hw, H. cbn. rewrite py_int_num; auto. apply H, Hn.
  - destruct (forallb isdigit (map write_num l)) eqn:E; [apply forallb_isdigit in E; [contradiction|exact Hw]|].
    cbn [to_type]. rewrite map_map.
    rewrite (mapM_map (fun n => VStr (write_num n)) (to_type TFloat) (fun n => VFloat (FQ (Qred (num_value n))))); [reflexivity|].
    intros n Hn. rewrite Forall_forall in Hw, Hf. cbn. rewrite py_float_num; auto.
Qed.

Theorem int_or_float_str n : num_wf n -> fits (num_value n) ->
  (unsigned_int n -> parse_int_or_float_str (write_num n) = Ok (VInt (int_value n))) /\
  (~ unsigned_int n -> parse_int_or_float_str (write_num n) = Ok (VFloat (FQ (Qred (num_value n))))).
Proof.
  intros Hw Hf. unfold parse_int_or_float_str.
  assert (Hne : write_num n <> []).
  { intros E. pose proof (isdigit_num n Hw) as D. destruct Hw as (H1 & H2 & _).
    unfold write_num in E. apply app_eq_nil in E as [_ E]. apply app_eq_nil in E as [E1 E2].
    apply write_digits_nil in E1. destruct (n_frac n); [discriminate|]. exact (H2 eq_refl E1). }
  rewrite (forallb_char _ Hne). split; intros H.
  - apply isdigit_num in H as E; [|exact Hw]. rewrite E. cbn. rewrite py_int_num; [reflexivity|auto|apply H].
  - destruct (isdigit (write_num n)) eqn:E; [apply isdigit_num in E; [contradiction|exact Hw]|].
    cbn. now rewrite py_float_num.
Qed.

(** ** The detected type accepts the value *)
Theorem detected_num a n b : blanks a -> blanks b -> num_wf n -> fits (num_value n) ->
  exists v, to_type (determine_type (a ++ write_num n ++ b)) (VStr (a ++ write_num n ++ b)) = Ok v /\
    v = match n_frac n, n_exp n with
        | None, None => VInt (int_value n)
        | _, _ => VFloat (FQ (Qred (num_value n)))
        end.
Proof.
  intros Ha Hb Hn Hf. rewrite detect_num by auto. eexists. split; [|reflexivity].
  pose proof (float_value (a ++ write_num n ++ b) _ (den_num _ _ _ Ha Hb Hn) Hf) as F.
  destruct (n_frac n) eqn:E1; [exact F|]. destruct (n_exp n) eqn:E2; [exact F|].
  apply int_accepts. exists a, n, b. repeat split; auto; apply Hn.
Qed.

Theorem detected_ratio a r b : blanks a -> blanks b -> ratio_ok r -> r_sign r = NoSign ->
  decimal (r_den r) <> 0%Z -> fits (ratio_value r) ->
  to_type (determine_type (a ++ write_ratio r ++ b)) (VStr (a ++ write_ratio r ++ b)) =
  Ok (VFloat (FQ (Qred (ratio_value r)))).
Proof.
  intros Ha Hb Hr Hs Hd Hf. rewrite detect_ratio by auto.
  apply float_value; [|exact Hf]. now constructor.
Qed.

Theorem detected_text w t : blanks w -> (forall c r, t = c :: r -> ~ blank c) ->
  ~ int_prefix t -> ~ float_prefix t ->
  exists v, to_type (determine_type (w ++ t)) (VStr (w ++ t)) = Ok v /\
    (is_logical (w ++ t) -> exists b, v = VBool b) /\ (~ is_logical (w ++ t) -> v = VStr (w ++ t)).
Proof.
  intros Hw Ht Hi Hf. destruct (determine_exact w t Hw Ht) as (H1 & _ & _ & H2).
  destruct (existsb (str_eqb (title (w ++ t))) [$"T"; $"True"; $"F"; $"False"]) eqn:E.
  - apply logical_iff in E. rewrite (proj2 H1 E). cbn [to_type parse_text].
    eexists. split; [reflexivity|]. split; [eauto|contradiction].
  - assert (N : ~ is_logical (w ++ t)) by (intros X; apply logical_iff in X; congruence).
    rewrite (proj2 H2 (conj N (conj Hi Hf))). eexists. split; [reflexivity|]. split; [contradiction|auto].
Qed.
