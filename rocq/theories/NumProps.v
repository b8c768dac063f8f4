(** From the model-level lemmas on numbers to the independent specifications. *)
From Verif Require Import PyBase PyFacts Regex RegexFacts CastepRes NumSpec NumFacts NumVal SpecLine PyVal TypeConv.
Local Open Scope list_scope.
Local Open Scope nat_scope.

Lemma among_iff cs f : (forall c, f c = chr_in c (list_ascii_of_string cs)) ->
  forall c, among cs c <-> f c = true.
Proof.
  intros H c. rewrite H. unfold among, chr_in. rewrite existsb_exists. split.
  - intros Hc. exists c. split; [exact Hc|apply Ascii.eqb_refl].
  - intros (x & Hx & E). apply Ascii.eqb_eq in E. now subst.
Qed.

Lemma all_ascii (P : ascii -> bool) :
  forallb P (map ascii_of_nat (seq 0 256)) = true -> forall c, P c = true.
Proof.
  intros H c. rewrite forallb_forall in H. apply H.
  rewrite <- (ascii_nat_embedding c). apply in_map, in_seq. pose proof (nat_ascii_bounded c). lia.
Qed.

Lemma digit_among c : among "0123456789" c <-> is_digit c = true.
Proof.
  apply (among_iff "0123456789" is_digit). intros x. apply Bool.eqb_prop. revert x.
  apply all_ascii. vm_compute. reflexivity.
Qed.

Lemma free_digits s : free_of "0123456789" s -> no_digit s.
Proof.
  unfold free_of, no_digit. intros H. apply forallb_forall. intros c Hc.
  apply negb_true_iff. apply not_true_iff_false. intros E. apply (H c Hc), digit_among, E.
Qed.

Lemma first_hd_not cs s f : (forall c, f c = true -> among cs c) -> not_first cs s -> hd_not f s.
Proof.
  intros Hf H. destruct s as [|c s]; [exact I|]. cbn.
  destruct (f c) eqn:E; [|reflexivity]. exfalso. now apply (H c s eq_refl), Hf.
Qed.

Lemma not_last_bad s : not_last "+-." s -> last_not bad_last s.
Proof.
  intros H. unfold last_not. destruct (rev s) as [|c t] eqn:E; [exact I|]. cbn.
  destruct (bad_last c) eqn:B; [|reflexivity]. exfalso. apply (H (rev t) c).
  - rewrite <- (rev_involutive s), E. reflexivity.
  - clear -B. unfold among. revert B. unfold bad_last, is_sign. cbn [list_ascii_of_string In].
    rewrite !orb_true_iff, !Ascii.eqb_eq. intuition.
Qed.

Lemma follow_of s n : free_of "0123456789" s -> not_first ".eE" s -> follow_ok n s.
Proof.
  intros H1 H2.
  assert (D : hd_not is_digit s).
  { destruct s as [|c s]; [exact I|]. cbn. destruct (is_digit c) eqn:E; [|reflexivity].
    exfalso. apply (H1 c); [now left|]. now apply digit_among. }
  unfold follow_ok. destruct (n_exp n); [exact D|]. unfold follow_plain.
  destruct s as [|c s]; [exact I|]. cbn in D |- *. unfold is_mant, is_e. rewrite D.
  destruct (Ascii.eqb_spec c "."); [exfalso; subst; apply (H2 "."%char s eq_refl); cbn; auto|].
  destruct (Ascii.eqb_spec c "e"); [exfalso; subst; apply (H2 "e"%char s eq_refl); cbn; auto|].
  destruct (Ascii.eqb_spec c "E"); [exfalso; subst; apply (H2 "E"%char s eq_refl); cbn; auto|].
  reflexivity.
Qed.

(** A tail is a list of (number, gap after it) following a first gap. *)
Lemma tail_body ns t : tail ns t -> forall n, num_ok n ->
  exists l, write_num n ++ t = body l /\ map fst l = n :: ns /\ seps_ok l.
Proof.
  induction 1 as [s H1 H2|s m ns t H1 H2 H3 H4 Hm Ht IH]; intros n Hn.
  - exists [(n, s)]. unfold body. cbn [map concat fst snd seps_ok]. rewrite app_nil_r.
    split; [reflexivity|]. split; [reflexivity|]. split; [exact Hn|]. auto using free_digits, follow_of.
  - destruct (IH m Hm) as (l & E & F & S). exists ((n, s) :: l).
    destruct l as [|[m' s'] l]; [discriminate|]. cbn [map fst] in F. injection F as -> F.
    split; [|split].
    + unfold body in *. cbn [map concat fst snd] in *. rewrite E, <- !app_assoc. reflexivity.
    + cbn. now rewrite F.
    + cbn [seps_ok]. split; [exact Hn|]. split; [now apply free_digits|].
      split; [now apply follow_of|]. split; [|exact S].
      split; [now apply not_last_bad|]. intros ->. destruct H4; congruence.
Qed.

Theorem get_numbers_line ns line : number_line ns line -> get_numbers line = map write_num ns.
Proof.
  destruct 1 as [s H|s n ns t H1 H2 Hn Ht].
  - pose proof (get_numbers_tokens s []) as G. unfold body in G. cbn [map concat] in G.
    rewrite app_nil_r in G. apply G; [now apply free_digits|congruence|exact I].
  - destruct (tail_body ns t Ht n Hn) as (l & E & F & S). rewrite E.
    rewrite get_numbers_tokens; auto using free_digits, not_last_bad.
    rewrite <- (map_map fst write_num), F. reflexivity.
Qed.

(** ** Values *)
Lemma blank_iff c : blank c <-> is_space c = true.
Proof.
  assert (E : is_space c = existsb (N.eqb (N_of_ascii c)) [9; 10; 11; 12; 13; 28; 29; 30; 31; 32]%N).
  { apply Bool.eqb_prop. revert c. apply all_ascii. vm_compute. reflexivity. }
  rewrite E, existsb_exists. unfold blank. split.
  - intros H. exists (N_of_ascii c). split; [exact H|apply N.eqb_refl].
  - intros (x & Hx & Ex). apply N.eqb_eq in Ex. now subst.
Qed.
Lemma blanks_iff s : blanks s <-> forallb is_space s = true.
Proof.
  unfold blanks. rewrite forallb_forall, Forall_forall.
  split; intros H c Hc; apply blank_iff; auto.
Qed.

Lemma denotes_fraction s q : denotes s q -> py_fraction s = Ok (Qred q).
Proof.
  destruct 1 as [a n b Ha Hb Hn|a r b Ha Hb Hr Hz]; apply blanks_iff in Ha, Hb.
  - rewrite py_fraction_pad; auto using write_num_nospace, py_fraction_num.
  - rewrite py_fraction_pad; auto using write_ratio_nospace. rewrite py_fraction_ratio by exact Hr.
    destruct (Z.eqb_spec (decimal (r_den r)) 0); [contradiction|reflexivity].
Qed.

Definition zero_ratio (s : str) : Prop :=
  exists a r b, blanks a /\ blanks b /\ ratio_ok r /\ decimal (r_den r) = 0%Z /\ s = a ++ write_ratio r ++ b.

Lemma fraction_cases s :
  (exists q, denotes s q) \/ (zero_ratio s /\ py_fraction s = Err ZeroDivisionError) \/
  (~ (exists q, denotes s q) /\ ~ zero_ratio s /\ py_fraction s = Err ValueError).
Proof.
  assert (D : py_fraction s = Err ValueError \/ py_fraction s <> Err ValueError)
    by (destruct (py_fraction s) as [|[]]; (now left) || (right; discriminate)).
  destruct D as [D|D].
  - right; right. split; [|split; [|exact D]].
    + intros (q & Hq). apply denotes_fraction in Hq. congruence.
    + intros (a & r & b & Ha & Hb & Hr & Hz & ->). apply blanks_iff in Ha, Hb.
      rewrite py_fraction_pad in D by auto using write_ratio_nospace.
      rewrite py_fraction_ratio, Hz in D by exact Hr. discriminate.
  - apply py_fraction_inv in D as (a & w & b & -> & Ha & Hb & [(n & Hn & ->)|(r & Hr & ->)]).
    + left. exists (num_value n). constructor; auto; now apply blanks_iff.
    + destruct (Z.eq_dec (decimal (r_den r)) 0) as [Hz|Hz].
      * right; left. split.
        -- exists a, r, b. repeat split; try (now apply blanks_iff); try apply Hr; auto.
        -- rewrite py_fraction_pad by auto using write_ratio_nospace.
           rewrite py_fraction_ratio, Hz by exact Hr. reflexivity.
      * left. exists (ratio_value r). constructor; auto; now apply blanks_iff.
Qed.

Lemma float_of_fraction s q : py_fraction s = Ok (Qred q) ->
  (fits q /\ py_float s = Ok (Qred q)) \/ (~ fits q /\ py_float s = Err OverflowError).
Proof.
  intros H. unfold py_float. rewrite H. cbn [bind].
  destruct (_ <=? _)%Z eqn:E.
  - right. split; [|reflexivity]. intros F. apply fits_dec in F. congruence.
  - left. split; [now apply fits_dec|reflexivity].
Qed.

Theorem float_value s q : denotes s q -> fits q ->
  to_type TFloat (VStr s) = Ok (VFloat (FQ (Qred q))).
Proof.
  intros H F. cbn. apply denotes_fraction, float_of_fraction in H as [[_ ->]|[N _]]; [reflexivity|contradiction].
Qed.
Theorem float_overflow s q : denotes s q -> ~ fits q ->
  to_type TFloat (VStr s) = Err OverflowError.
Proof.
  intros H F. cbn. apply denotes_fraction, float_of_fraction in H as [[N _]|[_ ->]]; [contradiction|reflexivity].
Qed.
Theorem float_zero s : to_type TFloat (VStr s) = Err ZeroDivisionError <-> zero_ratio s.
Proof.
  cbn. destruct (fraction_cases s) as [(q & H)|[[H E]|(N1 & N2 & E)]].
  - pose proof H as H'. apply denotes_fraction in H.
    split.
    + destruct (float_of_fraction _ _ H) as [[_ ->]|[_ ->]]; discriminate.
    + intros (a & r & b & Ha & Hb & Hr & Hz & ->). apply blanks_iff in Ha, Hb.
      rewrite py_fraction_pad in H by auto using write_ratio_nospace.
      rewrite py_fraction_ratio, Hz in H by exact Hr. discriminate.
  - unfold py_float. rewrite E. cbn. tauto.
  - unfold py_float. rewrite E. cbn. split; [discriminate|contradiction].
Qed.
Theorem float_rejects s : to_type TFloat (VStr s) = Err ValueError <->
  ~ (exists q, denotes s q) /\ ~ zero_ratio s.
Proof.
  destruct (fraction_cases s) as [(q & H)|[[H E]|(N1 & N2 & E)]].
  - split.
    + cbn. pose proof H as H'. apply denotes_fraction in H'.
      destruct (float_of_fraction _ _ H') as [[_ ->]|[_ ->]]; discriminate.
    + intros [N _]. exfalso. apply N. eauto.
  - cbn. unfold py_float. rewrite E. cbn. split; [discriminate|tauto].
  - cbn. unfold py_float. rewrite E. cbn. tauto.
Qed.

(** Every number that get_numbers returns denotes a value. *)
Theorem get_numbers_convert line s : In s (get_numbers line) ->
  exists n, num_ok n /\ s = write_num n /\
    ((fits (num_value n) /\ to_type TFloat (VStr s) = Ok (VFloat (FQ (Qred (num_value n))))) \/
     (~ fits (num_value n) /\ to_type TFloat (VStr s) = Err OverflowError)).
Proof.
  intros H. destruct (get_numbers_sound line) as (parts & rest & _ & F & E). rewrite E in H.
  apply in_map_iff in H as (x & <- & Hx). rewrite Forall_forall in F.
  assert (Hn : num_ok (snd x)) by (apply F, in_map, Hx).
  exists (snd x). split; [exact Hn|]. split; [reflexivity|].
  pose proof (py_fraction_num _ (num_ok_wf _ Hn)) as P. cbn.
  destruct (float_of_fraction _ _ P) as [[A ->]|[A ->]]; [left|right]; auto.
Qed.

Theorem int_accepts s z : to_type TInt (VStr s) = Ok (VInt z) <->
  exists a n b, blanks a /\ blanks b /\ num_wf n /\ is_int n /\ s = a ++ write_num n ++ b /\ int_value n = z.
Proof.
  cbn. split.
  - intros H. assert (N : py_int s <> Err ValueError) by (intros E; rewrite E in H; discriminate).
    apply py_int_inv in N as (a & n & b & -> & Ha & Hb & Hw & Hi).
    exists a, n, b. rewrite !blanks_iff. repeat split; auto; try apply Hw; try apply Hi.
    rewrite py_int_pad in H by auto using write_num_nospace. rewrite py_int_num in H by auto.
    cbn in H. congruence.
  - intros (a & n & b & Ha & Hb & Hw & Hi & -> & <-). apply blanks_iff in Ha, Hb.
    rewrite py_int_pad by auto using write_num_nospace. now rewrite py_int_num.
Qed.
Theorem int_else s : (forall z, to_type TInt (VStr s) <> Ok (VInt z)) -> to_type TInt (VStr s) = Err ValueError.
Proof.
  cbn. unfold py_int. destruct (split_sign (strip s)) as [neg d].
  destruct (isdigit d); intros H; [exfalso; eapply H; reflexivity|reflexivity].
Qed.
