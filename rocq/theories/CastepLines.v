(** Kinds of lines of .castep files: starting times, eigenvalues, supercells and slopes. *)
From Verif Require Import PyBase PyVal DictUtil PyFacts Regex RegexFacts RegexComplete CastepRes NumSpec NumFacts NumProps NumVal SpecLine SpecStr NeedFacts PhraseFacts SpecTable SpecMd MdFacts SpecBands SpecCastep
  SpecCastep2 ColumnFacts TypeConv Header Stream TextParsersFacts CastepFacts PhononFacts Castep2Facts Castep3Facts LangFacts
  CastepBlocks CastepNum CastepRows CastepRest CastepFile SpecCastepFile SpecCastepRun CastepFileFacts QuietFacts CastepRunFacts CastepPieces CastepKinds CastepKinds2.
From Verif Require Import HeaderFacts BandsFacts.
From Verif Require Castep4Facts StrUtilFacts.
Local Open Scope list_scope.
Local Open Scope nat_scope.

Lemma acts_append_line k f (says : str -> effect -> Prop) : (forall l e, says l e -> exists v, e = Appends k v /\ forall r, f l [] r = append_to r (kstr k) v) -> way_of k = IsAppended ->
  line_acts (to_run f) says.
Proof.
  intros H W l e es rest st S P E. destruct (H _ _ S) as (v & -> & V). split; [exact W|]. unfold to_run, in_run. rewrite V, E, (run_appends es k v P W). reflexivity.
Qed.
(** ** Eigenvalues *)
Lemma eigen_match l t nl n : eigen_line l t nl n -> exists x, re_match EIGENVALUE_RE l = Some x /\ m_caps x = [("eigenvalue"%string, write_num n); ("nl"%string, write_digits nl); ("type"%string, $t)].
Proof.
  intros (a & u & s & Ht & Ha & Hu & Hs & Hn & ->). apply blanks_iff in Ha.
  destruct (match_hit EIGENVALUE_RE (concat [a; $t; $" eigenvalue nl "; write_digits nl; $" ="; u]) s [("eigenvalue"%string, write_num n); ("nl"%string, write_digits nl); ("type"%string, $t)]) as (x & Ex & Ec).
  { unfold EIGENVALUE_RE. apply fp_seqs.
    eapply fpl_cons; [apply fp_star_chr; [exact Ha|destruct Ht as [->| ->]; reflexivity]|].
    eapply fpl_cons; [apply fp_grp; destruct Ht as [->| ->]; [apply fp_alt_l, fp_lit|apply fp_alt_r; [apply nomatch_first; reflexivity|apply fp_lit]]|].
    eapply fpl_cons; [apply fp_lit|].
    eapply fpl_cons; [apply fp_grp, fp_plus_chr; [apply write_digits_all|now destruct nl|reflexivity]|].
    eapply fpl_cons; [apply fp_lit|].
    eapply fpl_cons; [apply (fp_labelled ["eigenvalue"]%string [n]); [exact Hu|reflexivity|exact Hs]|]. constructor. }
  exists x. split; [|exact Ec]. revert Ex. tidy. auto.
Qed.
Lemma eigen_says l t nl n : eigen_line l t nl n -> fits (num_value n) -> forall r, pspot_debug l [] r = append_to r (kstr "pspot_debug") (eigen_value t nl n).
Proof.
  intros H Hf r. destruct (eigen_match _ _ _ _ H) as (x & Ex & Ec). destruct H as (a & u & s & Ht & Ha & Hu & Hs & Hn & _). unfold pspot_debug. rewrite Ex.
  assert (E : groupdict EIGENVALUE_RE x = [(kstr "type", VStr ($t)); (kstr "nl", VStr (write_digits nl)); (kstr "eigenvalue", VStr (write_num n))]) by (unfold groupdict; rewrite Ec; reflexivity).
  rewrite E. erewrite fix_step; [|reflexivity|now apply Castep4Facts.type_digits]. erewrite fix_step; [|reflexivity|apply type_float; [|exact Hf]].
  - reflexivity.
  - inversion Hu; subst. now apply num_ok_wf.
Qed.
(** ** Slopes *)
Lemma not_first_digit r : not_first "0123456789" r -> hd_not is_digit r.
Proof.
  intros H. destruct r as [|c r]; [exact I|]. specialize (H c r eq_refl). cbn. destruct c as [[] [] [] [] [] [] [] []]; try reflexivity; exfalso; apply H; cbn; tauto.
Qed.
Lemma skips_slope a s : forall p, ~ mentions "fi" a -> skips DEDLNE_RE p a ($"finite basis dEtot/dlog(Ecut) =" ++ s).
Proof.
  induction a as [|x a IH]; intros p H; cbn [skips]; [exact I|]. split.
  - apply nomatch_den. intros p' s' c' D. unfold DEDLNE_RE in D. cbn [RSeqs] in D. destruct D as (p1 & s1 & c1 & D & _). apply StrUtilFacts.den_lit in D as (E & _).
    cbn [app] in E. injection E as -> E. destruct a as [|y a]; [discriminate E|]. injection E as -> E. apply H. now exists [], a.
  - apply IH. intros (u & v & ->). apply H. now exists (x :: u), v.
Qed.
Lemma slope_match l n : slope_line l n -> exists x, re_search DEDLNE_RE l = Some x /\ m_caps x = [("1"%string, write_num n)].
Proof.
  intros (a & k & r & Ha & Hn & Hf & He & Hr & ->).
  destruct (search_hit DEDLNE_RE a (concat [$"finite basis dEtot/dlog(Ecut) ="; repeat " "%char (S k); write_num n]) r [("1"%string, write_num n)]) as (x & Ex & Ec).
  - tidy. apply skips_slope. exact Ha.
  - unfold DEDLNE_RE. apply fp_seqs.
    eapply fpl_cons; [apply fp_lit|].
    eapply fpl_cons; [apply fp_plus_chr; [apply forallb_forall; intros c Hc; apply repeat_spec in Hc; now subst|discriminate|]|].
    { tidy. pose proof (num_hd n r Hn) as N. destruct (write_num n ++ r) as [|y w]; [exact I|]. cbn in N |- *. destruct (Ascii.eqb_spec " " y); [subst; discriminate N|reflexivity]. }
    eapply fpl_cons; [apply fp_grp; tidy; destruct n as [sg i fr ex]; cbn in Hf, He; subst ex; destruct fr as [f|]; [|congruence];
      unfold write_num; cbn [n_sign n_int n_frac n_exp]; rewrite app_nil_r; apply fp_FNUMBER; [|now apply not_first_digit]|constructor].
    destruct Hn as (Hn & _). exact Hn.
  - exists x. split; [|exact Ec]. revert Ex. tidy. auto.
Qed.
Lemma slope_says l n : slope_line l n -> fits (num_value n) -> dedlne l = Ok (SpecCastep.float_of n).
Proof.
  intros H Hf. destruct (slope_match _ _ H) as (x & Ex & Ec). destruct H as (a & k & r & Ha & Hn & _). unfold dedlne, group. rewrite Ex, Ec.
  exact (type_float n (num_ok_wf _ Hn) Hf).
Qed.
(** ** Supercells *)
Lemma three {A} (r : list A) : length r = 3 -> exists a b c, r = [a; b; c].
Proof. destruct r as [|a [|b [|c [|d r]]]]; try discriminate. eauto. Qed.
Lemma supercell_says l r1 r2 r3 ns : number_line (r1 ++ r2 ++ r3 ++ ns) l -> length r1 = 3 -> length r2 = 3 -> length r3 = 3 -> all_fit (r1 ++ r2 ++ r3) ->
  supercell l = Ok (VTuple [vector r1; vector r2; vector r3]).
Proof.
  intros H L1 L2 L3 Hf. unfold supercell. rewrite (get_numbers_line _ _ H). pose proof (number_line_ok _ _ H) as W.
  destruct (three _ L1) as (a1 & b1 & c1 & ->), (three _ L2) as (a2 & b2 & c2 & ->), (three _ L3) as (a3 & b3 & c3 & ->).
  unfold all_fit in Hf. apply Forall_wf in W. apply Forall_app in W as [W1 W], Hf as [F1 Hf]. apply Forall_app in W as [W2 W], Hf as [F2 F3]. apply Forall_app in W as [W3 _].
  cbn [app map take_rows]. pose proof (tuple_fit [a1; b1; c1] W1 F1) as T1. pose proof (tuple_fit [a2; b2; c2] W2 F2) as T2. pose proof (tuple_fit [a3; b3; c3] W3 F3) as T3.
  cbn [map] in T1, T2, T3. rewrite T1, T2, T3. reflexivity.
Qed.
Lemma lines_2_supported : Forall supports_line line_kinds_2.
Proof.
  apply Forall_cons.
  { plain_line 1; [intros l; apply mentions_has|]. apply acts_put_line; [|reflexivity|discriminate]. intros l e (a & v & s & -> & Ha & Hv & ->). eexists. split; [reflexivity|].
    unfold time_started. rewrite (split_first_cut _ _ _ Ha), (words_string _ _ Hv). reflexivity. }
  apply Forall_cons.
  { plain_line 16; [intros l (t & nl & n & H); unfold re_match_test; destruct (eigen_match _ _ _ _ H) as (x & -> & _); reflexivity|].
    apply (acts_append_line "pspot_debug"); [|reflexivity]. intros l e (t & nl & n & H & Hf & ->). eexists. split; [reflexivity|]. now apply eigen_says. }
  apply Forall_cons.
  { plain_line 37; [intros l; apply mentions_has|]. apply acts_put_line; [|reflexivity|discriminate]. intros l e (r1 & r2 & r3 & ns & H & L1 & L2 & L3 & Hf & ->).
    eexists. split; [reflexivity|]. now apply (supercell_says l r1 r2 r3 ns). }
  apply Forall_cons.
  { plain_line 41; [intros l (n & H); unfold re_test; destruct (slope_match _ _ H) as (x & -> & _); reflexivity|]. apply acts_put_line; [|reflexivity|discriminate].
    intros l e (n & H & Hf & ->). eexists. split; [reflexivity|]. now apply slope_says. }
  apply Forall_nil.
Qed.
Lemma lines_supported : Forall supports_line line_kinds.
Proof. apply Forall_app. split; [exact lines_1_supported|exact lines_2_supported]. Qed.
