(** Proofs about pseudopotential strings and SPECIES_POT blocks. *)
From Coq Require Import QArith Qreduction.
From Verif Require Import PyBase PyFacts PyVal Regex RegexFacts RegexComplete CastepRes NumSpec NumFacts NumProps NumVal
  StrUtil SpecStr StrUtilFacts SpecLine SpecType TypeConv TypeConvFacts IntStr DictUtil SpecDict DictFacts Stream StreamFacts TextParsers TextFiles
  SpecTable ColumnFacts Header HeaderFacts SpecMd MdFacts SpecBands NeedFacts SpecCastep CastepBlocks CastepFacts PhononFacts
  SpecCastep2 CastepNum Castep2Facts SpecCastep3 CastepRows Castep3Facts SpecCastep4 BandsFacts TextParsersFacts Castep4Facts Castep5Facts SpecCastep5 Castep6Facts Pspot CellParam SpecCell SpecPspot.
From Verif Require CellFacts CellPosFacts CellBlockFacts FileParts.
Local Open Scope list_scope.
Local Open Scope nat_scope.

(** ** Numbers without sign *)
Lemma unsigned_text n : unsigned n -> write_num n = write_digits (n_int n) ++ match n_frac n with Some f => "."%char :: write_digits f | None => [] end.
Proof. intros (_ & H1 & H2 & _). unfold write_num. rewrite H1, H2. cbn [write_sign app]. now rewrite app_nil_r. Qed.
Definition num_char (c : ascii) : bool := is_digit c || Ascii.eqb "." c.
Lemma digits_chars ds : forallb is_digit (write_digits ds) = true.
Proof. apply digits_all. Qed.
Lemma unsigned_chars n : unsigned n -> forallb num_char (write_num n) = true.
Proof.
  intros H. rewrite (unsigned_text n H). assert (D : forall ds, forallb num_char (write_digits ds) = true) by (intros ds; eapply forallb_imp; [|apply digits_chars]; intros x Hx; unfold num_char; now rewrite Hx).
  rewrite forallb_app, D. destruct (n_frac n); [|reflexivity]. cbn [andb forallb]. now rewrite D.
Qed.
Lemma fp_unsigned n p s c : unsigned n -> hd_not num_char s -> fp FP_NUM_RE p (write_num n) s c c.
Proof.
  intros H Hs. assert (Hd : hd_not is_digit s) by (destruct s as [|x s]; [exact I|]; cbn in *; now apply orb_false_iff in Hs).
  assert (Hp : hd_not (Ascii.eqb ".") s) by (destruct s as [|x s]; [exact I|]; cbn in *; now apply orb_false_iff in Hs).
  rewrite (unsigned_text n H). destruct H as ((N1 & N2 & _) & _). unfold frac_digits in N1. unfold FP_NUM_RE.
  destruct (n_int n) as [|d ds].
  - destruct (n_frac n) as [[|f fs]|]; [now elim N1| |now elim N2]. apply fp_alt_r.
    + apply nomatch_seq_l. apply nomatch_plus_chr. reflexivity.
    + cbn [RSeqs]. change (write_digits [] ++ "."%char :: write_digits (f :: fs)) with ([] ++ ["."%char] ++ write_digits (f :: fs)).
      apply fp_seq with (c1 := c); [apply fp_star_chr; [reflexivity|reflexivity]|]. apply fp_seq with (c1 := c); [apply fp_char|]. apply fp_plus_chr; [apply digits_chars|discriminate|exact Hd].
  - apply fp_alt_l. cbn [RSeqs]. apply fp_seq with (c1 := c).
    + apply fp_plus_chr; [apply digits_chars|discriminate|]. destruct (n_frac n); [reflexivity|exact Hd].
    + destruct (n_frac n) as [f|].
      * change ("."%char :: write_digits f) with (["."%char] ++ write_digits f). apply fp_seq with (c1 := c); [apply fp_opt_some; [discriminate|apply fp_char]|]. apply fp_star_chr; [apply digits_chars|exact Hd].
      * change (@nil ascii) with (@nil ascii ++ []). apply fp_seq with (c1 := c); [|apply fp_star_chr; [reflexivity|exact Hd]].
        apply fp_opt_none. cbn [app]. apply nomatch_den. intros p' s' c' D. apply den_char in D as (-> & _). discriminate Hp.
Qed.
Lemma no_unsigned p s c : hd_not num_char s -> nomatch FP_NUM_RE p s c.
Proof.
  intros H. apply nomatch_den. intros p' s' c' [D|D]; cbn [RSeqs] in D.
  - destruct D as (? & ? & ? & D & _). unfold RPlus in D. apply den_rep_chr in D as (w & -> & Hl & _ & Hw & _). destruct w as [|y w]; [cbn in Hl; lia|]. cbn in *.
    apply andb_true_iff in Hw as [Hw _]. unfold num_char in H. rewrite Hw in H. discriminate H.
  - destruct D as (? & ? & ? & D & D2). unfold RStar in D. apply den_rep_chr in D as (w & -> & _ & _ & Hw & _). destruct D2 as (? & ? & ? & D2 & _). apply den_char in D2 as (-> & _).
    destruct w as [|y w]; [discriminate H|]. cbn in *. apply andb_true_iff in Hw as [Hw _]. unfold num_char in H. rewrite Hw in H. discriminate H.
Qed.

(** ** Projectors *)
Definition opt_cap (l : string) (o : option num) (c : caps) : caps := match o with Some n => (l, write_num n) :: c | None => c end.
Definition opt_text (o : option num) : str := match o with Some n => write_num n | None => [] end.
Lemma fp_opt_unsigned l o p s c : (forall n, o = Some n -> unsigned n) -> hd_not num_char s -> fp (ROpt (RGrp l FP_NUM_RE)) p (opt_text o) s c (opt_cap l o c).
Proof.
  intros H Hs. destruct o as [n|]; cbn [opt_text opt_cap].
  - apply fp_opt_some; [apply write_num_nonempty; now destruct (H n eq_refl)|]. apply fp_grp; apply fp_unsigned; auto.
  - apply fp_opt_none. apply nomatch_grp. now apply no_unsigned.
Qed.
Definition e_text (p : projector) : str := match pj_e p with Some (m, n) => text_of m ++ write_num n | None => [] end.
Definition d_text (p : projector) : str := match pj_delta p with Some n => "@"%char :: write_num n | None => [] end.
Definition e_cap (p : projector) (c : caps) : caps := match pj_e p with Some (_, n) => ("beta_e"%string, write_num n) :: c | None => c end.
Lemma unsigned_hd n s : unsigned n -> hd_not (fun c => negb (num_char c)) (write_num n ++ s).
Proof.
  intros H. pose proof (unsigned_chars n H) as C. destruct (write_num n) as [|x w] eqn:E; [destruct H as (H & _); now apply write_num_nonempty in E|]. cbn in *. apply andb_true_iff in C as [-> _]. reflexivity.
Qed.
Lemma fp_mark m p n s c : In m energy_marks -> unsigned n -> fp (RAlt (RSeq (RChar "=") (ROpt (c_of "+-"))) (c_of "+-")) p (text_of m) (write_num n ++ s) c c.
Proof.
  intros Hm Hn. pose proof (unsigned_hd n s Hn) as H.
  assert (N : nomatch (c_of "+-") (Some "="%char) (write_num n ++ s) c).
  { apply nomatch_den. intros p' s' c' D. cbn [c_of den] in D. destruct D as (x & E & Hx & _). rewrite E in H. cbn in H. apply negb_false_iff in H. clear -H Hx. destruct x as [[] [] [] [] [] [] [] []]; discriminate. }
  cbn in Hm. destruct Hm as [<-|[<-|[<-|[<-|[<-|[]]]]]].
  - apply fp_alt_l. change (text_of "=") with (["="%char] ++ []). apply fp_seq with (c1 := c); [apply fp_char|]. apply fp_opt_none. exact N.
  - apply fp_alt_l. change (text_of "=+") with (["="%char] ++ ["+"%char]). apply fp_seq with (c1 := c); [apply fp_char|]. apply fp_opt_some; [discriminate|now apply fp_chr].
  - apply fp_alt_l. change (text_of "=-") with (["="%char] ++ ["-"%char]). apply fp_seq with (c1 := c); [apply fp_char|]. apply fp_opt_some; [discriminate|now apply fp_chr].
  - apply fp_alt_r; [apply nomatch_seq_l; apply nomatch_den; intros p' s' c' D; apply den_char in D as (D & _); discriminate D|]. now apply fp_chr.
  - apply fp_alt_r; [apply nomatch_seq_l; apply nomatch_den; intros p' s' c' D; apply den_char in D as (D & _); discriminate D|]. now apply fp_chr.
Qed.
Lemma projector_fp p : projector_ok p -> fp PSPOT_PROJ_RE None (write_projector p) [] []
  (opt_cap "beta_delta" (pj_delta p) (e_cap p (opt_cap "beta_rc" (pj_rc p) [("type"%string, [pj_type p])]))).
Proof.
  intros (Ht & Hrc & He & Hd). unfold PSPOT_PROJ_RE. cbn [RSeqs]. unfold write_projector. fold (e_text p). fold (d_text p). fold (opt_text (pj_rc p)).
  change (pj_type p :: opt_text (pj_rc p) ++ e_text p ++ d_text p) with ([pj_type p] ++ opt_text (pj_rc p) ++ e_text p ++ d_text p).
  assert (Dh : forall f, f "@"%char = false -> hd_not f (d_text p ++ [])) by (intros f Hf; unfold d_text; destruct (pj_delta p); [exact Hf|exact I]).
  apply fp_seq with (c1 := [("type"%string, [pj_type p])]).
  { apply fp_grp. apply fp_chr. now apply chr_in_iff. }
  apply fp_seq with (c1 := opt_cap "beta_rc" (pj_rc p) [("type"%string, [pj_type p])]).
  { apply fp_opt_unsigned; [exact Hrc|]. unfold e_text. destruct (pj_e p) as [[m n]|]; [|now apply Dh]. destruct (He m n eq_refl) as [Hm _]. cbn in Hm. destruct Hm as [<-|[<-|[<-|[<-|[<-|[]]]]]]; reflexivity. }
  apply fp_seq with (c1 := e_cap p (opt_cap "beta_rc" (pj_rc p) [("type"%string, [pj_type p])])).
  { unfold e_text, e_cap. destruct (pj_e p) as [[m n]|].
    - destruct (He m n eq_refl) as [Hm Hn]. apply fp_opt_some; [intros E; apply app_eq_nil in E as [_ E]; apply write_num_nonempty in E; [exact E|apply Hn]|].
      eapply fp_seq; [now apply fp_mark|]. apply fp_grp. apply fp_unsigned; [exact Hn|now apply Dh].
    - apply fp_opt_none. apply nomatch_den. intros p' s' c' D. destruct D as (? & ? & ? & D & _). cbn [app] in D.
      assert (K : forall y r, d_text p ++ [] = y :: r -> y = "@"%char) by (unfold d_text; destruct (pj_delta p); intros y r E; [cbn in E; congruence|discriminate E]).
      destruct D as [D|D].
      + destruct D as (? & ? & ? & D & _). apply den_char in D as (D & _). apply K in D. discriminate D.
      + cbn [c_of den] in D. destruct D as (y & E & Hx & _). apply K in E. subst y. discriminate Hx. }
  unfold d_text, opt_cap at 1. destruct (pj_delta p) as [n|].
  - apply fp_opt_some; [discriminate|]. change ("@"%char :: write_num n) with (["@"%char] ++ write_num n). eapply fp_seq; [apply fp_char|]. apply fp_grp. apply fp_unsigned; [now apply Hd|exact I].
  - apply fp_opt_none. apply nomatch_den. intros p' s' c' D. destruct D as (? & ? & ? & D & _). apply den_char in D as (D & _). discriminate D.
Qed.
Lemma unsigned_type n : unsigned n -> to_type TFloat (VStr (write_num n)) = Ok (SpecCastep.float_of n).
Proof. intros (H & _ & _ & Hf). apply type_float; [|exact Hf]. now apply num_ok_wf. Qed.
Ltac fxs := repeat first [erewrite fix_step; [|reflexivity|eassumption]|rewrite fix_skip by reflexivity].
Lemma projector_spec p : projector_ok p -> Pspot.projector (write_projector p) = Ok (projector_read p).
Proof.
  intros H. pose proof (projector_fp p H) as F. destruct H as (_ & Hrc & He & Hd). unfold Pspot.projector. destruct (match_hit _ _ _ _ F) as (x & E & Ec). rewrite app_nil_r in E. rewrite E.
  unfold groupdict. rewrite Ec. cbn [PSPOT_PROJ_RE]. destruct p as [t rc e d]. cbn [pj_type pj_rc pj_e pj_delta] in *. unfold e_cap, opt_cap, projector_read. cbn [pj_type pj_rc pj_e pj_delta].
  destruct rc as [rc|]; [pose proof (unsigned_type rc (Hrc rc eq_refl)) as T1|clear Hrc]; (destruct e as [[m e]|]; [pose proof (unsigned_type e (proj2 (He m e eq_refl))) as T2|clear He]);
    (destruct d as [d|]; [pose proof (unsigned_type d (Hd d eq_refl)) as T3|clear Hd]);
    unfold as_floats; cbn [map]; fxs; reflexivity.
Qed.

(** ** Beta functions *)
Definition type_char (c : ascii) : bool := chr_in c ($PROJ_TYPES).
Definition proj_char (c : ascii) : bool := num_char c || chr_in c ($"=+-@").
Lemma proj_tail p : projector_ok p -> forallb proj_char (List.tl (write_projector p)) = true.
Proof.
  intros (_ & Hrc & He & Hd). unfold write_projector. cbn [List.tl].
  assert (N : forall n, unsigned n -> forallb proj_char (write_num n) = true) by (intros n Hn; eapply forallb_imp; [|apply unsigned_chars, Hn]; intros x Hx; unfold proj_char; now rewrite Hx).
  rewrite !forallb_app. apply andb_true_iff. split; [|apply andb_true_iff; split].
  - destruct (pj_rc p) as [n|]; [now apply N, Hrc|reflexivity].
  - destruct (pj_e p) as [[m n]|]; [|reflexivity]. destruct (He m n eq_refl) as [Hm Hn]. rewrite forallb_app, N by exact Hn. rewrite andb_true_r. cbn in Hm. destruct Hm as [<-|[<-|[<-|[<-|[<-|[]]]]]]; reflexivity.
  - destruct (pj_delta p) as [n|]; [|reflexivity]. cbn [forallb]. now rewrite N by now apply Hd.
Qed.
Lemma proj_type p : projector_ok p -> exists t, write_projector p = pj_type p :: t /\ type_char (pj_type p) = true /\ forallb proj_char t = true.
Proof. intros H. exists (List.tl (write_projector p)). split; [reflexivity|]. split; [|now apply proj_tail]. apply chr_in_iff, H. Qed.
Lemma projs_hd ps : Forall projector_ok ps -> hd_not (fun c => negb (type_char c)) (flat_map write_projector ps).
Proof. intros H. destruct H as [|p ps H _]; [exact I|]. cbn. destruct H as (H & _). apply negb_false_iff. exact (proj2 (chr_in_iff _ _) H). Qed.
Lemma proj_not_type c : proj_char c = true -> type_char c = false.
Proof. revert c. apply ascii_imp_not. vm_compute. reflexivity. Qed.
Lemma findall_projs ps : Forall projector_ok ps -> findall PROJ_RE (flat_map write_projector ps) = map write_projector ps.
Proof.
  intros H. unfold findall, finditer.
  assert (G : forall ps, Forall projector_ok ps -> forall fuel p, length (flat_map write_projector ps) < fuel -> map m_text (map snd (iter_from fuel PROJ_RE p (flat_map write_projector ps))) = map write_projector ps).
  { clear. induction 1 as [|p ps Hp H IH]; intros fuel q Hf; (destruct fuel as [|fuel]; [lia|]).
    - reflexivity.
    - cbn [flat_map iter_from]. pose proof (projs_hd _ H) as Hh. destruct (proj_type p Hp) as (t & E & Ht & Hw).
      assert (F : fp PROJ_RE q (write_projector p) (flat_map write_projector ps) [] []).
      { rewrite E. unfold PROJ_RE. change (pj_type p :: t) with ([pj_type p] ++ t). apply fp_seq with (c1 := []); [now apply fp_chr|]. unfold c_notof. apply fp_star_chr.
        - eapply forallb_imp; [|exact Hw]. intros x Hx. apply proj_not_type in Hx. unfold type_char in Hx. now rewrite Hx.
        - exact Hh. }
      rewrite (search_from_hit _ _ _ _ _ F). cbn [map snd m_text m_prev m_rest fst]. rewrite E at 2. rewrite IH; [reflexivity|].
      cbn [flat_map] in Hf. rewrite app_length, E in Hf. cbn in Hf. lia. }
  apply G; [exact H|lia].
Qed.
Lemma char_digit d : is_digit (digit_char d) = true.
Proof. now destruct d. Qed.
Lemma beta_spec b : beta_ok b -> parse_beta_function (write_beta b) = Ok (beta_read b).
Proof.
  intros [Hs Hp]. unfold parse_beta_function, write_beta. destruct b as [o sh ps]. cbn [b_orbital b_shell b_projectors] in *.
  replace (skipn 2 (write_digits [o; sh] ++ flat_map write_projector ps)) with (flat_map write_projector ps) by reflexivity.
  rewrite findall_projs by exact Hp.
  assert (M : mapM Pspot.projector (map write_projector ps) = Ok (map projector_read ps)).
  { clear -Hp. induction Hp as [|p ps H _ IH]; [reflexivity|]. cbn [map mapM]. rewrite (projector_spec p H), IH. reflexivity. }
  rewrite M. unfold beta_read. cbn [b_orbital b_shell b_projectors]. destruct o, sh; try (now elim Hs); reflexivity.
Qed.

(** ** What is appended *)
Lemma occupied_split w : occupied w -> exists s t, w = s ++ t /\ shell s /\ (t = [] \/ exists ds, ds <> [] /\ t = "."%char :: write_digits ds).
Proof. intros [H|(s & ds & H & H0 & ->)]; [exists w, []; rewrite app_nil_r; auto|]. exists s, ("."%char :: write_digits ds). repeat split; auto. right. exists ds. auto. Qed.
Definition shell_char (c : ascii) : bool := num_char c || chr_in c ($"spdf").
Lemma occupied_chars w : occupied w -> forallb shell_char w = true.
Proof.
  assert (D : forall ds, forallb shell_char (write_digits ds) = true) by (intros ds; eapply forallb_imp; [|apply digits_chars]; intros x Hx; unfold shell_char, num_char; now rewrite Hx).
  assert (S : forall s, shell s -> forallb shell_char s = true).
  { intros s [d x ds Hx Hl]. rewrite forallb_app, D. cbn [forallb]. rewrite D. cbn [andb]. rewrite andb_true_r. unfold shell_char. apply orb_true_iff. right. exact (proj2 (chr_in_iff _ _) Hx). }
  intros H. apply occupied_split in H as (s & t & -> & Hs & Ht). rewrite forallb_app, S by exact Hs. destruct Ht as [->|(ds & _ & ->)]; [reflexivity|]. cbn [forallb andb]. now rewrite D.
Qed.
Lemma occupied_ne w : occupied w -> w <> [].
Proof. intros H. apply occupied_split in H as (s & t & -> & [d x ds _ _] & _). intros E. apply (f_equal (@length ascii)) in E. rewrite !app_length in E. cbn in E. lia. Qed.
Lemma fp_occupied w p s c : occupied w -> hd_not (fun x => num_char x || chr_in x ($"+-")) s -> fp PSPOT_SHELL_RE p w s c c.
Proof.
  intros H Hs. apply occupied_split in H as (a & t & -> & Ha & Ht). assert (Hd : hd_not is_digit s) by (destruct s as [|x s]; [exact I|]; cbn [hd_not] in *; unfold num_char in Hs; destruct (is_digit x); [discriminate Hs|reflexivity]).
  unfold PSPOT_SHELL_RE. apply fp_seq with (c1 := c).
  - apply fp_shell; [exact Ha|]. destruct Ht as [->|(ds & _ & ->)]; [exact Hd|reflexivity].
  - destruct Ht as [->|(ds & Hds & ->)].
    + apply fp_opt_none. apply nomatch_den. intros p' s' c' D. apply den_FNUMBER in D as (sg & a' & b & Hab & E & _). cbn [app] in E.
      destruct s as [|x s]; [destruct sg, a'; discriminate E|]. cbn [hd_not] in Hs. destruct sg; cbn in E; try (injection E as -> _; discriminate Hs).
      unfold mant_frac in E. destruct a' as [|d a']; [cbn in E; injection E as -> _; discriminate Hs|]. cbn in E. injection E as -> _. unfold num_char in Hs. rewrite char_digit in Hs. discriminate Hs.
    + apply fp_opt_some; [discriminate|]. change ("."%char :: write_digits ds) with (write_sign NoSign ++ mant_frac [] ds). now apply fp_FNUMBER.
Qed.
Lemma fp_shell_list ws p x s c : ws <> [] -> Forall occupied ws -> shell_char x = false -> chr_in x ($"+-,") = false -> fp shell_list p (joined (text_of ",") ws) (x :: s) c c.
Proof.
  intros H0 H Hx Hx'. unfold shell_list. destruct H as [|w ws Hw H]; [congruence|]. clear H0.
  assert (E : joined (text_of ",") (w :: ws) = w ++ concat (map (cons ","%char) ws)).
  { clear. revert w. induction ws as [|v ws IH]; intros w; [cbn; now rewrite app_nil_r|]. rewrite joined_cons2, IH. reflexivity. }
  rewrite E. assert (Nx : hd_not (fun x => num_char x || chr_in x ($"+-")) (x :: s)).
  { cbn. unfold shell_char in Hx. apply orb_false_iff in Hx as [-> _]. cbn in Hx'. destruct (Ascii.eqb x "+"); [discriminate|]. destruct (Ascii.eqb x "-"); [discriminate|]. reflexivity. }
  assert (C : hd_not (fun x => num_char x || chr_in x ($"+-")) (concat (map (cons ","%char) ws) ++ x :: s)) by (destruct ws; [exact Nx|reflexivity]).
  apply fp_seq with (c1 := c); [now apply fp_occupied|]. apply fp_star.
  - generalize (pa p w). clear w Hw E C. induction H as [|v ws Hv H IH]; intros q; [constructor|]. cbn [map]. apply fps_cons with (c1 := c).
    + change (","%char :: v) with ([","%char] ++ v). apply fp_seq with (c1 := c); [apply fp_char|]. apply fp_occupied; [exact Hv|]. destruct ws; [exact Nx|reflexivity].
    + apply IH.
  - apply Forall_forall. intros t Ht. apply in_map_iff in Ht as (v & <- & _). discriminate.
  - apply nomatch_den. intros p' s' c' D. destruct D as (? & ? & ? & D & _). apply den_char in D as (D & _). injection D as -> _. discriminate Hx'.
Qed.
Definition extra_words (e : extra) : list str := match e with Flags ws => ws | Testing ws => ws | Adjust ws => ws end.
Definition extra_body (e : extra) : str := joined (text_of ",") (extra_words e).
Definition marks : list (ascii * ascii) := [("(", ")"); ("[", "]"); ("{", "}")]%char.
Definition extra_mark (e : extra) : ascii := match e with Flags _ => "(" | Testing _ => "[" | Adjust _ => "{" end.
Definition extra_end (e : extra) : ascii := match e with Flags _ => ")" | Testing _ => "]" | Adjust _ => "}" end.
Definition extra_re (e : extra) : re := match e with Flags _ => PSPOT_FLAG_RE | Testing _ => PSPOT_TEST_RE | Adjust _ => PSPOT_ADJ_RE end.
Lemma extra_text e : write_extra e = extra_mark e :: extra_body e ++ [extra_end e].
Proof. now destruct e. Qed.
Lemma body_chars e c : extra_ok e -> In c (extra_body e) -> In c ($",") \/ (exists w, In w (extra_words e) /\ In c w).
Proof. intros _ H. apply joined_in in H as [H|H]; [now left|]. right. apply in_concat in H as (w & H1 & H2). eauto. Qed.
Definition bracket (c : ascii) : bool := chr_in c ($"()[]{}").
Lemma free_not cs w c : free_of cs w -> In c w -> among cs c -> False.
Proof. intros H Hi Hc. exact (H c Hi Hc). Qed.
Lemma words_chars e w c : extra_ok e -> In w (extra_words e) -> In c w -> bracket c = false /\ c <> ","%char.
Proof.
  intros H Hw Hc. destruct e as [ws|ws|ws]; cbn [extra_ok extra_words] in *.
  - destruct H as (_ & H & _). specialize (H w Hw). split.
    + destruct (bracket c) eqn:E; [|reflexivity]. exfalso. apply (free_not _ _ c H Hc). unfold bracket in E. apply chr_in_iff in E. cbn in E. unfold among. cbn. tauto.
    + intros ->. apply (free_not _ _ _ H Hc). unfold among. cbn. tauto.
  - destruct H as [->|[_ H]]; [destruct Hw as [<-|[]]; destruct Hc|]. rewrite Forall_forall in H. specialize (H w Hw). apply occupied_chars in H. rewrite forallb_forall in H. specialize (H c Hc).
    split; [clear Hc; revert c H; apply ascii_imp_not; vm_compute; reflexivity|intros ->; discriminate H].
  - destruct H as [_ H]. rewrite Forall_forall in H. specialize (H w Hw). apply occupied_chars in H. rewrite forallb_forall in H. specialize (H c Hc).
    split; [clear Hc; revert c H; apply ascii_imp_not; vm_compute; reflexivity|intros ->; discriminate H].
Qed.
Lemma body_bracket e c : extra_ok e -> In c (extra_body e) -> bracket c = false.
Proof. intros H Hi. destruct (body_chars e c H Hi) as [[<-|[]]|(w & H1 & H2)]; [reflexivity|]. now destruct (words_chars e w c H H1 H2). Qed.
Lemma extra_fp e p s : extra_ok e -> fp (extra_re e) p (write_extra e) s [] [("1"%string, extra_body e)].
Proof.
  intros H. rewrite extra_text. pose proof (fun c => body_bracket e c H) as B. change (extra_mark e :: extra_body e ++ [extra_end e]) with ([extra_mark e] ++ extra_body e ++ [extra_end e]).
  destruct e as [ws|ws|ws]; cbn [extra_re extra_mark extra_end]; unfold PSPOT_FLAG_RE, PSPOT_TEST_RE, PSPOT_ADJ_RE; cbn [RSeqs];
    (apply fp_seq with (c1 := []); [apply fp_char|]); (eapply fp_seq; [|apply fp_char]); apply fp_grp; cbn [extra_ok] in H.
  - destruct H as (H1 & H2 & H3). unfold c_notof. apply fp_plus_chr; [|exact H3|reflexivity]. apply forallb_forall. intros c Hc. specialize (B c Hc).
    destruct (chr_in c ($")")) eqn:E; [|reflexivity]. apply chr_in_iff in E as [<-|[]]. discriminate B.
  - destruct H as [->|[H1 H2]].
    + apply fp_opt_none. apply nomatch_seq_l. apply nomatch_den. intros p' s' c' D. unfold PSPOT_SHELL_RE, SHELL_RE in D. cbn [RSeqs] in D. destruct D as (? & ? & ? & (? & ? & ? & D & _) & _). cbn [c_digit den] in D. destruct D as (y & E & Hy & _). injection E as <- _. discriminate Hy.
    + apply fp_opt_some; [|apply fp_shell_list; auto]. destruct H2 as [|w ws Hw H2]; [congruence|]. unfold extra_body. cbn [extra_words]. apply occupied_ne in Hw. destruct w; [congruence|]. destruct ws; discriminate.
  - apply fp_shell_list; tauto || reflexivity.
Qed.
Lemma extra_split e : extra_ok e -> split_chr "," (extra_body e) = extra_words e.
Proof.
  intros H. pose proof (fun w c Hw Hc => proj2 (words_chars e w c H Hw Hc)) as W. unfold extra_body. assert (N : extra_words e <> []) by (destruct e; cbn in *; [tauto|destruct H as [->|H]; [discriminate|tauto]|tauto]).
  clear H. induction (extra_words e) as [|w ws IH]; [congruence|]. destruct ws as [|v ws].
  - cbn [joined]. apply split_chr_free. intros Hi. exact (W w _ (or_introl eq_refl) Hi eq_refl).
  - rewrite joined_cons2. change (text_of "," ++ joined (text_of ",") (v :: ws)) with (","%char :: joined (text_of ",") (v :: ws)). rewrite split_chr_cut; [|intros Hi; exact (W w _ (or_introl eq_refl) Hi eq_refl)].
    rewrite IH; [reflexivity|intros w' c Hw; apply W; now right|discriminate].
Qed.
Definition of_kind (k : nat) (e : extra) : bool := Nat.eqb (extra_kind e) k.
Definition found (k : nat) (es : list extra) : pyval := match List.find (of_kind k) es with Some e => VList (map VStr (extra_words e)) | None => VNone end.
Definition mark_of (k : nat) : ascii := match k with 0 => "(" | 1 => "[" | _ => "{" end.
Definition re_of (k : nat) : re := match k with 0 => PSPOT_FLAG_RE | 1 => PSPOT_TEST_RE | _ => PSPOT_ADJ_RE end.
Lemma other_mark k e c : extra_ok e -> k <= 2 -> of_kind k e = false -> In c (write_extra e) -> c <> mark_of k.
Proof.
  intros H Hk Ho Hc ->. rewrite extra_text in Hc. apply in_inv in Hc as [E|Hc].
  - destruct e, k as [|[|[|k]]]; try lia; try discriminate Ho; discriminate E.
  - apply in_app_or in Hc as [Hc|[E|[]]].
    + apply (body_bracket e _ H) in Hc. destruct k as [|[|[|k]]]; discriminate Hc || lia.
    + destruct e, k as [|[|[|k]]]; discriminate E || lia.
Qed.
Lemma re_first k c : k <= 2 -> first (re_of k) c = Ascii.eqb c (mark_of k).
Proof. intros H. destruct k as [|[|[|k]]]; [| | |lia]; cbn; rewrite orb_false_r; apply Ascii.eqb_sym. Qed.
Lemma filter_all {A} (f : A -> bool) l : (forall x, In x l -> f x = true) -> filter f l = l.
Proof. induction l as [|x l IH]; intros H; [reflexivity|]. cbn. rewrite H by now left. rewrite IH; [reflexivity|]. intros y Hy. apply H. now right. Qed.
Lemma part_spec k pre es : k <= 2 -> ~ In (mark_of k) pre -> Forall extra_ok es -> NoDup (map extra_kind es) ->
  pspot_part (mark_of k) (re_of k) (pre ++ flat_map write_extra es) = Ok (found k es, pre ++ flat_map write_extra (filter (fun e => negb (of_kind k e)) es)).
Proof.
  intros Hk Hp H Hn. unfold pspot_part, found. revert pre Hp. induction H as [|e es He H IH]; intros pre Hp.
  - cbn [flat_map filter List.find]. rewrite app_nil_r. destruct (chr_in (mark_of k) pre) eqn:E; [apply chr_in_iff in E; now elim Hp|reflexivity].
  - cbn [map] in Hn. inversion Hn as [|? ? Hn1 Hn2]; subst. cbn [flat_map filter List.find]. destruct (of_kind k e) eqn:Ek; cbn [negb].
    + assert (Em : extra_mark e = mark_of k /\ extra_re e = re_of k) by (apply Nat.eqb_eq in Ek; subst k; destruct e; auto). destruct Em as [Em Er].
      assert (Hi : chr_in (mark_of k) (pre ++ write_extra e ++ flat_map write_extra es) = true).
      { apply chr_in_iff. apply in_or_app. right. apply in_or_app. left. rewrite extra_text, Em. now left. }
      rewrite Hi. pose proof (extra_fp e (pa None pre) (flat_map write_extra es) He) as F. rewrite Er in F.
      assert (Sk : skips (re_of k) None pre (write_extra e ++ flat_map write_extra es)).
      { apply skips_first; [destruct k as [|[|k]]; reflexivity|]. apply forallb_forall. intros c Hc. rewrite re_first by exact Hk. destruct (Ascii.eqb_spec c (mark_of k)) as [->|]; [now elim Hp|reflexivity]. }
      rewrite (search_from_pre _ _ _ _ _ _ Sk F). cbn [m_rest]. match goal with |- context [group_s ?x "1"] => change (group_s x "1") with (extra_body e) end. rewrite (extra_split e He).
      replace (filter (fun e => negb (of_kind k e)) es) with es; [reflexivity|]. symmetry. apply filter_all. intros e' He'. apply negb_true_iff. apply Nat.eqb_neq. intros E'. apply Hn1. apply Nat.eqb_eq in Ek. rewrite Ek, <- E'. now apply in_map.
    + specialize (IH Hn2 (pre ++ write_extra e)). cbn [flat_map]. rewrite !app_assoc. apply IH. intros Hi. apply in_app_or in Hi as [Hi|Hi]; [now apply Hp|]. exact (other_mark k e _ He Hk Ek Hi eq_refl).
Qed.

(** ** The mark of a polynomial fit *)
Definition not_bar (c : ascii) : bool := negb (chr_in c ($"|")).
Lemma digits_not_bar ds : forallb not_bar (write_digits ds) = true.
Proof. eapply forallb_imp; [|apply digits_chars]. intros x Hx. revert x Hx. apply ascii_imp. vm_compute. reflexivity. Qed.
Lemma digits_no_dash ds : ~ In "-"%char (write_digits ds).
Proof. intros H. pose proof (digits_chars ds) as D. rewrite forallb_forall in D. specialize (D _ H). discriminate D. Qed.
Lemma polyfit_none ds u : drop_polyfit (write_digits ds ++ "|"%char :: u) = write_digits ds ++ "|"%char :: u.
Proof.
  unfold drop_polyfit. assert (N : re_match POLYFIT_RE (write_digits ds ++ "|"%char :: u) = None); [|now rewrite N].
  apply nomatch_match_at. apply nomatch_den. intros p' s' c' D. unfold POLYFIT_RE in D. cbn [RSeqs] in D. destruct D as (? & ? & ? & D & D1). cbn [den] in D. destruct D as (_ & <- & <- & <-).
  destruct D1 as (? & ? & ? & D & D1). cbn [den] in D. destruct D as (c1 & D & _). unfold RStar, c_notof in D. apply den_rep_chr in D as (w1 & E & _ & _ & Hw1 & _).
  destruct D1 as (? & ? & ? & D & D1). apply den_char in D as (-> & _). destruct D1 as (? & ? & ? & D & D1). cbn [den] in D. destruct D as (c2 & D & _). unfold RStar, c_notof in D. apply den_rep_chr in D as (w2 & -> & _ & _ & Hw2 & _).
  apply den_char in D1 as (-> & _). change (w1 ++ "-"%char :: w2 ++ "|"%char :: s') with (w1 ++ ("-"%char :: w2) ++ "|"%char :: s') in E. rewrite app_assoc in E.
  apply (run_unique not_bar) in E as (E & _); [|apply digits_not_bar|rewrite forallb_app; cbn [forallb]; apply andb_true_iff; split; [exact Hw1|exact Hw2]|reflexivity|reflexivity].
  apply (digits_no_dash ds). rewrite E. apply in_or_app. right. now left.
Qed.
Lemma polyfit_some a b u : drop_polyfit (write_digits a ++ "-"%char :: write_digits b ++ "|"%char :: u) = write_digits a ++ write_digits b ++ "|"%char :: u.
Proof.
  unfold drop_polyfit. assert (F : fp POLYFIT_RE None (write_digits a ++ "-"%char :: write_digits b ++ ["|"%char]) u [] [("2"%string, write_digits b); ("1"%string, write_digits a)]).
  { unfold POLYFIT_RE. cbn [RSeqs]. change (write_digits a ++ "-"%char :: write_digits b ++ ["|"%char]) with ([] ++ write_digits a ++ "-"%char :: write_digits b ++ ["|"%char]). apply fp_seq with (c1 := []); [apply fp_bol|].
    cbn [pa]. apply fp_grp_star; [apply digits_not_bar| |].
    - intros w v q c0 E Hw Hf. destruct w as [|x w]; [congruence|]. cbn [app] in E. injection E as <- E. apply nomatch_seq_l. apply nomatch_den. intros p' s' c' D. apply den_char in D as (-> & _).
      cbn [forallb] in Hf. apply andb_true_iff in Hf as [_ Hf]. rewrite <- app_assoc in E. cbn [app] in E. apply app_eq_app in E as (l & [[E1 E2]|[E1 E2]]).
      + destruct l as [|y l]; [cbn in E2; discriminate E2|]. cbn in E2. injection E2 as <- _. apply (digits_no_dash b). rewrite E1. apply in_or_app. right. now left.
      + rewrite E1, forallb_app in Hf. apply andb_true_iff in Hf as [_ Hf]. destruct l as [|y l]; [cbn in E2; discriminate E2|]. cbn in E2. injection E2 as <- _. discriminate Hf.
    - change ("-"%char :: write_digits b ++ ["|"%char]) with (["-"%char] ++ write_digits b ++ ["|"%char]). eapply fp_seq; [apply fp_char|]. eapply fp_seq; [|apply fp_char]. apply fp_grp. apply fp_star_chr; [apply digits_not_bar|reflexivity]. }
  pose proof (fp_match_at _ _ _ _ _ F) as M. change (match_at POLYFIT_RE None) with (re_match POLYFIT_RE) in M.
  replace (write_digits a ++ "-"%char :: write_digits b ++ "|"%char :: u) with ((write_digits a ++ "-"%char :: write_digits b ++ ["|"%char]) ++ u) by (rewrite <- app_assoc; cbn [app]; now rewrite <- app_assoc).
  rewrite M. reflexivity.
Qed.
Lemma before_bar_spec w u : forallb not_bar w = true -> before_bar (w ++ "|"%char :: u) = w.
Proof.
  intros H. unfold before_bar. replace (chr_in "|" (w ++ "|"%char :: u)) with true by (symmetry; apply chr_in_iff, in_or_app; right; now left).
  induction w as [|x w IH]; [reflexivity|]. cbn [forallb] in H. apply andb_true_iff in H as [Hx H]. cbn [app take_while]. unfold not_bar in Hx. cbn in Hx.
  replace (negb (Ascii.eqb x "|")) with true; [now rewrite IH|]. destruct (Ascii.eqb x "|"); [discriminate Hx|reflexivity].
Qed.

(** ** Radii and energies *)
Lemma fp_bare l n p s c : num_ok n -> p <> Some "."%char -> fp (bare_float l) p (write_num n) ("|"%char :: s) c ((l, write_num n) :: c).
Proof.
  intros Hn Hp. unfold bare_float, labelled_floats_gen. cbn [map labelled_float snd fst RSeqs].
  change (write_num n) with ([] ++ write_num n) at 1. apply fp_seq with (c1 := c); [intros R k x Hk; exact Hk|]. rewrite <- (app_nil_r (write_num n)) at 1. eapply fp_seq; [|intros R k x Hk; exact Hk].
  apply fp_grp. apply fp_NUMBER; [exact Hn| |intros _ _; exact Hp]. unfold follow_ok. destruct (n_exp n); reflexivity.
Qed.
Lemma fp_barred l n p s c : num_ok n -> p <> Some "."%char -> fp (RSeq (bare_float l) (RChar "|")) p (with_bar n) s c ((l, write_num n) :: c).
Proof. intros Hn Hp. unfold with_bar. eapply fp_seq; [now apply fp_bare|]. apply fp_char. Qed.
Definition bars (s : str) : nat := length (filter (Ascii.eqb "|") s).
Lemma bars_app s t : bars (s ++ t) = bars s + bars t.
Proof. unfold bars. rewrite filter_app, app_length. reflexivity. Qed.
Lemma bars_none f s : (forall c, f c = true -> Ascii.eqb "|" c = false) -> forallb f s = true -> bars s = 0.
Proof. intros H. unfold bars. induction s as [|x s IH]; intros Hs; [reflexivity|]. cbn [forallb] in Hs. apply andb_true_iff in Hs as [Hx Hs]. cbn [filter]. rewrite (H x Hx). now apply IH. Qed.
Lemma num_bars n : bars (write_num n) = 0.
Proof. apply (bars_none CellFacts.is_numchar); [apply ascii_imp_not; vm_compute; reflexivity|apply CellFacts.write_num_numchars]. Qed.
Lemma with_bar_bars n : bars (with_bar n) = 1.
Proof. unfold with_bar. rewrite bars_app, num_bars. reflexivity. Qed.
Lemma den_barred l p s c p' s' c' : den (RSeq (bare_float l) (RChar "|")) p s c p' s' c' -> bars s = S (bars s').
Proof.
  intros (p1 & s1 & c1 & D & D1). apply den_char in D1 as (E0 & _). unfold bare_float, labelled_floats_gen in D. cbn [map labelled_float snd fst RSeqs] in D.
  destruct D as (? & ? & ? & D & D2). cbn [den] in D. destruct D as (E1 & E2 & E3). destruct D2 as (? & ? & ? & D & D2). cbn [den] in D2. destruct D2 as (E4 & E5 & E6). subst.
  cbn [den] in D. destruct D as (c2 & D & _). apply den_NUMBER in D as (n & _ & E7 & _). subst. rewrite bars_app, num_bars. reflexivity.
Qed.
Definition beta_char (c : ascii) : bool := proj_char c || type_char c || Ascii.eqb ":" c.
Lemma write_beta_chars b : beta_ok b -> forallb (fun c => proj_char c || type_char c) (write_beta b) = true.
Proof.
  intros [_ H]. unfold write_beta. rewrite forallb_app. apply andb_true_iff. split; [destruct (b_orbital b), (b_shell b); reflexivity|].
  induction H as [|p ps Hp _ IH]; [reflexivity|]. cbn [flat_map]. rewrite forallb_app, IH, andb_true_r. destruct (proj_type p Hp) as (t & -> & Ht & Hw). cbn [forallb]. rewrite Ht, orb_true_r. cbn [andb].
  eapply forallb_imp; [|exact Hw]. intros x Hx. now rewrite Hx.
Qed.
Lemma betas_chars p : Forall beta_ok (ps_betas p) -> forallb beta_char (betas_text p) = true.
Proof.
  intros H. apply forallb_forall. intros c Hc. unfold betas_text in Hc. apply joined_in in Hc as [[<-|[]]|Hc]; [reflexivity|]. apply in_concat in Hc as (w & Hw & Hc). apply in_map_iff in Hw as (b & <- & Hb).
  rewrite Forall_forall in H. pose proof (write_beta_chars b (H b Hb)) as W. rewrite forallb_forall in W. specialize (W c Hc). unfold beta_char. now rewrite W.
Qed.
Lemma betas_split p : ps_betas p <> [] -> Forall beta_ok (ps_betas p) -> mapM parse_beta_function (split_chr ":" (betas_text p)) = Ok (map beta_read (ps_betas p)).
Proof.
  intros H0 H. unfold betas_text. assert (E : split_chr ":" (joined (text_of ":") (map write_beta (ps_betas p))) = map write_beta (ps_betas p)).
  { assert (C : forall b, beta_ok b -> ~ In ":"%char (write_beta b)). { intros b Hb Hc. apply write_beta_chars in Hb. rewrite forallb_forall in Hb. specialize (Hb _ Hc). discriminate Hb. }
    induction H as [|b bs Hb H IH]; [congruence|]. clear H0. destruct bs as [|b' bs].
    - cbn [map joined]. apply split_chr_free. auto.
    - cbn [map] in *. rewrite joined_cons2. change (text_of ":" ++ ?x) with (":"%char :: x). rewrite split_chr_cut by auto. rewrite IH by discriminate. reflexivity. }
  rewrite E. clear -H. induction H as [|b bs Hb _ IH]; [reflexivity|]. cbn [map mapM]. rewrite (beta_spec b Hb), IH. reflexivity.
Qed.
Definition inner_text (p : pspot) : str := match ps_inner p with Some (a, b) => with_bar a ++ with_bar b | None => [] end.
Definition tail_text (p : pspot) : str := with_bar (ps_coarse p) ++ with_bar (ps_medium p) ++ with_bar (ps_fine p).
Definition info_text (p : pspot) : str := write_digits (ps_channel p) ++ ["|"%char] ++ with_bar (ps_core p) ++ inner_text p ++ tail_text p.
Definition info_caps (p : pspot) : caps :=
  [("fine", write_num (ps_fine p)); ("medium", write_num (ps_medium p)); ("coarse", write_num (ps_coarse p))]%string ++
  match ps_inner p with Some (a, b) => [("r_inner", write_num b); ("beta_radius", write_num a)]%string | None => [] end ++
  [("core_radius", write_num (ps_core p)); ("local_channel", write_digits (ps_channel p))]%string.
Lemma bar_prev p n : pa p (with_bar n) <> Some "."%char.
Proof. unfold with_bar. rewrite pa_snoc. discriminate. Qed.
Lemma info_fp p s : pspot_ok p -> bars s = 0 -> fp PSPOT_INFO_RE None (info_text p) s [] (info_caps p).
Proof.
  intros (Hch & Hcf & Hr & Hin & _) Hs. apply Forall_cons_iff in Hr as [R1 Hr]. apply Forall_cons_iff in Hr as [R2 Hr]. apply Forall_cons_iff in Hr as [R3 Hr]. apply Forall_cons_iff in Hr as [R4 _].
  unfold PSPOT_INFO_RE. cbn [RSeqs]. unfold info_text.
  assert (Hd : exists d ds, write_digits (ps_channel p) = digit_char d :: ds) by (destruct (ps_channel p) as [|d ds]; [congruence|]; do 2 eexists; reflexivity). destruct Hd as (d & ds & Ed).
  assert (Nd : forall q c u, nomatch (RChar "-") q (write_digits (ps_channel p) ++ u) c).
  { intros q c u. rewrite Ed. apply nomatch_den. intros p' s' c' D. apply den_char in D as (D & _). cbn in D. injection D as D _. now destruct d. }
  match goal with |- fp _ _ ?t _ _ _ => change t with ([] ++ t) end. apply fp_seq with (c1 := []); [apply fp_bol|]. cbn [pa].
  match goal with |- fp _ _ ?t _ _ _ => change t with ([] ++ t) end. apply fp_seq with (c1 := []); [apply fp_opt_none; rewrite <- app_assoc; apply Nd|]. cbn [pa].
  match goal with |- fp _ _ ?t _ _ _ => change t with ([] ++ t) end. apply fp_seq with (c1 := []).
  { apply fp_opt_none. rewrite <- app_assoc, Ed. apply nomatch_den. intros p' s' c' D. unfold labelled_floats_gen in D. cbn [map labelled_float snd fst RSeqs] in D. destruct D as (? & ? & ? & D & _).
    unfold lf_sep, RPlusLazy in D. apply den_rep_chr in D as (w & E & Hl & _ & Hw & _). destruct w as [|y w]; [cbn in Hl; lia|]. cbn in E. injection E as <- _. cbn [forallb] in Hw. now destruct d. }
  cbn [pa]. match goal with |- fp _ _ ?t _ _ _ => change t with ([] ++ t) end. apply fp_seq with (c1 := []); [apply fp_opt_none; rewrite <- app_assoc; apply Nd|]. cbn [pa].
  eapply fp_seq. { apply fp_grp. apply fp_plus_chr; [apply digits_chars|rewrite Ed; discriminate|reflexivity]. }
  match goal with |- fp _ _ ?t _ _ _ => change t with ([] ++ t) end. eapply fp_seq. { apply fp_opt_none. apply nomatch_den. intros p' s' c' D. apply den_char in D as (D & _). discriminate D. }
  eapply fp_seq; [apply fp_char|]. cbn [pa].
  unfold with_bar at 1. rewrite <- app_assoc. eapply fp_seq; [apply fp_bare; [apply R1|discriminate]|]. eapply fp_seq; [apply fp_char|]. cbn [pa].
  assert (T : forall q c, q <> Some "."%char -> fp (RSeq (RSeq (bare_float "coarse") (RChar "|")) (RSeq (RSeq (bare_float "medium") (RChar "|")) (RSeq (bare_float "fine") (RChar "|")))) q (tail_text p) s c
     (("fine"%string, write_num (ps_fine p)) :: ("medium"%string, write_num (ps_medium p)) :: ("coarse"%string, write_num (ps_coarse p)) :: c)).
  { intros q c Hq. unfold tail_text. eapply fp_seq; [apply fp_barred; [apply R2|exact Hq]|]. eapply fp_seq; [apply fp_barred; [apply R3|apply bar_prev]|]. apply fp_barred; [apply R4|apply bar_prev]. }
  unfold inner_text, info_caps. destruct (ps_inner p) as [[a b]|].
  - destruct (Hin a b eq_refl) as [Ha Hb]. rewrite <- app_assoc. eapply fp_seq.
    { apply fp_opt_some; [unfold with_bar; intros E; apply app_eq_nil in E as [_ E]; discriminate E|]. apply fp_barred; [apply Ha|discriminate]. }
    eapply fp_seq. { eapply CellFacts.fp_cond_some; [reflexivity|]. apply fp_barred; [apply Hb|apply bar_prev]. }
    apply T. apply bar_prev.
  - cbn [app]. apply fp_opt_skip.
    + intros p1 s1 c1 p2 s2 c2 D1 D2. apply den_barred in D1. rewrite bars_app, Hs in D1. unfold tail_text in D1. rewrite !bars_app, !with_bar_bars in D1.
      destruct D2 as (? & s3 & c3 & D & D2). destruct D2 as (? & ? & ? & D3 & D2). destruct D2 as (? & ? & ? & D4 & D2). apply den_barred in D3, D4, D2.
      assert (L : bars s3 <= bars s1). { cbn [den] in D. destruct (cap c1 "beta_radius"); [apply den_barred in D; lia|]. destruct D as (_ & <- & _). lia. }
      lia.
    + match goal with |- fp _ _ ?t _ _ _ => change t with ([] ++ t) end. eapply fp_seq; [apply CellFacts.fp_cond_none; [reflexivity|intros R k x Hk; exact Hk]|]. apply T. discriminate.
Qed.

(** ** Whole definitions *)
Lemma info_bars p : pspot_ok p -> bars (betas_text p) = 0.
Proof. intros (_ & _ & _ & _ & _ & Hb & _). apply (bars_none beta_char); [apply ascii_imp_not; vm_compute; reflexivity|now apply betas_chars]. Qed.
Definition plain_char (c : ascii) : bool := CellFacts.is_numchar c || beta_char c || Ascii.eqb "|" c.
Lemma with_bar_chars n : forallb plain_char (with_bar n) = true.
Proof. unfold with_bar. rewrite forallb_app. apply andb_true_iff. split; [|reflexivity]. eapply forallb_imp; [|apply CellFacts.write_num_numchars]. intros x Hx. unfold plain_char. now rewrite Hx. Qed.
Lemma digits_plain ds : forallb plain_char (write_digits ds) = true.
Proof. eapply forallb_imp; [|apply digits_chars]. intros x Hx. unfold plain_char, CellFacts.is_numchar. now rewrite Hx. Qed.
Lemma info_chars p : pspot_ok p -> forallb plain_char (info_text p ++ betas_text p) = true.
Proof.
  intros (_ & _ & _ & _ & _ & Hb & _). unfold info_text, tail_text, inner_text. rewrite !forallb_app, digits_plain, !with_bar_chars. cbn [forallb andb].
  apply andb_true_iff. split; [|eapply forallb_imp; [|apply betas_chars, Hb]; intros x Hx; unfold plain_char; now rewrite Hx, orb_true_r].
  apply andb_true_iff. split; [reflexivity|]. destruct (ps_inner p) as [[a b]|]; [rewrite forallb_app, !with_bar_chars|]; reflexivity.
Qed.
Lemma no_mark k w : forallb plain_char w = true -> ~ In (mark_of k) w.
Proof. intros H Hi. rewrite forallb_forall in H. specialize (H _ Hi). destruct k as [|[|k]]; discriminate H. Qed.
Definition pre_bar (p : pspot) : str := match ps_fit p with FitBefore => ["-"%char] | _ => [] end ++ write_digits (ps_channel p) ++ match ps_fit p with FitAfter => ["-"%char] | _ => [] end.
Definition post_bar (p : pspot) : str := with_bar (ps_core p) ++ inner_text p ++ tail_text p ++ betas_text p ++ flat_map write_extra (ps_extras p).
Lemma pspot_bar p : write_pspot p = pre_bar p ++ "|"%char :: post_bar p.
Proof. unfold write_pspot, pre_bar, post_bar, tail_text, inner_text. rewrite <- !app_assoc. reflexivity. Qed.
Lemma pspot_unfit p : drop_polyfit (write_pspot p) = (info_text p ++ betas_text p) ++ flat_map write_extra (ps_extras p).
Proof.
  rewrite pspot_bar. assert (E : drop_polyfit (pre_bar p ++ "|"%char :: post_bar p) = write_digits (ps_channel p) ++ "|"%char :: post_bar p).
  { unfold pre_bar. destruct (ps_fit p); cbn [app].
    - rewrite app_nil_r. apply polyfit_none.
    - rewrite app_nil_r. exact (polyfit_some [] (ps_channel p) (post_bar p)).
    - rewrite <- app_assoc. cbn [app]. exact (polyfit_some (ps_channel p) [] (post_bar p)). }
  rewrite E. unfold info_text, post_bar. rewrite <- !app_assoc. reflexivity.
Qed.
Lemma pre_not_bar p : forallb not_bar (pre_bar p) = true.
Proof. unfold pre_bar. rewrite !forallb_app, digits_not_bar. destruct (ps_fit p); reflexivity. Qed.
Lemma pre_dash p : chr_in "-" (pre_bar p) = match ps_fit p with NoFit => false | _ => true end.
Proof.
  unfold pre_bar. destruct (ps_fit p); cbn [app].
  - rewrite app_nil_r. destruct (chr_in "-" _) eqn:E; [|reflexivity]. apply chr_in_iff in E. now apply digits_no_dash in E.
  - reflexivity.
  - apply chr_in_iff. apply in_or_app. right. now left.
Qed.
Lemma pspot_print p : pspot_ok p -> chr_in "[" (write_pspot p) = existsb tested (ps_extras p).
Proof.
  intros H. rewrite pspot_bar. pose proof (info_chars p H) as C. destruct H as (_ & _ & _ & _ & _ & _ & He & _).
  assert (A : ~ In "["%char (pre_bar p ++ "|"%char :: with_bar (ps_core p) ++ inner_text p ++ tail_text p ++ betas_text p)).
  { intros Hi. apply in_app_or in Hi as [Hi|[Hi|Hi]]; [|discriminate Hi|].
    - unfold pre_bar in Hi. apply in_app_or in Hi as [Hi|Hi]; [destruct (ps_fit p); cbn in Hi; intuition discriminate|]. apply in_app_or in Hi as [Hi|Hi]; [|destruct (ps_fit p); cbn in Hi; intuition discriminate].
      pose proof (digits_plain (ps_channel p)) as D. exact (no_mark 1 _ D Hi).
    - apply (no_mark 1 _ C). unfold info_text. rewrite <- !app_assoc. apply in_or_app. right. cbn [app]. right. exact Hi. }
  unfold post_bar. replace (pre_bar p ++ "|"%char :: with_bar (ps_core p) ++ inner_text p ++ tail_text p ++ betas_text p ++ flat_map write_extra (ps_extras p))
    with ((pre_bar p ++ "|"%char :: with_bar (ps_core p) ++ inner_text p ++ tail_text p ++ betas_text p) ++ flat_map write_extra (ps_extras p)) by (rewrite <- !app_assoc; cbn [app]; rewrite <- !app_assoc; reflexivity).
  revert A. generalize (pre_bar p ++ "|"%char :: with_bar (ps_core p) ++ inner_text p ++ tail_text p ++ betas_text p). intros w A.
  assert (B : existsb tested (ps_extras p) = true <-> In "["%char (w ++ flat_map write_extra (ps_extras p))).
  { rewrite existsb_exists. split.
    - intros (e & Hi & Ht). apply in_or_app. right. apply in_flat_map. exists e. split; [exact Hi|]. destruct e; try discriminate Ht. now left.
    - intros Hi. apply in_app_or in Hi as [Hi|Hi]; [now elim A|]. apply in_flat_map in Hi as (e & Hi & Hc). exists e. split; [exact Hi|]. rewrite Forall_forall in He. specialize (He e Hi).
      destruct (of_kind 1 e) eqn:Ek; [now destruct e|]. exfalso. exact (other_mark 1 e _ He ltac:(lia) Ek Hc eq_refl). }
  destruct (existsb tested (ps_extras p)).
  - apply chr_in_iff, B. reflexivity.
  - destruct (chr_in "[" _) eqn:E; [|reflexivity]. apply chr_in_iff, B in E. discriminate E.
Qed.
Lemma find_other j k es : j <> k -> List.find (of_kind j) (filter (fun e => negb (of_kind k e)) es) = List.find (of_kind j) es.
Proof.
  intros H. induction es as [|e es IH]; [reflexivity|]. cbn [filter List.find]. destruct (of_kind k e) eqn:Ek; cbn [negb].
  - rewrite IH. destruct (of_kind j e) eqn:Ej; [|reflexivity]. apply Nat.eqb_eq in Ek, Ej. congruence.
  - cbn [List.find]. now rewrite IH.
Qed.
Lemma none_left es : filter (fun e => negb (of_kind 0 e)) (filter (fun e => negb (of_kind 1 e)) (filter (fun e => negb (of_kind 2 e)) es)) = [].
Proof. induction es as [|e es IH]; [reflexivity|]. destruct e; cbn; exact IH. Qed.
Lemma nodup_filter f es : NoDup (map extra_kind es) -> NoDup (map extra_kind (filter f es)).
Proof.
  induction es as [|e es IH]; intros H; [constructor|]. cbn in H. inversion H as [|? ? H1 H2]; subst. cbn [filter]. destruct (f e); [|auto]. cbn [map]. constructor; [|auto].
  intros Hi. apply H1. apply in_map_iff in Hi as (e' & E & Hi). apply filter_In in Hi as [Hi _]. rewrite <- E. now apply in_map.
Qed.
Lemma forall_filter f es : Forall extra_ok es -> Forall extra_ok (filter f es).
Proof. intros H. apply Forall_forall. intros e He. apply filter_In in He as [He _]. rewrite Forall_forall in H. auto. Qed.
Lemma said_found k l es : NoDup (map extra_kind es) -> said_in k l es = match List.find (of_kind k) es with Some e => [(kstr l, VList (map VStr (extra_words e)))] | None => [] end.
Proof.
  induction es as [|e es IH]; intros H; [reflexivity|]. cbn in H. inversion H as [|? ? H1 H2]; subst. unfold said_in in *. cbn [flat_map List.find]. unfold of_kind at 1.
  destruct (Nat.eqb (extra_kind e) k) eqn:E.
  - apply Nat.eqb_eq in E. rewrite IH by exact H2. destruct (List.find (of_kind k) es) as [e'|] eqn:F; [|destruct e; reflexivity].
    exfalso. apply H1. apply List.find_some in F as [Hi F]. apply Nat.eqb_eq in F. rewrite E, <- F. now apply in_map.
  - cbn [app]. now apply IH.
Qed.
Lemma radius_type n : radius n -> to_type TFloat (VStr (write_num n)) = Ok (SpecCastep.float_of n).
Proof. intros [H Hf]. apply type_float; [|exact Hf]. now apply num_ok_wf. Qed.
Lemma whole_type ds : ds <> [] -> fits (num_value (whole ds)) -> to_type TFloat (VStr (write_digits ds)) = Ok (SpecCastep.float_of (whole ds)).
Proof.
  intros H Hf. replace (write_digits ds) with (write_num (whole ds)); [|unfold write_num, whole; cbn; now rewrite app_nil_r]. apply type_float; [|exact Hf]. apply num_ok_wf. repeat split; cbn; auto; rewrite ?app_nil_r; auto.
Qed.
Theorem pspot_spec p : pspot_ok p -> parse_pspot_string (write_pspot p) = Ok (pspot_read p).
Proof.
  intros H. unfold parse_pspot_string. rewrite (pspot_print p H), pspot_unfit. pose proof (info_chars p H) as IC.
  replace (chr_in "-" (before_bar (write_pspot p))) with (match ps_fit p with NoFit => false | _ => true end) by (rewrite pspot_bar, before_bar_spec by apply pre_not_bar; symmetry; apply pre_dash).
  pose proof H as (Hch & Hcf & Hr & Hin & Hb0 & Hb & He & Hn).
  pose proof (part_spec 2 (info_text p ++ betas_text p) (ps_extras p) ltac:(lia) (no_mark 2 _ IC) He Hn) as P2. cbn [mark_of re_of] in P2. rewrite P2. cbn [bind]. clear P2.
  pose proof (part_spec 1 (info_text p ++ betas_text p) _ ltac:(lia) (no_mark 1 _ IC) (forall_filter (fun e => negb (of_kind 2 e)) _ He) (nodup_filter (fun e => negb (of_kind 2 e)) _ Hn)) as P1. cbn [mark_of re_of] in P1. rewrite P1. cbn [bind]. clear P1.
  pose proof (part_spec 0 (info_text p ++ betas_text p) _ ltac:(lia) (no_mark 0 _ IC) (forall_filter (fun e => negb (of_kind 1 e)) _ (forall_filter (fun e => negb (of_kind 2 e)) _ He)) (nodup_filter (fun e => negb (of_kind 1 e)) _ (nodup_filter (fun e => negb (of_kind 2 e)) _ Hn))) as P0.
  cbn [mark_of re_of] in P0. rewrite P0. cbn [bind]. clear P0. rewrite none_left. cbn [flat_map]. rewrite app_nil_r.
  pose proof (fp_match_at _ _ _ _ _ (info_fp p (betas_text p) H (info_bars p H))) as M. change (match_at PSPOT_INFO_RE None) with (re_match PSPOT_INFO_RE) in M. rewrite M. cbn [m_rest].
  rewrite (betas_split p Hb0 Hb). cbn [bind]. unfold pspot_read. unfold found. rewrite !find_other by discriminate. rewrite !said_found by exact Hn.
  apply Forall_cons_iff in Hr as [R1 Hr]. apply Forall_cons_iff in Hr as [R2 Hr]. apply Forall_cons_iff in Hr as [R3 Hr]. apply Forall_cons_iff in Hr as [R4 _].
  apply radius_type in R1, R2, R3, R4. pose proof (whole_type _ Hch Hcf) as R0. unfold groupdict. cbn [m_caps]. unfold info_caps.
  clear M IC He Hn Hb Hb0 Hch Hcf. generalize (write_pspot p) (betas_text p) (existsb tested (ps_extras p)) (map beta_read (ps_betas p)). intros S B T L.
  generalize (match ps_fit p with NoFit => false | _ => true end). intros Fi.
  assert (Rin : match ps_inner p with Some (a, b) => to_type TFloat (VStr (write_num a)) = Ok (SpecCastep.float_of a) /\ to_type TFloat (VStr (write_num b)) = Ok (SpecCastep.float_of b) | None => True end).
  { destruct (ps_inner p) as [[a b]|]; [|exact I]. destruct (Hin a b eq_refl). split; now apply radius_type. }
  clear Hin H. destruct (ps_inner p) as [[a b]|]; [destruct Rin as [Ra Rb]|clear Rin];
  (destruct (List.find (of_kind 2) (ps_extras p)) as [e2|]; [generalize (map VStr (extra_words e2)); intros W2; clear e2|]);
  (destruct (List.find (of_kind 1) (ps_extras p)) as [e1|]; [generalize (map VStr (extra_words e1)); intros W1; clear e1|]);
  (destruct (List.find (of_kind 0) (ps_extras p)) as [e0|]; [generalize (map VStr (extra_words e0)); intros W0; clear e0|]);
  unfold as_floats; cbn [map app];
  fxs; reflexivity.
Qed.

(** ** SPECIES_POT blocks *)
Lemma den_of_fp r p t s c c' : fp r p t s c c' -> den r p (t ++ s) c (pa p t) s c'.
Proof.
  intros F. specialize (F _ (fun p s c => Some (p, s, c)) (pa p t, s, c') eq_refl). apply m_sound in F as (p1 & s1 & c1 & D & E). injection E as <- <- <-. exact D.
Qed.
Lemma den_skip a p s c : den (ROpt a) p s c p s c.
Proof. exists 0. split; [lia|]. split; [lia|]. cbn. auto. Qed.
Lemma den_seq a b p s c p1 s1 c1 p2 s2 c2 : den a p s c p1 s1 c1 -> den b p1 s1 c1 p2 s2 c2 -> den (RSeq a b) p s c p2 s2 c2.
Proof. intros H1 H2. cbn [den]. eauto 7. Qed.
Lemma info_den p u : pspot_ok p -> exists q c, den PSPOT_INFO_RE None (pre_bar p ++ "|"%char :: with_bar (ps_core p) ++ inner_text p ++ tail_text p ++ u) [] q u c.
Proof.
  intros (Hch & Hcf & Hr & Hin & _). apply Forall_cons_iff in Hr as [R1 Hr]. apply Forall_cons_iff in Hr as [R2 Hr]. apply Forall_cons_iff in Hr as [R3 Hr]. apply Forall_cons_iff in Hr as [R4 _].
  assert (T : forall q c, q <> Some "."%char -> exists q' c', den (RSeq (RSeq (bare_float "coarse") (RChar "|")) (RSeq (RSeq (bare_float "medium") (RChar "|")) (RSeq (bare_float "fine") (RChar "|")))) q (tail_text p ++ u) c q' u c').
  { intros q c Hq. do 2 eexists. apply den_of_fp. unfold tail_text. eapply fp_seq; [apply fp_barred; [apply R2|exact Hq]|]. eapply fp_seq; [apply fp_barred; [apply R3|apply bar_prev]|]. apply fp_barred; [apply R4|apply bar_prev]. }
  assert (I : forall q c, q <> Some "."%char -> cap c "beta_radius" = None -> exists q' c', den (RSeq (ROpt (RSeq (bare_float "beta_radius") (RChar "|"))) (RSeq (RCond "beta_radius" (RSeq (bare_float "r_inner") (RChar "|")) REps)
     (RSeq (RSeq (bare_float "coarse") (RChar "|")) (RSeq (RSeq (bare_float "medium") (RChar "|")) (RSeq (bare_float "fine") (RChar "|")))))) q (inner_text p ++ tail_text p ++ u) c q' u c').
  { intros q c Hq Hc. unfold inner_text. destruct (ps_inner p) as [[a b]|].
    - destruct (Hin a b eq_refl) as [Ha Hb]. destruct (T (pa (pa q (with_bar a)) (with_bar b)) (("r_inner"%string, write_num b) :: ("beta_radius"%string, write_num a) :: c) (bar_prev _ _)) as (q' & c' & D). exists q', c'. rewrite <- app_assoc.
      eapply den_seq; [apply den_of_fp, fp_opt_some; [unfold with_bar; intros E; apply app_eq_nil in E as [_ E]; discriminate E|]; apply fp_barred; [apply Ha|exact Hq]|].
      eapply den_seq; [apply den_of_fp; eapply CellFacts.fp_cond_some; [reflexivity|]; apply fp_barred; [apply Hb|apply bar_prev]|]. exact D.
    - destruct (T q c Hq) as (q' & c' & D). exists q', c'. cbn [app]. eapply den_seq; [apply den_skip|]. eapply den_seq; [cbn [den]; rewrite Hc; auto|]. exact D. }
  assert (N : write_digits (ps_channel p) <> []) by (destruct (ps_channel p); [congruence|discriminate]).
  destruct (I (Some "|"%char) [("core_radius"%string, write_num (ps_core p)); ("local_channel"%string, write_digits (ps_channel p))] ltac:(discriminate) eq_refl) as (q & c & D). exists q, c.
  unfold PSPOT_INFO_RE. cbn [RSeqs]. eapply den_seq; [cbn [den]; auto|]. unfold pre_bar. rewrite <- !app_assoc.
  assert (C : forall w s c q, den (ROpt (RChar "-")) q (match w with true => ["-"%char] | false => [] end ++ s) c (pa q (match w with true => ["-"%char] | false => [] end)) s c).
  { intros w s c0 q0. destruct w; [|apply den_skip]. apply den_of_fp. apply fp_opt_some; [discriminate|]. apply fp_char. }
  set (f1 := match ps_fit p with FitBefore => true | _ => false end). set (f2 := match ps_fit p with FitAfter => true | _ => false end).
  replace (match ps_fit p with FitBefore => ["-"%char] | _ => [] end) with (if f1 then ["-"%char] else []) by (unfold f1; now destruct (ps_fit p)).
  replace (match ps_fit p with FitAfter => ["-"%char] | _ => [] end) with (if f2 then ["-"%char] else []) by (unfold f2; now destruct (ps_fit p)).
  eapply den_seq; [apply C|]. eapply den_seq; [apply den_skip|]. eapply den_seq; [apply den_skip|].
  eapply den_seq; [apply den_of_fp, fp_grp, fp_plus_chr; [apply digits_chars|exact N|destruct f2; reflexivity]|].
  eapply den_seq; [apply C|]. eapply den_seq; [apply den_char; split; [reflexivity|split; reflexivity]|]. unfold with_bar at 1. rewrite <- app_assoc.
  eapply den_seq; [apply den_of_fp, fp_bare; [apply R1|discriminate]|]. cbn [app]. eapply den_seq; [apply den_char; split; [reflexivity|split; reflexivity]|]. exact D.
Qed.
Lemma betas_hd p : pspot_ok p -> exists x t, betas_text p = x :: t /\ is_digit x = true.
Proof.
  intros (_ & _ & _ & _ & H0 & _). unfold betas_text. destruct (ps_betas p) as [|b bs]; [congruence|]. cbn [map]. unfold write_beta at 1. destruct bs as [|b' bs]; cbn [map].
  - cbn [joined]. do 2 eexists. split; [reflexivity|apply char_digit].
  - rewrite joined_cons2. do 2 eexists. split; [reflexivity|apply char_digit].
Qed.
Lemma pspot_lazy p : pspot_ok p -> re_test PSPOT_FULL_LAZY (write_pspot p) = true.
Proof.
  intros H. apply (search_test_iff PSPOT_FULL_LAZY); [reflexivity|]. rewrite pspot_bar. unfold post_bar. destruct (betas_hd p H) as (x & t & E & Hx).
  destruct (info_den p (betas_text p ++ flat_map write_extra (ps_extras p)) H) as (q & c & D). exists [], (pre_bar p ++ "|"%char :: with_bar (ps_core p) ++ inner_text p ++ tail_text p ++ betas_text p ++ flat_map write_extra (ps_extras p)).
  split; [reflexivity|]. do 3 eexists. eapply den_seq; [exact D|]. rewrite E. cbn [app]. change (x :: t ++ flat_map write_extra (ps_extras p)) with ([x] ++ t ++ flat_map write_extra (ps_extras p)).
  unfold RPlus, c_nspace. apply den_rep_chr_intro; [|cbn; lia|exact I]. cbn [forallb]. rewrite andb_true_r. clear E. revert x Hx. apply ascii_imp. vm_compute. reflexivity.
Qed.
Lemma pspot_hd p : pspot_ok p -> exists x t, write_pspot p = x :: t /\ is_space x = false.
Proof.
  intros (H & _). rewrite pspot_bar. unfold pre_bar. destruct (ps_channel p) as [|d ds]; [congruence|]. destruct (ps_fit p); do 2 eexists; (split; [reflexivity|]); destruct d; reflexivity.
Qed.
Lemma solid_b w : solid w -> w <> [] /\ forallb (fun c => negb (is_space c)) w = true.
Proof. intros [H0 H]. split; [exact H0|]. apply forallb_forall. intros c Hc. apply nonblank_iff. now apply H. Qed.
Lemma split1_lead a s : forallb is_space a = true -> hd_not is_space s -> split1 (a ++ s) = split1 s.
Proof.
  intros Ha Hs. unfold split1, lstrip, lstrip_by. rewrite (drop_while_app _ a s Ha Hs). pose proof (drop_while_app is_space [] s eq_refl Hs) as E. cbn [app] in E. rewrite E. reflexivity.
Qed.
Lemma solid_hd w s : solid w -> hd_not is_space (w ++ s).
Proof. intros H. apply solid_b in H as [H0 H]. destruct w as [|x w]; [congruence|]. cbn in *. apply andb_true_iff in H as [H _]. now apply negb_true_iff. Qed.
Lemma split1_word w b : solid w -> forallb is_space b = true -> split1 (w ++ b) = [w].
Proof.
  intros Hw Hb. pose proof (solid_hd w b Hw) as Hh. apply solid_b in Hw as [H0 Hw]. unfold split1, lstrip, lstrip_by. pose proof (drop_while_app is_space [] _ eq_refl Hh) as E. cbn [app] in E. rewrite E.
  assert (H1 : hd_not (fun c => negb (is_space c)) b) by (destruct b as [|x b]; [exact I|]; cbn in *; apply andb_true_iff in Hb as [-> _]; reflexivity).
  rewrite (take_while_app _ w b Hw H1), (drop_while_app _ w b Hw H1). pose proof (drop_while_app is_space b [] Hb I) as E2. rewrite app_nil_r in E2. rewrite E2. destruct w; [congruence|reflexivity].
Qed.
Lemma split1_pair w g t : solid w -> forallb is_space g = true -> g <> [] -> hd_not is_space t -> t <> [] -> split1 (w ++ g ++ t) = [w; t].
Proof.
  intros Hw Hg Hg0 Ht Ht0. apply solid_b in Hw as [H0 Hw]. pose proof (CellBlockFacts.split1_two w g t H0 Hw Hg Hg0 Ht Ht0) as E. unfold unpack_split1 in E. destruct (split1 (w ++ g ++ t)) as [|x [|y [|z l]]]; try discriminate E. now injection E as -> ->.
Qed.
Lemma no_bar_lazy t : ~ In "|"%char t -> re_test PSPOT_FULL_LAZY t = false.
Proof.
  intros H. apply (needs_test (Ascii.eqb "|")); [reflexivity|]. apply forallb_forall. intros c Hc. destruct (Ascii.eqb_spec "|" c) as [<-|]; [now elim H|reflexivity].
Qed.
Lemma pot_line_spec l e d : pot_row l e -> species_pot_line d l = Ok (dset key_eqb d (fst e) (snd e)).
Proof.
  intros [a w b Ha Hw Hb|a w g x t Ha Hw Hg Hx Ht|a w g p Ha Hw Hg Hp]; apply blanks_iff in Ha; unfold species_pot_line.
  - apply blanks_iff in Hb. rewrite split1_lead by (auto using solid_hd). rewrite split1_word by auto. reflexivity.
  - apply gap_iff in Hg as [Hg Hg0]. rewrite split1_lead by (auto using solid_hd). rewrite split1_pair; auto; [|apply nonblank_iff in Hx; cbn; now apply negb_true_iff|discriminate]. rewrite no_bar_lazy by exact Ht. reflexivity.
  - apply gap_iff in Hg as [Hg Hg0]. rewrite split1_lead by (auto using solid_hd). destruct (pspot_hd p Hp) as (x & t & E & Hx). rewrite split1_pair; auto; [|rewrite E; exact Hx|rewrite E; discriminate].
    rewrite (pspot_lazy p Hp), (pspot_spec p Hp). reflexivity.
Qed.
Theorem species_pot_spec ls es last : laid pot_row blanks ls es -> exists d, parse_species_pot (ls ++ [last]) = Ok (VDict false d) /\ merged es d.
Proof.
  intros L. exists (dupdate key_eqb [] es). split; [|apply merged_dof]. unfold parse_species_pot.
  replace (l_remove_bounds 0 1 (ls ++ [last])) with ls by (unfold l_remove_bounds; cbn [skipn]; rewrite app_length, Nat.add_sub, firstn_app, Nat.sub_diag, firstn_all; cbn [firstn]; now rewrite app_nil_r).
  assert (G : forall d, foldM species_pot_line ls d = Ok (dupdate key_eqb d es)); [|now rewrite G].
  induction L as [|l e ls es H L IH|l ls es H L IH]; intros d; [reflexivity| |].
  - cbn [foldM]. rewrite (pot_line_spec l e d H). cbn [bind]. rewrite IH. destruct e; reflexivity.
  - cbn [foldM]. assert (E : species_pot_line d l = Ok d); [|rewrite E; apply IH]. unfold species_pot_line. apply blanks_iff in H. rewrite <- (app_nil_r l). rewrite split1_lead by (exact H || exact I). reflexivity.
Qed.

(** ** Files of one such block *)
Theorem one_block_by dc sp ls title clean v : one_block ls title clean -> block_parser dc sp title clean = Ok v ->
  parse_cell_param_file dc sp ls = Ok (VList [VDict false [(KStr title, v)]]).
Proof.
  intros (raw & h & body & e & t & -> & Hc & Hh & <- & Hbody & He & Hs) Hm. unfold parse_cell_param_file. cbn [cell_loop length]. rewrite (CellFacts.uncomment_code _ _ Hc). unfold l_from_re.
  rewrite (CellFacts.block_head_test _ _ Hh). cbn [negb]. replace (body ++ [e]) with (body ++ e :: [] ++ []) by reflexivity. rewrite l_scan_first.
  - cbn [orb bind]. rewrite (CellFacts.l_bool_cons h _ t (CellFacts.block_head_title _ _ Hh)). cbn [bind List.tl]. rewrite (CellFacts.block_head_title _ _ Hh). cbn [bind].
    replace (strip_comments [$"#"; $"!"] true (body ++ [e])) with clean.
    2: { refine (strip_inline_unique _ _ _ _ Hs (strip_inline_spec _ _ _)). discriminate. }
    rewrite Hm. cbn [bind app]. destruct body; reflexivity.
  - apply forallb_forall. intros l Hl. rewrite Forall_forall in Hbody. apply Hbody in Hl. apply negb_true_iff.
    apply (not_true _ (end_line l)); [symmetry; apply CellFacts.endblock_test|exact Hl].
  - now apply CellFacts.endblock_test.
Qed.
Theorem species_pot_file ls body e es d : one_block ls ($"species_pot") (body ++ [e]) -> laid pot_row blanks body es -> merged es d ->
  parse_cell_param_file parse_devel_code_block parse_species_pot ls = Ok (VList [VDict false [(KStr ($"species_pot"), VDict false d)]]).
Proof.
  intros H L M. apply (one_block_by _ _ _ _ _ _ H). destruct (species_pot_spec body es e L) as (d' & E & M').
  rewrite (merged_fun key_eqb key_eqb_spec _ _ M), <- (merged_fun key_eqb key_eqb_spec _ _ M'). exact E.
Qed.
