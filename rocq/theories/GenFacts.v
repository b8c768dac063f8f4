(** Facts about the predicted files. *)
From Coq Require Import Lia Sorted.
From Verif Require Import PyBase PyFacts PyVal Regex RegexFacts RegexComplete SpecStr StrUtilFacts IntStr
  DictUtil SpecDict DictFacts DictSmall PathLib SpecCli PathFacts GenFiles SpecGen.
Local Open Scope list_scope.
Local Open Scope nat_scope.

(** ** Sorting *)
Lemma str_cmp_spec a : forall b, match str_cmp a b with
  | Eq => a = b | Lt => text_lt a b | Gt => text_lt b a end.
Proof.
  induction a as [|x a IH]; intros [|y b]; cbn [str_cmp]; try constructor.
  - destruct (N.compare_spec (ord x) (ord y)) as [E|L|L].
    + unfold ord in E. apply (f_equal ascii_of_N) in E. rewrite !ascii_N_embedding in E. subst y.
      specialize (IH b). destruct (str_cmp a b); [now subst|now constructor|now constructor].
    + now constructor.
    + now constructor.
Qed.
Lemma text_lt_trans a b : text_lt a b -> forall c, text_lt b c -> text_lt a c.
Proof.
  induction 1 as [x b|x y a b L|x a b H IH]; intros c H'; inversion H' as [|? ? ? ? L'|? ? ? H'']; subst;
    try solve [constructor]; try solve [now apply lt_char]; try solve [apply lt_next; auto].
  apply lt_char. now apply (N.lt_trans _ (N_of_ascii y)).
Qed.
Lemma insert_in x s l : In x (insert_name s l) <-> x = s \/ In x l.
Proof.
  induction l as [|y l IH]; cbn [insert_name In]; [intuition|].
  pose proof (str_cmp_spec s y) as C. destruct (str_cmp s y); cbn [In]; [subst|..]; try rewrite IH; intuition.
Qed.
Lemma insert_sorted s l : StronglySorted text_lt l -> StronglySorted text_lt (insert_name s l).
Proof.
  induction 1 as [|y l H IH HF]; cbn [insert_name]; [repeat constructor|].
  pose proof (str_cmp_spec s y) as C. destruct (str_cmp s y).
  - now constructor.
  - constructor; [now constructor|]. constructor; [exact C|]. eapply Forall_impl; [|exact HF]. intros z Hz. eapply text_lt_trans; eauto.
  - constructor; [exact IH|]. apply Forall_forall. intros z Hz. apply insert_in in Hz as [-> |Hz]; [exact C|]. rewrite Forall_forall in HF. auto.
Qed.
Lemma sorted_in x l : In x (sorted_set l) <-> In x l.
Proof. unfold sorted_set. induction l as [|y l IH]; cbn; [reflexivity|]. rewrite insert_in, IH. intuition. Qed.
Lemma sorted_sorted l : StronglySorted text_lt (sorted_set l).
Proof. unfold sorted_set. induction l; cbn; [constructor|now apply insert_sorted]. Qed.

(** ** Options *)
Lemma truth_iff v : truth v = true <-> ~ no v.
Proof.
  destruct v as [|b|z|[q|b]|a b|s|s|l|l|d l]; unfold no; cbn [truth].
  - split; [discriminate|]. intros H. exfalso. apply H. now left.
  - destruct b; [|split; [discriminate|intros H; exfalso; apply H; auto]]. split; [|reflexivity]. intros _ H. decompose [or ex and] H; discriminate.
  - rewrite negb_true_iff. destruct (Z.eqb_spec z 0) as [->|N]; [split; [discriminate|intros H; exfalso; apply H; auto]|].
    split; [|reflexivity]. intros _ H. decompose [or ex and] H; try discriminate. congruence.
  - rewrite negb_true_iff. destruct (Z.eqb_spec (Qnum q) 0) as [E|N].
    + split; [discriminate|]. intros H. exfalso. apply H. do 8 right. left. exists (Qden q). destruct q. cbn in E. now subst.
    + split; [|reflexivity]. intros _ H. decompose [or ex and] H; try discriminate. match goal with K : VFloat _ = VFloat _ |- _ => injection K as -> end. now apply N.
  - rewrite negb_true_iff. split.
    + intros E H. decompose [or ex and] H; try discriminate; match goal with K : VFloat _ = VFloat _ |- _ => injection K as -> end; subst.
      * discriminate.
      * match goal with K : Forall _ ?z |- _ => assert (Z0 : forallb (Ascii.eqb (ascii_of_nat 0)) z = true) by
          (apply forallb_forall; intros c Hc; rewrite Forall_forall in K; rewrite (K c Hc); apply Ascii.eqb_refl) end.
        cbn [zero_bits] in E. rewrite Z0 in E. rewrite Ascii.eqb_refl in E. discriminate.
      * match goal with K : Forall _ ?z |- _ => assert (Z0 : forallb (Ascii.eqb (ascii_of_nat 0)) z = true) by
          (apply forallb_forall; intros c Hc; rewrite Forall_forall in K; rewrite (K c Hc); apply Ascii.eqb_refl) end.
        cbn [zero_bits] in E. rewrite Z0 in E. rewrite Ascii.eqb_refl, orb_true_r in E. discriminate.
    + intros H. destruct (zero_bits b) eqn:E; [|reflexivity]. exfalso. apply H. do 9 right. exists b. split; [reflexivity|].
      destruct b as [|c b]; [now left|]. right. exists c, b. split; [reflexivity|]. cbn [zero_bits] in E. apply andb_true_iff in E as [E1 E2]. split.
      * apply orb_true_iff in E1 as [E1|E1]; apply Ascii.eqb_eq in E1; auto.
      * apply Forall_forall. intros x Hx. rewrite forallb_forall in E2. apply E2 in Hx. apply Ascii.eqb_eq in Hx. auto.
  - split; [|reflexivity]. intros _ H. decompose [or ex and] H; discriminate.
  - destruct s; (split; [|intros H]); try reflexivity; try discriminate; [exfalso; apply H; auto 10|]. intros _ H. decompose [or ex and] H; discriminate.
  - destruct s; (split; [|intros H]); try reflexivity; try discriminate; [exfalso; apply H; auto 10|]. intros _ H. decompose [or ex and] H; discriminate.
  - destruct l; (split; [|intros H]); try reflexivity; try discriminate; [exfalso; apply H; auto 10|]. intros _ H. decompose [or ex and] H; discriminate.
  - destruct l; (split; [|intros H]); try reflexivity; try discriminate; [exfalso; apply H; auto 10|]. intros _ H. decompose [or ex and] H; discriminate.
  - destruct l; (split; [|intros H]); try reflexivity; try discriminate; [exfalso; apply H; eauto 12|]. intros _ H. decompose [or ex and] H; discriminate.
Qed.

Section Opt.
  Context (d : dict) (Hd : NoDup (map fst d)).
  Lemma setting_iff k dflt v : setting d k dflt v <-> pget d k dflt = v.
  Proof.
    unfold setting, pget. destruct (dget key_eqb d (KStr ($k))) as [w|] eqn:E.
    - split.
      + intros [H|[H _]]; [apply (entry_dget _ _ _ Hd) in H; congruence|]. apply absent_dget in H. congruence.
      + intros <-. left. now apply (entry_dget _ _ _ Hd).
    - split.
      + intros [H|[_ H]]; [apply (entry_dget _ _ _ Hd) in H; congruence|auto].
      + intros <-. right. split; [now apply absent_dget|reflexivity].
  Qed.
  Lemma pon_iff k : pon d k = true <-> on d k.
  Proof.
    unfold pon, on. rewrite truth_iff. split.
    - intros H. exists (pget d k VNone). split; [now apply setting_iff|exact H].
    - intros (v & H & N). apply setting_iff in H. now rewrite H.
  Qed.
  Lemma pon_off k : pon d k = false <-> ~ on d k.
  Proof. rewrite <- pon_iff. now rewrite not_true_iff_false. Qed.
  Lemma pdef_iff k : truth (pget d k (VBool true)) = true <-> on_by_default d k.
  Proof.
    unfold on_by_default. rewrite truth_iff. split.
    - intros H. exists (pget d k (VBool true)). split; [now apply setting_iff|exact H].
    - intros (v & H & N). apply setting_iff in H. now rewrite H.
  Qed.
  Lemma says_iff k dflt t : as_str (pget d k (VStr ($dflt))) = Ok t <-> says d k dflt t.
  Proof.
    unfold says. rewrite setting_iff. destruct (pget d k (VStr ($dflt))); cbn; split; congruence.
  Qed.
  Lemma group_iff k g : as_dict (pget d k (VDict false [])) = Ok g <-> group d k g.
  Proof.
    unfold group. split.
    - destruct (pget d k (VDict false [])) as [| | | | | | | | |b its] eqn:E; cbn; try discriminate. intros H. injection H as <-. exists b. now apply setting_iff.
    - intros (b & H). apply setting_iff in H. now rewrite H.
  Qed.
  Lemma group_none k g : as_dict (pget d k VNone) = Ok g -> group d k g.
  Proof.
    intros H. unfold group, setting. unfold pget in H. destruct (dget key_eqb d (KStr ($k))) as [v|] eqn:E; [|discriminate].
    destruct v as [| | | | | | | | |b its]; try discriminate. injection H as ->. exists b. left. apply (entry_dget _ _ _ Hd). exact E.
  Qed.
  Lemma dmem_iff k : dmem key_eqb d (KStr ($k)) = true <-> In (KStr ($k)) (map fst d).
  Proof.
    unfold dmem. destruct (dget key_eqb d (KStr ($k))) as [v|] eqn:E; (split; [|]); try discriminate; try reflexivity.
    - intros _. apply (entry_dget _ _ _ Hd) in E. apply in_map_iff. eexists. split; [|exact E]. reflexivity.
    - intros H. apply absent_dget in E. contradiction.
  Qed.
End Opt.
Lemma num_iff v q : as_num v = Ok q <-> number v q.
Proof.
  unfold number. destruct v as [|b|z|[x|x]|a b|s|s|l|l|d l]; cbn [as_num];
    (split; [intros H; try discriminate; injection H as <-; eauto 6
            |intros [(z0 & E & ->)|[(b0 & E & ->)|E]]; try discriminate; injection E as <-; reflexivity]).
Qed.
Lemma gt_iff q z : gt_int q z = true <-> (inject_Z z < q)%Q.
Proof.
  unfold gt_int. rewrite negb_true_iff, <- not_true_iff_false, Qle_bool_iff. split; [apply Qnot_le_lt|apply Qlt_not_le].
Qed.
Lemma ge_iff q z : ge_int q z = true <-> (inject_Z z <= q)%Q.
Proof. apply Qle_bool_iff. Qed.
Lemma over_iff d k dflt z q : NoDup (map fst d) -> as_num (pget d k (VInt dflt)) = Ok q ->
  (over d k dflt z <-> gt_int q z = true).
Proof.
  intros Hd E. rewrite gt_iff. unfold over. split.
  - intros (v & q' & H1 & H2 & H3). apply (setting_iff _ Hd) in H1. rewrite H1 in E. apply num_iff in H2. congruence.
  - intros H. exists (pget d k (VInt dflt)), q. split; [now apply (setting_iff _ Hd)|]. split; [now apply num_iff|exact H].
Qed.
Lemma text_in_iff s l : text_in s l = true <-> exists x, In x l /\ s = $x.
Proof.
  unfold text_in. rewrite existsb_exists. split; intros (x & H & E); exists x; (split; [exact H|]); [now apply str_eqb_eq|subst; apply str_eqb_refl].
Qed.

(** ** Functionals *)
Lemma den_lit_i t : forall p s c p' s' c', den (RLitI_l t) p s c p' s' c' -> exists t', lower t' = lower t /\ s = t' ++ s'.
Proof.
  induction t as [|x t IH]; intros p s c p' s' c' H.
  - destruct H as (_ & -> & _). now exists [].
  - destruct t as [|y t].
    + destruct H as (z & -> & E & _). exists [z]. split; [|reflexivity]. cbn in *. apply Ascii.eqb_eq in E. now f_equal.
    + destruct H as (p1 & s1 & c1 & (z & -> & E & _) & H). apply IH in H as (t' & E' & ->). exists (z :: t'). split; [|reflexivity].
      cbn [lower map] in *. apply Ascii.eqb_eq in E. f_equal; [auto|exact E'].
Qed.
Definition libxc_prefixes : list str := map (fun s => $s)
  ["libxc_gga"; "libxc_mgga"; "libxc_lda"; "libxc_hyb_gga"; "libxc_hyb_mgga"; "libxc_hyb_lda"]%string.
Lemma fp_lit_i t : forall t' p s c, lower t' = lower t -> fp (RLitI_l t) p t' s c c.
Proof.
  induction t as [|x t IH]; intros t' p s c E.
  - destruct t'; [|discriminate]. apply fp_eps.
  - destruct t' as [|y t']; [discriminate|]. cbn [lower map] in E. injection E as E1 E2. destruct t as [|z t].
    + destruct t'; [|discriminate]. apply fp_chr. apply Ascii.eqb_eq. auto.
    + change (RLitI_l (x :: z :: t)) with (RSeq (RCharI x) (RLitI_l (z :: t))). change (y :: t') with ([y] ++ t'). eapply fp_seq.
      * apply fp_chr. apply Ascii.eqb_eq. auto.
      * apply IH. exact E2.
Qed.
Lemma libxc_hit P rest : In P libxc_prefixes -> reduce_xc (P ++ rest) = P.
Proof.
  intros H.
  assert (Tail : forall p f rest, f = $"gga" \/ f = $"mgga" \/ f = $"lda" ->
    fp (RAlts [RSeq (ROpt (RLitI "m")) (RLitI "gga"); RLitI "lda"]) p f rest [] []).
  { clear. intros p f rest [-> |[-> | ->]].
    - apply fp_alt_l. change ($"gga") with ([] ++ $"gga"). eapply fp_seq; [apply fp_opt_none; intros R k; reflexivity|now apply fp_lit_i].
    - apply fp_alt_l. change ($"mgga") with ($"m" ++ $"gga"). eapply fp_seq; [apply fp_opt_some; [discriminate|now apply fp_lit_i]|now apply fp_lit_i].
    - apply fp_alt_r; [intros R k; reflexivity|now apply fp_lit_i]. }
  assert (E : exists h f, (h = [] \/ h = $"_hyb") /\ (f = $"gga" \/ f = $"mgga" \/ f = $"lda") /\ P = $"libxc" ++ h ++ $"_" ++ f).
  { destruct H as [<-|[<-|[<-|[<-|[<-|[<-|[]]]]]]]; [exists [], ($"gga")|exists [], ($"mgga")|exists [], ($"lda")
      |exists ($"_hyb"), ($"gga")|exists ($"_hyb"), ($"mgga")|exists ($"_hyb"), ($"lda")]; auto. }
  destruct E as (h & f & Hh & Hf & ->).
  assert (F : fp LIBXC_RE None ($"libxc" ++ h ++ $"_" ++ f) rest [] []).
  { apply fp_seq with (c1 := []); [now apply fp_lit_i|]. apply fp_seq with (c1 := []).
    - destruct Hh as [-> | ->]; [|apply fp_opt_some; [discriminate|now apply fp_lit_i]].
      apply fp_opt_none. intros R k. now destruct Hf as [-> |[-> | ->]].
    - apply fp_seq with (c1 := []); [now apply fp_lit_i|]. now apply Tail. }
  unfold reduce_xc, re_match. rewrite (fp_match_at _ _ _ _ _ F). reflexivity.
Qed.
Lemma lower_c_idem c : lower_c (lower_c c) = lower_c c.
Proof. destruct c as [[] [] [] [] [] [] [] []]; reflexivity. Qed.
Lemma lower_idem s : lower (lower s) = lower s.
Proof. unfold lower. rewrite map_map. apply map_ext. apply lower_c_idem. Qed.
Lemma lower_app a b : lower (a ++ b) = lower a ++ lower b. Proof. apply map_app. Qed.
Lemma lower_fix_app a b : lower (a ++ b) = a ++ b -> lower a = a /\ lower b = b.
Proof.
  rewrite lower_app. revert b. induction a as [|x a IH]; cbn; intros b E; [auto|]. injection E as E1 E. destruct (IH b E) as [H1 H2].
  split; [|exact H2]. f_equal; [exact E1|exact H1].
Qed.
Lemma libxc_miss s : lower s = s -> (forall P rest, In P libxc_prefixes -> s <> P ++ rest) -> reduce_xc s = s.
Proof.
  intros Hl Hn. unfold reduce_xc, re_match, match_at. destruct (m LIBXC_RE None s [] _) as [x|] eqn:E; [|reflexivity]. exfalso.
  apply m_sound in E as (p' & s' & c' & H & _). clear x.
  assert (Lit : forall w p s c p' s' c', lower s = s -> lower ($w) = $w -> den (RLitI w) p s c p' s' c' -> s = $w ++ s' /\ lower s' = s').
  { clear. intros w p s c p' s' c' Hl Hw H. apply den_lit_i in H as (t & E & ->). destruct (lower_fix_app _ _ Hl) as [H1 H2].
    split; [|exact H2]. rewrite <- Hw. fold ($w) in E. now rewrite <- E, H1. }
  destruct H as (p1 & s1 & c1 & H1 & p2 & s2 & c2 & H2 & p3 & s3 & c3 & H3 & H4).
  apply Lit in H1 as [-> L1]; [|exact Hl|reflexivity].
  assert (X : exists h, (h = [] \/ h = $"_hyb") /\ s1 = h ++ s2 /\ lower s2 = s2).
  { destruct H2 as (n & _ & Hn' & H2). destruct n as [|[|n]].
    - destruct H2 as (_ & -> & _). exists []. auto.
    - destruct H2 as (q1 & r1 & d1 & H2 & (_ & -> & _)). apply Lit in H2 as [-> L2]; [|exact L1|reflexivity]. exists ($"_hyb"). auto.
    - cbn in Hn'. lia. }
  destruct X as (h & Hh & -> & L2). apply Lit in H3 as [-> L3]; [|exact L2|reflexivity].
  assert (X : exists f, (f = $"gga" \/ f = $"mgga" \/ f = $"lda") /\ s3 = f ++ s').
  { destruct H4 as [(q1 & r1 & d1 & H4 & H5)|H4].
    - destruct H4 as (n & _ & Hn' & H4). destruct n as [|[|n]].
      + destruct H4 as (_ & -> & _). apply Lit in H5 as [-> _]; [|exact L3|reflexivity]. exists ($"gga"). auto.
      + destruct H4 as (q2 & r2 & d2 & H4 & (_ & -> & _)). apply Lit in H4 as [-> L4]; [|exact L3|reflexivity].
        apply Lit in H5 as [-> _]; [|exact L4|reflexivity]. exists ($"mgga"). auto.
      + cbn in Hn'. lia.
    - apply Lit in H4 as [-> _]; [|exact L3|reflexivity]. exists ($"lda"). auto. }
  destruct X as (f & Hf & ->). apply (Hn ($"libxc" ++ h ++ $"_" ++ f) s'); [|now rewrite <- !app_assoc].
  destruct Hh as [-> | ->], Hf as [-> |[-> | ->]]; cbv; tauto.
Qed.
Lemma prefix_iff P : In P libxc_prefixes <-> exists h f, (h = [] \/ h = $"_hyb") /\ (f = $"gga" \/ f = $"mgga" \/ f = $"lda") /\
  P = $"libxc" ++ h ++ $"_" ++ f.
Proof.
  split.
  - intros H. repeat (destruct H as [<-|H]; [|]); [| | | | | |destruct H];
      (match goal with |- exists h f, _ /\ _ /\ ?P = _ => first [exists [], ($"gga"); solve [auto]|exists [], ($"mgga"); solve [auto]|exists [], ($"lda"); solve [auto]
       |exists ($"_hyb"), ($"gga"); solve [auto]|exists ($"_hyb"), ($"mgga"); solve [auto]|exists ($"_hyb"), ($"lda"); solve [auto]] end).
  - intros (h & f & [-> | ->] & [-> |[-> | ->]] & ->); cbv; tauto.
Qed.
Lemma family_iff s r : lower s = s -> (family s r <-> reduce_xc s = r).
Proof.
  intros Hl. split.
  - intros [(h & f & rest & Hh & Hf & -> & ->)|[-> Hn]].
    + apply libxc_hit. apply prefix_iff. eauto.
    + apply libxc_miss; [exact Hl|]. intros P rest HP E. apply prefix_iff in HP as (h & f & Hh & Hf & ->). apply (Hn h f rest Hh Hf).
      rewrite E. now rewrite <- !app_assoc.
  - intros <-. destruct (existsb (fun P => startswith P s) libxc_prefixes) eqn:E.
    + apply existsb_exists in E as (P & HP & E). unfold startswith in E. destruct (strip_prefix P s) as [rest|] eqn:E'; [|discriminate].
      apply strip_prefix_some in E' as ->. rewrite libxc_hit by exact HP. left. apply prefix_iff in HP as (h & f & Hh & Hf & ->).
      exists h, f, rest. auto.
    + assert (Hn : forall P rest, In P libxc_prefixes -> s <> P ++ rest).
      { intros P rest HP Es. assert (K : existsb (fun P => startswith P s) libxc_prefixes = true); [|congruence]. apply existsb_exists. exists P. split; [exact HP|].
        unfold startswith. destruct (strip_prefix P s) eqn:E'; [reflexivity|]. apply strip_prefix_some in Es. congruence. }
      rewrite libxc_miss by assumption. right. split; [reflexivity|]. intros h f rest Hh Hf E'. apply (Hn ($"libxc" ++ h ++ $"_" ++ f) rest); [apply prefix_iff; eauto|].
      rewrite E'. now rewrite <- !app_assoc.
Qed.

Definition keyed (v : pyval) : Prop := well_keyed v.
Lemma keyed_dict b d : well_keyed (VDict b d) -> NoDup (map fst d) /\ forall k v, In (k, v) d -> well_keyed v.
Proof. inversion 1 as [? Hc| | |]; subst; [exfalso; apply Hc; right; right; eauto|auto]. Qed.
Lemma keyed_group b d k g : well_keyed (VDict b d) -> group d k g -> well_keyed (VDict false g).
Proof.
  intros H (b' & [Hi|[_ E]]).
  - destruct (keyed_dict _ _ H) as [_ K]. apply K in Hi. destruct (keyed_dict _ _ Hi) as [N K']. now constructor.
  - injection E as _ ->. constructor; [constructor|]. intros ? ? [].
Qed.

Theorem xc_iff p xc : well_keyed (VDict false p) -> get_xc_info p = Ok xc -> forall r, In r xc <-> functional p r.
Proof.
  intros Hk. destruct (keyed_dict _ _ Hk) as [Hp Hin]. unfold get_xc_info.
  destruct (as_str (pget p "xc_functional" (VStr ($"lda")))) as [f|] eqn:Ef; [|discriminate]. cbn [bind].
  pose proof Ef as Ef'. apply (says_iff _ Hp) in Ef'. fold (pon p "xc_definition").
  destruct (pon p "xc_definition") eqn:Ed.
  - apply (pon_iff _ Hp) in Ed. destruct (pget p "xc_definition" VNone) as [| | | | | | | | |b its] eqn:Ev; try discriminate.
    apply (setting_iff _ Hp) in Ev.
    assert (Wi : well_keyed (VDict b its)).
    { destruct Ev as [Hi|[_ E]]; [eapply Hin; exact Hi|discriminate]. }
    destruct (keyed_dict _ _ Wi) as [Hi Hini].
    destruct (dget key_eqb its (KStr ($"xc"))) as [v|] eqn:Ex; [|discriminate].
    destruct v as [| | | | | | | | |b' fs]; try discriminate. apply (entry_dget _ _ _ Hi) in Ex. red in Ex.
    destruct (mapM lower_key (keys fs)) as [names|] eqn:Em; [|discriminate]. cbn [bind]. intros H. injection H as <-. intros r.
    assert (Hnames : forall n, In n names <-> exists k v, In (KStr k, v) fs /\ n = lower k).
    { clear - Em. revert names Em. unfold keys. induction fs as [|[k v] fs IH]; intros names Em; cbn in Em.
      - injection Em as <-. split; [intros []|intros (? & ? & [] & _)].
      - destruct (lower_key k) as [n0|] eqn:El; [|discriminate]. cbn [bind] in Em. destruct (mapM lower_key (map fst fs)) as [ns|]; [|discriminate].
        cbn [bind] in Em. injection Em as <-. destruct k; try discriminate. injection El as <-. intros n. cbn [In]. rewrite (IH ns eq_refl). split.
        + intros [<-|(k & v' & H & ->)]; [exists s, v; auto|exists k, v'; auto].
        + intros (k & v' & [E|H] & ->); [injection E as -> ->; auto|eauto]. }
    rewrite in_map_iff. split.
    + intros (n & Hr & Hn). apply Hnames in Hn as (k & v & Hkv & ->). right. split; [exact Ed|]. exists b, its, b', fs, k, v.
      repeat split; auto. apply family_iff; [apply lower_idem|exact Hr].
    + intros [[Hn _]|(_ & b1 & its1 & b1' & fs1 & n & v & H1 & H2 & H3 & H4)]; [contradiction|].
      apply (setting_iff _ Hp) in Ev, H1. rewrite Ev in H1. injection H1 as <- <-.
      apply (entry_dget _ _ _ Hi) in Ex, H2. rewrite Ex in H2. injection H2 as <- <-.
      exists (lower n). split; [apply family_iff; [apply lower_idem|exact H4]|]. apply Hnames. eauto.
  - apply (pon_off _ Hp) in Ed. cbn [bind]. intros H. injection H as <-. intros r. cbn [map In]. rewrite lower_idem. split.
    + intros [<-|[]]. left. split; [exact Ed|]. exists f. split; [exact Ef'|]. apply family_iff; [apply lower_idem|reflexivity].
    + intros [(_ & t & Ht & Hr)|[Hn _]]; [|contradiction]. left. apply (says_iff _ Hp) in Ht. assert (t = f) as -> by congruence.
      apply family_iff; [apply lower_idem|exact Hr].
Qed.
Lemma meets_iff p xc l : (forall r, In r xc <-> functional p r) -> (meets xc l = true <-> one_of p l).
Proof.
  intros H. unfold meets, one_of. rewrite existsb_exists. split.
  - intros (r & Hr & E). exists r. split; [now apply H|]. now apply text_in_iff.
  - intros (r & Hr & E). exists r. split; [now apply H|]. now apply text_in_iff.
Qed.

(** ** Tasks *)
Definition task_name (t : Task) : string :=
  match t with
  | SINGLEPOINT => "singlepoint" | PHONON => "phonon" | PHONON_EFIELD => "phonon_efield" | EFIELD => "efield"
  | THERMODYNAMICS => "thermodynamics" | EPCOUPLING => "epcoupling" | ELASTIC => "elastic" | GEOMOPT => "geomopt" | MD => "md"
  | SOCKET_DRIVER => "socket_driver" | TRANSITION_STATE_SEARCH => "tss" | WANNIER => "wannier" | MAGRES => "magres"
  | SPECTRAL => "spectral" | AUTOSOLVATION => "autosolvation"
  end.
Lemma upper_c_idem c : upper_c (upper_c c) = upper_c c.
Proof. destruct c as [[] [] [] [] [] [] [] []]; reflexivity. Qed.
Lemma upper_idem s : upper (upper s) = upper s.
Proof. unfold upper. rewrite map_map. apply map_ext. apply upper_c_idem. Qed.
Lemma kept_filter {A} (f : A -> bool) P l l' : (forall x, f x = true <-> P x) -> (kept P l l' <-> filter f l = l').
Proof.
  intros Hf. split.
  - induction 1 as [|x l l' H K IH|x l l' H K IH]; cbn; [reflexivity| |].
    + apply Hf in H. now rewrite H, IH.
    + rewrite <- Hf in H. apply not_true_is_false in H. now rewrite H.
  - intros <-. induction l as [|x l IH]; cbn; [constructor|]. destruct (f x) eqn:E.
    + constructor; [now apply Hf|exact IH].
    + constructor; [rewrite <- Hf; congruence|exact IH].
Qed.
Lemma same_word_iff t w : same_word t w <-> squash t = w.
Proof.
  unfold same_word, squash.
  assert (Hf : forall c, negb (chr_in c ($"+ ")) = true <-> c <> "+"%char /\ c <> " "%char).
  { intros c. unfold chr_in. cbn. destruct (Ascii.eqb_spec c "+"), (Ascii.eqb_spec c " "); cbn; subst; intuition congruence. }
  split.
  - intros (k & K & <-). apply (kept_filter _ _ _ _ Hf) in K. now rewrite K.
  - intros <-. eexists. split; [apply (kept_filter _ _ _ _ Hf); reflexivity|reflexivity].
Qed.
Lemma squash_upper t : squash (upper t) = squash t.
Proof.
  unfold squash. assert (E : filter (fun c => negb (chr_in c ($"+ "))) (upper t) = upper (filter (fun c => negb (chr_in c ($"+ "))) t)).
  { unfold upper. induction t as [|c t IH]; [reflexivity|]. cbn [map filter].
    assert (Ec : chr_in (upper_c c) ($"+ ") = chr_in c ($"+ ")) by (destruct c as [[] [] [] [] [] [] [] []]; reflexivity).
    rewrite Ec. destruct (chr_in c ($"+ ")); cbn [negb map]; [exact IH|]. now rewrite IH. }
  rewrite E. apply upper_idem.
Qed.
Lemma member_names : forall w k, In (w, k) task_names <-> exists T, In (w, T) task_members /\ task_name T = k.
Proof.
  intros w k. split.
  - intros H. repeat (destruct H as [E|H]; [injection E as <- <-; eexists; split; [cbv; repeat (first [left; reflexivity|right])|reflexivity]|]). destruct H.
  - intros (T & H & <-). repeat (destruct H as [E|H]; [injection E as <- <-; cbv; repeat (first [left; reflexivity|right])|]). destruct H.
Qed.
Lemma task_iff p T t : NoDup (map fst p) -> as_str (pget p "task" (VStr ($"SINGLEPOINT"))) = Ok t ->
  enum_call task_members (VStr (upper t)) = Ok T -> forall k, task p k <-> task_name T = k.
Proof.
  intros Hp Ht HT k. cbn [enum_call] in HT. rewrite squash_upper in HT.
  destruct (dget str_eqb task_members (squash t)) as [T'|] eqn:E; [|discriminate]. injection HT as ->.
  assert (Nd : NoDup (map fst task_members)).
  { assert (X : exists l, map fst task_members = l /\ (fix nodupb (l : list str) : bool := match l with [] => true | x :: l' => negb (existsb (str_eqb x) l') && nodupb l' end) l = true)
      by (eexists; split; [reflexivity|vm_compute; reflexivity]). destruct X as (l & -> & X).
    induction l as [|x l IH]; constructor.
    - apply andb_true_iff in X as [X _]. rewrite negb_true_iff in X. intros K. assert (existsb (str_eqb x) l = true); [|congruence].
      apply existsb_exists. exists x. split; [exact K|apply str_eqb_refl].
    - apply IH. now apply andb_true_iff in X as [_ X]. }
  unfold task. split.
  - intros (t' & w & H1 & H2 & H3). apply (says_iff _ Hp) in H1. assert (t' = t) as -> by congruence.
    apply same_word_iff in H2 as <-. apply member_names in H3 as (T' & H3 & <-).
    apply (dget_nodup _ str_eqb_spec) in H3; [|exact Nd]. congruence.
  - intros <-. exists t, (squash t). split; [now apply (says_iff _ Hp)|]. split; [now apply same_word_iff|].
    apply member_names. exists T. split; [|reflexivity]. now apply (dget_in _ str_eqb_spec).
Qed.
Lemma task_word_iff p t w : NoDup (map fst p) -> as_str (pget p "task" (VStr ($"SINGLEPOINT"))) = Ok t ->
  (task_word p w <-> upper t = $w).
Proof.
  intros Hp Ht. unfold task_word. split.
  - intros (t' & H & E). apply (says_iff _ Hp) in H. congruence.
  - intros E. exists t. split; [now apply (says_iff _ Hp)|exact E].
Qed.
