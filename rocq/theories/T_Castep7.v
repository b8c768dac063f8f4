(** Property theorems C89: pair potentials in .castep files. *)
From Coq Require Import QArith.
From Verif Require Import PyBase PyFacts PyVal Regex CastepRes NumSpec SpecLine SpecTable SpecStr SpecBands SpecDict SpecMd SpecCastep SpecCastepRun SpecTree SpecPairs
  StrUtil BandsFacts TextParsersFacts StrUtilFacts NumProps ColumnFacts MdFacts CastepBlocks CastepNum CastepRows CastepRest CastepFacts Castep4Facts TreeFacts PairFacts
  ExampleTools ExampleTools2.
From Verif Require Import T_Castep T_Castep3 T_CastepFile2.
Local Open Scope list_scope.
Local Open Scope nat_scope.

(** Deciders for the Examples. *)
Fixpoint unpairedb (b : bool) (l : str) : bool :=
  match l with
  | [] => true
  | x :: r => if Ascii.eqb x "-" && b && match drop_while is_space r with d :: _ => is_upper d | [] => false end then false
              else unpairedb (if is_space x then b else is_word x || Ascii.eqb x "]") r
  end.
Lemma unpaired_pre a : forall b r, unpairedb b (a ++ r) = true -> exists b', unpairedb b' r = true.
Proof.
  induction a as [|x a IH]; intros b r H; [now exists b|]. cbn [app unpairedb] in H. destruct (_ && _ && _) in H; [discriminate H|]. eauto.
Qed.
Lemma unpaired_blanks g : forallb is_space g = true -> forall r, unpairedb true (g ++ r) = true -> unpairedb true r = true.
Proof.
  induction g as [|x g IH]; intros Hg r H; [exact H|]. cbn [forallb] in Hg. apply andb_true_iff in Hg as [Hx Hg]. cbn [app unpairedb] in H. destruct (_ && _ && _) in H; [discriminate H|].
  rewrite Hx in H. now apply IH.
Qed.
Lemma drop_all {A} (f : A -> bool) a r : forallb f a = true -> drop_while f (a ++ r) = drop_while f r.
Proof. induction a as [|x a IH]; intros H; [reflexivity|]. cbn [forallb] in H. apply andb_true_iff in H as [Hx H]. cbn [app drop_while]. rewrite Hx. now apply IH. Qed.
Lemma unpaired_b l : unpairedb false l = true -> unpaired l.
Proof.
  intros H a c g g' d b Hc Hg Hg' Hd ->. destruct (unpaired_pre _ _ _ H) as [b' H1]. cbn [unpairedb] in H1. destruct (_ && _ && _) in H1; [discriminate H1|].
  assert (E : (if is_space c then b' else is_word c || Ascii.eqb c "]") = true).
  { destruct Hc as [Hc| ->]; [|reflexivity]. apply word_char_iff in Hc. rewrite (word_not_space _ Hc), Hc. reflexivity. }
  rewrite E in H1. apply unpaired_blanks in H1; [|now apply blanks_iff]. cbn [unpairedb] in H1. change (Ascii.eqb "-" "-") with true in H1. cbn [andb] in H1.
  assert (D : drop_while is_space (g' ++ d :: b) = d :: b).
  { apply blanks_iff in Hg'. rewrite drop_all by exact Hg'. cbn [drop_while]. apply capital_iff in Hd. now rewrite (word_not_space _ (upper_word _ Hd)). }
  rewrite D, (proj1 (capital_iff d) Hd) in H1. discriminate H1.
Qed.
Lemma few_b l : (length (filter is_upper l) <=? 2) = true -> few_capitals l.
Proof.
  intros H a b c d x y z Hx Hy Hz ->. apply Nat.leb_le in H. apply capital_iff in Hx, Hy, Hz.
  rewrite filter_app in H. cbn [filter] in H. rewrite Hx, filter_app in H. cbn [filter] in H. rewrite Hy, filter_app in H. cbn [filter] in H. rewrite Hz in H.
  rewrite app_length in H. cbn [length] in H. rewrite app_length in H. cbn [length] in H. rewrite app_length in H. cbn [length] in H. lia.
Qed.
Definition not_oneb (l : str) : bool :=
  match drop_while (fun c => negb (Ascii.eqb c "*")) l with
  | [] => true
  | _ :: s => match drop_while is_space s with
              | [] => true
              | c :: w => negb (is_upper c) || match drop_while is_space (drop_while (fun x => negb (is_space x)) w) with x :: _ => negb (Ascii.eqb x "*") | [] => false end
              end
  end.
Lemma not_one_b l : not_oneb l = true -> ~ one_like l.
Proof.
  intros H (t & a & g & c & w & g1 & g2 & -> & Ht & Ha & Hg & Hc & Hw & H1 & H2). unfold not_oneb in H.
  rewrite (drop_all _ t), (drop_all _ a) in H.
  2:{ apply blanks_iff in Ha. rewrite forallb_forall in Ha |- *. intros x Hx. specialize (Ha x Hx). destruct (Ascii.eqb_spec x "*"); [subst; discriminate Ha|reflexivity]. }
  2:{ apply forallb_forall. intros x Hx. destruct Ht as [->|[_ Ht]]; [destruct Hx|]. rewrite Forall_forall in Ht. specialize (Ht x Hx). apply word_char_iff in Ht. destruct (Ascii.eqb_spec x "*"); [subst; discriminate Ht|reflexivity]. }
  cbn [drop_while] in H. change (negb (Ascii.eqb "*" "*")) with false in H. cbv iota in H. rewrite (drop_all _ g) in H; [|now apply blanks_iff]. apply capital_iff in Hc.
  cbn [drop_while] in H. rewrite (word_not_space _ (upper_word _ Hc)), Hc in H. cbn [negb orb] in H.
  rewrite (drop_all _ w) in H.
  2:{ apply forallb_forall. intros x Hx. destruct (is_space x) eqn:E; [|reflexivity]. exfalso. apply (Hw x Hx). now apply blank_iff. }
  destruct g1 as [|y g1].
  - cbn [app drop_while] in H. change (negb (is_space "*")) with true in H. cbv iota in H. assert (E : drop_while is_space (drop_while (fun x => negb (is_space x)) g2) = []).
    { apply blanks_iff in H2. assert (E : drop_while (fun x => negb (is_space x)) g2 = g2) by (destruct g2 as [|z g2]; [reflexivity|]; cbn in H2 |- *; apply andb_true_iff in H2 as [-> _]; reflexivity).
      rewrite E. rewrite <- (app_nil_r g2) at 1. now rewrite (drop_all _ g2). }
    rewrite E in H. discriminate H.
  - apply blanks_iff in H1. assert (E : drop_while (fun x => negb (is_space x)) ((y :: g1) ++ "*"%char :: g2) = (y :: g1) ++ "*"%char :: g2).
    { cbn in H1 |- *. apply andb_true_iff in H1 as [-> _]. reflexivity. }
    rewrite E, drop_all in H by exact H1. cbn in H. discriminate H.
Qed.
Lemma word_b w : forallb is_word w && negb (isempty w) = true -> word w.
Proof. intros H. apply andb_true_iff in H as [H1 H2]. split; [now apply ne_nil|]. apply Forall_forall. intros c Hc. rewrite forallb_forall in H1. now apply word_char_iff, H1. Qed.
Lemma word_or_none_b w : forallb is_word w = true -> word_or_none w.
Proof. intros H. destruct w as [|c w]; [now left|right]. apply word_b. now rewrite H. Qed.
Lemma unit_b u : forallb (fun c => is_word c || chr_in c ($"^/*")) u && negb (isempty u) && not_firstb "0123456789" u = true -> unit_text u.
Proof.
  intros H. apply andb_true_iff in H as [H H3]. apply andb_true_iff in H as [H1 H2]. split; [now apply ne_nil|]. split; [|now apply not_first_b].
  apply Forall_forall. intros c Hc. rewrite forallb_forall in H1. specialize (H1 c Hc). apply orb_true_iff in H1 as [H1|H1]; [left; now apply word_char_iff|right; now apply chr_in_among].
Qed.
Definition symbolb (s : str) : bool := match s with c :: r => is_upper c && forallb is_lower r && (length r <=? 2) | [] => false end.
Lemma symbol_b s : symbolb s = true -> symbol s.
Proof.
  unfold symbolb. destruct s as [|c r]; [discriminate|]. intros H. apply andb_true_iff in H as [H H3]. apply andb_true_iff in H as [H1 H2]. exists c, r. split; [reflexivity|]. split; [now apply capital_iff|].
  split; [|now apply Nat.leb_le]. apply Forall_forall. intros x Hx. rewrite forallb_forall in H2. now apply small_iff, H2.
Qed.
Lemma no_capitals_b l : no_capsb l = true -> SpecPairs.no_capitals l.
Proof. intros H c Hc. exact (no_caps_of _ H c Hc). Qed.
Lemma pair_edge_b a : match rev a with c :: _ => negb (is_word c) | [] => true end = true -> SpecPairs.edge a.
Proof. intros H b c ->. rewrite rev_app_distr in H. cbn in H. apply negb_true_iff in H. intros W. apply word_char_iff in W. congruence. Qed.
Lemma blank_first_b r : match r with [] => true | x :: _ => is_space x end = true -> r = [] \/ exists x r', r = x :: r' /\ blank x.
Proof. destruct r as [|x r]; [now left|]. intros H. right. exists x, r. split; [reflexivity|now apply blank_iff]. Qed.
Fixpoint aheadb (p q : list key) : bool := match p, q with [], [] => true | [], _ :: _ => false | a :: p', b :: q' => if key_eqb a b then aheadb p' q' else true | _ :: _, [] => true end.
Lemma ahead_b p : forall q, aheadb p (p ++ q) = true -> q = [].
Proof. induction p as [|a p IH]; intros q H; [destruct q; [reflexivity|discriminate H]|]. cbn [app aheadb] in H. rewrite (proj2 (key_eqb_eq a a) eq_refl) in H. now apply IH. Qed.
Fixpoint orderlyb (es : list said) : bool := match es with [] => true | (p, _) :: es' => forallb (fun e => aheadb p (fst e)) es' && orderlyb es' end.
Lemma orderly_b es : orderlyb es = true -> orderly es.
Proof.
  intros H a. revert es H. induction a as [|[p0 v0] a IH]; intros es H p v b q w c ->; cbn in H; apply andb_true_iff in H as [H1 H2].
  - rewrite forallb_forall in H1. assert (A : aheadb p (p ++ q) = true) by (apply (H1 (p ++ q, w)), in_or_app; right; left; reflexivity). now apply ahead_b in A.
  - exact (IH _ H2 _ _ _ _ _ _ eq_refl).
Qed.
Lemma starred_b ls n : delimb (re_test (RSeqs [RBol; RStar c_word; ws_star; CastepBlocks.stars; ws_star; REol])) n ls = true -> delimited starred n ls.
Proof. apply delim_b. intros x. apply starred_iff. Qed.

(** C89.  Pair potentials: the values of every species, pair and triple under the type of
    their potential and their label. *)
Theorem C89_pair_potentials ls es : pair_report None ls es -> orderly es -> process_pair_params ls = Ok (tree 2 es).
Proof. exact (pair_params_spec ls es). Qed.
Print Assumptions C89_pair_potentials.

Definition ex_pairs : list str := lns [
  "   ************************     PairParams     ************************";
  "   *                                                                  *";
  "   *                               Two Body                           *";
  "   *         H  -H       H  -He                                       *";
  "   *    r      8.51250    -8.51250   A        * <--   LJ";
  "   *    e      0.00009     0.00017   eV       * <--   LJ";
  "   ********************************************************************";
  "   *                             Three Body                           *";
  "   *                            H   H   He                            *";
  "   *    l                      1.25   eV/A^2                          * <--   SW";
  "   ********************************************************************";
  "   *                               SW Units                           *";
  "   *    e                      2.1682052121                  eV       * <--   SW";
  "   ********************************************************************";
  "SR *                               Two Body                           *";
  "SR *                               H                                  *";
  "SR *  r_d                      3.5                           A        * <--  SHO";
  "SR ********************************************************************"]%string.
Definition ex_pairs_say : list said :=
  values (KStr ($"LJ")) ($"r") [KTuple [name "H"; name "H"]; KTuple [name "H"; name "He"]] (nums ["8.51250"; "-8.51250"]%string) ++
  values (KStr ($"LJ")) ($"e") [KTuple [name "H"; name "H"]; KTuple [name "H"; name "He"]] (nums ["0.00009"; "0.00017"]%string) ++
  [([name "SW"; name "l"; KTuple [name "H"; name "H"; name "He"]], SpecCastep.float_of (rd "1.25")); ([name "SW"; name "e"], SpecCastep.float_of (rd "2.1682052121"));
   ([name "SR_SHO"; name "r_d"; KTuple [name "H"]], SpecCastep.float_of (rd "3.5"))].
Ltac ppiece := first [solve [apply word_or_none_b; vmr]|solve [apply word_b; vmr]|solve [apply unit_b; vmr]|solve [apply symbol_b; vmr]|solve [apply unpaired_b; vmr]|solve [apply not_mentions_of; vmr]
  |solve [apply mentions_of; vmr]|solve [apply not_in_of; vmr]|solve [apply not_one_b; vmr]|solve [apply few_b; vmr]|solve [apply no_capitals_b; vmr]|solve [apply pair_edge_b; vmr]
  |solve [apply not_first_b; vmr]|solve [apply blank_first_b; vmr]|solve [apply starred_b; vmr]|solve [apply ruled_lines; vmr]|piece|cbn; lia].
Ltac value_as t := lazymatch goal with |- value_line ?l ?a ?b ?c ?d => refine (eq_rect t (fun z => value_line z a b c d) _ l _); [|vmr] end.
Lemma ex_pairs_then r es : (forall ks, pair_report ks r es) -> pair_report None (ex_pairs ++ r) (ex_pairs_say ++ es).
Proof.
  intros H. unfold ex_pairs, ex_pairs_say. do 2 (apply pp_other; try ppiece).
  eapply (pp_two _ _ _ (lns ["   *         H  -H       H  -He                                       *"; "   *    r      8.51250    -8.51250   A        * <--   LJ";
    "   *    e      0.00009     0.00017   eV       * <--   LJ"; "   ********************************************************************"]%string)
    (values (KStr ($"LJ")) ($"r") [KTuple [name "H"; name "H"]; KTuple [name "H"; name "He"]] (nums ["8.51250"; "-8.51250"]%string) ++
     values (KStr ($"LJ")) ($"e") [KTuple [name "H"; name "H"]; KTuple [name "H"; name "He"]] (nums ["0.00009"; "0.00017"]%string))); try ppiece.
  { apply tw_other; try ppiece.
    apply (tw_pairs _ _ ($"H", $"H") [($"H", $"He")]).
    { row_as ($"   *         " ++ $"H" ++ $"  " ++ "-"%char :: [] ++ $"H" ++ ($"       " ++ $"H" ++ $"  " ++ "-"%char :: [] ++ $"He" ++ ln "                                       *")).
      apply pr_next; try ppiece. apply pr_next; try ppiece. apply pr_end; ppiece. }
    eapply (tw_value _ _ [] ($"r") _ ($"LJ")); [ppiece| |vm_compute; lia|reflexivity|].
    { value_as ([] ++ $"   " ++ "*"%char :: $"    " ++ $"r" ++ $"      8.51250    -8.51250" ++ $"   " ++ $"A" ++ $"        " ++ "*"%char :: $" " ++ text_of "<--" ++ $"   " ++ $"LJ" ++ ln ""). constructor; ppiece. }
    rewrite <- (app_nil_r (values _ ($"e") _ _)).
    eapply (tw_value _ _ [] ($"e") _ ($"LJ")); [ppiece| |vm_compute; lia|reflexivity|].
    { value_as ([] ++ $"   " ++ "*"%char :: $"    " ++ $"e" ++ $"      0.00009     0.00017" ++ $"   " ++ $"eV" ++ $"       " ++ "*"%char :: $" " ++ text_of "<--" ++ $"   " ++ $"LJ" ++ ln ""). constructor; ppiece. }
    apply tw_other; try ppiece. apply tw_nil. }
  eapply (pp_three _ _ _ (lns ["   *                            H   H   He                            *"; "   *    l                      1.25   eV/A^2                          * <--   SW";
    "   ********************************************************************"]%string) [([name "SW"; name "l"; KTuple [name "H"; name "H"; name "He"]], SpecCastep.float_of (rd "1.25"))]); try ppiece.
  { apply th_other; try ppiece. apply (th_triple _ _ [$"H"; $"H"; $"He"]).
    { row_as ([] ++ $"   " ++ "*"%char :: $"                            " ++ $"H" ++ $"   " ++ $"H" ++ $"   " ++ $"He" ++ $"                            " ++ "*"%char :: ln ""). constructor; ppiece. }
    eapply (th_value _ _ _ [] ($"l") _ ($"SW")).
    { value_as ([] ++ $"   " ++ "*"%char :: $"    " ++ $"l" ++ $"                      1.25" ++ $"   " ++ $"eV/A^2" ++ $"                          " ++ "*"%char :: $" " ++ text_of "<--" ++ $"   " ++ $"SW" ++ ln ""). constructor; ppiece. }
    apply th_other; try ppiece. apply th_nil. }
  apply pp_other; try ppiece. apply (pp_value _ _ [] ($"e") _ ($"SW")); try ppiece.
  { value_as ([] ++ $"   " ++ "*"%char :: $"    " ++ $"e" ++ $"                      2.1682052121" ++ $"                  " ++ $"eV" ++ $"       " ++ "*"%char :: $" " ++ text_of "<--" ++ $"   " ++ $"SW" ++ ln ""). constructor; ppiece. }
  apply pp_other; try ppiece.
  eapply (pp_two _ _ _ (lns ["SR *                               H                                  *"; "SR *  r_d                      3.5                           A        * <--  SHO";
    "SR ********************************************************************"]%string)
    (values (potential ($"SR") ($"SHO")) ($"r_d") [KTuple [KStr ($"H")]] [rd "3.5"] ++ []) r es); [ppiece|ppiece| |apply H].
  apply tw_other; try ppiece. apply (tw_one _ _ ($"H")).
  { row_as ($"SR" ++ $" " ++ "*"%char :: $"                               " ++ $"H" ++ $"                                  " ++ "*"%char :: ln ""). constructor; ppiece. }
  eapply (tw_value _ _ ($"SR") ($"r_d") [rd "3.5"] ($"SHO") _ []); [ppiece| |vm_compute; lia|reflexivity|].
  { value_as ($"SR" ++ $" " ++ "*"%char :: $"  " ++ $"r_d" ++ $"                      3.5" ++ $"                           " ++ $"A" ++ $"        " ++ "*"%char :: $" " ++ text_of "<--" ++ $"  " ++ $"SHO" ++ ln ""). constructor; ppiece. }
  apply tw_other; try ppiece. apply tw_nil.
Qed.
Lemma ex_pairs_report : pair_report None ex_pairs ex_pairs_say.
Proof. rewrite <- (app_nil_r ex_pairs), <- (app_nil_r ex_pairs_say). apply ex_pairs_then. constructor. Qed.
Example C89_pair_potentials_ex : pair_report None ex_pairs ex_pairs_say /\ orderly ex_pairs_say /\
  process_pair_params ex_pairs = Ok
    [(name "LJ", VDict false [(name "r", VDict false [(KTuple [name "H"; name "H"], SpecCastep.float_of (rd "8.51250")); (KTuple [name "H"; name "He"], SpecCastep.float_of (rd "-8.51250"))]);
                              (name "e", VDict false [(KTuple [name "H"; name "H"], SpecCastep.float_of (rd "0.00009")); (KTuple [name "H"; name "He"], SpecCastep.float_of (rd "0.00017"))])]);
     (name "SW", VDict false [(name "l", VDict false [(KTuple [name "H"; name "H"; name "He"], SpecCastep.float_of (rd "1.25"))]); (name "e", SpecCastep.float_of (rd "2.1682052121"))]);
     (name "SR_SHO", VDict false [(name "r_d", VDict false [(KTuple [name "H"], SpecCastep.float_of (rd "3.5"))])])].
Proof.
  split; [exact ex_pairs_report|]. split; [apply orderly_b; vmr|]. rewrite (C89_pair_potentials _ _ ex_pairs_report); [|apply orderly_b; vmr]. reflexivity.
Qed.

(** A value without a unit is not always read: the pattern wants a unit and takes the last
    digit of the number for it. *)
Definition bare_line (l lab : str) (n : num) (typ : str) : Prop :=
  exists a g cols g1 g3 g4 r, l = a ++ "*"%char :: g ++ lab ++ cols ++ g1 ++ "*"%char :: g3 ++ text_of "<--" ++ g4 ++ typ ++ r /\
    blanks a /\ blanks g /\ word lab /\ columns [n] cols /\ all_fit [n] /\ gap g1 /\ blanks g3 /\ blanks g4 /\ word typ /\ blanks r.
Definition bare_values_read : Prop := forall l lab n typ, bare_line l lab n typ ->
  process_pair_params [l] = Ok (tree 1 [([KStr typ; KStr lab], SpecCastep.float_of n)]).
Lemma ex_bare lab num n : word ($lab) -> columns [n] ($num) -> fitsb_all [n] = true -> bare_line ($"   *    " ++ $lab ++ $num ++ ln "   * <--   DZ") ($lab) n ($"DZ").
Proof.
  intros Hl Hn Hf. exists ($"   "), ($"    "), ($num), ($"   "), ($" "), ($"   "), (ln ""). split.
  { change (ln "   * <--   DZ") with ($"   " ++ "*"%char :: $" " ++ text_of "<--" ++ $"   " ++ $"DZ" ++ ln ""). rewrite !app_assoc. reflexivity. }
  split; [apply blanks_of; vmr|]. split; [apply blanks_of; vmr|]. split; [exact Hl|]. split; [exact Hn|]. split; [now apply fit_of|]. split; [apply gap_b; vmr|].
  split; [apply blanks_of; vmr|]. split; [apply blanks_of; vmr|]. split; [apply word_b; vmr|apply blanks_of; vmr].
Qed.
Theorem C89_bare_values_refuted : ~ bare_values_read.
Proof.
  intros H. assert (B : bare_line ($"   *    " ++ $"m" ++ $"   18.0000000005" ++ ln "   * <--   DZ") ($"m") (rd "18.0000000005") ($"DZ")) by (apply ex_bare; [apply word_b; vmr|apply columns_of; vmr|vmr]).
  specialize (H _ _ _ _ B). vm_compute in H. discriminate H.
Qed.
Print Assumptions C89_bare_values_refuted.
(** A number of one digit without a unit is lost, and one of two digits is read as its first. *)
Theorem C89_bare_digit_refuted : bare_line ($"   *    " ++ $"z" ++ $"   1" ++ ln "   * <--   DZ") ($"z") (rd "1") ($"DZ") /\ bare_line ($"   *    " ++ $"q" ++ $"   18" ++ ln "   * <--   DZ") ($"q") (rd "18") ($"DZ") /\
  process_pair_params [$"   *    " ++ $"z" ++ $"   1" ++ ln "   * <--   DZ"] = Ok [] /\
  process_pair_params [$"   *    " ++ $"q" ++ $"   18" ++ ln "   * <--   DZ"] = Ok [(name "DZ", VDict false [(name "q", SpecCastep.float_of (rd "1"))])].
Proof. split; [apply ex_bare; [apply word_b; vmr|apply columns_of; vmr|vmr]|]. split; [apply ex_bare; [apply word_b; vmr|apply columns_of; vmr|vmr]|]. split; vmr. Qed.
Print Assumptions C89_bare_digit_refuted.
