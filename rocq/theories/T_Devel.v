(** Property theorems C92: DEVEL_CODE blocks. *)
From Coq Require Import QArith.
From Verif Require Import PyBase PyFacts PyVal Regex CastepRes NumSpec SpecLine SpecTable SpecStr SpecBands SpecDict SpecMd SpecType
  StrUtil NumProps CastepRows CastepFacts Castep2Facts CellParam Pspot SpecCell SpecPspot PspotFacts SpecDevel DevelFacts ExampleTools ExampleTools2.
From Verif Require Import T_CellParam.
Local Open Scope list_scope.
Local Open Scope nat_scope.

(** *** Blocks without their first and last lines, as in reports *)
Theorem C92_devel_code_read ls d : devel_block ls d -> parse_devel_code_block ls = Ok (VDict false d).
Proof. exact (devel_read ls d). Qed.
Print Assumptions C92_devel_code_read.
(** *** The closing line makes no difference *)
Theorem C92_devel_code_closed ls d e : devel_block ls d -> closing e -> parse_devel_code_block (ls ++ [e]) = Ok (VDict false d).
Proof. exact (devel_closed ls d e). Qed.
Print Assumptions C92_devel_code_closed.
(** *** Files *)
Theorem C92_devel_code_file ls body e d : one_block ls ($"devel_code") (body ++ [e]) -> devel_block body d -> closing e ->
  parse_cell_param_file parse_devel_code_block parse_species_pot ls = Ok (VList [VDict false [(KStr ($"devel_code"), VDict false d)]]).
Proof. exact (devel_file ls body e d). Qed.
Print Assumptions C92_devel_code_file.

(** *** What is misread *)
Definition entry (k : string) (v : pyval) : key * pyval := (KStr ($k), v).
(** The sign of an exponent, and what follows a minus sign, is read as a flag. *)
Theorem C92_exponent_refuted :
  parse_devel_code_block [$"tol=1e-5 mix=a-b"] =
    Ok (VDict false [entry "tol" (VFloat (FQ (1 # 100000))); entry "mix" (VStr ($"a-b")); entry "" VNone; entry "b" VNone]).
Proof. vmr. Qed.
Print Assumptions C92_exponent_refuted.
(** A setting of a group is also taken out of longer words. *)
Theorem C92_setting_in_word_refuted :
  parse_devel_code_block [$"PP: a=1 ba=1 c=12 c=1 :endPP"] =
    Ok (VDict false [entry "pp" (VDict false [entry "a" (VInt 1); entry "ba" (VInt 1); entry "c" (VInt 1); entry "data" (VList [VStr ($"b")])])]).
Proof. vmr. Qed.
Print Assumptions C92_setting_in_word_refuted.
(** With a colon in a group the rest of the group is lost. *)
Theorem C92_colon_refuted :
  parse_devel_code_block [$"PP: a:1 b=2 :endPP"] = Ok (VDict false [entry "pp" (VDict false [entry "data" (VList [VStr ($"a")])])]).
Proof. vmr. Qed.
Print Assumptions C92_colon_refuted.
(** Of two groups of the same name, what is between and in the second is lost. *)
Theorem C92_repeated_group_refuted :
  parse_devel_code_block [$"PP: a=1 :endPP tol=3 PP: b=2 :endPP"] = Ok (VDict false [entry "pp" (VDict false [entry "a" (VInt 1)])]).
Proof. vmr. Qed.
Print Assumptions C92_repeated_group_refuted.

(** *** Examples *)
Lemma not_occurs p s : contains p s = false -> ~ occurs p s.
Proof. intros H X. apply StreamFacts.contains_iff in X. congruence. Qed.
Definition pair_b (x y : ascii) : bool :=
  implb (is_alpha y || Ascii.eqb y "_") (is_word x) && implb (Ascii.eqb y "-") (negb (is_word x)).
Fixpoint pairs_b (v : str) : bool := match v with x :: (y :: _) as t => pair_b x y && pairs_b t | _ => true end.
Fixpoint steady_b (w : str) : bool := match w with [] => true | c :: t => if Ascii.eqb c "=" then pairs_b t else steady_b t end.
Lemma pairs_tail c t : pairs_b (c :: t) = true -> pairs_b t = true.
Proof. destruct t as [|y t]; [reflexivity|]. intros H. cbn in H. now apply andb_true_iff in H as [_ H]. Qed.
Lemma pairs_at u x y r : pairs_b (u ++ x :: y :: r) = true -> pair_b x y = true.
Proof. induction u as [|c u IH]; intros H; [cbn in H; now apply andb_true_iff in H as [H _]|]. apply IH. now apply (pairs_tail c). Qed.
Lemma pairs_after k c t : pairs_b (k ++ c :: t) = true -> pairs_b t = true.
Proof. induction k as [|a k IH]; intros H; [now apply (pairs_tail c)|]. apply IH. now apply (pairs_tail a). Qed.
Lemma steady_of w : steady_b w = true -> steady w.
Proof.
  intros H k u x y r E. assert (P : pairs_b (u ++ x :: y :: r) = true).
  { subst w. revert H. induction k as [|c k IH]; intros H; [exact H|]. cbn in H. destruct (Ascii.eqb c "="); [now apply (pairs_after k "="%char)|now apply IH]. }
  apply pairs_at in P. unfold pair_b in P. apply andb_true_iff in P as [P1 P2]. split.
  - intros [L| ->]; apply MdFacts.word_char_iff; [|exact P1]. apply letter_alpha in L. rewrite L in P1. exact P1.
  - intros -> X. apply MdFacts.word_char_iff in X. rewrite X in P2. discriminate.
Qed.
Lemma in_word_of w : forallb (fun c => negb (is_space c) && negb (chr_in c ($":=;%"))) w = true -> in_word w.
Proof.
  intros H c Hc. rewrite forallb_forall in H. apply H, andb_true_iff in Hc as [H1 H2]. apply negb_true_iff in H1, H2.
  split; [rewrite blank_iff; congruence|]. rewrite chr_in_among. congruence.
Qed.
Lemma word_of w : negb (isempty w) && forallb is_word w = true -> word w.
Proof. intros H. apply andb_true_iff in H as [H1 H2]. apply PairFacts.word_iff. split; [now apply ne_nil|exact H2]. Qed.
Lemma int_setting k v n nm : word k -> SpecCastep2.key_name k nm -> v = write_num n -> num_ok n -> is_int n -> v <> [] -> in_word v -> setting (k ++ "="%char :: v) (nm, VInt (int_value n)).
Proof. intros. subst v. constructor; auto. apply sv_num; auto. now apply sn_int. Qed.
Lemma float_setting k v n nm : word k -> SpecCastep2.key_name k nm -> v = write_num n -> num_ok n -> ~ is_int n -> fits (num_value n) -> v <> [] -> in_word v -> setting (k ++ "="%char :: v) (nm, SpecCell.float_of n).
Proof. intros. subst v. constructor; auto. apply sv_num; auto. now apply sn_float. Qed.
Lemma flag_of w : forallb is_flagc w && match w with c :: _ => is_alpha c || Ascii.eqb c "_" | [] => false end && match rev w with c :: _ => is_alpha c || Ascii.eqb c "_" | [] => false end = true -> flag w.
Proof.
  assert (F : forall c, is_alpha c || Ascii.eqb c "_" = true -> flag_char c) by (intros c H; apply orb_true_iff in H as [H|H]; [left; now apply letter_b|right; now apply Ascii.eqb_eq]).
  intros H. apply andb_true_iff in H as [H H3]. apply andb_true_iff in H as [H1 H2]. split; [|split].
  - intros c Hc. rewrite forallb_forall in H1. apply H1 in Hc. unfold is_flagc in Hc. apply orb_true_iff in Hc as [Hc|Hc]; [left; now apply F|right; now apply Ascii.eqb_eq].
  - destruct w as [|c t]; [discriminate|]. exists c, t. auto.
  - destruct (rev w) as [|c t] eqn:E; [discriminate|]. exists (rev t), c. split; [|now apply F]. rewrite <- (rev_involutive w), E. reflexivity.
Qed.
Definition space_b (c : ascii) : bool := Ascii.eqb c " " || Ascii.eqb c SpecCell.TAB.
Lemma space_of c : space_b c = true -> space c.
Proof. intros H. apply orb_true_iff in H as [H|H]; apply Ascii.eqb_eq in H; [now left|now right]. Qed.
Lemma spread_of g w t u ws : u = g ++ w ++ t -> forallb space_b g && negb (isempty w) && forallb (fun c => negb (is_space c)) w && match t with [] => true | c :: _ => space_b c end = true ->
  spread t ws -> spread u (w :: ws).
Proof.
  intros -> H S. apply andb_true_iff in H as [H H4]. apply andb_true_iff in H as [H H3]. apply andb_true_iff in H as [H1 H2]. apply sp_word; auto.
  - apply Forall_forall. intros c Hc. rewrite forallb_forall in H1. apply space_of. auto.
  - now apply ne_nil.
  - intros c Hc. rewrite forallb_forall in H3. apply H3 in Hc. rewrite blank_iff. now destruct (is_space c).
  - destruct t as [|c t]; [now left|]. right. exists c, t. split; [reflexivity|now apply space_of].
Qed.
Lemma spread_end g : forallb space_b g = true -> spread g [].
Proof. intros H. constructor. apply Forall_forall. intros c Hc. rewrite forallb_forall in H. apply space_of. auto. Qed.

Definition devel_lines : list str := [$"  PP: a=1 tol=2.5 7 foo :endPP"; []; $"GEOM:x=3:ENDgeom  tol=0.001 calc-full"; $"pp=-3"].
Definition devel_dict : list (key * pyval) :=
  [entry "pp" (VDict false [entry "a" (VInt 1); entry "tol" (VFloat (FQ (5 # 2))); entry "data" (VList [VInt 7; VStr ($"foo")])]);
   entry "geom" (VDict false [entry "x" (VInt 3)]); entry "tol" (VFloat (FQ (1 # 1000))); entry "_pp" (VInt (-3)); entry "calc_full" VNone].
Ltac num_set := first [apply word_of; vmr|apply key_named; vmr|vmr|apply ok_of; vmr|apply int_of; vmr|apply in_word_of; vmr|intros [X _]; discriminate X|apply fits_of; vmr|discriminate].
Lemma set_a : setting ($"a=1") ($"a", VInt 1). Proof. apply (int_setting ($"a") ($"1") (rd "1")); num_set. Qed.
Lemma set_tol : setting ($"tol=2.5") ($"tol", VFloat (FQ (5 # 2))). Proof. apply (float_setting ($"tol") ($"2.5") (rd "2.5")); num_set. Qed.
Lemma set_x : setting ($"x=3") ($"x", VInt 3). Proof. apply (int_setting ($"x") ($"3") (rd "3")); num_set. Qed.
Lemma set_tol2 : setting ($"tol=0.001") ($"tol", VFloat (FQ (1 # 1000))). Proof. apply (float_setting ($"tol") ($"0.001") (rd "0.001")); num_set. Qed.
Lemma set_pp : setting ($"pp=-3") ($"pp", VInt (-3)). Proof. apply (int_setting ($"pp") ($"-3") (rd "-3")); num_set. Qed.
Lemma val_7 : single_value ($"7") (VInt 7). Proof. apply (sv_num (rd "7")); [apply ok_of; vmr|]. apply (sn_int (rd "7")). apply int_of; vmr. Qed.
Lemma val_foo : single_value ($"foo") (VStr ($"foo")).
Proof.
  apply sv_word.
  - split; [discriminate|]. split; [apply not_first_b; vmr|]. split.
    + intros c t E. injection E as <- _. apply StrUtilFacts.nonblank_iff. vmr.
    + intros t c E. change ($"foo") with ($"fo" ++ ["o"%char]) in E. apply app_inj_tail in E as [_ <-]. apply StrUtilFacts.nonblank_iff. vmr.
  - apply wm_text. intros (w & I & E). cbn in I. repeat (destruct I as [<-|I]; [vm_compute in E; discriminate|]). destruct I.
Qed.
Lemma merged_of (m d : list (key * pyval)) : PyBase.dict_of key_eqb m = d -> merged m d.
Proof. intros <-. apply (DictFacts.merged_dict_of key_eqb IntStr.key_eqb_spec). Qed.
Lemma group_pp : group ($"PP") ($"PP: a=1 tol=2.5 7 foo :endPP") ($"pp", VDict false [entry "a" (VInt 1); entry "tol" (VFloat (FQ (5 # 2))); entry "data" (VList [VInt 7; VStr ($"foo")])]).
Proof.
  apply (gr ($"PP") ($"PP") ($":end") ($" a=1 tol=2.5 7 foo ") ($"pp") [$"a=1"; $"tol=2.5"; $"7"; $"foo"] [($"a", VInt 1); ($"tol", VFloat (FQ (5 # 2)))] [$"a=1"; $"tol=2.5"] [VInt 7; VStr ($"foo")]).
  - apply word_of; vmr.
  - vmr.
  - vmr.
  - apply key_named; vmr.
  - apply (spread_of ($" ") ($"a=1") ($" tol=2.5 7 foo ")); [vmr|vmr|]. apply (spread_of ($" ") ($"tol=2.5") ($" 7 foo ")); [vmr|vmr|].
    apply (spread_of ($" ") ($"7") ($" foo ")); [vmr|vmr|]. apply (spread_of ($" ") ($"foo") ($" ")); [vmr|vmr|]. apply spread_end. vmr.
  - apply in_set; [exact set_a|]. apply in_set; [exact set_tol|]. apply in_data; [discriminate|apply in_word_of; vmr|exact val_7|]. apply in_data; [discriminate|apply in_word_of; vmr|exact val_foo|]. constructor.
  - intros s w Hs Hw. cbn in Hs, Hw. intros O. destruct Hs as [<-|[<-|[]]]; repeat (destruct Hw as [<-|Hw]; [first [reflexivity|exfalso; revert O; apply not_occurs; vmr]|]); destruct Hw.
  - apply merged_of. vmr.
Qed.
Lemma group_geom : group ($"GEOM") ($"GEOM:x=3:ENDgeom") ($"geom", VDict false [entry "x" (VInt 3)]).
Proof.
  apply (gr ($"GEOM") ($"geom") ($":END") ($"x=3") ($"geom") [$"x=3"] [($"x", VInt 3)] [$"x=3"] []).
  - apply word_of; vmr.
  - vmr.
  - vmr.
  - apply key_named; vmr.
  - apply (spread_of [] ($"x=3") []); [vmr|vmr|]. apply spread_end. vmr.
  - apply in_set; [exact set_x|constructor].
  - intros s w [<-|[]] [<-|[]] _. reflexivity.
  - apply merged_of. vmr.
Qed.
Lemma spaced_of t u c : t = u ++ [c] -> space_b c = true -> t = [] \/ exists u c, t = u ++ [c] /\ space c.
Proof. intros -> H. right. exists u, c. split; [reflexivity|now apply space_of]. Qed.
Lemma ended_of t : match t with [] => true | c :: _ => space_b c end = true -> ended t.
Proof. destruct t as [|c t]; intros H; [now left|]. right. exists c, t. split; [reflexivity|now apply space_of]. Qed.
Lemma devel_ex ls os g : Forall2 trimmed ls os -> joined (text_of " ") os = [] ++ $"PP: a=1 tol=2.5 7 foo :endPP" ++ (g ++ $"GEOM:x=3:ENDgeom" ++ $"  tol=0.001 calc-full pp=-3") ->
  g = $" " \/ g = $"  " -> devel_block ls devel_dict.
Proof.
  intros T E Hg. apply (db _ os ([] ++ [] ++ [$"tol=0.001"; $"calc-full"; $"pp=-3"])
    [($"pp", VDict false [entry "a" (VInt 1); entry "tol" (VFloat (FQ (5 # 2))); entry "data" (VList [VInt 7; VStr ($"foo")])]); ($"geom", VDict false [entry "x" (VInt 3)])]
    [($"tol", VFloat (FQ (1 # 1000))); ($"pp", VInt (-3))] [$"calc_full"]).
  - exact T.
  - rewrite E. clear E.
    apply (co_group [] [] ($"PP")); [apply spread_end; vmr|now left|exact group_pp|destruct Hg as [->| ->]; apply ended_of; vmr|destruct Hg as [->| ->]; apply not_occurs; vmr|].
    apply (co_group g [] ($"GEOM")); [destruct Hg as [->| ->]; apply spread_end; vmr|destruct Hg as [->| ->]; [apply (spaced_of _ [] " "); vmr|apply (spaced_of _ ($" ") " "); vmr]|exact group_geom|apply ended_of; vmr|apply not_occurs; vmr|].
    apply co_end. apply (spread_of ($"  ") ($"tol=0.001") ($" calc-full pp=-3")); [vmr|vmr|]. apply (spread_of ($" ") ($"calc-full") ($" pp=-3")); [vmr|vmr|].
    apply (spread_of ($" ") ($"pp=-3") []); [vmr|vmr|]. apply spread_end. vmr.
  - apply li_set; [exact set_tol2|apply steady_of; vmr|]. apply li_flag; [apply flag_of; vmr|apply key_named; vmr|]. apply li_set; [exact set_pp|apply steady_of; vmr|]. constructor.
  - repeat constructor; cbn; intros X; repeat destruct X as [X|X]; try discriminate X; destruct X.
  - apply fi_new; [cbn; intros X; repeat destruct X as [X|X]; try discriminate X; destruct X|].
    apply (fi_taken _ _ _ _ (map filed_as [($"pp", VDict false [entry "a" (VInt 1); entry "tol" (VFloat (FQ (5 # 2))); entry "data" (VList [VInt 7; VStr ($"foo")])]); ($"geom", VDict false [entry "x" (VInt 3)])]
      ++ [entry "tol" (VFloat (FQ (1 # 1000))); entry "_pp" (VInt (-3))])); [now left|apply merged_of; vmr|].
    apply fi_new; [cbn; intros X; repeat destruct X as [X|X]; try discriminate X; destruct X|]. constructor.
Qed.
Lemma closing_ex : closing ($"%EndBlock  DEVEL_CODE").
Proof.
  exists ($"%EndBlock"), ($"  "), ($"DEVEL_CODE"), ($"%EndBlock  DEVEL_CODE"). split; [apply trimmed_of; vmr|]. split; [vmr|]. split; [vmr|]. split; [discriminate|]. split; [apply blanks_of; vmr|vmr].
Qed.
Definition devel_src : list str := ln "%BLOCK devel_code" :: map (fun l => l ++ [newline]) devel_lines ++ [ln "%EndBlock  DEVEL_CODE"].
Definition devel_clean : list str := [$"  PP: a=1 tol=2.5 7 foo :endPP"; $"GEOM:x=3:ENDgeom  tol=0.001 calc-full"; $"pp=-3"].
Example C92_devel_code_ex : devel_block devel_lines devel_dict /\ closing ($"%EndBlock  DEVEL_CODE") /\
  one_block devel_src ($"devel_code") (devel_clean ++ [$"%EndBlock  DEVEL_CODE"]) /\ devel_block devel_clean devel_dict.
Proof.
  split; [|split; [exact closing_ex|split]].
  - apply (devel_ex _ [$"PP: a=1 tol=2.5 7 foo :endPP"; []; $"GEOM:x=3:ENDgeom  tol=0.001 calc-full"; $"pp=-3"] ($"  ")); [|vmr|now right].
    unfold devel_lines, devel_clean; repeat (apply Forall2_cons; [apply trimmed_of; vmr|]); apply Forall2_nil.
  - eapply here; [reflexivity| | | | |]; [apply (head_of [] ($"%BLOCK ") [] ($"devel_code") [newline]); first [apply blanks_of; vmr|vmr|discriminate|constructor]|vmr|vmr|vmr|vmr].
  - apply (devel_ex _ [$"PP: a=1 tol=2.5 7 foo :endPP"; $"GEOM:x=3:ENDgeom  tol=0.001 calc-full"; $"pp=-3"] ($" ")); [|vmr|now left]. unfold devel_lines, devel_clean; repeat (apply Forall2_cons; [apply trimmed_of; vmr|]); apply Forall2_nil.
Qed.
