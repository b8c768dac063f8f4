(** Proofs about the options of a run in .castep files, with developer codes. *)
From Verif Require Import PyBase PyFacts PyVal Regex RegexFacts CastepRes NumSpec StrUtil SpecStr StrUtilFacts SpecLine IntStr DictUtil SpecDict DictFacts
  Stream StreamFacts SpecTable SpecMd MdFacts SpecBands SpecCastep SpecCastep2 SpecCastep5 CastepRest Pspot CellParam TextFiles Castep6Facts SpecDevel SpecParams DevelFacts.
From Verif Require Castep5Facts NumProps TextParsersFacts FileParts FileParts2 FileParts5 LangFacts.
Local Open Scope list_scope.
Local Open Scope nat_scope.

Lemma star_iff l : star_row l <-> re_test (row_re "*") l = true.
Proof. apply (LangFacts.ruled_iff "*"%char). Qed.
Definition option_step (st : pparams) (i : option_item) : result pparams :=
  match i with
  | OLine i => item_step st i
  | OCode d => Ok {| o_opt := dset key_eqb (o_opt st) (kstr "devel_code") (VDict false d); o_curr := o_curr st; o_group := o_group st |}
  end.
Lemma code_step l body e d rest st : mentions "Developer Code" l -> Forall (fun x => ~ star_row x) body -> star_row e -> SpecDevel.devel_block body d ->
  params_step st l (body ++ e :: rest) = (st' <- option_step st (OCode d) ;; Ok (st', rest)).
Proof.
  intros Hl Hb He Hd. unfold params_step. rewrite FileParts5.if_block_one.
  - rewrite FileParts2.skip_first_last, (devel_read _ _ Hd). reflexivity.
  - now apply TextParsersFacts.mentions_iff.
  - intros B. destruct Hl as (u & v & ->). unfold blanks in B. rewrite !Forall_app in B. destruct B as (_ & B & _). inversion_clear B as [|? ? X _].
    apply NumProps.blank_iff in X. discriminate X.
  - eapply Forall_impl; [|exact Hb]. intros x Hx. apply not_true_is_false. intros C. apply Hx. now apply star_iff.
  - now apply star_iff.
Qed.
Lemma options_loop ls its : option_lines ls its -> forall n st st', length ls <= n -> foldM option_step its st = Ok st' -> file_loop params_step n st ls = Ok st'.
Proof.
  induction 1 as [|l i ls its H _ IH|l ls its H _ IH|l body e d ls its Hl Hb He Hd _ IH]; intros n st st' Hn E.
  - destruct n; exact E.
  - destruct n as [|n]; [cbn in Hn; lia|]. cbn [file_loop]. rewrite (param_line _ _ H). cbn [foldM option_step] in E. destruct (item_step st i) as [st1|]; [|discriminate E]. cbn [bind] in *. apply IH; [cbn in Hn; lia|exact E].
  - destruct n as [|n]; [cbn in Hn; lia|]. cbn [file_loop]. rewrite (param_silent _ _ _ H). cbn [bind]. apply IH; [cbn in Hn; lia|exact E].
  - destruct n as [|n]; [cbn in Hn; lia|]. cbn [file_loop]. rewrite (code_step _ _ _ _ _ _ Hl Hb He Hd). cbn [foldM option_step bind] in *. apply IH; [cbn [length] in Hn; rewrite app_length in Hn; cbn in Hn; lia|exact E].
Qed.
Lemma merged_eq (es d : dict) : merged es d -> d = dupdate key_eqb [] es.
Proof. intros H. exact (merged_fun key_eqb key_eqb_spec _ _ H). Qed.
Definition item_head_ok (i : option_item) : Prop := match i with OLine i => head_ok i | OCode _ => True end.
Lemma lines_head_ok ls its : option_lines ls its -> Forall item_head_ok its.
Proof. induction 1 as [|l i ls its H _ IH|l ls its H _ IH|l body e d ls its Hl Hb He Hd _ IH]; [constructor| |exact IH|]; constructor; try exact IH; [now apply (row_head_ok l)|exact I]. Qed.
Lemma options_told us g es its out : options_filed us g es its out -> Forall item_head_ok its ->
  forall st, o_curr st = dupdate key_eqb [] es -> o_group st = g -> g <> text_of "output_units" -> units_are (o_opt st) us ->
  exists st', foldM option_step its st = Ok st' /\ close_group st' = dupdate key_eqb (o_opt st) out.
Proof.
  induction 1 as [us g|us g es d H0 M|us g h its out _ IH|us g es d h its out H0 M _ IH|us g es k v d its out M _ IH|us g es k v its out _ IH|us g es d its out _ IH];
    intros Hok st He Hg Hn Hu; try (inversion_clear Hok as [|? ? Hi Hok']); try apply merged_eq in M.
  - exists st. split; [reflexivity|]. unfold close_group. now rewrite He.
  - subst d. exists st. split; [reflexivity|]. now rewrite (close_dof st g es).
  - assert (C : close_group st = o_opt st) by (unfold close_group; now rewrite He). cbn [foldM option_step item_step]. rewrite C. cbn [bind].
    apply (IH Hok' {| o_opt := o_opt st; o_curr := []; o_group := h |}); auto.
  - subst d. pose proof (close_dof st g es He Hg H0) as C. cbn [foldM option_step item_step]. rewrite C. cbn [bind].
    apply (IH Hok' {| o_opt := dset key_eqb (o_opt st) (KStr g) (VDict false (dupdate key_eqb [] es)); o_curr := []; o_group := h |}); auto.
    unfold units_are. cbn [o_opt]. rewrite Castep5Facts.set_get. destruct (key_eqb_spec (KStr g) (kstr "output_units")) as [E|]; [|exact Hu]. injection E as ->. now elim Hn.
  - subst d. cbn [foldM option_step item_step].
    assert (E : set_in (o_opt st) (kstr "output_units") (KStr k) (VStr v) = Ok (dset key_eqb (o_opt st) (kstr "output_units") (VDict false (dupdate key_eqb [] (us ++ [(KStr k, VStr v)]))))).
    { unfold set_in. rewrite Hu, dof_snoc. now destruct us. }
    rewrite E. cbn [bind]. set (d2 := dset key_eqb (o_opt st) (kstr "output_units") _).
    apply (IH Hok' {| o_opt := d2; o_curr := o_curr st; o_group := o_group st |}); auto.
    unfold units_are, d2. cbn [o_opt]. rewrite Castep5Facts.set_get. replace (key_eqb (kstr "output_units") (kstr "output_units")) with true by reflexivity. now destruct us.
  - cbn [foldM option_step item_step bind]. apply (IH Hok' {| o_opt := o_opt st; o_curr := dset key_eqb (o_curr st) (KStr k) v; o_group := o_group st |}); auto.
    cbn [o_curr]. now rewrite dof_snoc, He.
  - cbn [foldM option_step bind].
    apply (IH Hok' {| o_opt := dset key_eqb (o_opt st) (kstr "devel_code") (VDict false d); o_curr := o_curr st; o_group := o_group st |}); auto.
    unfold units_are. cbn [o_opt]. rewrite Castep5Facts.set_get. exact Hu.
Qed.
Theorem options_spec ls its d : option_lines ls its -> options_are its d -> process_params ls = Ok d.
Proof.
  intros H (out & O & M).
  destruct (options_told _ _ _ _ _ O (lines_head_ok _ _ H) {| o_opt := []; o_curr := []; o_group := [] |} eq_refl eq_refl ltac:(discriminate) eq_refl) as (st & E & R).
  unfold process_params, over_file. rewrite (options_loop _ _ H _ _ _ (le_n _) E). cbn [rmap]. now rewrite R, (merged_eq _ _ M).
Qed.
(** Without developer codes this is the reading of [SpecCastep5]. *)
Lemma plain_lines ls its : laid param_row silent_param ls its -> option_lines ls (map OLine its).
Proof. induction 1; cbn [map]; [constructor|now constructor|now constructor]. Qed.
Lemma plain_filed us g es its out : SpecCastep5.options_told us g es its out -> options_filed us g es (map OLine its) out.
Proof. induction 1; cbn [map]; econstructor; eauto. Qed.
Lemma option_lines_app a xs b ys : option_lines a xs -> option_lines b ys -> option_lines (a ++ b) (xs ++ ys).
Proof.
  intros H Hb. induction H as [|l i ls its H _ IH|l ls its H _ IH|l body e d ls its Hl Hbd He Hd _ IH]; cbn [app]; [exact Hb|now constructor|now constructor|].
  rewrite <- app_assoc. cbn [app]. now constructor.
Qed.
