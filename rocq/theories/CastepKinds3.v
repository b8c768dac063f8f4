(** Kinds of blocks of .castep files: pair potentials and polarisation. *)
From Verif Require Import PyBase PyVal DictUtil Regex RegexFacts RegexComplete CastepRes NumProps NeedFacts PhraseFacts SpecTable SpecMd MdFacts SpecBands SpecCastep LangFacts
  CastepBlocks CastepNum CastepRows CastepRest CastepFile SpecCastepFile SpecCastepRun CastepFileFacts QuietFacts CastepRunFacts CastepPieces CastepKinds CastepKinds2.
From Verif Require Import NumSpec SpecStr SpecLine NumVal TypeConv Header CastepFacts Castep2Facts Castep3Facts TextParsersFacts HeaderFacts BandsFacts TextParsers FileParts Stream.
From Verif Require PairFacts BerryFacts.
Local Open Scope list_scope.
Local Open Scope nat_scope.

Lemma pair_opens l : pair_title l -> re_test (gen_table_re (Some (RLit "PairParams")) CastepBlocks.stars (RStar c_word) REps true) l = true.
Proof.
  intros (a & w & g & s1 & g1 & s2 & b & Ha & Hw & Hg & H1 & Hg1 & H2 & Hb & g2 & Hg2 & ->). unfold gen_table_re. apply whole_iff; [reflexivity|reflexivity|].
  eexists _, []. split; [now rewrite app_nil_r|]. split; [|now left]. unfold gen_table_core. cbn [RSeqs].
  exists a. eexists. split; [reflexivity|]. split; [now apply lang_blanks|].
  exists w. eexists. split; [reflexivity|]. split; [apply lang_star; apply forallb_forall; intros c Hc; apply word_char_iff, Hw, Hc|].
  exists g. eexists. split; [reflexivity|]. split; [now apply lang_blanks|].
  exists s1. eexists. split; [reflexivity|]. split; [now apply lang_row|].
  exists g1. eexists. split; [reflexivity|]. split; [now apply lang_blanks|].
  exists (text_of "PairParams"). eexists. split; [reflexivity|]. split; [now apply lang_lit|].
  exists g2. eexists. split; [reflexivity|]. split; [now apply lang_blanks|].
  exists s2, b. split; [reflexivity|]. split; [now apply lang_row|].
  exists b, []. split; [now rewrite app_nil_r|]. split; [now apply lang_blanks|].
  exists [], []. split; [reflexivity|]. split; [reflexivity|]. apply lang_blanks. constructor.
Qed.
Lemma indented_opens t l : indented t l -> re_test (RSeqs [RBol; ws_star; RLit t]) l = true.
Proof.
  intros (a & r & Ha & ->). apply (start_iff (RSeq ws_star (RLit t))); [cbn; apply free_lit|cbn; apply free_lit|].
  exists (a ++ text_of t), r. split; [now rewrite app_assoc|]. apply lang_seq. exists a, (text_of t). split; [reflexivity|]. split; [now apply lang_blanks|now apply lang_lit].
Qed.
Notation nth_3 i := (nth i kinds_3 (magres_kind "" "" 0)).
Lemma k3_0 : supports (nth_3 0).
Proof.
  plain_kind 17; [exact pair_opens|apply blanks_empty|]. apply acts_add; [intros b v|reflexivity].
  intros (es & L & O & ->). unfold as_dict. now rewrite (PairFacts.pair_params_spec _ _ L O).
Qed.
Lemma k3_1 : supports (nth_3 1).
Proof.
  plain_kind 88; [exact (indented_opens _)|exact BerryFacts.equals_iff|]. apply acts_extend; [intros b d|reflexivity].
  intros (es & L & ->). exact (BerryFacts.berry_spec _ _ L).
Qed.
Lemma k3_2 : supports (nth_3 2).
Proof.
  plain_kind 89; [exact (indented_opens _)|exact BerryFacts.equals_iff|]. apply acts_extend; [intros b d|reflexivity].
  intros (es & L & ->). exact (BerryFacts.berry_spec _ _ L).
Qed.
Lemma com_says ls ns : laid (fun l n => begins " dF" l /\ exists ms, number_line (n :: ms) l) (fun l => ~ begins " dF" l) ls ns -> all_fit ns ->
  forall r, com_force [] ls r = under "forces" (kstr "com_force_removal") (vector ns) r.
Proof.
  intros H Hf r. unfold com_force.
  assert (E : mapM (fun l => nthE (get_numbers l) 0) (filter (startswith ($" dF")) ls) = Ok (map write_num ns) /\ Forall num_wf ns).
  { clear Hf. induction H as [|l n ls ns [Hb (ms & Hm)] H [IH W]|l ls ns Hb H IH]; [split; [reflexivity|constructor]| |].
    - cbn [filter]. rewrite (proj1 (begins_iff _ _) Hb). cbn [mapM]. rewrite (get_numbers_line _ _ Hm). cbn [map nthE nth_error bind]. rewrite IH. split; [reflexivity|].
      constructor; [|exact W]. pose proof (number_line_ok _ _ Hm) as O. inversion_clear O. now apply num_ok_wf.
    - cbn [filter]. destruct (startswith ($" dF") l) eqn:S; [apply begins_iff in S; contradiction|exact IH]. }
  destruct E as [E W]. rewrite E. cbn [bind]. rewrite (tuple_fit _ W Hf). reflexivity.
Qed.
Lemma k3_3 : supports (nth_3 3).
Proof.
  plain_kind 46; [intros l; apply mentions_has|apply blanks_empty|]. apply (acts_under "forces"). intros l b es' (ns & H & Hf & ->).
  eexists _, _. split; [reflexivity|]. split; [split; [reflexivity|discriminate]|]. intros r. exact (com_says _ _ H Hf r).
Qed.
Lemma kinds_supported : Forall supports kinds.
Proof.
  apply Forall_app. split; [exact kinds_1_supported|]. apply Forall_app. split; [exact kinds_2_supported|].
  apply Forall_cons; [exact k3_0|]. apply Forall_cons; [exact k3_1|]. apply Forall_cons; [exact k3_2|]. apply Forall_cons; [exact k3_3|]. apply Forall_nil.
Qed.
