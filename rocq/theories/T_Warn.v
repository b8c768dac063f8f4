(** Property theorems C93: warnings in .castep files. *)
From Coq Require Import QArith.
From Verif Require Import PyBase PyFacts PyVal Regex CastepRes NumSpec SpecLine SpecTable SpecStr SpecBands SpecDict SpecMd SpecCastep SpecCastepRun
  StrUtil TextParsersFacts NumProps MdFacts CastepRest BandsFacts ExampleTools ExampleTools2.
From Verif Require Import CastepFile SpecCastepFile CastepPieces CastepRuns SpecWarn WarnFacts.
From Verif Require Import T_CastepFile T_Castep T_Castep3 T_CastepFile2.
Local Open Scope list_scope.
Local Open Scope nat_scope.

(** C93.  A file of known pieces and of warnings gives what the pieces say and the texts of
    the warnings; the line after a warning of one line is passed over. *)
Theorem C93_warnings iter F ls es : warns F ls es -> parse_castep_file iter F ls = Ok (VList (map (VDict true) (file_read [es]))).
Proof. exact (file_of_warnings iter F ls es). Qed.
Print Assumptions C93_warnings.
(** Whatever the line after a warning of one line says, and whatever follows, it is not read. *)
Theorem C93_next_line_lost iter F ls es l v x x' rest : In F_SYS_INFO F -> pieces F ls es -> warning l [] v -> ends_warning l x -> ends_warning l x' ->
  parse_castep_file iter F (ls ++ l :: x :: rest) = parse_castep_file iter F (ls ++ l :: x' :: rest).
Proof. exact (next_line_lost iter F ls es l v x x' rest). Qed.
Print Assumptions C93_next_line_lost.

Definition w_one : str := ln "TS: Warning - a minimum between Reactant-TS was found for image   3".
Definition w_a : str := ln " WARNING - requested pressure too low to be accurately maintained".
Definition w_a' : str := ln "         - proceed with caution ...".
Definition w_b : str := ln " Warning - deprecated keyword PHONON_SUM_RULE found in input file".
Definition w_b' : str := ln "         - preferred usage is PHONON_SUM_RULE_METHOD".
Lemma trim_of l o : strip l = o -> trimmed l o.
Proof. intros <-. apply strip_trimmed. Qed.
Definition furtherb (i l : str) : bool := negb (isempty (strip l) || negb (match strip_prefix i l with Some (c :: _) => is_space c | _ => false end)).
Lemma further_b i l : furtherb i l = true -> further i l.
Proof. intros H. apply further_iff. now apply negb_true_iff in H. Qed.
Lemma not_further_b i l : furtherb i l = false -> ~ further i l.
Proof. intros H X. apply further_iff in X. unfold furtherb in H. rewrite X in H. discriminate. Qed.
Lemma warned_one : warned w_one ($" ").
Proof.
  exists ($"TS:"), ($"Warning"), (ln " - a minimum between Reactant-TS was found for image   3"). split; [now apply blanks_of|]. split; [vmr|]. split; [vmr|].
  right. exists ($"TS"). split; [vmr|]. split; [discriminate|]. split; [apply not_in_of; vmr|apply not_mentions_of; vmr].
Qed.
Lemma warned_a : warned w_a ($" ").
Proof.
  exists [], ($"WARNING"), (ln " - requested pressure too low to be accurately maintained"). split; [now apply blanks_of|]. split; [vmr|]. split; [vmr|].
  left. split; [reflexivity|apply not_mentions_of; vmr].
Qed.
Lemma warned_b : warned w_b ($" ").
Proof.
  exists [], ($"Warning"), (ln " - deprecated keyword PHONON_SUM_RULE found in input file"). split; [now apply blanks_of|]. split; [vmr|]. split; [vmr|].
  left. split; [reflexivity|apply not_mentions_of; vmr].
Qed.
Lemma warning_one : warning w_one [] (VStr ($"TS: Warning - a minimum between Reactant-TS was found for image   3")).
Proof. exists ($" "), ($"TS: Warning - a minimum between Reactant-TS was found for image   3"), []. split; [exact warned_one|]. split; [apply before_b; vmr|]. split; [constructor|]. split; [apply trim_of; vmr|]. split; [constructor|vmr]. Qed.
Definition w_file : list str := [w_a; w_a'; w_b; w_b'; ln ""; w_one; c_energy "-1.5"; c_energy "-855.5"].
Definition w_effects : list effect :=
  [Appends "warning" (VStr ($"WARNING - requested pressure too low to be accurately maintained - proceed with caution ..."));
   Appends "warning" (VStr ($"Warning - deprecated keyword PHONON_SUM_RULE found in input file - preferred usage is PHONON_SUM_RULE_METHOD"));
   Appends "warning" (VStr ($"TS: Warning - a minimum between Reactant-TS was found for image   3"));
   energy_effect "-855.5"].
Lemma ends_of l i x : warned l i -> furtherb i x = false -> ends_warning l x.
Proof. intros H E. exists i. split; [exact H|now apply not_further_b]. Qed.
(** Warnings as CASTEP writes them.  The first of the two energies is lost. *)
Example C93_warnings_ex : warns asked_for w_file w_effects.
Proof.
  apply (wr_more asked_for w_a [w_a'] _ w_b [] [] [w_b'; ln ""; w_one; c_energy "-1.5"; c_energy "-855.5"]); [now left|constructor| |discriminate|apply (ends_of _ _ _ warned_a); vmr|].
  { exists ($" "), ($"WARNING - requested pressure too low to be accurately maintained"), [$"- proceed with caution ..."]. split; [exact warned_a|]. split; [apply before_b; vmr|].
    split; [constructor; [apply further_b; vmr|constructor]|]. split; [apply trim_of; vmr|]. split; [constructor; [apply trim_of; vmr|constructor]|vmr]. }
  apply (wr_more asked_for w_b [w_b'] _ (ln "") [] [] [w_one; c_energy "-1.5"; c_energy "-855.5"]); [now left|constructor| |discriminate|apply (ends_of _ _ _ warned_b); vmr|].
  { exists ($" "), ($"Warning - deprecated keyword PHONON_SUM_RULE found in input file"), [$"- preferred usage is PHONON_SUM_RULE_METHOD"]. split; [exact warned_b|]. split; [apply before_b; vmr|].
    split; [constructor; [apply further_b; vmr|constructor]|]. split; [apply trim_of; vmr|]. split; [constructor; [apply trim_of; vmr|constructor]|vmr]. }
  apply (wr_one asked_for w_one _ (c_energy "-1.5") [ln ""] [] [c_energy "-855.5"]); [now left| |exact warning_one|apply (ends_of _ _ _ warned_one); vmr|].
  { apply pc_quiet; [apply quiet_b; vmr|constructor]. }
  apply wr_last. apply ex_energy; [apply before_b; vmr|vmr|vmr|vmr|constructor].
Qed.
(** A line that is read after an empty line is not read right after a warning of one line. *)
Theorem C93_next_line_refuted : exists l x, forall iter,
  parse_castep_file iter asked_for [l; ln ""; x] <> parse_castep_file iter asked_for [l; x] /\
  parse_castep_file iter asked_for [l; x] = parse_castep_file iter asked_for [l].
Proof. exists w_one, (c_energy "-1.5"). intros iter. split; [vm_compute; discriminate|vm_compute; reflexivity]. Qed.
Print Assumptions C93_next_line_refuted.
