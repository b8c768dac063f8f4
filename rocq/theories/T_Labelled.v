(** Property theorem C94: labelled positions in .castep files. *)
From Coq Require Import QArith.
From Verif Require Import PyBase PyFacts PyVal Regex CastepRes NumSpec SpecLine SpecTable SpecStr SpecBands SpecDict SpecMd SpecCastep SpecCastepRun
  StrUtil TextParsersFacts NumProps MdFacts CastepRest BandsFacts ExampleTools ExampleTools2.
From Verif Require Import CastepFile SpecCastepFile CastepPieces CastepRuns SpecEdges SpecLabelled LabelledFacts LangFacts.
From Verif Require Import T_CastepFile T_Castep T_Castep3 T_CastepFile2.
Local Open Scope list_scope.
Local Open Scope nat_scope.

(** C94.  A file with a block of labelled positions gives the label of each atom and the
    position of each atom under its name with the label. *)
Theorem C94_labelled_positions iter F qs l b rows qs' : In F_POSITION F -> Forall quiet qs -> nothing_before "Fractional coordinates of atoms" l -> labelled_title l ->
  delimited (ruled "x") 1 b -> laid label_row plain (l :: b) rows -> Forall quiet qs' ->
  exists ls ps, merged (map label_entry rows) ls /\ merged (map position_entry rows) ps /\
    parse_castep_file iter F (qs ++ l :: b ++ qs') =
    Ok (VList [VDict true [(SpecCastep.name "labels", VDict true ls); (SpecCastep.name "initial_positions", VDict false ps)]]).
Proof. exact (labelled_file iter F qs l b rows qs'). Qed.
Print Assumptions C94_labelled_positions.

Definition lb_title : str := ln "     x  Element    Atom        Fractional coordinates of atoms  User-defined  x".
Definition lb_block : list str := lns [
  "     x            Number           u          v          w          LABEL     x";
  "     x------------------------------------------------------------------------x";
  "     x  H            1         0.000000   0.000000   0.000000     H1          x";
  "     x  H            2        -0.000000  -0.000000   0.166667     H2          x";
  "     x  H            3         1.000000  -1.000000   0.000000                 x";
  "     xxxxxxxxxxxxxxxxxxxxxxxxxxxxxxxxxxxxxxxxxxxxxxxxxxxxxxxxxxxxxxxxxxxxxxxxxx"]%string.
Definition lb_rows : list labelled_atom :=
  [((at_name "H" "1", [rd "0.000000"; rd "0.000000"; rd "0.000000"]), $"H1");
   ((at_name "H" "2", [rd "-0.000000"; rd "-0.000000"; rd "0.166667"]), $"H2");
   ((at_name "H" "3", [rd "1.000000"; rd "-1.000000"; rd "0.000000"]), [])].
Lemma nonblank_b l : forallb (fun c => negb (is_space c)) l = true -> forall c, In c l -> ~ blank c.
Proof. intros H c I X. apply forallb_forall with (x := c) in H; [|exact I]. apply blank_iff in X. now rewrite X in H. Qed.
Ltac lb := first [apply no_caps_of; vmr|apply edge_of; vmr|apply nonblank_b; vmr|cbn; lia|piece].
(** The block of the package's own tests, between lines that say nothing. *)
Example C94_labelled_positions_ex :
  In F_POSITION LOW /\ Forall quiet [ln ""] /\ nothing_before "Fractional coordinates of atoms" lb_title /\ labelled_title lb_title /\
  delimited (ruled "x") 1 lb_block /\ laid label_row plain (lb_title :: lb_block) lb_rows.
Proof.
  split; [cbn; tauto|]. split; [constructor; [apply quiet_b; vmr|constructor]|]. split; [apply before_b; vmr|].
  split. { exists ($"     x  Element    Atom        "), ($"  "), (ln "  x"). split; [now apply blanks_of|]. split; [discriminate|vmr]. }
  split; [apply (delim_b _ _ (ruled_iff "x"%char)); vmr|].
  do 3 (apply laid_other; [apply plain_b; vmr|]).
  apply laid_row. { row_as ($"     x  " ++ at_text "H" "            " "1" ++ $"         0.000000   0.000000   0.000000" ++ $"     " ++ $"H1" ++ ln "          x"). constructor; lb. }
  apply laid_row. { row_as ($"     x  " ++ at_text "H" "            " "2" ++ $"        -0.000000  -0.000000   0.166667" ++ $"     " ++ $"H2" ++ ln "          x"). constructor; lb. }
  apply laid_row. { row_as ($"     x  " ++ at_text "H" "            " "3" ++ $"         1.000000  -1.000000   0.000000" ++ $"     " ++ [] ++ ln "            x"). constructor; lb. }
  apply laid_other; [apply plain_b; vmr|constructor].
Qed.
