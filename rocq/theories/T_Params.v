(** Property theorems C86: the options of a run with developer codes. *)
From Coq Require Import QArith.
From Verif Require Import PyBase PyFacts PyVal Regex CastepRes NumSpec SpecLine SpecTable SpecStr SpecBands SpecDict SpecMd SpecCastep SpecCastep2 SpecCastep3 SpecCastep4 SpecCastep5
  StrUtil DictFacts TextParsersFacts StrUtilFacts NumProps MdFacts CastepBlocks CastepNum CastepRows CastepRest CastepFacts Castep2Facts Castep3Facts Castep6Facts
  SpecDevel SpecParams ParamFacts ExampleTools ExampleTools2.
From Verif Require SpecCell.
From Verif Require Import T_Castep T_Castep3 T_Castep5 T_Devel.
Local Open Scope list_scope.
Local Open Scope nat_scope.

Theorem C86_developer_codes ls its d : option_lines ls its -> options_are its d -> process_params ls = Ok d.
Proof. exact (options_spec ls its d). Qed.
Print Assumptions C86_developer_codes.

Definition ex_code : list str := [ln " ******************************* Developer Code ********************************"] ++ devel_lines ++ [ln " *****"].
Definition ex_items : list option_item :=
  [OLine (PHead ($"general")); OLine (PEntry ($"output verbosity") (VStr ($"normal (1)"))); OLine (PUnit ($"length") ($"A")); OLine (PHead ($"constrained dft - deltascf"));
   OLine (PEntry ($"deltaSCF smearing width") (VTuple [SpecCastep.float_of (rd "0.0100"); VStr ($"eV")])); OLine (PEntry ($"max. length of mixing history") (VInt 20)); OCode devel_dict].
Definition ex_options : list (key * pyval) :=
  [(name "output_units", VDict false [(name "length", VStr ($"A"))]); (name "general", VDict false [(name "output verbosity", VStr ($"normal (1)"))]);
   (name "devel_code", VDict false devel_dict);
   (name "constrained dft - deltascf", VDict false [(name "deltaSCF smearing width", VTuple [SpecCastep.float_of (rd "0.0100"); VStr ($"eV")]); (name "max. length of mixing history", VInt 20)])].
Ltac merges := match goal with |- merged ?es ?d => first [is_evar d; apply merged_dof|replace d with (dupdate key_eqb [] es) by vmr; apply merged_dof] end.
Example C86_developer_codes_ex : option_lines (ex_params ++ ex_code) ex_items /\ options_are ex_items ex_options.
Proof.
  split.
  - change ex_items with (map OLine (flat_map (fun i => match i with OLine i => [i] | OCode _ => [] end) ex_items) ++ [OCode devel_dict]).
    apply option_lines_app; [apply plain_lines; exact (proj1 C86_parameters_ex)|].
    apply (ol_code _ devel_lines (ln " *****") devel_dict [] []); [apply mentions_of; vmr| | |exact (proj1 C92_devel_code_ex)|constructor].
    + unfold devel_lines. repeat (apply Forall_cons; [intros C; apply star_iff in C; vm_compute in C; discriminate C|]). apply Forall_nil.
    + apply star_iff. vmr.
  - eexists. split.
    + unfold ex_items. apply of_head. apply of_entry. eapply of_unit; [cbn [app]; merges|]. eapply of_close; [discriminate|cbn [app]; merges|].
      apply of_entry. apply of_entry. apply of_code. eapply of_last; [discriminate|cbn [app]; merges].
    + merges.
Qed.
