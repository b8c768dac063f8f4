(** Property theorems C90: final configurations in .castep files. *)
From Coq Require Import QArith.
From Verif Require Import PyBase PyFacts PyVal Regex CastepRes NumSpec SpecLine SpecTable SpecStr SpecBands SpecDict SpecMd SpecCastep SpecCastep2 SpecCastepRun SpecFinal
  StrUtil BandsFacts TextParsersFacts StrUtilFacts NumProps ColumnFacts MdFacts DictUtil CastepBlocks CastepNum CastepRows CastepRest CastepFile CastepFacts Castep2Facts LangFacts FinalFacts
  ExampleTools ExampleTools2.
From Verif Require DictFacts.
From Verif Require Import T_Castep T_Castep2 T_Castep3 T_CastepFile2.
Local Open Scope list_scope.
Local Open Scope nat_scope.

(** C90.  A block with a final configuration: the cell, the atoms and the values that
    the minimiser gives; a later cell, later atoms or a later value of the same name replace the earlier. *)
Theorem C90_final_configuration ls es : in_turn final_item ls es -> exists d, process_final_config ls = Ok d /\ merged es d.
Proof. exact (final_spec ls es). Qed.
Print Assumptions C90_final_configuration.
(** The block belongs to the geometry optimisation, which there must be. *)
Theorem C90_in_run l b r es : in_turn final_item b es ->
  match dget key_eqb r (name "geom_opt") with
  | Some (VDict f g) => exists d, merged es d /\ final_config l b r = Ok (dset key_eqb r (name "geom_opt") (VDict f (dset key_eqb g (name "final_configuration") (VDict false d))))
  | _ => final_config l b r = Err TypeError
  end.
Proof. exact (final_in_run l b r es). Qed.
Print Assumptions C90_in_run.
(** A later line with a final value is added to it; other lines change nothing. *)
Theorem C90_later_value l nm n rest r f g f' c : final_value l nm n -> dget key_eqb r (name "geom_opt") = Some (VDict f g) ->
  dget key_eqb g (name "final_configuration") = Some (VDict f' c) ->
  final_line l rest r = Ok (dset key_eqb r (name "geom_opt") (VDict f (dset key_eqb g (name "final_configuration") (VDict f' (dset key_eqb c (KStr nm) (SpecCastep.float_of n)))))).
Proof. exact (final_line_spec l nm n rest r f g f' c). Qed.
Print Assumptions C90_later_value.
Theorem C90_other_line l rest r : no_final l -> final_line l rest r = Ok r.
Proof. exact (final_line_other l rest r). Qed.
Print Assumptions C90_other_line.

(** Deciders for the Examples *)
Definition neitherb (l : str) : bool := negb (contains ($"Unit Cell") l) && negb (CastepFile.titled "Cell Contents" l).
Lemma neither_b l : neitherb l = true -> in_neither l.
Proof.
  intros H. apply andb_true_iff in H as [H1 H2]. apply negb_true_iff in H1, H2. split; [now apply not_mentions_of|]. rewrite heading_iff. congruence.
Qed.
Lemma other_b l : neitherb l = true -> forallb (fun c => negb (Ascii.eqb c "=")) l = true -> final_item [l] [].
Proof.
  intros H E. apply fi_other; [now apply neither_b|]. left. intros I. rewrite forallb_forall in E. specialize (E _ I). discriminate E.
Qed.
Lemma turn_other l ls es : neitherb l = true -> forallb (fun c => negb (Ascii.eqb c "=")) l = true -> in_turn final_item ls es -> in_turn final_item (l :: ls) es.
Proof. intros H E I. apply (it_cons _ [l] [] ls es); [now apply other_b|exact I]. Qed.
Definition fc_cell : list str := lns ["              Unit Cell";
  "     6.3145000     0.0000000     0.0000000        0.995040828   0.000000000   0.000000000";
  ""; "                    a =      6.314500          alpha =   90.000000"; "";
  "                       Current cell volume =           251.777492       A**3"; ""]%string.
Definition fc_rows : list SpecCastep2.cell_item := [Lattice (nums ["6.3145000"; "0.0000000"; "0.0000000"]%string) (nums ["0.995040828"; "0.000000000"; "0.000000000"]%string);
   Angle (rd "6.314500") (rd "90.000000"); Property (rd "251.777492")].
Definition fc_atoms : list str := lns ["            Cell Contents"; "  xxxxxxxx"; "  x  Si  1     0.25   -1.5  1.0E-3    x"; "xxxxxxxxxxx"]%string.
Definition fc_rest : list str := lns [" BFGS: Final Enthalpy     = -2.17004345E+002 eV"]%string.
Definition fc_file : list str := lns [" BFGS: Final Configuration:"; "--------"]%string ++ fc_cell ++ lns ["------"]%string ++ fc_atoms ++ fc_rest.
Definition fc_out : list (key * pyval) :=
  [(name "cell", VDict false (cell_read fc_rows)); (name "atoms", VDict false [(atom_key si, SpecCastep.vector [rd "0.25"; rd "-1.5"; rd "1.0E-3"])]);
   (name "final_enthalpy", SpecCastep.float_of (rd "-2.17004345E+002"))].
Example C90_final_configuration_ex : in_turn final_item fc_file fc_out /\ process_final_config fc_file = Ok fc_out.
Proof.
  assert (H : in_turn final_item fc_file fc_out).
  { unfold fc_file. change (lns [" BFGS: Final Configuration:"; "--------"]%string) with [ln " BFGS: Final Configuration:"; ln "--------"]. cbn [app].
    apply turn_other; [vmr|vmr|]. apply turn_other; [vmr|vmr|].
    apply (it_cons _ fc_cell [(name "cell", VDict false (cell_read fc_rows))] _ (List.tl fc_out)).
    { apply fi_cell; [apply mentions_of; vmr|apply blank_lines; vmr|].
      apply laid_other. { exists []. split; [nl|]. split; discriminate. }
      apply laid_row. { constructor; nlfit. }
      apply laid_other. { exists []. split; [nl|]. split; discriminate. }
      apply laid_row. { apply (cr_angle _ "alpha"); [nl|now left|apply mentions_of; vmr|nlfit]. }
      apply laid_other. { exists []. split; [nl|]. split; discriminate. }
      apply laid_row. { apply (cr_property _ _ (rd "3")); [nl| |nlfit]. intros w [<-|[<-|[<-|[]]]]; apply not_mentions_of; vmr. }
      apply laid_other; [|constructor]. exists []. split; [nl|]. split; discriminate. }
    cbn [app lns map]. apply turn_other; [vmr|vmr|].
    apply (it_cons _ fc_atoms [(name "atoms", _)] _ (List.tl (List.tl fc_out))).
    { eapply fi_atoms with (rows := [(si, [rd "0.25"; rd "-1.5"; rd "1.0E-3"])]); [apply not_mentions_of; vmr|apply heading_iff; vmr|apply (delim_b _ _ (ruled_iff "x")); vmr| |].
      - apply laid_other; [left; apply free_of_b; vmr|]. apply laid_other; [left; apply free_of_b; vmr|]. apply laid_row; [|apply laid_other; [left; apply free_of_b; vmr|constructor]].
        apply (vr ($"  x  ") ($"Si  1") si ($"     0.25   -1.5  1.0E-3") _ (ln "    x")).
        apply no_caps_of; vmr. apply edge_of; vmr. exact ex_si. apply columns_of; vmr. reflexivity. now apply end_of. apply all_fit_of; vmr.
      - exact (DictFacts.merged_dict_of key_eqb IntStr.key_eqb_spec [(atom_key si, SpecCastep.vector [rd "0.25"; rd "-1.5"; rd "1.0E-3"])]). }
    apply (it_cons _ fc_rest [(name "final_enthalpy", _)] [] []); [|constructor].
    apply fi_value; [apply neither_b; vmr|].
    apply (mv ($" ") ($"BFGS") ($" Final Enthalpy     ") ($" ") (rd "-2.17004345E+002") (ln " eV")).
    - apply blanks_of; vmr.
    - exists "BFGS"%string. split; [now left|reflexivity].
    - discriminate.
    - apply not_in_of; vmr.
    - apply key_named; vmr.
    - apply blanks_of; vmr.
    - apply ok_of; vmr.
    - left. discriminate.
    - apply fits_of; vmr.
    - now apply end_of. }
  split; [exact H|]. vmr.
Qed.
Example C90_later_value_ex : final_value (ln " BFGS: Final bulk modulus =     392.40598 GPa") ($"final_bulk_modulus") (rd "392.40598").
Proof.
  apply (fv ($" ") ($"BFGS") ($" ") ($"Final ") ($"bulk modulus ") ($"     ") (rd "392.40598") (ln " GPa")).
  - apply blanks_of; vmr.
  - exists "BFGS"%string. split; [now left|reflexivity].
  - apply blanks_of; vmr.
  - reflexivity.
  - discriminate.
  - apply not_in_of; vmr.
  - exists [$"Final"; $"bulk"; $"modulus"]. split; [apply cut_of; vmr|reflexivity].
  - apply blanks_of; vmr.
  - apply ok_of; vmr.
  - left. discriminate.
  - apply fits_of; vmr.
  - now apply end_of.
Qed.
Example C90_other_line_ex : no_final (ln " BFGS: Final <frequency>  unchanged from initial value") /\ no_final (ln " BFGS: finished iteration     1 with enthalpy= -2.29375785E+003 eV").
Proof.
  split; [left; apply not_in_of; vmr|]. right. intros a t g f r _ _ _ Hf E.
  assert (M : mentions "final " (lower (ln " BFGS: finished iteration     1 with enthalpy= -2.29375785E+003 eV"))).
  { exists (lower (a ++ t ++ ":"%char :: g)), (lower r). change (list_ascii_of_string "final ") with (text_of "final "). rewrite E, <- Hf. unfold lower. rewrite <- !map_app, <- !app_assoc. reflexivity. }
  apply mentions_iff in M. vm_compute in M. discriminate M.
Qed.
