(** More theorems about C63: blocks with both rows of numbers and species properties.
    [dc] and [sp] stand for the parsers of the devel_code and species_pot blocks. *)
From Verif Require Import PyBase PyVal Regex NumSpec SpecLine SpecTable SpecStr SpecType SpecDict SpecMd CastepRes StrUtil TypeConv
  CellParam SpecCell CellBlockFacts NumProps DictFacts IntStr ExampleTools MixedFacts.
From Verif Require Import T_CellParam.
Local Open Scope list_scope.
Local Open Scope nat_scope.

(** A row after species properties is refused, whatever follows. *)
Theorem C63_rows_after_properties dc sp ls title us u body its l xs b rest : one_block ls title (us ++ body ++ (l ++ b) :: rest) ->
  ~ In title (map list_ascii_of_string own_format) -> unit_lines us u -> Forall2 property_line body its -> body <> [] -> row xs l -> blanks b ->
  parse_cell_param_file dc sp ls = Err AssertionError.
Proof. exact (rows_after dc sp ls title us u body its l xs b rest). Qed.
Print Assumptions C63_rows_after_properties.
(** Rows before species properties are lost. *)
Theorem C63_rows_before_properties dc sp ls title us u body xss ps its out e : one_block ls title (us ++ body ++ ps ++ [e]) ->
  ~ In title (map list_ascii_of_string own_format) -> unit_lines us u -> rows body xss -> Forall2 property_line ps its -> ps <> [] ->
  merged its out -> end_line e -> free_of "0123456789#!" e ->
  parse_cell_param_file dc sp ls = Ok (VList [VDict false [(KStr title, with_units u (VDict false out))]]).
Proof. exact (rows_before dc sp ls title us u body xss ps its out e). Qed.
Print Assumptions C63_rows_before_properties.

Local Definition sp1 : str := [" "%char].
Lemma ex_row : row [CNum (rd "1.5"); CNum (rd "2")] ($"1.5 2").
Proof.
  exists [], (CNum (rd "1.5")), [CNum (rd "2")], ($" 2"). split; [reflexivity|]. split; [reflexivity|]. split; [constructor|].
  split; [apply cnum; vmr|]. apply (co (CNum (rd "2")) [] []); [apply cnum; vmr|constructor].
Qed.
Lemma ex_line : property_line ($"O 16") (KStr ($"O"), VInt 16).
Proof.
  apply (pl [] ($"O") sp1 (write_num (rd "16")) _ []); try apply nil_blanks; try apply sp1_blanks; try discriminate.
  - exists ($"O"), []. split; [reflexivity|]. split; [eapply species_of; try reflexivity; cbn; lia|]. now left.
  - apply (sv_num (rd "16")); [apply ok_of; vmr|]. apply (sn_int (rd "16")). split; reflexivity.
  - apply free_of_b. vmr.
Qed.
Lemma ex_title : ~ In ($"species_mass") (map list_ascii_of_string own_format).
Proof. intros H. cbn [own_format map In] in H. repeat (destruct H as [H|H]; [discriminate H|]). exact H. Qed.
Example C63_rows_after_properties_ex :
  one_block (lns ["%BLOCK species_mass"; "O 16"; "1.5 2"; "Si 28"; "%ENDBLOCK species_mass"]%string) ($"species_mass")
    ([] ++ [$"O 16"] ++ ($"1.5 2" ++ []) :: [$"Si 28"; $"%ENDBLOCK species_mass"]) /\
  ~ In ($"species_mass") (map list_ascii_of_string own_format) /\ unit_lines [] None /\
  Forall2 property_line [$"O 16"] [(KStr ($"O"), VInt 16)] /\ row [CNum (rd "1.5"); CNum (rd "2")] ($"1.5 2").
Proof.
  split; [|split; [exact ex_title|split; [constructor|split; [|exact ex_row]]]].
  - eapply (here _ (ln "%BLOCK species_mass") ($"species_mass") (lns ["O 16"; "1.5 2"; "Si 28"]%string) (ln "%ENDBLOCK species_mass")); try vmr.
    change (uncomment (ln "%BLOCK species_mass")) with ([] ++ $"%BLOCK " ++ [] ++ $"species_mass" ++ [ascii_of_nat 10]).
    apply head_of; try apply nil_blanks; try discriminate; reflexivity.
  - constructor; [exact ex_line|constructor].
Qed.
Example C63_rows_before_properties_ex :
  one_block (lns ["%BLOCK species_mass"; "1.5 2"; "O 16"; "%ENDBLOCK species_mass"]%string) ($"species_mass")
    ([] ++ [$"1.5 2" ++ []] ++ [$"O 16"] ++ [$"%ENDBLOCK species_mass"]) /\
  ~ In ($"species_mass") (map list_ascii_of_string own_format) /\ unit_lines [] None /\
  rows [$"1.5 2" ++ []] [[CNum (rd "1.5"); CNum (rd "2")]] /\
  Forall2 property_line [$"O 16"] [(KStr ($"O"), VInt 16)] /\ end_line ($"%ENDBLOCK species_mass") /\
  free_of "0123456789#!" ($"%ENDBLOCK species_mass").
Proof.
  split; [|split; [exact ex_title|split; [constructor|split; [|split; [|split; [apply ends; vmr|apply free_of_b; vmr]]]]]].
  - eapply (here _ (ln "%BLOCK species_mass") ($"species_mass") (lns ["1.5 2"; "O 16"]%string) (ln "%ENDBLOCK species_mass")); try vmr.
    change (uncomment (ln "%BLOCK species_mass")) with ([] ++ $"%BLOCK " ++ [] ++ $"species_mass" ++ [ascii_of_nat 10]).
    apply head_of; try apply nil_blanks; try discriminate; reflexivity.
  - constructor; [exact ex_row|constructor|constructor].
  - constructor; [exact ex_line|constructor].
Qed.
