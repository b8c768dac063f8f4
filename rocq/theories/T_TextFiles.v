(** Property theorems C66-C75: files made of delimited blocks. *)
From Verif Require Import PyBase PyFacts PyVal Regex NumSpec SpecLine SpecTable SpecStr SpecBands SpecDict DictUtil DictFacts SpecMd SpecCastep SpecFiles CastepRes StrUtil StrUtilFacts
  TypeConv Stream Header TextFiles MdFacts NumProps TextParsers TextParsersFacts HeaderFacts FileFacts FileParts ExampleTools.
From Verif Require T_Castep T_TextParsers.
Local Open Scope list_scope.
Local Open Scope nat_scope.

(** C66.  The header shared by these files. *)
Theorem C66_header opts extra ls its : opts_for opts extra -> header extra ls its -> (atoms its = [] \/ sites its = []) ->
  exists d es, parse_regular_header opts ls = Ok d /\ header_says its es /\ merged es d.
Proof. exact (header_merged opts extra ls its). Qed.
Print Assumptions C66_header.

(** Deciders for the Examples. *)
Lemma nums_none l : freeb "0123456789" l = true -> number_line [] l.
Proof. intros H. constructor. now apply free_of_b. Qed.
Lemma no_title_of l : startswith ($"Number of") (strip l) = false -> contains ($"Unit cell vectors") l = false -> no_title l.
Proof. intros H1 H2. split; [now apply not_counting_of|now apply not_mentions_of]. Qed.
Lemma ex_count extra l ks n z : startswith ($"Number of") (strip l) = true ->
  split l = [$"Number"; $"of"] ++ ks ++ [write_num n] -> wfb n = true -> fitsb n = true ->
  truncates (num_value n) z -> head_line extra l (Some (joined ($" ") ks, HCount z)).
Proof.
  intros H1 H2 H3 H4 H5. eapply hd_count; [now apply counting_iff|apply cut_of; exact H2|now apply wf_of|now apply fits_of|exact H5].
Qed.
Lemma ex_head_other extra l : startswith ($"Number of") (strip l) = false -> contains ($"Unit cell vectors") l = false ->
  re_test (labelled_floats (repeat "v"%string 3)) l = false -> contains ($extra) l = false -> head_line extra l None.
Proof. intros H1 H2 H3 H4. apply hd_other; [now apply not_counting_of|now apply not_mentions_of|now apply no_cols_of|now apply not_mentions_of]. Qed.
Lemma ex_head_any l : startswith ($"Number of") (strip l) = false -> contains ($"Unit cell vectors") l = false ->
  re_test (labelled_floats (repeat "v"%string 3)) l = false -> freeb "0123456789" l = true -> head_line "" l (Some ([], HNums [])).
Proof.
  intros H1 H2 H3 H4. apply hd_nums; [now apply not_counting_of|now apply not_mentions_of|now apply no_cols_of| |now apply nums_none|constructor].
  apply mentions_of. now destruct l.
Qed.
Lemma ex_cell l : startswith ($"Number of") (strip l) = false -> contains ($"Unit cell vectors") l = true ->
  re_test (labelled_floats (repeat "v"%string 3)) l = false -> cell_line l.
Proof. intros H1 H2 H3. split; [now apply not_counting_of|]. split; [now apply no_cols_of|now apply mentions_of]. Qed.
Lemma symbol_of c r : is_upper c = true -> forallb is_lower r = true -> length r <= 2 -> symbol (c :: r).
Proof.
  intros H1 H2 H3. exists c, r. split; [reflexivity|]. split; [now apply capital_iff|]. split; [|exact H3].
  apply Forall_forall. intros x Hx. rewrite forallb_forall in H2. now apply small_iff, H2.
Qed.
Lemma ex_site a t g m b s l : l = a ++ write_num (st_index s) ++ t ++ g ++ st_spec s ++ m ++ b ->
  forallb is_space (a ++ g ++ b) = true -> isempty g = false -> is_int (st_index s) -> wfb (st_index s) = true -> symbol (st_spec s) ->
  columnsb [st_u s; st_v s; st_w s] t && columnsb [st_mass s] m && forallb fitsb [st_u s; st_v s; st_w s; st_mass s] && T_Castep.no_capsb t = true ->
  site_line s l.
Proof.
  intros -> H1 H2 H3 H4 H5 H6. rewrite !forallb_app in H1. repeat (apply andb_true_iff in H1 as [? H1]). do 3 (apply andb_true_iff in H6 as [H6 ?]).
  constructor; try assumption; try (now apply blanks_of); try (now apply columns_of).
  all: first [now apply wf_of|now destruct g|now apply T_Castep.all_fit_of|now apply T_Castep.no_caps_of].
Qed.

(** An example header *)
Definition ex_site_of (i u v w spec m : string) : site :=
  {| st_index := rd i; st_u := rd u; st_v := rd v; st_w := rd w; st_spec := $spec; st_mass := rd m |}.
Definition ex_header (more : list string) : list str :=
  lns (" BEGIN header" :: more ++ ["  Number of ions                2"; " Unit cell vectors (A)"; "    2.695464    2.695464    0.000000";
       "    2.695464    0.000000    2.695464"; "    0.000000    2.695464    2.695464"; " Fractional Co-ordinates";
       "     1     0.000000    0.000000    0.000000   Si       28.085500"; "     2     0.250000    0.250000    0.250000   N        14.006740";
       " END header"])%string.
Definition ex_v (a b c : string) : list num := [rd a; rd b; rd c].
Definition ex_items (o : list hitem) : list hitem :=
  [HEntry ($"ions") (HCount 2);
   HCell (ex_v "2.695464" "2.695464" "0.000000") (ex_v "2.695464" "0.000000" "2.695464") (ex_v "0.000000" "2.695464" "2.695464")] ++ o ++
  [HSite (ex_site_of "1" "0.000000" "0.000000" "0.000000" "Si" "28.085500");
   HSite (ex_site_of "2" "0.250000" "0.250000" "0.250000" "N" "14.006740")].
Lemma ex_header_tail extra o : (forall l, In l (lns [" Fractional Co-ordinates"; " END header"]%string) ->
    head_line extra l (match o with [] => None | _ => Some ([], HNums []) end)) ->
  (o = [] \/ o = [HEntry [] (HNums [])]) ->
  header extra (skipn 1 (ex_header [])) (ex_items o ++ o).
Proof.
  intros Ho E.
  apply (hr_line _ _ (Some ($"ions", HCount 2%Z))).
  { apply (ex_count _ _ [$"ions"] (rd "2")); try vmr. apply T_TextParsers.ex_trunc; vmr. }
  apply hr_cell; [apply ex_cell; vmr|apply T_TextParsers.ex_vec; vmr|apply T_TextParsers.ex_vec; vmr|apply T_TextParsers.ex_vec; vmr|].
  assert (S : header extra (skipn 7 (ex_header [])) (skipn (2 + length o) (ex_items o) ++ o)).
  { destruct E as [->| ->].
    all: apply hr_site; [apply (ex_site ($"     ") ($"     0.000000    0.000000    0.000000") ($"   ") ($"       28.085500") [newline]);
      try vmr; [now split|apply symbol_of; vmr || (cbn; lia)]|apply no_title_of; vmr|].
    all: apply hr_site; [apply (ex_site ($"     ") ($"     0.250000    0.250000    0.250000") ($"   ") ($"        14.006740") [newline]);
      try vmr; [now split|apply symbol_of; vmr || (cbn; lia)]|apply no_title_of; vmr|].
    - apply (hr_line _ _ None _ []); [apply Ho; right; now left|constructor].
    - apply (hr_line _ _ (Some ([], HNums [])) _ []); [apply Ho; right; now left|constructor]. }
  destruct E as [->| ->].
  - apply (hr_line _ _ None); [apply Ho; now left|exact S].
  - apply (hr_line _ _ (Some ([], HNums []))); [apply Ho; now left|exact S].
Qed.
(** In a file without options, each other line counts under the empty name. *)
Definition ex_any_items : list hitem := HEntry [] (HNums []) :: ex_items [HEntry [] (HNums [])] ++ [HEntry [] (HNums [])].
Example C66_header_ex : opts_for [] "" /\ header "" (ex_header []) ex_any_items /\ sites ex_any_items <> [] /\ atoms ex_any_items = [].
Proof.
  split; [right; now split|]. split; [|split; [discriminate|reflexivity]].
  apply (hr_line _ _ (Some ([], HNums []))); [apply ex_head_any; vmr|].
  apply (ex_header_tail "" [HEntry [] (HNums [])]); [|now right].
  intros l [<-|[<-|[]]]; apply ex_head_any; vmr.
Qed.
Lemma ex_any_block : header_block "" ex_any_items (ex_header []).
Proof.
  apply (hb _ _ (ln " BEGIN header") (removelast (skipn 1 (ex_header []))) (ln " END header")).
  - split; [apply mentions_of; vmr|]. split; [|apply mentions_of; vmr].
    apply (forall_of _ (fun x => negb (contains ($"END header") x))); [|vmr]. intros x Hx. apply not_mentions_of. now apply negb_true_iff.
  - exact (proj1 (proj2 C66_header_ex)).
Qed.

(** C69.  .efield files: the header, then a list of tables of either kind. *)
Theorem C69_efield ls its ps : efield_file its ps ls -> (atoms its = [] \/ sites its = []) ->
  unnamed ["oscillator_strengths"; "permittivity"]%string (flat_map item_entry its) ->
  exists d0 es d, parse_efield_file ls = Ok (VDict true d) /\ header_says its es /\ merged es d0 /\ gathered d0 (flat_map efield_entry ps) d.
Proof. exact (efield_exact ls its ps). Qed.
Print Assumptions C69_efield.
Definition ex_q_items : list hitem := HEntry ($"Oscillator Q") (HNums [rd "50.0"]) :: ex_items [].
Lemma ex_q_block : header_block "Oscillator Q" ex_q_items (ex_header ["  Oscillator Q               50.0"]%string).
Proof.
  apply (hb _ _ (ln " BEGIN header") (removelast (skipn 1 (ex_header ["  Oscillator Q               50.0"]%string))) (ln " END header")).
  - split; [apply mentions_of; vmr|]. split; [|apply mentions_of; vmr].
    apply (forall_of _ (fun x => negb (contains ($"END header") x))); [|vmr]. intros x Hx. apply not_mentions_of. now apply negb_true_iff.
  - apply (hr_line _ _ None); [apply ex_head_other; vmr|].
    apply (hr_line _ _ (Some ($"Oscillator Q", HNums [rd "50.0"]))).
    + apply hd_nums; [apply not_counting_of; vmr|apply not_mentions_of; vmr|apply no_cols_of; vmr|apply mentions_of; vmr| |].
      * apply (number_line_of ($"  Oscillator Q               ") (rd "50.0") [] [newline]); vmr.
      * apply (forall_of _ fitsb); [exact fits_of|vmr].
    + pose proof (ex_header_tail "Oscillator Q" []) as T. rewrite app_nil_r in T. apply T; [|now left].
      intros l [<-|[<-|[]]]; apply ex_head_other; vmr.
Qed.
Lemma ex_num_row k ns t s l : l = t ++ s -> columnsb ns t && forallb fitsb ns = true -> length ns = k -> match s with c :: _ => is_space c | [] => true end = true ->
  num_row k l ns.
Proof. intros -> H1 H2 H3. apply andb_true_iff in H1 as [H1 H1']. constructor; [now apply columns_of|assumption|now apply T_Castep.end_of|now apply T_Castep.all_fit_of]. Qed.
Lemma ex_int_row k i ns a t s l : l = a ++ write_num i ++ t ++ s -> columnsb ns t && forallb fitsb ns && fitsb i && wfb i && forallb is_space a = true ->
  is_int i -> length ns = k -> match s with c :: _ => is_space c | [] => true end = true -> int_row k l (i, ns).
Proof.
  intros -> H1 H2 H3 H4. do 4 apply andb_true_iff in H1 as [H1 ?]. constructor; try assumption.
  now apply blanks_of. now apply wf_of. now apply columns_of. now apply T_Castep.end_of. now apply T_Castep.all_fit_of. now apply fits_of.
Qed.
Definition ex_efield_tables : list str :=
  lns [" BEGIN Oscillator Strengths   Freq (cm-1)   S xx yy zz yz zx xy ((D/A)**2/amu)";
       "        1        0.049184   0.25  0.50  0.75  1.0  1.25  1.5"; "        2        726.895537   0.25  0.50  0.75  1.0  1.25  1.5";
       "        3        730.0   0.25  0.50  0.75  1.0  1.25  1.5"; " END Oscillator Strengths";
       " BEGIN permittivity         Freq (cm-1)   xx yy zz yz zx xy"; "     0.000000  4.5  4.5  4.5  0.0  0.0  0.0";
       "     1.000000  4.5  4.5  4.5  0.0  0.0  0.0"; " END permittivity"]%string.
Definition ex_osc (a : string) : list num := map rd [a; "0.25"; "0.50"; "0.75"; "1.0"; "1.25"]%string.
Definition ex_efield_parts : list efield_part :=
  [Oscillators [(rd "1", ex_osc "0.049184"); (rd "2", ex_osc "726.895537")];
   Permittivities [map rd ["0.000000"; "4.5"; "4.5"; "4.5"; "0.0"; "0.0"; "0.0"]%string]].
Example C69_efield_ex : efield_file ex_q_items ex_efield_parts (ex_header ["  Oscillator Q               50.0"]%string ++ ex_efield_tables) /\
  atoms ex_q_items = [] /\ unnamed ["oscillator_strengths"; "permittivity"]%string (flat_map item_entry ex_q_items).
Proof.
  split; [|split; [reflexivity|]].
  - constructor; [exact ex_q_block|]. unfold ex_efield_tables, lns. cbn [map].
    apply (ep_osc _ [_; _] _ _); [apply not_mentions_of; vmr| |constructor; [|constructor; [|constructor]]|].
    + split; [apply mentions_of; vmr|]. split; [|apply mentions_of; vmr]. repeat constructor; apply not_mentions_of; vmr.
    + apply (ex_int_row 6 (rd "1") (ex_osc "0.049184") ($"        ") ($"        0.049184   0.25  0.50  0.75  1.0  1.25") (ln "  1.5")); try vmr. now split.
    + apply (ex_int_row 6 (rd "2") (ex_osc "726.895537") ($"        ") ($"        726.895537   0.25  0.50  0.75  1.0  1.25") (ln "  1.5")); try vmr. now split.
    + apply (ep_perm _ [_] _ _); [apply not_mentions_of; vmr|apply not_mentions_of; vmr| |constructor; [|constructor]|constructor].
      * split; [apply mentions_of; vmr|]. split; [|apply mentions_of; vmr]. repeat constructor; apply not_mentions_of; vmr.
      * eapply (ex_num_row 7 _ ($"     0.000000  4.5  4.5  4.5  0.0  0.0  0.0") [newline]); vmr.
  - intros k [<-|[<-|[]]] H; cbn in H; repeat (destruct H as [H|H]; [discriminate|]); exact H.
Qed.
(** The last row of a table is lost, the mode number is taken for the frequency and
    each component for the next one. *)
Theorem C69_efield_refuted : exists d, parse_efield_file (ex_header ["  Oscillator Q               50.0"]%string ++ ex_efield_tables) = Ok (VDict true d) /\
  dget key_eqb d (kstr "oscillator_strengths") = Some (VList [VDict true
    (map (fun kr => (kstr (fst kr), VTuple (map (fun s => VFloat (FQ (Qreduction.Qred (num_value (rd s))))) (snd kr))))
      [("freq", ["1"; "2"]); ("xx", ["0.049184"; "726.895537"]); ("yy", ["0.25"; "0.25"]); ("zz", ["0.5"; "0.5"]);
       ("yz", ["0.75"; "0.75"]); ("xz", ["1.0"; "1.0"]); ("xy", ["1.25"; "1.25"])]%string)]).
Proof. eexists. split; vm_compute; reflexivity. Qed.
Print Assumptions C69_efield_refuted.

(** C68.  .phonon_dos files. *)
Theorem C68_phonon_dos ls its ps : dos_file its ps ls -> (atoms its = [] \/ sites its = []) ->
  unnamed ["gradients"; "dos"]%string (flat_map item_entry its) ->
  exists d0 es d, parse_phonon_dos_file ls = Ok (VDict true d) /\ header_says its es /\ merged es d0 /\ gathered d0 (flat_map dos_entry ps) d.
Proof. exact (dos_exact ls its ps). Qed.
Print Assumptions C68_phonon_dos.
Definition ex_dos_tables : list str :=
  lns [" BEGIN GRADIENTS   n   f   |Grad_q f|"; "     q-pt=    1   -0.466667 -0.466667  0.000000      0.0017777778";
       "       1     129.731327             28.1761865"; "       2     129.731327             29.7242877";
       "     q-pt=    2   -0.466667 -0.400000  0.000000      0.0035555556"; "       1     131.0     28.5";
       " END GRADIENTS"; " BEGIN DOS   Freq (cm-1)  g(f)   Si   N"; "     0.000000  0.5  0.25  0.25"; "     1.000000  0.75  0.5  0.25"; " END DOS"]%string.
Definition ex_grads : list gradient :=
  [{| gr_qpt := ex_v "-0.466667" "-0.466667" "0.000000"; gr_weight := rd "0.0017777778";
      gr_rows := [(rd "1", (rd "129.731327", rd "28.1761865")); (rd "2", (rd "129.731327", rd "29.7242877"))] |};
   {| gr_qpt := ex_v "-0.466667" "-0.400000" "0.000000"; gr_weight := rd "0.0035555556"; gr_rows := [(rd "1", (rd "131.0", rd "28.5"))] |}].
Definition ex_dos_parts : list dos_part := [Gradients ex_grads; Dos [$"Si"; $"N"] [map rd ["0.000000"; "0.5"; "0.25"; "0.25"]%string]].
Lemma ex_grow l n f g t s : l = t ++ s -> columnsb [n; f; g] t && forallb fitsb [n; f; g] = true -> match s with c :: _ => is_space c | [] => true end = true ->
  is_int n -> contains ($"q-pt=") l = false -> gradient_row l (n, (f, g)).
Proof. intros H1 H2 H3 H4 H5. constructor; [now apply (ex_num_row 3 [n; f; g] t s)|exact H4|now apply not_mentions_of]. Qed.
Lemma ex_gtitle g a b i t s l : l = a ++ text_of "q-pt=" ++ b ++ write_num i ++ t ++ s -> forallb is_space (a ++ b) = true -> isempty a = false -> is_int i -> wfb i = true ->
  length (gr_qpt g) = 3 -> columnsb (gr_qpt g ++ [gr_weight g]) t && forallb fitsb (gr_qpt g ++ [gr_weight g]) = true ->
  match s with c :: _ => is_space c | [] => true end = true -> gradient_title g l.
Proof.
  intros -> H1 H2 H3 H4 H5 H6 H7. rewrite forallb_app in H1. apply andb_true_iff in H1 as [H1 H1']. apply andb_true_iff in H6 as [H6 H6'].
  constructor; try assumption; try (now apply blanks_of). now destruct a. now apply wf_of. now apply columns_of. now apply T_Castep.end_of. now apply T_Castep.all_fit_of.
Qed.
Lemma ex_gother l : contains ($"q-pt=") l = false -> re_test (labelled_floats (repeat "v"%string 3)) l = false -> gradient_other l.
Proof. intros H1 H2. split; [now apply not_mentions_of|now apply no_cols_of]. Qed.
Lemma identifier_of w : TextFiles.identifier w = true -> SpecFiles.identifier w.
Proof.
  destruct w as [|c t]; [discriminate|]. cbn [TextFiles.identifier]. intros H. apply andb_true_iff in H as [H1 H2]. apply negb_true_iff in H1.
  split; [split; [discriminate|now apply words_iff]|]. intros c' t' [= <- <-] K. apply in_range_iff in K. unfold is_digit in H1. congruence.
Qed.
Example C68_phonon_dos_ex : dos_file ex_any_items ex_dos_parts (ex_header [] ++ ex_dos_tables) /\ atoms ex_any_items = [] /\
  unnamed ["gradients"; "dos"]%string (flat_map item_entry ex_any_items).
Proof.
  split; [|split; [reflexivity|]].
  - constructor; [exact ex_any_block|]. unfold ex_dos_tables, lns. cbn [map].
    eapply (dp_grad _ [_; _; _; _; _] _ [_] [_; _; _; _; _; _]); [apply not_mentions_of; vmr| |reflexivity| | |].
    + split; [apply mentions_of; vmr|]. split; [|apply mentions_of; vmr]. repeat constructor; apply not_mentions_of; vmr.
    + repeat constructor; apply not_mentions_of || apply no_cols_of; vmr.
    + apply (gs_more _ _ [_; _] [_; _; _]).
      * apply (ex_gtitle _ ($"     ") ($"    ") (rd "1") ($"   -0.466667 -0.466667  0.000000      0.0017777778") [newline]); try vmr. now split.
      * apply laid_row; [apply (ex_grow _ _ _ _ ($"       1     129.731327             28.1761865") [newline]); try vmr; now split|].
        apply laid_row; [apply (ex_grow _ _ _ _ ($"       2     129.731327             29.7242877") [newline]); try vmr; now split|constructor].
      * apply (gs_more _ _ [_; _] []).
        -- apply (ex_gtitle _ ($"     ") ($"    ") (rd "2") ($"   -0.466667 -0.400000  0.000000      0.0035555556") [newline]); try vmr. now split.
        -- apply laid_row; [apply (ex_grow _ _ _ _ ($"       1     131.0     28.5") [newline]); try vmr; now split|].
           apply laid_other; [apply ex_gother; vmr|constructor].
        -- constructor.
    + eapply (dp_dos _ _ _ _ _ _ [$"Si"; $"N"] [_] _ _); [apply not_mentions_of; vmr|apply not_mentions_of; vmr| |apply cut_of; vmr| | |constructor; [|constructor]|constructor].
      * split; [apply mentions_of; vmr|]. split; [|apply mentions_of; vmr]. repeat constructor; apply not_mentions_of; vmr.
      * apply (forall_of _ TextFiles.identifier); [exact identifier_of|vmr].
      * repeat constructor; cbn; intuition discriminate.
      * eapply (ex_num_row 4 _ ($"     0.000000  0.5  0.25  0.25") [newline]); vmr.
  - intros k [<-|[<-|[]]] H; cbn in H; repeat (destruct H as [H|H]; [discriminate|]); exact H.
Qed.
(** The last row of a table is lost, and an entry without a name is left. *)
Theorem C68_phonon_dos_refuted : exists d, parse_phonon_dos_file (ex_header [] ++ ex_dos_tables) = Ok (VDict true d) /\
  dget key_eqb d (KStr []) = Some (VTuple []) /\ exists t,
  dget key_eqb d (kstr "dos") = Some (VList [VDict true t]) /\ dget key_eqb t (kstr "freq") = Some (VTuple [VFloat (FQ 0)]).
Proof. do 2 eexists; [vm_compute; reflexivity|]. split; [vm_compute; reflexivity|]. eexists. split; vm_compute; reflexivity. Qed.
Print Assumptions C68_phonon_dos_refuted.
