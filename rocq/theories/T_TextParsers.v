(** C45-C48: .bands, .hug, .err and *_fmt files. *)
From Verif Require Import PyBase PyVal NumSpec SpecLine SpecStr SpecText SpecTable SpecBands
  Stream StreamFacts TextParsers TextParsersFacts Header HeaderFacts Bands BandsFacts ExampleTools.
Local Open Scope list_scope.
Local Open Scope nat_scope.

(** ** C45 *)
Theorem C45_bands_exact : forall text es v1 v2 v3 ks,
  bands_file es v1 v2 v3 ks (file_lines text) ->
  NoDup (map fst es) -> Forall (fun k => ~ In k (map fst es)) (map text_of ["bands"; "unit_cell"; "coords"]%string) ->
  parse_bands_file (file_lines text) =
  Ok (VDict false ((kstr "bands", VList (map k_out ks)) :: map hentry es ++
     [(kstr "unit_cell", VList [VTuple (map fval v1); VTuple (map fval v2); VTuple (map fval v3)]);
      (kstr "coords", VDict true [])])).
Proof. exact bands_exact. Qed.
Print Assumptions C45_bands_exact.

Definition bands_head : list str := lns ["Number of k-points     2"; "Number of spin components 2"; "Number of electrons  4.000";
  "Number of eigenvalues     2"; "Fermi energy (in atomic units)     0.100000"]%string.
Definition bands_k1 : list str := lns ["K-point     1  0.25000000  0.25000000 -0.25000000  0.50000000"; "Spin component 1";
  "   -0.20000000"; "    0.30000000"; "Spin component 2"; "   -0.10000000"; "    0.40000000"]%string.
Definition bands_k2 : list str := lns ["K-point     2  0.50000000  0.00000000  0.00000000  0.50000000"; "Spin component 1";
  "    0.70000000"]%string.
Definition bands_ex : list str := bands_head ++ ln "Unit cell vectors" ::
  ln "    1.000000    0.000000    0.000000" :: ln "    0.000000    1.000000    0.000000" :: ln "    0.000000    0.000000    1.000000" ::
  (bands_k1 ++ bands_k2 ++ []).
Definition bands_ks : list kpoint :=
  [{| kp_pos := [rd "0.25000000"; rd "0.25000000"; rd "-0.25000000"]; kp_weight := rd "0.50000000";
      kp_up := [rd "-0.20000000"; rd "0.30000000"]; kp_down := Some [rd "-0.10000000"; rd "0.40000000"] |};
   {| kp_pos := [rd "0.50000000"; rd "0.00000000"; rd "0.00000000"]; kp_weight := rd "0.50000000";
      kp_up := [rd "0.70000000"]; kp_down := None |}].
Definition bands_es : list (str * hval) :=
  [($"k-points", HCount 2%Z); ($"spin components", HCount 2%Z); ($"electrons", HCount 4%Z); ($"eigenvalues", HCount 2%Z);
   ($"Fermi energy", HNums [rd "0.100000"])].
Lemma ex_count l ks n z : startswith ($"Number of") (strip l) = true ->
  split l = [$"Number"; $"of"] ++ ks ++ [write_num n] -> wfb n = true -> fitsb n = true ->
  truncates (num_value n) z -> head_line "Fermi energy" l (Some (joined ($" ") ks, HCount z)).
Proof.
  intros H1 H2 H3 H4 H5. eapply hd_count; [now apply counting_iff|apply cut_of; exact H2|now apply wf_of|now apply fits_of|exact H5].
Qed.
Lemma ex_trunc n z : (Z.quot (Qnum (Qred (num_value n))) (Zpos (Qden (Qred (num_value n)))) = z)%Z -> truncates (num_value n) z.
Proof. intros <-. apply trunc_spec. Qed.
Lemma ex_vec ns l : length ns = 3 -> columnsb ns (firstn (length l - 1) l) = true -> forallb fitsb ns = true ->
  forallb is_space (skipn (length l - 1) l) = true -> vector_line ns l.
Proof.
  intros H1 H2 H3 H4. split; [exact H1|]. split; [now apply (forall_of _ _ _ fits_of)|].
  exists (firstn (length l - 1) l), (skipn (length l - 1) l). split; [now rewrite firstn_skipn|].
  split; [now apply columns_of|now apply blanks_of].
Qed.
Lemma ex_k pos w l : startswith ($"K-point") l = true -> forallb (fun n => wfb n && fitsb n) (pos ++ [w]) = true ->
  skipn 2 (split l) = map write_num pos ++ [write_num w] -> length (split l) = 2 + length pos + 1 -> kpoint_line pos w l.
Proof.
  intros H1 H2 H3 H4. split; [now apply begins_iff|]. split.
  - apply (forall_of _ _ _ (fun n H => conj (wf_of n (proj1 (andb_prop _ _ H))) (fits_of n (proj2 (andb_prop _ _ H)))) H2).
  - destruct (split l) as [|w1 [|w2 ws]] eqn:E; [discriminate|cbn in H4; lia|]. cbn in H3. exists w1, w2. apply cut_of. now rewrite E, H3.
Qed.
Lemma ex_spin n z l : startswith ($"Spin component") l = true -> split l = [$"Spin"; $"component"; write_num n] ->
  wfb n = true -> n_frac n = None -> n_exp n = None -> int_value n = z -> spin_line z l.
Proof.
  intros H1 H2 H3 H4 H4' H5. split; [now apply begins_iff|]. do 2 eexists. exists n, []. split; [apply cut_of; exact H2|].
  split; [now split|]. split; [now apply wf_of|exact H5].
Qed.
Lemma ex_eig n l ls ns : strip l = write_num n -> wfb n && fitsb n = true -> n_frac n <> None -> n_exp n = None ->
  eigenvalues ls ns -> eigenvalues (l :: ls) (n :: ns).
Proof.
  intros H1 H2 H3 H4 H5. apply andb_true_iff in H2 as [H2 H2']. apply eg_value; [now apply trimmed_of| |now apply fits_of|exact H5].
  split; [now apply wf_of|auto].
Qed.
Lemma C45_head : head_lines "Fermi energy" bands_head bands_es.
Proof.
  apply (hds_cons _ _ (Some ($"k-points", HCount 2%Z))).
  { apply (ex_count _ [$"k-points"] (rd "2")); try vmr. apply ex_trunc; vmr. }
  apply (hds_cons _ _ (Some ($"spin components", HCount 2%Z))).
  { apply (ex_count _ [$"spin"; $"components"] (rd "2")); try vmr. apply ex_trunc; vmr. }
  apply (hds_cons _ _ (Some ($"electrons", HCount 4%Z))).
  { apply (ex_count _ [$"electrons"] (rd "4.000")); try vmr. apply ex_trunc; vmr. }
  apply (hds_cons _ _ (Some ($"eigenvalues", HCount 2%Z))).
  { apply (ex_count _ [$"eigenvalues"] (rd "2")); try vmr. apply ex_trunc; vmr. }
  apply (hds_cons _ _ (Some ($"Fermi energy", HNums [rd "0.100000"]))); [|apply hds_nil].
  apply hd_nums; [apply not_counting_of; vmr|apply not_mentions_of; vmr|apply no_cols_of; vmr
    |apply mentions_of; vmr| |].
  - apply (number_line_of ($"Fermi energy (in atomic units)     ") (rd "0.100000") [] [newline]); vmr.
  - apply (forall_of _ fitsb); [exact fits_of|vmr].
Qed.
Example C45_ex : file_lines (concat bands_ex) = bands_ex /\
  bands_file bands_es [rd "1.000000"; rd "0.000000"; rd "0.000000"] [rd "0.000000"; rd "1.000000"; rd "0.000000"]
    [rd "0.000000"; rd "0.000000"; rd "1.000000"] bands_ks bands_ex /\
  NoDup (map fst bands_es) /\ Forall (fun k => ~ In k (map fst bands_es)) (map text_of ["bands"; "unit_cell"; "coords"]%string).
Proof.
  split; [vmr|]. split; [|split].
  - apply bf.
    + exact C45_head.
    + unfold bands_head, lns, map. repeat constructor; apply no_cols_of; vmr.
    + split; [apply not_counting_of; vmr|]. split; [apply no_cols_of; vmr|apply mentions_of; vmr].
    + apply ex_vec; vmr.
    + apply ex_vec; vmr.
    + apply ex_vec; vmr.
    + apply kbs_cons; [|apply kbs_cons; [|apply kbs_nil]].
      * apply (kb_two _ _ _ (ln "Spin component 2") (lns ["   -0.20000000"; "    0.30000000"]%string)
                 (lns ["   -0.10000000"; "    0.40000000"]%string) [rd "-0.10000000"; rd "0.40000000"] 2%Z);
          [apply ex_k; vmr| | |lia| |reflexivity|].
        -- apply (ex_spin (rd "1")); vmr.
        -- repeat (apply ex_eig; [vmr|vmr|discriminate|vmr|]). constructor.
        -- apply (ex_spin (rd "2")); vmr.
        -- repeat (apply ex_eig; [vmr|vmr|discriminate|vmr|]). constructor.
      * apply (kb_one _ _ _ (lns ["    0.70000000"]%string)); [apply ex_k; vmr| | |reflexivity].
        -- apply (ex_spin (rd "1")); vmr.
        -- repeat (apply ex_eig; [vmr|vmr|discriminate|vmr|]). constructor.
  - repeat constructor; cbn; intuition discriminate.
  - repeat constructor; cbn; intuition discriminate.
Qed.

(** Eigenvalues written with an exponent, and the two-number header lines of
    spin-polarised files, are not read as such. *)
Definition bands_exp : list str := bands_head ++ ln "Unit cell vectors" ::
  ln "    1.000000    0.000000    0.000000" :: ln "    0.000000    1.000000    0.000000" :: ln "    0.000000    0.000000    1.000000" ::
  lns ["K-point     1  0.25000000  0.25000000 -0.25000000  0.50000000"; "Spin component 1"; "   -0.20000000E-03"; "    0.30000000"]%string.
Theorem C55_exponent_eigenvalue_refuted : exists d b,
  parse_bands_file (file_lines (concat bands_exp)) = Ok (VDict false d) /\
  dget key_eqb d (kstr "bands") = Some (VList [VDict false b]) /\
  dget key_eqb b (kstr "band") = Some (VTuple [fval (rd "0.30000000")]).
Proof. do 2 eexists. split; [vm_compute; reflexivity|]. split; reflexivity. Qed.
Print Assumptions C55_exponent_eigenvalue_refuted.

Definition bands_spin : list str := lns ["Number of k-points     1"; "Number of spin components 2"; "Number of electrons  4.000     3.000";
  "Number of eigenvalues     2     2"; "Fermi energies (in atomic units)     0.100000    0.200000"]%string ++ ln "Unit cell vectors" ::
  ln "    1.000000    0.000000    0.000000" :: ln "    0.000000    1.000000    0.000000" :: ln "    0.000000    0.000000    1.000000" :: [].
Theorem C56_spin_polarised_header_refuted : exists d,
  parse_bands_file (file_lines (concat bands_spin)) = Ok (VDict false d) /\
  dget key_eqb d (kstr "electrons") = None /\ dget key_eqb d (kstr "electrons 4.000") = Some (VInt 3) /\
  dget key_eqb d (kstr "eigenvalues 2") = Some (VInt 2) /\
  dget key_eqb d (kstr "Fermi energy") = None /\ dget key_eqb d (kstr "Fermi energies") = None.
Proof. eexists. split; [vm_compute; reflexivity|]. repeat split. Qed.
Print Assumptions C56_spin_polarised_header_refuted.

(** ** C46 *)
Theorem C46_hug_exact : forall text ls rows, lines_of ls text -> hug_lines ls rows ->
  parse_hug_file (file_lines text) = Ok (VDict true
    (match rows with
     | [] => []
     | _ => [(kstr "compression", VTuple (map (fun r => fval (hr_compression r)) rows));
             (kstr "temperature", VTuple (map (fun r => fval (hr_temperature r)) rows));
             (kstr "pressure", VTuple (map (fun r => fval (hr_pressure r)) rows));
             (kstr "energy", VTuple (map (fun r => fval (hr_energy r)) rows))]
     end)).
Proof. exact hug_exact. Qed.
Print Assumptions C46_hug_exact.
Definition hug_ex : list str := lns ["# Compression  Temp.  Pressure  Energy"; "   0.9800 1000.0  1.5E+02 -12.5";
  "   0.9700 1200.0  250.0 -12.25 "]%string.
Definition hug_rows : list hug_row :=
  [{| hr_compression := rd "0.9800"; hr_temperature := rd "1000.0"; hr_pressure := rd "1.5E+02"; hr_energy := rd "-12.5" |};
   {| hr_compression := rd "0.9700"; hr_temperature := rd "1200.0"; hr_pressure := rd "250.0"; hr_energy := rd "-12.25" |}].
Example C46_ex : lines_of hug_ex (concat hug_ex) /\ hug_lines hug_ex hug_rows.
Proof.
  split; [exact (file_lines_spec (concat hug_ex))|].
  apply hl_other; [apply no_cols_of; vmr|]. 
  apply (hl_row (nth 0 hug_rows (hd (Build_hug_row (rd "0") (rd "0") (rd "0") (rd "0")) hug_rows)) ($"   0.9800 1000.0  1.5E+02 -12.5") [newline]);
    [apply columns_of; vmr|intros c t E; injection E as <- _; apply NumProps.blank_iff; reflexivity
    |apply (forall_of _ fitsb); [exact fits_of|vmr]|].
  apply (hl_row (nth 1 hug_rows (hd (Build_hug_row (rd "0") (rd "0") (rd "0") (rd "0")) hug_rows)) ($"   0.9700 1200.0  250.0 -12.25") ($" " ++ [newline]));
    [apply columns_of; vmr|intros c t E; injection E as <- _; apply NumProps.blank_iff; reflexivity
    |apply (forall_of _ fitsb); [exact fits_of|vmr]|].
  constructor.
Qed.
(** A row that is not indented is dropped. *)
Theorem C57_unindented_row_refuted : parse_hug_file (file_lines ($"0.9800 1000.0 150.0 -12.5" ++ [newline])) = Ok (VDict true []).
Proof. vm_compute. reflexivity. Qed.
Print Assumptions C57_unindented_row_refuted.

(** ** C47 *)
Theorem C47_err_found : forall pre m rest text msg stack,
  lines_of (pre ++ m :: rest) text ->
  Forall (fun l => ~ mentions "Current trace stack" l) pre -> mentions "Current trace stack" m ->
  trimmed (concat pre) msg -> Forall2 trimmed rest stack ->
  parse_err_file (file_lines text) =
  Ok (VDict false [(kstr "message", VStr msg); (kstr "stack", VList (map VStr stack))]).
Proof. exact err_found. Qed.
Print Assumptions C47_err_found.
Theorem C47_err_none : forall ls text, lines_of ls text -> Forall (fun l => ~ mentions "Current trace stack" l) ls ->
  parse_err_file (file_lines text) = Err StopIteration.
Proof. exact err_none. Qed.
Print Assumptions C47_err_none.
Definition err_ex : list str := lns [" Error reading cell"; "  line 3 "; " Current trace stack: "; " cell_read"; " castep"]%string.
Example C47_ex : lines_of (firstn 2 err_ex ++ nth 2 err_ex [] :: skipn 3 err_ex) (concat err_ex) /\
  Forall (fun l => ~ mentions "Current trace stack" l) (firstn 2 err_ex) /\ mentions "Current trace stack" (nth 2 err_ex []) /\
  trimmed (concat (firstn 2 err_ex)) ($"Error reading cell" ++ newline :: $"  line 3") /\
  Forall2 trimmed (skipn 3 err_ex) [$"cell_read"; $"castep"].
Proof.
  split; [exact (file_lines_spec (concat err_ex))|]. split; [|split; [|split]].
  - repeat constructor; apply not_mentions_of; vmr.
  - apply mentions_of; vmr.
  - apply trimmed_of; vmr.
  - repeat constructor; apply trimmed_of; vmr.
Qed.

(** ** C48 *)
Theorem C48_fmt_exact : forall text pre line ls a cols b w1 w2 w3 names rows,
  lines_of (pre ++ line :: ls) text ->
  Forall (fun l => ~ mentions "END header" l) pre -> mentions "END header" line ->
  line = a ++ dquote :: cols ++ dquote :: b -> ~ In dquote a -> ~ In dquote cols ->
  cut nonblank (w1 :: w2 :: w3 :: names) cols -> NoDup names -> ~ In ($"q") names ->
  grid_lines (length names) ls rows ->
  parse_kpt_info (file_lines text) = Ok (VDict true
    (match rows with
     | [] => []
     | _ => (kstr "q", VList (map (fun r => VTuple [ival (g_x r); ival (g_y r); ival (g_z r)]) rows)) ::
            combine (map KStr names)
              (map (fun j => VList (map fval (nth_column j (map g_vals rows)))) (seq 0 (length names)))
     end)).
Proof. exact fmt_exact. Qed.
Print Assumptions C48_fmt_exact.
Definition quoted (s : string) : str := dquote :: $s ++ [dquote].
Definition fmt_head : str := $" END header: data is " ++ dquote :: $"<a b c> pot  spin" ++ dquote :: $" in units of Hartrees" ++ [newline].
Definition fmt_ex : list str := [ln " BEGIN header"; fmt_head; ln ""; ln "   1   1   1   0.5  -1.0E-2"; ln "   1   1   2   0.25  3"].
Definition fmt_rows : list grid_row :=
  [{| g_x := rd "1"; g_y := rd "1"; g_z := rd "1"; g_vals := [rd "0.5"; rd "-1.0E-2"] |};
   {| g_x := rd "1"; g_y := rd "1"; g_z := rd "2"; g_vals := [rd "0.25"; rd "3"] |}].
Lemma ex_grid k l r : split l = map write_num (g_x r :: g_y r :: g_z r :: g_vals r) ->
  forallb (fun n => wfb n && match n_frac n, n_exp n with None, None => true | _, _ => false end) [g_x r; g_y r; g_z r] = true ->
  forallb (fun n => wfb n && fitsb n) (g_vals r) = true -> length (g_vals r) = k -> grid_line k l r.
Proof.
  intros H1 H2 H3 H4. constructor; [now apply cut_of| | |exact H4].
  - eapply forall_of; [|exact H2]. cbv beta. intros n H. apply andb_true_iff in H as [H H']. split; [|now apply wf_of].
    split; destruct (n_frac n); destruct (n_exp n); reflexivity || discriminate.
  - eapply forall_of; [|exact H3]. cbv beta. intros n H. apply andb_true_iff in H as [H H']. split; [now apply wf_of|now apply fits_of].
Qed.
Lemma not_in_chars (c : ascii) s : existsb (Ascii.eqb c) s = false -> ~ In c s.
Proof. intros H C. assert (existsb (Ascii.eqb c) s = true); [|congruence]. apply existsb_exists. exists c. split; [exact C|apply Ascii.eqb_refl]. Qed.
Example C48_ex : lines_of ([ln " BEGIN header"] ++ fmt_head :: skipn 2 fmt_ex) (concat fmt_ex) /\
  Forall (fun l => ~ mentions "END header" l) [ln " BEGIN header"] /\ mentions "END header" fmt_head /\
  ~ In dquote ($" END header: data is ") /\ ~ In dquote ($"<a b c> pot  spin") /\
  cut nonblank ($"<a" :: $"b" :: $"c>" :: [$"pot"; $"spin"]) ($"<a b c> pot  spin") /\
  NoDup [$"pot"; $"spin"] /\ ~ In ($"q") [$"pot"; $"spin"] /\ grid_lines 2 (skipn 2 fmt_ex) fmt_rows.
Proof.
  split; [exact (file_lines_spec (concat fmt_ex))|]. split; [repeat constructor; apply not_mentions_of; vmr|].
  split; [apply mentions_of; vmr|]. split; [apply not_in_chars; vmr|]. split; [apply not_in_chars; vmr|].
  split; [apply cut_of; vmr|]. split; [repeat constructor; cbn; intuition discriminate|]. split; [cbn; intuition discriminate|].
  apply gls_blank; [apply blanks_of; vmr|]. apply gls_row; [apply ex_grid; vmr|]. apply gls_row; [apply ex_grid; vmr|]. constructor.
Qed.
(** A row with too few or too many values raises. *)
Theorem C48_fmt_ragged : forall text pre line ls l ls' a cols b w1 w2 w3 names rows r k,
  lines_of (pre ++ line :: ls ++ l :: ls') text ->
  Forall (fun l => ~ mentions "END header" l) pre -> mentions "END header" line ->
  line = a ++ dquote :: cols ++ dquote :: b -> ~ In dquote a -> ~ In dquote cols ->
  cut nonblank (w1 :: w2 :: w3 :: names) cols -> NoDup names -> ~ In ($"q") names ->
  grid_lines (length names) ls rows -> grid_line k l r -> k <> length names ->
  parse_kpt_info (file_lines text) = Err ValueError.
Proof. exact fmt_ragged. Qed.
Print Assumptions C48_fmt_ragged.
Example C48_ragged_ex : grid_line 1 (ln "   1   1   3   0.5 ") {| g_x := rd "1"; g_y := rd "1"; g_z := rd "3"; g_vals := [rd "0.5"] |} /\
  1 <> length [$"pot"; $"spin"] /\
  parse_kpt_info (file_lines (concat (fmt_ex ++ [ln "   1   1   3   0.5 "]))) = Err ValueError.
Proof. split; [apply ex_grid; vmr|]. split; [discriminate|vmr]. Qed.
