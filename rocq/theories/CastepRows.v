(** castep_outputs/parsers/castep_file_parser.py: the functions that read the rows
    of one block of a .castep file by regular expressions.  A block is the list of
    its lines. *)
From Verif Require Import PyBase PyVal Regex CastepRes StrUtil TypeConv DictUtil Stream Header TextParsers TextFiles CastepBlocks CastepNum.
Local Open Scope list_scope.
Local Open Scope nat_scope.

(** The atom of a row; [groupdict] of the row without "spec" and "index" (atreg_to_index clears them) *)
Definition row_dict (r : re) (x : mres) : dict :=
  filter (fun kv => negb (key_eqb (fst kv) (kstr "spec") || key_eqb (fst kv) (kstr "index"))) (groupdict r x).
Definition as_floats (names : list string) : list (key * ptype) := map (fun n => (kstr n, TFloat)) names.

(** ** Pseudo-atomic energies, 1400-1417 *)
(** castep_res.py 244 *)
Definition SHELL_RE : re := RSeqs [c_digit; c_of "spdf"; RRep true 0 (Some 2) c_digit].
(** castep_res.py 310-312 *)
Definition PS_SHELL_RE : re :=
  RSeqs [ws_star; RLit "Pseudo atomic calculation performed for "; RGrp "spec" SPECIES_RE; RPlus (RSeq ws_plus SHELL_RE)].
(** 1409-1412: the product is exact here *)
Definition spilling (line : str) : result pyval :=
  s <- last_item (get_numbers line) ;; f <- py_float_builtin s ;; Ok (VFloat (fmul (FQ (1 # 100)) f)).
Definition process_ps_energy (ls : list str) : result (str * dict) :=
  ' (l, ls) <- next_line ls ;;
  match re_search PS_SHELL_RE l with
  | None => Err ValueError
  | Some x =>
      ' (_, ls) <- next_line ls ;; ' (l, ls) <- next_line ls ;;
      e <- float_at l 1 ;;
      sp <- mapM spilling (filter (contains ($"Charge spilling")) ls) ;;
      Ok (group_s x "spec", (kstr "pseudo_atomic_energy", e) ::
            match sp with [] => [] | _ => [(kstr "charge_spilling", VTuple sp)] end)
  end.

(** ** Excitations, 1420-1427 *)
(** castep_res.py 463-470 *)
Definition TDDFT_RE : re :=
  RSeqs [ws_star; RChar "+"; ws_star; INTNUMBER_RE; labelled_floats ["energy"; "error"]%string;
         ws_star; RGrp "type" (RPlus c_word); ws_star; RLit "+TDDFT"].
Definition process_tddft (ls : list str) : result (list pyval) :=
  mapM (fun x => e <- float_group x "energy" ;; r <- float_group x "error" ;;
                 Ok (VDict false [(kstr "energy", e); (kstr "error", r); (kstr "type", group x "type")]))
    (matches (re_match TDDFT_RE) ls).

(** ** Molecular dynamics, 1456-1463 *)
Definition MD_RE : re :=
  RSeqs [RChar "x"; ws_plus; RGrp "key" (RSeq (RChr is_alpha) (RPlus c_letter_blank)); RChar ":"; ws_star; RGrp "val" FNUMBER_RE].
Definition process_md_block (ls : list str) : result dict :=
  d <- dict_rows (re_search MD_RE) (fun x => v <- float_group x "val" ;; Ok (KStr (strip (group_s x "key")), v)) ls ;;
  Ok (dict_of key_eqb (map (fun kv => (match fst kv with KStr s => KStr (normalise_key s) | k => k end, snd kv)) d)).

(** ** Electron localisation, 1466-1470 *)
Definition ELF_RE : re := RSeqs [ws_plus; RLit "ELF"; ws_plus; RPlus c_digit; ws_plus; RGrp "1" FNUMBER_RE].
Definition process_elf (ls : list str) : result (list pyval) :=
  mapM (fun x => float_group x "1") (matches (re_match ELF_RE) ls).

(** ** Hirshfeld charges, 1473-1488 *)
Definition HIRSHFELD_RE : re := RSeqs [ws_plus; ATOM_RE; ws_plus; RGrp "charge" FNUMBER_RE].
Definition process_hirshfeld (ls : list str) : result dict :=
  dict_rows (re_match HIRSHFELD_RE) (fun x => k <- atreg_match x ;; v <- float_group x "charge" ;; Ok (k, v)) ls.

(** ** Thermodynamics, 1491-1517 *)
Definition thermo_cols : list string := ["t"; "e"; "f"; "s"; "cv"]%string.
(** castep_res.py 492 *)
Definition THERMODYNAMICS_DATA_RE : re := labelled_floats thermo_cols.
Definition thermo_line (d : dict) (line : str) : result dict :=
  d <- (if contains ($"Zero-point energy") line
        then f <- float_at line 0 ;; Ok (dset key_eqb d (kstr "zero_point_energy") f) else Ok d) ;;
  match re_match THERMODYNAMICS_DATA_RE line with
  | Some x => stack_vals d (groupdict THERMODYNAMICS_DATA_RE x)
  | None => Ok d
  end.
Definition process_thermodynamics (ls : list str) : result dict :=
  d <- foldM thermo_line ls [] ;; fix_data_types d (as_floats thermo_cols).

(** ** Displacements, 1520-1541 *)
(** castep_res.py 493-499 *)
Definition ATOMIC_DISP_RE : re :=
  RSeqs [labelled_floats ["temperature"]%string; ws_star; ATOM_RE; ws_star;
         labelled_floats_gen lf_sep REps [("displacement", Some (6, 6))]%string].
(** [d[k1][k2] = v] for a defaultdict(dict) *)
Definition set_inner (d : list (key * dict)) (k1 k2 : key) (v : pyval) : list (key * dict) :=
  dset key_eqb d k1 (dset key_eqb (match dget key_eqb d k1 with Some e => e | None => [] end) k2 v).
Definition disp_line (d : list (key * dict)) (line : str) : result (list (key * dict)) :=
  match re_match ATOMIC_DISP_RE line with
  | None => Ok d
  | Some x => k <- atreg_match x ;; v <- to_tuple TFloat (split (group_s x "displacement")) ;;
              Ok (set_inner d (KStr (group_s x "temperature")) k v)
  end.
Definition inner_dicts (d : list (key * dict)) : dict := map (fun kv => (fst kv, VDict false (snd kv))) d.
Definition process_atom_disp (ls : list str) : result dict := rmap inner_dicts (foldM disp_line ls []).

(** ** Self-consistent fields, 1705-1774 *)
(** castep_res.py 295-299: only the last of the three groups is optional *)
Definition SCF_LOOP_RE : re :=
  RSeqs [ws_star; RAlt (RLit "Initial") (RPlus c_digit); ws_star;
         labelled_floats ["energy"; "fermi_energy"]%string; ROpt (labelled_floats ["energy_gain"]%string); ws_star;
         labelled_floats ["time"]%string].
(** 1747 *)
Definition EIGENVALUE_RE : re := RSeqs [RLit "eigenvalue"; ws_star; RPlus c_digit; ws_star; RLit "init="].
(** 1757-1758 *)
Definition c_contribution : re := RChr (fun c => is_alnum c || chr_in c ($"() -")).
Definition CONTRIBUTION_RE : re :=
  RSeqs [ROpt (c_of "+("); RGrp "key" (RPlus c_contribution); ROpt (RChar "="); ws_star; labelled_floats ["val"]%string;
         RLit " eV"; ROpt (RChar ")")].
(** 1762-1765 *)
Definition fix_key (k : str) : str :=
  if str_eqb k ($"apolar_corr_to_eigenvalue_sum") then $"apolar_correction"
  else if str_eqb k ($"hubbard_u_correction_to_eigenvalu") then $"hubbard_u_correction"
  else if str_eqb k ($"xc_correction_to_eigenvalue_sum") then $"xc_correction" else k.
Record scfst := { s_scf : list dict; s_curr : dict; s_debug : dict; s_eig : option (list pyval) }.
(** [d.setdefault(k, v)] *)
Definition setdefault (d : dict) (k : key) (v : pyval) : dict := if dmem key_eqb d k then d else dset key_eqb d k v.
(** [d[k].append(v)] for a dict whose entry [k] is a list *)
Definition append_in (d : dict) (k : key) (v : pyval) : result dict :=
  match dget key_eqb d k with
  | Some (VList l) => Ok (dset key_eqb d k (VList (l ++ [v])))
  | Some _ => Err AttributeError
  | None => Err KeyError
  end.
Definition scf_keep (st : scfst) : list dict := if isempty (s_curr st) then s_scf st else s_scf st ++ [s_curr st].
Definition with_curr (st : scfst) (k : key) (v : pyval) : scfst :=
  {| s_scf := s_scf st; s_curr := dset key_eqb (s_curr st) k v; s_debug := s_debug st; s_eig := s_eig st |}.
Definition with_debug (st : scfst) (d : dict) (e : option (list pyval)) : scfst :=
  {| s_scf := s_scf st; s_curr := s_curr st; s_debug := d; s_eig := e |}.
Definition scf_line (st : scfst) (line : str) : result scfst :=
  match re_match SCF_LOOP_RE line with
  | Some x =>
      let c := groupdict SCF_LOOP_RE x in
      let c := if isempty (s_debug st) then c else dset key_eqb c (kstr "debug_info") (VDict false (s_debug st)) in
      c <- fix_data_types c (as_floats ["energy"; "energy_gain"; "fermi_energy"; "time"]%string) ;;
      Ok {| s_scf := scf_keep st; s_curr := c; s_debug := []; s_eig := s_eig st |}
  | None =>
      if contains ($"Density was not mixed") line then Ok (with_curr st (kstr "density_residual") VNone)
      else if contains ($"Norm of density") line then rmap (with_curr st (kstr "density_residual")) (number_at TFloat line 0)
      else if contains ($"constraint energy") line then rmap (with_curr st (kstr "constraint_energy")) (number_at TFloat line 0)
      else if contains ($"Correcting PBC dipole-dipole") line then rmap (with_curr st (kstr "dipole_corr_energy")) (number_at TFloat line 0)
      else if contains ($"no. bands") line then
        v <- number_at TInt line 0 ;; Ok (with_debug st (dset key_eqb (s_debug st) (kstr "no_bands") v) (s_eig st))
      else if contains ($"Kinetic eigenvalue") line then
        let d := setdefault (setdefault (s_debug st) (kstr "kinetic_eigenvalue") (VList [])) (kstr "eigenvalue") (VList []) in
        v <- number_at TFloat line 1 ;;
        d <- append_in d (kstr "kinetic_eigenvalue") v ;;
        Ok (with_debug st d (Some []))
      else if re_match_test EIGENVALUE_RE line then
        match s_eig st with
        | None => Err UnboundLocalError
        | Some es =>
            a <- float_at line 1 ;; b <- float_at line 2 ;; c <- float_at line 3 ;;
            Ok (with_debug st (s_debug st) (Some (es ++ [VDict false [(kstr "initial", a); (kstr "final", b); (kstr "change", c)]])))
        end
      else if contains ($"Checking convergence criteria") line then
        match dget key_eqb (s_debug st) (kstr "eigenvalue"), s_eig st with
        | None, _ => Err KeyError
        | _, None => Err UnboundLocalError
        | Some _, Some es => d <- append_in (s_debug st) (kstr "eigenvalue") (VList es) ;; Ok (with_debug st d (Some []))
        end
      else match re_match CONTRIBUTION_RE line with
           | Some x =>
               let d := setdefault (s_debug st) (kstr "contributions") (VDict false []) in
               v <- float_group x "val" ;;
               let k := KStr (fix_key (normalise_key (group_s x "key"))) in
               match dget key_eqb d (kstr "contributions") with
               | Some (VDict b e) => Ok (with_debug st (dset key_eqb d (kstr "contributions") (VDict b (dset key_eqb e k v))) (s_eig st))
               | _ => Err TypeError
               end
           | None => Ok st
           end
  end.
Definition process_scf (ls : list str) : result (list pyval) :=
  st <- foldM scf_line ls {| s_scf := []; s_curr := []; s_debug := []; s_eig := None |} ;;
  Ok (map (VDict false) (scf_keep st)).

(** ** Initial spins, 1810-1835 *)
Definition SPIN_RE : re :=
  RSeqs [ws_star; RChar "|"; ws_star; ATOM_RE; ws_star; labelled_floats ["spin"; "magmom"]%string; ws_star;
         RGrp "fix" (c_of "TF"); ws_star; RChar "|"].
Definition process_initial_spins (ls : list str) : result dict :=
  dict_rows (re_match SPIN_RE)
    (fun x => k <- atreg_match x ;;
              d <- fix_data_types (row_dict SPIN_RE x) (as_floats ["spin"; "magmom"]%string) ;;
              Ok (k, VDict false (dset key_eqb d (kstr "fix") (VBool (str_eqb (group_s x "fix") ($"T")))))) ls.

(** ** Born charges, 1838-1860 *)
(** castep_res.py 528 *)
Definition BORN_RE : re :=
  RSeqs [ws_plus; ATOM_RE; RGrp "charges" (RTimes 3 (RSeq ws_star FNUMBER_RE));
         ROpt (RSeqs [ws_star; RLit "ID="; RGrp "label" (RPlus c_nspace)])].
Definition born_step (d : dict) (line : str) (rest : list str) : result (dict * list str) :=
  match re_match BORN_RE line with
  | None => Ok (d, rest)
  | Some x =>
      let spec := match cap (m_caps x) "label" with
                  | Some lab => group_s x "spec" ++ $" [" ++ lab ++ $"]"
                  | None => group_s x "spec"
                  end in
      a <- to_tuple TFloat (split (group_s x "charges")) ;;
      ' (l, rest) <- next_line rest ;; b <- to_tuple TFloat (split l) ;;
      ' (l, rest) <- next_line rest ;; c <- to_tuple TFloat (split l) ;;
      i <- py_int (group_s x "index") ;;
      Ok (dset key_eqb d (atom_key spec i) (VTuple [a; b; c]), rest)
  end.
Definition process_born (ls : list str) : result dict := over_file born_step [] ls.

(** ** Mulliken populations, 1907-1955 *)
Definition SHELLS : list string := ["s"; "p"; "d"; "f"]%string.
(** castep_res.py 517-525: the last group is optional *)
Definition POPN_RE : re :=
  RSeqs [ws_star; ATOM_RE; ws_star; ROpt (RGrp "spin_sep" (RLit "up:"));
         labelled_floats (SHELLS ++ ["total"; "charge"]%string); ROpt (labelled_floats ["spin"]%string)].
Definition POPN_RE_DN : re := RSeqs [ws_plus; RPlus c_digit; ws_star; RLit "dn:"; labelled_floats (SHELLS ++ ["total"]%string)].
(** 1931-1932, 1939-1941 *)
Definition spin_aliases (w : string) : list (key * key) :=
  map (fun o => (kstr o, kstr (w ++ o))) (SHELLS ++ ["total"]%string).
Definition text_at (d : dict) (k : key) : result str :=
  v <- dgetE key_eqb d k ;; match v with VStr s => Ok s | _ => Err TypeError end.
Definition mulliken_types : list (key * ptype) :=
  as_floats (SHELLS ++ ["total"; "charge"; "spin"]%string) ++
  as_floats (map (append "up_") (SHELLS ++ ["total"]%string)) ++ as_floats (map (append "dn_") (SHELLS ++ ["total"]%string)).
Definition mulliken_step (accum : dict) (line : str) (rest : list str) : result (dict * list str) :=
  match re_match POPN_RE line with
  | None => Ok (accum, rest)
  | Some x =>
      let sep := match cap (m_caps x) "spin_sep" with Some _ => true | None => false end in
      let mull := dset key_eqb (row_dict POPN_RE x) (kstr "spin_sep") (VBool sep) in
      ' (mull, rest) <-
        (if sep then
           mull <- foldM (alias_inplace key_eqb true) (spin_aliases "up_") mull ;;
           ' (l, rest) <- next_line rest ;;
           match re_match POPN_RE_DN l with
           | None => Err ValueError
           | Some y =>
               val <- foldM (alias_inplace key_eqb true) (spin_aliases "dn_") (groupdict POPN_RE_DN y) ;;
               let mull := update mull val in
               a <- (w <- text_at mull (kstr "up_total") ;; py_float_builtin w) ;;
               b <- (w <- text_at mull (kstr "dn_total") ;; py_float_builtin w) ;;
               Ok (dset key_eqb mull (kstr "total") (VFloat (fadd a b)), rest)
           end
         else Ok (mull, rest)) ;;
      k <- atreg_match x ;;
      mull <- fix_data_types mull mulliken_types ;;
      Ok (dset key_eqb accum k (VDict false mull), rest)
  end.
Definition process_mulliken (ls : list str) : result dict := over_file mulliken_step [] ls.

(** ** Band structures, 1958-1999 *)
(** castep_res.py 482-490 *)
Definition BS_RE : re :=
  RSeqs [RLit "Spin="; ws_star; RGrp "spin" INTNUMBER_RE; ws_star; RLit "kpt="; ws_star; INTNUMBER_RE; ws_star; RChar "(";
         labelled_floats ["kx"; "ky"; "kz"]%string; RChar ")"; ws_star; RLit "kpt-group="; ws_star; RGrp "kpgrp" INTNUMBER_RE].
Definition BAND_RE : re := labelled_floats_gen ws_plus REps [("band", None); ("energy", None)]%string.
Definition bs_types : list (key * ptype) :=
  [(kstr "spin", TInt); (kstr "kx", TFloat); (kstr "ky", TFloat); (kstr "kz", TFloat); (kstr "kpgrp", TInt);
   (kstr "band", TInt); (kstr "energy", TFloat)].
Definition keep_bs (bands : list pyval) (q : dict) : result (list pyval) :=
  if isempty q then Ok bands else q <- fix_data_types q bs_types ;; Ok (bands ++ [VDict false q]).
Definition bs_line (st : list pyval * dict) (line : str) : result (list pyval * dict) :=
  let (bands, q) := st in
  match re_search BS_RE line with
  | Some x =>
      bands <- keep_bs bands q ;;
      Ok (bands, [(kstr "band", VList []); (kstr "energy", VList [])] ++ groupdict BS_RE x)
  | None =>
      match re_search BAND_RE line with
      | Some x => q <- append_in q (kstr "band") (group x "band") ;; q <- append_in q (kstr "energy") (group x "energy") ;; Ok (bands, q)
      | None => Ok st
      end
  end.
Definition process_band_structure (ls : list str) : result (list pyval) :=
  ' (bands, q) <- foldM bs_line ls ([], []) ;; keep_bs bands q.

(** ** Magnetic resonance, 2031-2062 *)
(** castep_res.py 532-560, 563-569 *)
Definition ASYM_RE : re := RGrp "asym" (RAlt FNUMBER_RE (RLit "N/A")).
Definition bar : re := RSeqs [ws_star; RChar "|"; ws_star].
Definition MAGRES_RE (task : nat) : re :=
  match task with
  | 0 => RSeqs [bar; ATOM_RE; labelled_floats ["cs_iso"; "cs_aniso"]%string; ws_star; ASYM_RE; bar]
  | 1 => RSeqs [bar; ATOM_RE; labelled_floats ["cs_iso"; "cs_aniso"]%string; ws_star; ASYM_RE; labelled_floats ["cq"; "eta"]%string; bar]
  | 2 => RSeqs [bar; ATOM_RE; labelled_floats ["cq"]%string; ws_star; ASYM_RE; bar]
  | 3 => RSeqs [ws_star; RChar "|"; RStar (RChar "*"); ws_star; ATOM_RE;
                labelled_floats ["fermi_contact"; "spin_dipolar"; "paramagnetic"; "diamagnetic"; "total"]%string; bar]
  | _ => RSeqs [bar; ATOM_RE; labelled_floats ["hf_iso"]%string; bar]
  end.
Definition MAGRES_TASK (task : nat) : string :=
  match task with
  | 0 => "Chemical Shielding"
  | 1 => "Chemical Shielding and Electric Field Gradient"
  | 2 => "Electric Field Gradient"
  | 3 => "(An)Isotropic J-coupling"
  | _ => "Hyperfine"
  end.
(** 2054-2058 *)
Definition magres_row (r : re) (x : mres) : result (key * pyval) :=
  k <- atreg_match x ;;
  d <- mapM (fun n => rmap (pair (kstr n)) (float_group x n))
         (filter (fun n => negb (existsb (String.eqb n) ["spec"; "index"; "asym"]%string)) (group_names r)) ;;
  d <- (if existsb (String.eqb "asym") (group_names r) then
          a <- (if str_eqb (group_s x "asym") ($"N/A") then Ok VNone else float_group x "asym") ;;
          Ok (dset key_eqb d (kstr "asym") a)
        else Ok d) ;;
  Ok (k, VDict false d).
Definition parse_magres_block (task : nat) (ls : list str) : result dict :=
  d <- dict_rows (re_match (MAGRES_RE task)) (magres_row (MAGRES_RE task)) ls ;;
  Ok ((kstr "task", VStr ($(MAGRES_TASK task))) :: d).

(** ** Orbital populations, 2282-2296 *)
(** castep_res.py 434-437 *)
Definition ORBITAL_POPN_RE : re :=
  RSeqs [ws_star; ATOM_RE; ws_star; RGrp "orb" (RSeq (c_of "SPDF") (ROpt (c_of "xyz"))); ws_star; labelled_floats ["charge"]%string].
Definition TOTAL_CHARGE_RE : re := RSeqs [ws_star; RLit "Total:"; ws_star; labelled_floats ["charge"]%string].
(** State: the orbitals of the atoms, and the totals *)
Definition set_orbital (d : dict) (k1 k2 : key) (v : pyval) : result dict :=
  match dget key_eqb d k1 with
  | None => Ok (dset key_eqb d k1 (VDict false [(k2, v)]))
  | Some (VDict b e) => Ok (dset key_eqb d k1 (VDict b (dset key_eqb e k2 v)))
  | Some _ => Err TypeError
  end.
Definition orbital_line (d : dict) (line : str) : result dict :=
  match re_match ORBITAL_POPN_RE line with
  | Some x => k <- atreg_match x ;; v <- to_type TFloat (group x "charge") ;; set_orbital d k (KStr (group_s x "orb")) v
  | None =>
      match re_match TOTAL_CHARGE_RE line with
      | Some x => v <- float_group x "charge" ;; Ok (dset key_eqb d (kstr "total") v)
      | None => if contains ($"total projected") line then rmap (dset key_eqb d (kstr "total_projected")) (numbers_as TFloat line) else Ok d
      end
  end.
Definition process_orbital_populations (ls : list str) : result dict := foldM orbital_line ls [].

(** ** Convergence tables, 2512-2531 *)
(** castep_res.py 502-514 *)
Definition GEOMOPT_MIN_TABLE_RE : re :=
  RSeqs [ws_star; RChar "|"; ws_star; RGrp "step" (RPlus (c_notof "|"));
         labelled_floats_gen bar REps (map (fun n => (n, None)) ["lambda"; "fdelta"; "enthalpy"]%string); ws_star; RChar "|"].
Definition GEOMOPT_TABLE_RE : re :=
  RSeqs [ws_star; RChar "|"; ws_star; RGrp "parameter" (RPlus c_nspace);
         labelled_floats_gen bar REps (map (fun n => (n, None)) ["value"; "tolerance"]%string); bar; RPlus c_nspace; bar;
         RGrp "converged" (RAlt (RLit "No") (RLit "Yes")); ws_star; RChar "|"].
Definition geom_line (d : dict) (line : str) : result dict :=
  match re_match GEOMOPT_MIN_TABLE_RE line with
  | Some x =>
      v <- fix_data_types (groupdict GEOMOPT_MIN_TABLE_RE x) (as_floats ["lambda"; "fdelta"; "enthalpy"]%string) ;;
      Ok (dset key_eqb d (KStr (normalise_string (group_s x "step"))) (VDict false (ddel key_eqb v (kstr "step"))))
  | None =>
      match re_match GEOMOPT_TABLE_RE line with
      | Some x =>
          v <- fix_data_types (groupdict GEOMOPT_TABLE_RE x) (as_floats ["value"; "tolerance"]%string) ;;
          let v := dset key_eqb v (kstr "converged") (VBool (str_eqb (group_s x "converged") ($"Yes"))) in
          Ok (dset key_eqb d (KStr (normalise_key (group_s x "parameter"))) (VDict false (ddel key_eqb v (kstr "parameter"))))
      | None => Ok d
      end
  end.
Definition process_geom_table (ls : list str) : result dict := foldM geom_line ls [].
