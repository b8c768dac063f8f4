(** castep_outputs/parsers/castep_file_parser.py: more of the functions that read
    one block of a .castep file, those that pick the numbers or the words of its
    lines.  A block is the list of its lines. *)
From Verif Require Import PyBase PyVal Regex CastepRes StrUtil TypeConv DictUtil Stream Header TextParsers TextFiles CastepBlocks.
Local Open Scope list_scope.
Local Open Scope nat_scope.

(** Arithmetic on floats is exact here, as reading them is; on infinities and NaN
    it is not modelled (the result is NaN). *)
Definition float_op (f : Q -> Q -> Q) (a b : float) : float :=
  match a, b with FQ x, FQ y => FQ (Qred (f x y)) | _, _ => nan_bits end.
Definition fadd := float_op Qplus.
Definition fmul := float_op Qmult.
Definition fsub := float_op Qminus.
(** [float(s)] *)
Definition as_float (s : str) : result pyval := rmap VFloat (py_float_builtin s).
(** [l[-1]] *)
Definition last_item {A} (l : list A) : result A :=
  match rev l with [] => Err IndexError | x :: _ => Ok x end.
(** [k, v = s.split(c)] for a single character [c] *)
Definition split_two (c : ascii) (s : str) : result (str * str) :=
  match split_chr c s with [a; b] => Ok (a, b) | _ => Err ValueError end.
(** [k, v = s.split(c, 1)] for a text with [c] in it *)
Fixpoint split_first (c : ascii) (s : str) : result (str * str) :=
  match s with
  | [] => Err ValueError
  | x :: s' => if Ascii.eqb x c then Ok ([], s') else rmap (fun p => (x :: fst p, snd p)) (split_first c s')
  end.
(** The lines with numbers, and their numbers. *)
Definition numbered (ls : list str) : list (list str) :=
  filter (fun ns => negb (isempty ns)) (map get_numbers ls).

(** ** Matrices, 1597-1598: the lines of three or six numbers *)
Definition matrix_rows (ls : list str) : result (list (list pyval)) :=
  mapM (to_types TFloat) (filter (fun ns => (length ns =? 3) || (length ns =? 6)) (map get_numbers ls)).
(** 1600-1607 *)
Definition process_3_6_matrix (split_it : bool) (ls : list str) : result (pyval * pyval) :=
  rows <- matrix_rows ls ;;
  let whole := (VTuple (map VTuple rows), VNone) in
  if split_it then
    first <- nthE rows 0 ;;
    if length first =? 6
    then Ok (VTuple (map (fun r => VTuple (firstn 3 r)) rows), VTuple (map (fun r => VTuple (firstn 3 (skipn 3 r))) rows))
    else Ok whole
  else Ok whole.

(** ** The unit cell, 1673-1702 *)
(** State: the lattices, the parameters, the angles and the other properties *)
Record cellst := { c_real : list pyval; c_recip : list pyval; c_par : list pyval; c_ang : list pyval; c_prop : list pyval }.
(** 1682-1693 *)
Definition cell_line (st : cellst) (line : str) : result cellst :=
  let ns := get_numbers line in
  if length ns =? 6 then
    a <- to_tuple TFloat (firstn 3 ns) ;; b <- to_tuple TFloat (firstn 3 (skipn 3 ns)) ;;
    Ok {| c_real := c_real st ++ [a]; c_recip := c_recip st ++ [b]; c_par := c_par st; c_ang := c_ang st; c_prop := c_prop st |}
  else if length ns =? 2 then
    if contains ($"alpha") line || contains ($"beta") line || contains ($"gamma") line then
      a <- number_at TFloat line 0 ;; b <- number_at TFloat line 1 ;;
      Ok {| c_real := c_real st; c_recip := c_recip st; c_par := c_par st ++ [a]; c_ang := c_ang st ++ [b]; c_prop := c_prop st |}
    else
      a <- float_at line 0 ;;
      Ok {| c_real := c_real st; c_recip := c_recip st; c_par := c_par st; c_ang := c_ang st; c_prop := c_prop st ++ [a] |}
  else Ok st.
(** 1695-1702 *)
Definition process_unit_cell (ls : list str) : result dict :=
  st <- foldM cell_line ls {| c_real := []; c_recip := []; c_par := []; c_ang := []; c_prop := [] |} ;;
  Ok ([(kstr "real_lattice", VList (c_real st)); (kstr "recip_lattice", VList (c_recip st));
       (kstr "lattice_parameters", VList (c_par st)); (kstr "cell_angles", VList (c_ang st))] ++
      combine [kstr "volume"; kstr "density_amu"; kstr "density_g"] (c_prop st)).

(** ** Occupancies, 2322-2337 *)
Definition occupancy_row (ns : list str) : result pyval :=
  row <- zip_strict [kstr "band"; kstr "eigenvalue"; kstr "occupancy"] (map VStr ns) ;;
  rmap (VDict false) (fix_data_types (dict_of key_eqb row)
    [(kstr "band", TInt); (kstr "eigenvalue", TFloat); (kstr "occupancy", TFloat)]).
(** The first list is made of the rows before their numbers are read. *)
Definition process_occupancies (ls : list str) : result (list pyval) :=
  if forallb (fun ns => length ns =? 3) (numbered ls) then mapM occupancy_row (numbered ls) else Err ValueError.

(** ** Raman tensors, 1863-1904 *)
(** A mode: [rm_tensor] is a list until the end of its table, then a tuple. *)
Record rmode := { rm_tensor : list (list float); rm_depol : option float; rm_end : option (float * float) }.
Definition floats_of_words (ws : list str) : result (list float) :=
  mapM (fun w => rmap FQ (py_float w)) ws.
Definition entry_at (t : list (list float)) (i j : nat) : result float := r <- nthE t i ;; nthE r j.
(** 1893-1898: [sum] starts at the integer 0. *)
Definition trace_of (t : list (list float)) : result float :=
  a <- entry_at t 0 0 ;; b <- entry_at t 1 1 ;; c <- entry_at t 2 2 ;; Ok (fadd (fadd (fadd (FQ 0) a) b) c).
Definition second_invariant (t : list (list float)) : result float :=
  xx <- entry_at t 0 0 ;; yy <- entry_at t 1 1 ;; zz <- entry_at t 2 2 ;;
  xy <- entry_at t 0 1 ;; yx <- entry_at t 1 0 ;; xz <- entry_at t 0 2 ;; zx <- entry_at t 2 0 ;;
  yz <- entry_at t 1 2 ;; zy <- entry_at t 2 1 ;;
  Ok (fsub (fsub (fsub (fadd (fadd (fmul xx yy) (fmul xx zz)) (fmul yy zz)) (fmul xy yx)) (fmul xz zx)) (fmul yz zy)).
(** 1889 *)
Definition RAMAN_END_RE : re := RSeqs [RBol; RLit " +"; ws_plus; RChar "+"].
(** 1879-1898.  State: the modes so far and the current one *)
Definition raman_line (st : list rmode * option rmode) (line : str) : result (list rmode * option rmode) :=
  let (done, cur) := st in
  if contains ($"Mode number") line then
    Ok (done ++ match cur with Some m => [m] | None => [] end, Some {| rm_tensor := []; rm_depol := None; rm_end := None |})
  else match get_numbers line with
  | (_ :: _) as ns =>
      match cur with
      | None => Err KeyError
      | Some m =>
          match rm_end m with
          | Some _ => Err AssertionError
          | None =>
              r <- floats_of_words (firstn 3 ns) ;;
              dp <- (if length ns =? 4 then s <- nthE ns 3 ;; rmap Some (py_float_builtin s) else Ok (rm_depol m)) ;;
              Ok (done, Some {| rm_tensor := rm_tensor m ++ [r]; rm_depol := dp; rm_end := None |})
          end
      end
  | [] =>
      if re_test RAMAN_END_RE line then
        match cur with
        | None => Err KeyError
        | Some m =>
            match rm_end m with
            | Some _ => Err AssertionError
            | None => t <- trace_of (rm_tensor m) ;; i <- second_invariant (rm_tensor m) ;;
                      Ok (done, Some {| rm_tensor := rm_tensor m; rm_depol := rm_depol m; rm_end := Some (t, i) |})
            end
        end
      else Ok st
  end.
Definition opt_float (o : option float) : pyval := match o with Some f => VFloat f | None => VNone end.
Definition rmode_val (m : rmode) : pyval :=
  let rows := map (fun r => VTuple (map VFloat r)) (rm_tensor m) in
  VDict false
    (match rm_end m with
     | None => [(kstr "tensor", VList rows); (kstr "depolarisation", opt_float (rm_depol m))]
     | Some (t, i) => [(kstr "tensor", VTuple rows); (kstr "depolarisation", opt_float (rm_depol m));
                       (kstr "trace", VFloat t); (kstr "ii", VFloat i)]
     end).
(** 1875-1904 *)
Definition process_raman (ls : list str) : result (list pyval) :=
  ' (_, ls) <- next_line ls ;;
  ' (done, cur) <- foldM raman_line ls ([], None) ;;
  Ok (map rmode_val (done ++ match cur with Some m => [m] | None => [] end)).

(** ** The dynamical matrix, 2204-2220 *)
(** 2208-2211 *)
Fixpoint real_rows (ls : list str) : result (list (list str) * list str) :=
  match ls with
  | [] => Err StopIteration
  | l :: ls' => if contains ($"Ion") l then Ok ([], ls')
                else ' (rs, rest) <- real_rows ls' ;; Ok (skipn 2 (get_numbers l) :: rs, rest)
  end.
Definition complex_at (p : str * str) : result pyval :=
  a <- py_float_builtin (fst p) ;; b <- py_float_builtin (snd p) ;; Ok (VComplex a b).
Definition complex_row (p : list str * list str) : result pyval :=
  ps <- zip_strict (fst p) (snd p) ;; rmap VTuple (mapM complex_at ps).
Definition process_dynamical_matrix (ls : list str) : result pyval :=
  ' (_, ls) <- next_line ls ;; ' (_, ls) <- next_line ls ;;
  ' (real, ls) <- real_rows ls ;;
  ps <- zip_strict real (map (skipn 2) (numbered ls)) ;;
  rmap VTuple (mapM complex_row ps).

(** ** The symmetry analysis of phonons, 2090-2096 *)
Definition process_phonon_sym_analysis (ls : list str) : result dict :=
  ' (l, ls) <- next_line ls ;;
  t <- nthE (split_chr ":" l) 1 ;;
  ' (_, ls) <- next_line ls ;;
  rows <- mapM parse_int_or_float_seq (numbered ls) ;;
  Ok [(kstr "title", VStr (normalise_string t)); (kstr "mat", VTuple rows)].

(** ** Key and value, 2065-2073 *)
Definition finalisation_line (d : dict) (line : str) : result dict :=
  if isempty (strip line) then Ok d else
  ' (k, v) <- split_two "=" line ;;
  f <- float_at v 0 ;;
  Ok (dset key_eqb d (KStr (normalise_key k)) f).
Definition process_finalisation (ls : list str) : result dict := foldM finalisation_line ls [].
(** 2353-2361 *)
Definition autosolvation_line (d : dict) (line : str) : result dict :=
  match split_chr "=" line with
  | k :: _ :: _ => v <- number_at TFloat line 0 ;; Ok (dset key_eqb d (KStr (normalise_key k)) v)
  | _ => Ok d
  end.
Definition process_autosolvation (ls : list str) : result dict := foldM autosolvation_line ls [].

(** ** Delocalised internals, 2638-2650 *)
Definition deloc_space_line (d : dict) (line : str) : result dict :=
  let set w k d := if contains ($w) line then rmap (dset key_eqb d (kstr k)) (number_at TInt line 0) else Ok d in
  d <- set "active space"%string "active_space_size"%string d ;;
  d <- set "degrees"%string "num_dof"%string d ;;
  set "primitive"%string "num_primitive_internals"%string d.
Definition process_deloc_act_space_table (ls : list str) : result dict := foldM deloc_space_line ls [].
(** 2622-2635.  State: the mapping and the counts *)
Definition deloc_line (st : dict * dict) (line : str) : result (dict * dict) :=
  let (cm, d) := st in
  if startswith ($" constraint") line then
    vs <- to_types TInt (get_numbers line) ;;
    match vs with
    | [VInt k; v] => Ok (dset key_eqb cm (KInt k) v, d)
    | _ => Err ValueError
    end
  else if startswith ($"Total number of primitive") line then
    match firstn 2 (skipn 4 (split line)) with
    | [t; v] => n <- py_int v ;; Ok (cm, dset key_eqb d (KStr ($"num_" ++ strip_by (Ascii.eqb ":") t)) (VInt n))
    | _ => Err ValueError
    end
  else Ok st.
(** No count is called "constraint_mapping": each name starts with "num_". *)
Definition process_deloc_table (ls : list str) : result dict :=
  ' (cm, d) <- foldM deloc_line ls ([], []) ;;
  Ok ((kstr "constraint_mapping", VDict false cm) :: d).

(** ** The line minimiser, 2340-2350 *)
Definition wvfn_line (d : dict) (line : str) : result dict :=
  if contains ($"initial") line then
    vs <- to_types TFloat (get_numbers line) ;;
    match vs with
    | [a; b] => Ok (dset key_eqb (dset key_eqb d (kstr "init_energy") a) (kstr "init_de_dstep") b)
    | _ => Err ValueError
    end
  else if startswith ($"| step") (strip line) then rmap (dset key_eqb d (kstr "steps")) (numbers_as TFloat line)
  else if startswith ($"| gain") (strip line) then rmap (dset key_eqb d (kstr "gain")) (numbers_as TFloat line)
  else Ok d.
Definition process_wvfn_line_min (ls : list str) : result dict := foldM wvfn_line ls [].

(** ** The dipole, 2427-2446 *)
Definition TOTAL_RE : re := RSeqs [RLit "Total"; ws_star; RGrp "type" (RPlus c_word)].
Definition dipole_step (d : dict) (line : str) (rest : list str) : result (dict * list str) :=
  match re_search TOTAL_RE line with
  | Some x => f <- float_at line 0 ;; Ok (dset key_eqb d (KStr ($"total_" ++ group_s x "type")) f, rest)
  | None =>
      if contains ($"Centre") line then
        ' (l, rest) <- next_line rest ;;
        v <- numbers_as TFloat l ;;
        Ok (dset key_eqb d (if contains ($"elec") line then kstr "centre_electronic" else kstr "centre_positive") v, rest)
      else if contains ($"Magnitude") line then
        v <- number_at TFloat line 0 ;; Ok (dset key_eqb d (kstr "dipole_magnitude") v, rest)
      else if contains ($"Direction") line then
        v <- numbers_as TFloat line ;; Ok (dset key_eqb d (kstr "dipole_direction") v, rest)
      else Ok (d, rest)
  end.
Definition process_dipole (ls : list str) : result dict := over_file dipole_step [] ls.

(** ** Elastic properties, 2559-2580 *)
(** [s.split("::")[0]] *)
Fixpoint before_colons (s : str) : str :=
  match s with
  | [] => []
  | c :: s' => if startswith ($"::") s then [] else c :: before_colons s'
  end.
Definition elastic_prop_step (d : dict) (line : str) (rest : list str) : result (dict * list str) :=
  if contains ($"::") line then
    vs <- to_types TFloat (get_numbers line) ;;
    Ok (dset key_eqb d (KStr (normalise_key (before_colons line))) (match vs with [v] => v | _ => VTuple vs end), rest)
  else
    if_block line rest (contains ($"Speed of Sound")) (re_test EMPTY) 1 false
      (fun b rest => rows <- mapM (to_tuple TFloat) (numbered b) ;; Ok (dset key_eqb d (kstr "speed_of_sound") (VTuple rows), rest))
      (fun rest => Ok (d, rest)).
Definition process_elastic_properties (ls : list str) : result dict := over_file elastic_prop_step [] ls.

(** ** Internal constraints, 2583-2619 *)
(** 2605-2609 *)
Definition constraint_part (d : dict) (def : str) : result dict :=
  vs <- to_types TInt (get_numbers def) ;;
  match vs with
  | VInt k :: v => Ok (dset key_eqb d (KInt k) (VTuple v))
  | _ => Ok d
  end.
Definition constraint_row (line : str) : result pyval :=
  match split line with
  | _ :: ty :: target :: current :: defs =>
      if negb (existsb (str_eqb ty) [$"Bond"; $"Angle"; $"Torsion"]) then Err AssertionError else
      let sat := str_eqb current ($"Satisfied") in
      ' (t, c) <- (if sat then c <- as_float target ;; Ok (VNone, c)
                   else t <- as_float target ;; c <- as_float current ;; Ok (t, c)) ;;
      k <- foldM constraint_part (split_chr ")" (join ($" ") defs)) [] ;;
      Ok (VDict false [(kstr "type", VStr ty); (kstr "target", t); (kstr "current", c);
                       (kstr "satisfied", VBool sat); (kstr "constraints", VDict false k)])
  | _ => Err ValueError
  end.
Definition process_internal_constraints (ls : list str) : result (list pyval) :=
  mapM constraint_row (filter (fun l => negb (isempty (strip l))) (skipn 3 ls)).

(** ** Build information, 1662-1670 *)
Definition build_line (d : dict) (line : str) : result dict :=
  if chr_in ":" line then
    ' (k, v) <- split_first ":" line ;;
    Ok (dset key_eqb d (KStr (normalise_key (normalise_string k))) (VStr (strip (normalise_string v))))
  else Ok d.
Definition process_buildinfo (ls : list str) : result dict :=
  foldM build_line (skipn 2 ls) [(kstr "summary", VStr (join ($" ") (map normalise_string (firstn 2 ls))))].

(** ** Properties of species, 1438-1453 *)
Definition SPEC_WORD_RE : re := RSeq SPECIES_RE RWordB.
Definition spec_prop_line (line : str) : list (list str) :=
  match split line with
  | [] => []
  | (w :: _) as ws =>
      let z := last ws [] in
      if str_eqb z ($"on-the-fly") then [[w; z]]
      else if re_match_test SPEC_WORD_RE w then [ws] else []
  end.
Definition process_spec_prop (ls : list str) : list (list str) := concat (map spec_prop_line ls).

(** ** Delta SCF, 2725-2758 *)
(** [x == n] for a stored integer *)
Definition is_int_val (v : pyval) (n : Z) : bool := match v with VInt z => Z.eqb z n | _ => false end.
(** [state["band"] == band and state["spin"] == spin] *)
Definition same_state (band spin : Z) (s : dict) : result bool :=
  b <- dgetE key_eqb s (kstr "band") ;;
  if is_int_val b band then p <- dgetE key_eqb s (kstr "spin") ;; Ok (is_int_val p spin) else Ok false.
(** 2747-2749, 2753-2755 *)
Definition set_states (band spin : Z) (k : key) (v : pyval) (states : list dict) : result (list dict) :=
  mapM (fun s => same <- same_state band spin s ;; Ok (if same then dset key_eqb s k v else s)) states.
(** [accum["states"][-1][k] = int(get_numbers(line)[0])] *)
Definition set_last (k : key) (line : str) (states : list dict) : result (list dict) :=
  s <- nthE (get_numbers line) 0 ;; n <- py_int s ;;
  match rev states with
  | [] => Err IndexError
  | s :: r => Ok (rev r ++ [dset key_eqb s k (VInt n)])
  end.
(** State: the file and the states *)
Definition delta_line (st : option pyval * list dict) (line : str) : result (option pyval * list dict) :=
  let (file, states) := st in
  if startswith ($"Taking band from") line then w <- last_item (split line) ;; Ok (Some (VStr w), states)
  else if contains ($"MODOS state") line then Ok (file, states ++ [[]])
  else if contains ($"nr.") line then rmap (pair file) (set_last (kstr "band") line states)
  else if contains ($"spin") line then rmap (pair file) (set_last (kstr "spin") line states)
  else if contains ($"Population of state") line then
    let ns := get_numbers line in
    b <- (w <- nthE ns 0 ;; py_int w) ;; s <- (w <- nthE ns 1 ;; py_int w) ;; p <- float_at line 2 ;;
    rmap (pair file) (set_states b s (kstr "pop") p states)
  else if contains ($"Writing file") line then
    let ns := get_numbers line in
    match skipn (length ns - 2) ns with
    | [b; s] => b <- py_int b ;; s <- py_int s ;;
                match split line with
                | [] => Ok st
                | ws => rmap (pair file) (set_states b s (kstr "file") (VStr (last ws [])) states)
                end
    | _ => Err ValueError
    end
  else Ok st.
Definition process_delta_scf (ls : list str) : result dict :=
  ' (file, states) <- foldM delta_line ls (None, []) ;;
  Ok ((kstr "states", VList (map (VDict false) states)) :: match file with Some f => [(kstr "file", f)] | None => [] end).

(** ** Estimates of memory, 2076-2087 *)
Definition MEMORY_RE : re :=
  RSeqs [ws_star; RChar "|"; RGrp "1" (RPlus c_letter_blank);
         labelled_floats_gen lf_sep (RLit " MB") [("memory", None); ("disk", None)]%string].
Definition process_memory_est (ls : list str) : result dict :=
  dict_rows (re_match MEMORY_RE)
    (fun x => m <- float_group x "memory" ;; k <- float_group x "disk" ;;
              Ok (KStr (normalise_key (group_s x "1")), VDict false [(kstr "memory", m); (kstr "disk", k)])) ls.
