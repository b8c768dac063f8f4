(** castep_outputs/parsers/castep_file_parser.py: the functions that read blocks
    made of further blocks or of mixed lines: symmetry, parameters, reports of
    pseudopotentials, pair potentials, dispersion, final configurations and
    polarisation.  A block is the list of its lines. *)
From Verif Require Import PyBase PyVal Regex CastepRes StrUtil TypeConv DictUtil Stream Header TextParsers TextFiles CellParam CastepBlocks CastepNum CastepRows Pspot.
Local Open Scope list_scope.
Local Open Scope nat_scope.

(** ** Shared shapes *)
(** [d.setdefault(k, ...)] followed by a change of the dictionary [d[k]]; [dflt]: is
    a new one a defaultdict?  [e] is raised when [d[k]] is not a dictionary. *)
Definition with_dict (dflt : bool) (e : exn) (d : dict) (k : key) (f : dict -> result dict) : result dict :=
  match dget key_eqb d k with
  | None => its <- f [] ;; Ok (dset key_eqb d k (VDict dflt its))
  | Some (VDict b its) => its <- f its ;; Ok (dset key_eqb d k (VDict b its))
  | Some _ => Err e
  end.
(** constants.py 15 and castep_res.py 501, with and without IGNORECASE *)
Definition MINIMISERS : list string := ["BFGS"; "LBFGS"; "FIRE"; "TPSD"; "DMD"; "DI"]%string.
Definition MINIMISERS_RE : re := RAlts (map RLit MINIMISERS).
Definition MINIMISERS_I_RE : re := RAlts (map RLitI MINIMISERS).
(** A row of "x", "*", ... *)
Definition row_of (c : ascii) : re := RPlus (RChar c).
Definition row_re (c : ascii) : re := table_re None (row_of c).

(** ** Symmetry and constraints, 2124-2206 *)
(** [normalise_key] then 2137-2161 *)
Definition has_text (t : string) (s : str) : bool := contains ($t) s.
(** 2145, 2155: [num, val = val.split(":", 1)], then the parts between commas, stripped *)
Definition group_parts (val : str) : result (str * list str) :=
  ' (num, rest) <- split_first ":" val ;; Ok (num, map strip (split_chr "," rest)).
Definition symmetry_item (key val : str) : result (str * pyval) :=
  if str_eqb key ($"maximum_deviation_from_symmetry") then
    w <- nthE (split val) 0 ;; f <- float_of w ;; Ok ($"max_deviation", f)
  else if has_text "number_of" key then
    v <- to_type TInt (VStr val) ;; Ok ($"num_" ++ lower (join ($"_") (skipn 2 (split_chr "_" key))), v)
  else if has_text "point_group" key then
    ' (num, ps) <- group_parts val ;;
    match ps with
    | [a; b; c] => n <- py_int num ;;
        Ok ($"point_group", VDict false [(kstr "id", VInt n); (kstr "schoenflies", VStr a);
                                         (kstr "hermann_mauguin", VStr b); (kstr "hermann_mauguin_full", VStr c)])
    | _ => Err ValueError
    end
  else if has_text "space_group" key then
    ' (num, ps) <- group_parts val ;;
    match ps with
    | [a; b] => n <- py_int num ;;
        Ok ($"space_group", VDict false [(kstr "id", VInt n); (kstr "international", VStr a); (kstr "hall", VStr b)])
    | _ => Err ValueError
    end
  else Ok (key, VStr val).
(** 2168 *)
Definition ROTATION_RE : re := RSeqs [ws_star; RPlus c_digit; ws_star; RLit "rotation"; ws_star].
(** 2182-2185: atoms related by a symmetry, up to an empty line *)
Fixpoint related_atoms (acc : list pyval) (ls : list str) : result (list pyval * list str) :=
  match ls with
  | [] => Err StopIteration
  | l :: ls' =>
      let line := strip l in
      if isempty line then Ok (acc, ls')
      else match split_chr ":" line with
           | [k; v] => ns <- mapM py_int (split v) ;; related_atoms (acc ++ map (fun n => VTuple [VStr k; VInt n]) ns) ls'
           | _ => Err ValueError
           end
  end.
(** 2172-2187 *)
Definition symop (ls : list str) : result (pyval * list str) :=
  rot <- mapM (numbers_as TFloat) (firstn 3 ls) ;;
  ' (_, ls) <- next_line (skipn 3 ls) ;;
  ' (l, ls) <- next_line ls ;; disp <- numbers_as TFloat l ;;
  ' (_, ls) <- next_line ls ;;
  ' (rel, ls) <- related_atoms [] ls ;;
  Ok (VDict false [(kstr "rotation", VList rot); (kstr "symmetry_related", VList rel); (kstr "displacement", disp)], ls).
(** 2197-2199 *)
Definition CONSTRAINT_RE : re :=
  RSeqs [ATOM_RE; ws_star; c_of "xyz"; ws_star; labelled_floats_gen lf_sep REps [("pos"%string, Some (3, 3))]].
(** [str(block)] *)
Definition block_text (ls : list str) : str := join nl ls.
Definition ionic_constraint (d : dict) (x : mres) : result dict :=
  k <- atreg_match x ;; v <- to_tuple TFloat (split (group_s x "pos")) ;; append_to d k v.
(** 2130-2205; the state: the symmetry and the constraints *)
Definition symmetry_step (st : dict * dict) (line : str) (rest : list str) : result ((dict * dict) * list str) :=
  let (sym, con) := st in
  if chr_in "=" line then
    match split_chr "=" line with
    | [k; v] =>
        ' (key, val) <- symmetry_item (normalise_key k) (normalise_string v) ;;
        Ok (if has_text "constraints" key then (sym, dset key_eqb con (KStr key) val)
            else (dset key_eqb sym (KStr key) val, con), rest)
    | _ => Err ValueError
    end
  else if re_match_test ROTATION_RE line then
    ' (op, rest) <- symop rest ;; sym <- append_to sym (kstr "symop") op ;; Ok ((sym, con), rest)
  else if contains ($"Cell is a supercell containing") line then
    n <- number_at TInt line 0 ;; Ok ((dset key_eqb sym (kstr "n_primitives") n, con), rest)
  else if contains ($"Centre of mass") line then
    Ok ((sym, dset key_eqb con (kstr "com_constrained") (VBool (negb (contains ($"NOT") line)))), rest)
  else if_block line rest (contains ($"constraints.....")) (re_test (RSeqs [ws_star; row_of "x"; RLit "...."; ws_star])) 1 false
    (fun b rest => d <- foldM ionic_constraint (finditer CONSTRAINT_RE (block_text b)) [] ;;
                   Ok ((sym, dset key_eqb con (kstr "ionic_constraints") (VDict true d)), rest))
    (fun rest => if contains ($"Cell constraints are:") line then
                   v <- numbers_as TInt line ;; Ok ((sym, dset key_eqb con (kstr "cell_constraints") v), rest)
                 else Ok ((sym, con), rest)).
Definition process_symmetry (ls : list str) : result (dict * dict) := over_file symmetry_step ([], []) ls.

(** ** Parameters, 1609-1659 *)
(** 1634, 1642 *)
Definition GROUP_HEAD_RE : re :=
  RSeqs [ws_star; stars; RChar " "; RGrp "1" (RPlus (RChr (fun c => is_alpha c || Ascii.eqb c " " || Ascii.eqb c "-"))); RChar " "; stars].
Definition OUTPUT_UNIT_RE : re :=
  RSeqs [ws_star; RLit "output "; RGrp "key" (RStar c_any); RLit " unit"; ws_star; RChar ":"; ws_star; RGrp "val" (RStar c_any)].
(** 1653-1657 *)
Definition param_value (val : str) : result pyval :=
  match split val with
  | w :: unit => if re_match_test NUMBER_RE w then
                   v <- auto_type w ;; Ok (match unit with [] => v | _ => VTuple (v :: map VStr unit) end)
                 else Ok (VStr val)
  | [] => Ok (VStr val)
  end.
Record pparams := { o_opt : dict; o_curr : dict; o_group : str }.
(** 1635-1636, 1656-1657 *)
Definition close_group (st : pparams) : dict :=
  match o_curr st with [] => o_opt st | _ => dset key_eqb (o_opt st) (KStr (o_group st)) (VDict false (o_curr st)) end.
Definition params_step (st : pparams) (line : str) (rest : list str) : result (pparams * list str) :=
  if_block line rest (contains ($"Developer Code")) (re_test (row_re "*")) 1 false
    (fun b rest => v <- parse_devel_code_block (l_remove_bounds 1 1 b) ;;
                   Ok ({| o_opt := dset key_eqb (o_opt st) (kstr "devel_code") v; o_curr := o_curr st; o_group := o_group st |}, rest))
    (fun rest =>
       match re_match GROUP_HEAD_RE line with
       | Some x => Ok ({| o_opt := close_group st; o_curr := [];
                          o_group := lower (normalise_string (str_remove ($"Parameters") (group_s x "1"))) |}, rest)
       | None =>
       match re_match OUTPUT_UNIT_RE line with
       | Some x =>
           opt <- set_in (o_opt st) (kstr "output_units") (KStr (normalise_string (group_s x "key"))) (VStr (normalise_string (group_s x "val"))) ;;
           Ok ({| o_opt := opt; o_curr := o_curr st; o_group := o_group st |}, rest)
       | None =>
       match split_chr ":" line with
       | (_ :: _ :: _) as parts =>
           ' (ks, v) <- last_of (map normalise_string parts) ;;
           val <- param_value v ;;
           Ok ({| o_opt := o_opt st; o_curr := dset key_eqb (o_curr st) (KStr (strip (join ($" ") ks))) val; o_group := o_group st |}, rest)
       | _ => Ok (st, rest)
       end end end).
Definition process_params (ls : list str) : result dict :=
  rmap close_group (over_file params_step {| o_opt := []; o_curr := []; o_group := [] |} ls).

(** ** Reports of pseudopotentials, 2227-2264 *)
(** castep_res.py 331-339 *)
Definition PSPOT_REFERENCE_STRUC_RE : re :=
  RSeqs [RBol; ws_star; RChar "|"; ws_star; RGrp "orb" (RSeq SHELL_RE (ROpt (RSeq (RChar "/") (RPlus c_digit)))); ws_star;
         labelled_floats ["occupation"; "energy"]%string; ws_star; RChar "|"; ws_star; REol].
(** castep_res.py 341-353 *)
Definition PSPOT_DEF_RE : re :=
  RSeqs [RBol; ws_star; RChar "|"; ws_star; RGrp "beta" (RAlt (RPlus c_digit) (RLit "loc")); ws_star;
         RGrp "l" (RPlus c_digit); ws_star; ROpt (RGrp "j" (RPlus c_digit)); ws_star;
         labelled_floats ["e"; "Rc"]%string; ws_star; RGrp "scheme" (RPlus c_word); ws_star;
         RGrp "norm" (RPlus c_digit); ws_star; RChar "|"; ws_star; REol].
(** 2244-2246 *)
Definition ELEMENT_RE : re :=
  RSeqs [RLit "Element: "; RGrp "element" SPECIES_RE; ws_plus; RLit "Ionic charge: "; RGrp "ionic_charge" FNUMBER_RE; ws_plus;
         RLit "Level of theory: "; RGrp "level_of_theory" (RPlus c_word)].
(** 2251 *)
Definition SOLVER_RE : re :=
  RSeqs [RLit "Atomic Solver:"; ws_star; RGrp "solver" (RPlus (RChr (fun c => is_word c || is_space c || Ascii.eqb c "-")))].
Definition pspot_line (d : dict) (line : str) : result dict :=
  match re_match PSPOT_REFERENCE_STRUC_RE line with
  | Some x =>
      v <- fix_data_types (groupdict PSPOT_REFERENCE_STRUC_RE x) (as_floats ["occupation"; "energy"]%string) ;;
      append_to d (kstr "reference_electronic_structure") (VDict false v)
  | None =>
  match re_match PSPOT_DEF_RE line with
  | Some x =>
      let b := group_s x "beta" in
      beta <- (if isdigit b then rmap VInt (py_int b) else Ok (VStr b)) ;;
      v <- fix_data_types (dset key_eqb (groupdict PSPOT_DEF_RE x) (kstr "beta") beta)
             [(kstr "l", TInt); (kstr "j", TInt); (kstr "e", TFloat); (kstr "Rc", TFloat); (kstr "norm", TInt)] ;;
      append_to d (kstr "pseudopotential_definition") (VDict false v)
  | None =>
  match re_search ELEMENT_RE line with
  | Some x => c <- float_group x "ionic_charge" ;; Ok (update d (dset key_eqb (groupdict ELEMENT_RE x) (kstr "ionic_charge") c))
  | None =>
  match re_search SOLVER_RE line with
  | Some x => Ok (dset key_eqb d (kstr "solver") (VStr (normalise_string (group_s x "solver"))))
  | None =>
  match re_search PSPOT_FULL_LAZY line with
  | Some x => v <- parse_pspot_string (m_text x) ;; Ok (dset key_eqb d (kstr "detail") v)
  | None =>
      if contains ($"Augmentation charge Rinner") line then
        rmap (dset key_eqb d (kstr "augmentation_charge_rinner")) (numbers_as TFloat line)
      else if contains ($"Partial core correction Rc") line then
        rmap (dset key_eqb d (kstr "partial_core_correction")) (numbers_as TFloat line)
      else Ok d
  end end end end end.
Definition process_pspot_report (ls : list str) : result dict :=
  foldM pspot_line ls [(kstr "reference_electronic_structure", VList []); (kstr "pseudopotential_definition", VList [])].

(** ** Dispersion, 2298-2319 *)
Definition DFTD_RE : re :=
  RSeqs [ws_star; RChar "x"; ws_star; RGrp "spec" ATOM_NAME_RE; ws_star; labelled_floats ["C6"; "R0"]%string].
Definition dftd_line (d : dict) (line : str) : result dict :=
  match split_chr ":" line with
  | [k; v] =>
      let v := normalise_string v in
      val <- (if contains ($"Parameter") k then number_at TFloat v 0 else Ok (VStr v)) ;;
      Ok (dset key_eqb d (KStr (normalise_key k)) val)
  | _ =>
      match re_match DFTD_RE line with
      | Some x =>
          a <- float_group x "C6" ;; b <- float_group x "R0" ;;
          set_in d (kstr "species") (KStr (group_s x "spec")) (VDict false [(kstr "c6", a); (kstr "r0", b)])
      | None => Ok d
      end
  end.
Definition process_dftd (ls : list str) : result dict := foldM dftd_line ls [(kstr "species", VDict false [])].

(** ** Pair potentials, 2448-2507 *)
(** castep_res.py 393-431 *)
Definition pair_tag : re := ROpt (RGrp "tag" (RPlus c_word)).
Definition star : re := RChar "*".
Definition PAIR_ONE_RE : re := RSeqs [RBol; pair_tag; ws_star; star; ws_star; RGrp "spec" ATOM_NAME_RE; ws_star; star; ws_star; REol].
Definition PAIR_SPEC_RE : re := RSeqs [RGrp "spec1" ATOM_NAME_RE; ws_star; RChar "-"; ws_star; RGrp "spec2" ATOM_NAME_RE].
Definition pair_unit : re := RPlus (RChr (fun c => is_word c || chr_in c ($"^/*"))).
Definition pair_value (params : re) : list re :=
  [pair_tag; ws_star; star; ws_star; RGrp "label" (RPlus c_word); ws_star; params; ws_star; pair_unit; ws_star; star; ws_star;
   RLit "<--"; ws_star; RGrp "type" (RPlus c_word)].
Definition PAIR_VAL_RE : re := RSeqs (pair_value (labelled_floats_gen lf_sep REps [("params"%string, Some (1, 4))])).
Definition TRIPLE_SPEC_RE : re :=
  RSeqs [RBol; pair_tag; ws_star; star; ws_star; RGrp "spec" (RTimes 3 (RSeq ATOM_NAME_RE ws_star)); ws_star; star; ws_star; REol].
Definition TRIPLE_VAL_RE : re := RSeqs (RBol :: pair_value (labelled_floats ["params"]%string)).
(** 2461-2463, 2487-2490, 2503-2506 *)
Definition pair_type (x : mres) : key :=
  let t := group_s x "type" in
  KStr (match cap (m_caps x) "tag" with Some (c :: g) => (c :: g) ++ $"_" ++ t | _ => t end).
(** 2464-2476: the values under the potential and the label *)
Definition add_pair (d : dict) (x : mres) (items : list (key * pyval)) : result dict :=
  with_dict false TypeError d (pair_type x) (fun e =>
    with_dict false AttributeError e (KStr (group_s x "label")) (fun v => Ok (update v items))).
(** The variable [labels] may be unbound *)
Definition bound {A} (o : option A) : result A := match o with Some a => Ok a | None => Err UnboundLocalError end.
(** 2455-2481 *)
Definition pair_line (st : dict * option (list key)) (line : str) : result (dict * option (list key)) :=
  let (d, labels) := st in
  if re_test PAIR_SPEC_RE line then
    Ok (d, Some (map (fun x => KTuple [KStr (group_s x "spec1"); KStr (group_s x "spec2")]) (finditer PAIR_SPEC_RE line)))
  else match re_match PAIR_VAL_RE line with
  | Some x =>
      ls <- bound labels ;; vs <- to_types TFloat (split (group_s x "params")) ;; items <- zip_strict ls vs ;;
      rmap (fun d => (d, labels)) (add_pair d x items)
  | None =>
  match re_match PAIR_ONE_RE line with
  | Some x => Ok (d, Some [KTuple [KStr (group_s x "spec")]])
  | None => Ok st
  end end.
(** 2484-2499 *)
Definition triple_line (st : dict * option (list key)) (line : str) : result (dict * option (list key)) :=
  let (d, labels) := st in
  match re_match TRIPLE_SPEC_RE line with
  | Some x => Ok (d, Some [KTuple (map KStr (split (group_s x "spec")))])
  | None =>
  match re_match TRIPLE_VAL_RE line with
  | Some x =>
      ls <- bound labels ;; vs <- to_types TFloat (split (group_s x "params")) ;;
      rmap (fun d => (d, labels)) (add_pair d x (combine ls vs))
  | None => Ok st
  end end.
Definition pair_params_step (st : dict * option (list key)) (line : str) (rest : list str)
  : result ((dict * option (list key)) * list str) :=
  if_block line rest (contains ($"Two Body")) (re_test (RSeqs [RBol; RStar c_word; ws_star; stars; ws_star; REol])) 1 false
    (fun b rest => st <- foldM pair_line b st ;; Ok (st, rest))
    (fun rest => if_block line rest (contains ($"Three Body")) (re_test (RSeqs [RBol; ws_star; stars; ws_star; REol])) 1 false
      (fun b rest => st <- foldM triple_line b st ;; Ok (st, rest))
      (fun rest =>
         match re_match TRIPLE_VAL_RE line with
         | Some x =>
             v <- to_type TFloat (group x "params") ;;
             d <- set_in (fst st) (pair_type x) (KStr (group_s x "label")) v ;; Ok ((d, snd st), rest)
         | None => Ok (st, rest)
         end)).
Definition process_pair_params (ls : list str) : result dict := rmap fst (over_file pair_params_step ([], None) ls).

(** ** Final configurations, 2536-2560 *)
(** 2551-2554, IGNORECASE *)
Definition FINAL_RE : re :=
  RSeqs [RBol; ws_star; MINIMISERS_I_RE; RChar ":"; RGrp "key" (RPlus (c_notof "=")); RChar "="; ws_star;
         RGrp "value" EXPFNUMBER_RE; RStar c_any].
Definition final_step (d : dict) (line : str) (rest : list str) : result (dict * list str) :=
  if_block line rest (re_test (RSeqs [ws_star; RLit "Unit Cell"; ws_star])) (re_test EMPTY) 3 false
    (fun b rest => c <- process_unit_cell b ;; Ok (dset key_eqb d (kstr "cell") (VDict false c), rest))
    (fun rest => if_block line rest (re_test (table_re (Some (RLit "Cell Contents")) ws_star)) (re_test (row_re "x")) 2 false
      (fun b rest => a <- process_atreg_block b ;; Ok (dset key_eqb d (kstr "atoms") (VDict false a), rest))
      (fun rest =>
         match re_match FINAL_RE line with
         | Some x => v <- to_type TFloat (group x "value") ;; Ok (dset key_eqb d (KStr (normalise_key (group_s x "key"))) v, rest)
         | None => Ok (d, rest)
         end)).
Definition process_final_config (ls : list str) : result dict := over_file final_step [] ls.

(** ** Polarisation, 2653-2722 *)
(** castep_res.py 634-639 *)
Definition POL_HEADER_RE : re :=
  RSeqs [RBol; ws_star; RGrp "key" (RPlus (RChr (fun c => is_word c || is_space c))); ws_star; RChar "(";
         RGrp "unit" (RPlus (c_notof ")")); RChar ")"].
Definition POL_TABLE_RE : re :=
  RSeqs [ws_star; RGrp "key" (RAlts [RLit "Ionic"; RLit "Elec"; RLit "Total"]); RPlus (c_notof ":"); RChar ":";
         labelled_floats ["a"; "b"; "c"]%string; ws_star; RChar "("; RGrp "unit" (RPlus (c_notof ")")); RChar ")"].
Definition equals_re : re := row_of "=".
(** 2670-2673 *)
Definition pol_ion (d : dict) (line : str) : result dict :=
  match split line with
  | ni :: nsp :: _ :: a :: b :: c :: pol =>
      i <- py_int nsp ;; j <- py_int ni ;; co <- to_tuple TFloat [a; b; c] ;; p <- to_tuple TFloat pol ;;
      Ok (dset key_eqb d (KTuple [KInt i; KInt j]) (VDict false [(kstr "coords", co); (kstr "polarisation", p)]))
  | _ => Err ValueError
  end.
(** 2657-2673 *)
Definition pol_ions (accum : dict) (line : str) (b : list str) : result dict :=
  match re_search POL_HEADER_RE line with
  | None => Err AssertionError
  | Some x =>
      let t := l_remove_bounds 3 1 b in
      z <- last_item t ;;
      total <- to_tuple TFloat (skipn 2 (get_numbers z)) ;;
      ions <- foldM pol_ion (removelast t) [] ;;
      Ok (dset key_eqb accum (KStr (normalise_key (group_s x "key")))
            (VDict false [(kstr "units", group x "unit"); (kstr "total", total); (kstr "ions", VDict false ions)]))
  end.
(** 2698-2700, 2719-2721 *)
Definition pol_row (d : dict) (line : str) : result dict :=
  w <- nthE (split line) 0 ;; v <- numbers_as TFloat line ;; Ok (dset key_eqb d (KStr w) v).
(** 2707-2714 *)
Definition pol_quantum (unit : pyval) (d : dict) (line : str) : result dict :=
  vs <- to_types TFloat (get_numbers line) ;;
  match vs with
  | [] => Err ValueError
  | _ :: vs =>
      match rev vs with
      | q :: t :: i :: e :: dir =>
          ks <- mapM (fun v => match v with VFloat f => Ok (KFloat f) | _ => Err TypeError end) (rev dir) ;;
          Ok (dset key_eqb d (KTuple ks) (VDict false [(kstr "elec", e); (kstr "ionic", i); (kstr "total", t);
                                                       (kstr "quantum", q); (kstr "units", unit)]))
      | _ => Err ValueError
      end
  end.
(** 2682-2721 *)
Definition pol_table (accum : dict) (line : str) (b : list str) : result dict :=
  match re_search POL_HEADER_RE line with
  | None => Err AssertionError
  | Some x =>
      let key := normalise_key (group_s x "key") in
      let unit := group x "unit" in
      let t := l_remove_bounds 2 1 b in
      if str_eqb key ($"polarisation") then
        if negb (contains ($"Quantum") line) then
          with_dict false TypeError accum (KStr key) (fun d =>
            if str_eqb (group_s x "unit") ($"phase") then with_dict false TypeError d (kstr "phase") (foldM pol_row t)
            else with_dict false TypeError (dset key_eqb d (kstr "units") unit) (kstr "val") (foldM pol_row t))
        else with_dict false TypeError accum (KStr key) (foldM (pol_quantum unit) (skipn 1 t))
      else if str_eqb key ($"volume_polarisation") then
        d <- foldM pol_row t [(kstr "units", unit)] ;; Ok (dset key_eqb accum (KStr key) (VDict false d))
      else Ok accum
  end.
Definition berry_step (accum : dict) (line : str) (rest : list str) : result (dict * list str) :=
  if contains ($"Ionic contribution to polarisation") line then
    if_block line rest (re_test POL_HEADER_RE) (re_test equals_re) 2 false
      (fun b rest => d <- pol_ions accum line b ;; Ok (d, rest))
      (fun rest => d <- pol_ions accum line [] ;; Ok (d, rest))
  else match re_search POL_TABLE_RE line with
  | Some x =>
      v <- to_type TFloat (VTuple [group x "a"; group x "b"; group x "c"]) ;;
      Ok (dset key_eqb accum (KStr (normalise_key (group_s x "key"))) (VDict false [(kstr "units", group x "unit"); (kstr "val", v)]), rest)
  | None =>
      if_block line rest (re_test POL_HEADER_RE) (re_test equals_re) 2 true
        (fun b rest => d <- pol_table accum line b ;; Ok (d, rest))
        (fun rest => Ok (accum, rest))
  end.
Definition process_berry_phase (ls : list str) : result dict := over_file berry_step [] ls.
