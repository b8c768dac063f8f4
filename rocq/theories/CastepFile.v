(** castep_outputs/parsers/castep_file_parser.py 109-1397: the .castep file itself. *)
From Verif Require Import PyBase PyVal Regex CastepRes StrUtil TypeConv DictUtil Stream Header TextParsers TextFiles Bands CellParam CastepBlocks CastepNum CastepRows Pspot CastepRest.
Local Open Scope list_scope.
Local Open Scope nat_scope.

(** ** Filters, 109-162 *)
Inductive filt :=
| F_BS | F_CELL | F_CHEM_SHIELDING | F_DELTA_SCF | F_DIPOLE | F_ELASTIC | F_ELF | F_FINAL_CONFIG | F_FORCE | F_GEOM_OPT
| F_MD | F_MD_SUMMARY | F_OPTICS | F_PARAMETERS | F_PHONON | F_POLARISATION | F_POPN_ANALYSIS | F_POSITION | F_PSPOT
| F_SCF | F_SOLVATION | F_SPECIES_PROPS | F_SPIN | F_STRESS | F_SYMMETRIES | F_SYS_INFO | F_TDDFT | F_TEST_EXTRA_DATA
| F_THERMODYNAMICS | F_TSS.
Definition filt_eqb (a b : filt) : bool :=
  match a, b with
  | F_BS, F_BS | F_CELL, F_CELL | F_CHEM_SHIELDING, F_CHEM_SHIELDING | F_DELTA_SCF, F_DELTA_SCF | F_DIPOLE, F_DIPOLE
  | F_ELASTIC, F_ELASTIC | F_ELF, F_ELF | F_FINAL_CONFIG, F_FINAL_CONFIG | F_FORCE, F_FORCE | F_GEOM_OPT, F_GEOM_OPT
  | F_MD, F_MD | F_MD_SUMMARY, F_MD_SUMMARY | F_OPTICS, F_OPTICS | F_PARAMETERS, F_PARAMETERS | F_PHONON, F_PHONON
  | F_POLARISATION, F_POLARISATION | F_POPN_ANALYSIS, F_POPN_ANALYSIS | F_POSITION, F_POSITION | F_PSPOT, F_PSPOT
  | F_SCF, F_SCF | F_SOLVATION, F_SOLVATION | F_SPECIES_PROPS, F_SPECIES_PROPS | F_SPIN, F_SPIN | F_STRESS, F_STRESS
  | F_SYMMETRIES, F_SYMMETRIES | F_SYS_INFO, F_SYS_INFO | F_TDDFT, F_TDDFT | F_TEST_EXTRA_DATA, F_TEST_EXTRA_DATA
  | F_THERMODYNAMICS, F_THERMODYNAMICS | F_TSS, F_TSS => true
  | _, _ => false
  end.
(** A combination of flags. *)
Definition filters := list filt.
(** [Filters.X in to_parse] *)
Definition has (F : filters) (x : filt) : bool := existsb (filt_eqb x) F.
(** 139-162 *)
Definition LOW : filters :=
  [F_BS; F_CELL; F_CHEM_SHIELDING; F_DIPOLE; F_ELASTIC; F_ELF; F_FINAL_CONFIG; F_FORCE; F_MD_SUMMARY; F_OPTICS;
   F_POPN_ANALYSIS; F_POSITION; F_POLARISATION; F_SOLVATION; F_SPECIES_PROPS; F_SPIN; F_STRESS; F_TDDFT;
   F_THERMODYNAMICS; F_TSS; F_DELTA_SCF].
Definition MEDIUM : filters := LOW ++ [F_PARAMETERS; F_GEOM_OPT; F_MD; F_PHONON].
Definition HIGH : filters := MEDIUM ++ [F_PSPOT; F_SYMMETRIES; F_SYS_INFO].
Definition FULL : filters := HIGH ++ [F_SCF].
Definition TESTING : filters :=
  [F_BS; F_CELL; F_CHEM_SHIELDING; F_DIPOLE; F_ELASTIC; F_ELF; F_FORCE; F_GEOM_OPT; F_MD; F_OPTICS; F_PHONON;
   F_POPN_ANALYSIS; F_POSITION; F_PSPOT; F_SOLVATION; F_SPECIES_PROPS; F_STRESS; F_TDDFT; F_TEST_EXTRA_DATA;
   F_THERMODYNAMICS; F_TSS].

(** ** The state of the loop: the finished runs, [curr_run], and the variables
    [idx] and [pos] of the branch for mixtures (unbound at first). *)
Record cstate := { s_runs : list dict; s_run : dict; s_mix : option (Z * pyval) }.
Definition in_run (st : cstate) (f : dict -> result dict) : result cstate :=
  r <- f (s_run st) ;; Ok {| s_runs := s_runs st; s_run := r; s_mix := s_mix st |}.
(** One branch of the [if]: its condition, and what it does with the line, the block
    (empty when the condition is about the line alone) and the rest of the file. *)
Definition action := str -> list str -> list str -> cstate -> result (cstate * list str).
Inductive rule :=
| RBlock (startp endp : str -> bool) (n : nat) (eof : bool) (act : action)
| RLine (test : str -> bool) (act : action).
Fixpoint try_rules (rs : list rule) (line : str) (rest : list str) (st : cstate) : result (cstate * list str) :=
  match rs with
  | [] => Ok (st, rest)
  | RBlock s e n eof act :: rs' =>
      if_block line rest s e n eof (fun b rest' => act line b rest' st) (fun rest' => try_rules rs' line rest' st)
  | RLine t act :: rs' => if t line then act line [] rest st else try_rules rs' line rest st
  end.

(** [if Filters.X not in to_parse: continue], for one of several filters *)
Definition wanted (F : filters) (fs : list filt) (act : action) : action :=
  fun line b rest st => if existsb (has F) fs then act line b rest st else Ok (st, rest).
(** ... for a branch that changes [curr_run] only *)
Definition to_run (f : str -> list str -> dict -> result dict) : action :=
  fun line b rest st => st <- in_run st (f line b) ;; Ok (st, rest).
(** [curr_run[k] = f(block)], [curr_run[k].append(f(block))] *)
Definition put (k : string) (f : list str -> result pyval) : action :=
  to_run (fun _ b r => v <- f b ;; Ok (dset key_eqb r (kstr k) v)).
(** [curr_run.setdefault(k, v)] *)
Definition ensure (r : dict) (k : key) (v : pyval) : dict := if dmem key_eqb r k then r else dset key_eqb r k v.
(** [d[k].append(f())] for a defaultdict(list): the list is looked up first *)
Definition append_late (d : dict) (k : key) (f : result pyval) : result dict :=
  match dget key_eqb d k with
  | None | Some (VList _) => v <- f ;; append_to d k v
  | Some _ => Err AttributeError
  end.
Definition add (k : string) (f : list str -> result pyval) : action :=
  to_run (fun _ b r => append_late r (kstr k) (f b)).
(** [val = f(block)]; [curr_run[k].append(val)] *)
Definition add_val (k : string) (f : list str -> result pyval) : action :=
  to_run (fun _ b r => v <- f b ;; append_to r (kstr k) v).
Definition put_line (k : string) (f : str -> result pyval) : action :=
  to_run (fun l _ r => v <- f l ;; Ok (dset key_eqb r (kstr k) v)).
Definition as_dict (f : list str -> result dict) : list str -> result pyval := fun b => rmap (VDict false) (f b).
Definition as_listval (f : list str -> result (list pyval)) : list str -> result pyval := fun b => rmap VList (f b).
(** [re.search] of a pattern without alternatives of text: containing it *)
Definition has_str (s : string) : str -> bool := contains ($s).
Definition searches (r : re) : str -> bool := re_test r.
(** [gen_table_re(content, border)] and [gen_table_re("", "c+")] *)
Definition table (content border : re) : str -> bool := re_test (table_re (Some content) border).
Definition titled (s : string) : str -> bool := table (RLit s) ws_star.
Definition rule_of (c : ascii) : str -> bool := re_test (row_re c).
Definition empty : str -> bool := re_test EMPTY.
Definition pluses : re := RPlus (c_of "+-").

(** ** The branches, 202-1391, in their order *)
(** 205-218: a new run *)
Definition compiled_for (F : filters) : action := fun line b rest st =>
  let runs := match s_run st with [] => s_runs st | r => s_runs st ++ [r] end in
  if has F F_SYS_INFO then
    d <- process_buildinfo b ;;
    Ok ({| s_runs := runs; s_run := [(kstr "build_info", VDict false d)]; s_mix := s_mix st |}, rest)
  else Ok ({| s_runs := runs; s_run := []; s_mix := s_mix st |}, rest).
(** 220-225 *)
Definition time_started (line : str) : result pyval :=
  match split_first ":" line with Ok (_, v) => Ok (VStr (normalise_string v)) | Err _ => Err IndexError end.
(** 228-240: external files may follow; the line that starts them is left in the file
    (there is nothing to leave when the file has ended). *)
Definition finalisation (F : filters) : action := fun line b rest st =>
  let ext := contains ($"<") (last b []) in
  let b' := if ext then removelast b else b in
  let rest' := if ext then match b with [] | [_] => rest | _ => last b [] :: rest end else rest in
  if has F F_SYS_INFO then
    d <- process_finalisation b' ;;
    st <- in_run st (fun r => Ok (update r d)) ;; Ok (st, rest')
  else Ok (st, rest').
(** 262-272 *)
Definition warning_block (b : list str) : result pyval := Ok (VStr (join ($" ") (map strip (l_remove_bounds 1 1 b)))).
(** 274 *)
Definition WARNING_RE : re :=
  RSeqs [ROpt (RSeqs [ws_star; RPlus (c_notof ":"); RChar ":"]); RGrp "1" ws_star; RLitI "warning"].
(** 282-288: the lines of the warning that are indented further than its first line.
    The first line that is not is put back, unless it is the very next line. *)
Fixpoint warning_lines (indent warn : str) (first : bool) (ls : list str) : str * list str :=
  match ls with
  | [] => (warn, [])
  | l :: ls' =>
      if isempty (strip l) ||
         negb (match strip_prefix indent l with Some (c :: _) => is_space c | _ => false end)
      then (warn, if first then ls' else ls)
      else warning_lines indent (warn ++ $" " ++ strip l) false ls'
  end.
Definition warning_line : action := fun line _ rest st =>
  match re_match WARNING_RE line with
  | None => Ok (st, rest)
  | Some x =>
      let (w, rest') := warning_lines (group_s x "1") (strip line) true rest in
      st <- in_run st (fun r => append_to r (kstr "warning") (VStr w)) ;; Ok (st, rest')
  end.
(** 305-313 *)
Definition title_line : action := fun _ _ rest st =>
  ' (l, rest) <- next_line rest ;;
  st <- in_run st (fun r => Ok (dset key_eqb r (kstr "title") (VStr (strip l)))) ;; Ok (st, rest).
(** 337-392 and the like: [curr_run["species_properties"][spec]...] *)
Definition species (r : dict) (spec : str) (f : dict -> result dict) : result dict :=
  with_dict true TypeError r (kstr "species_properties") (fun d => with_dict false TypeError d (KStr spec) f).
Definition ps_energy (line : str) (b : list str) (r : dict) : result dict :=
  ' (k, d) <- process_ps_energy b ;; species r k (fun e => Ok (update e d)).
(** [curr_run.setdefault("species_properties", ...)] when no species follows *)
Definition species_props (f : dict -> list str -> result dict) (b : list str) (r : dict) : result dict :=
  foldM f (process_spec_prop b) (ensure r (kstr "species_properties") (VDict true [])).
Definition mass (r : dict) (ws : list str) : result dict :=
  match ws with
  | [k; v] => f <- float_of v ;; species r k (fun e => Ok (dset key_eqb e (kstr "mass") f))
  | _ => Err ValueError
  end.
Definition quadrupole (r : dict) (ws : list str) : result dict :=
  match ws with
  | k :: v :: _ => f <- float_of v ;; species r k (fun e => Ok (dset key_eqb e (kstr "electric_quadrupole_moment") f))
  | _ => Err ValueError
  end.
Definition pseudopot (F : filters) (r : dict) (ws : list str) : result dict :=
  match ws with
  | [k; v] =>
      x <- (if has F F_PSPOT && chr_in "|" v then parse_pspot_string v else Ok (VStr v)) ;;
      species r k (fun e => Ok (dset key_eqb e (kstr "pseudopot") x))
  | _ => Err ValueError
  end.
(** 405-416 *)
Definition EIGENVALUE_RE : re :=
  RSeqs [ws_star; RGrp "type" (RAlt (RLit "AE") (RLit "PS")); RLit " eigenvalue nl "; RGrp "nl" (RPlus c_digit); RLit " =";
         labelled_floats ["eigenvalue"]%string].
Definition pspot_debug (line : str) (_ : list str) (r : dict) : result dict :=
  match re_match EIGENVALUE_RE line with
  | None => Ok r
  | Some x =>
      v <- fix_data_types (groupdict EIGENVALUE_RE x) [(kstr "nl", TInt); (kstr "eigenvalue", TFloat)] ;;
      append_to r (kstr "pspot_debug") (VDict false v)
  end.
(** 479: [ with +(\d) +cut-off energies.] *)
Definition CUTOFF_RE : re :=
  RSeqs [RLit " with"; RPlus (RChar " "); RGrp "1" c_digit; RPlus (RChar " "); RLit "cut-off energies"; c_any].
(** "^-+ <-- SCF" *)
Definition scf_end : str -> bool := re_test (RSeqs [RBol; row_of "-"; RLit " <-- SCF"]).
(** [get_only] (utility.py 605-628) *)
Definition get_only {A} (l : list A) : result A := match l with [x] => Ok x | _ => Err ValueError end.
(** [d.pop(k)] *)
Definition pop (d : dict) (k : key) : result (pyval * dict) :=
  match dget key_eqb d k with Some v => Ok (v, ddel key_eqb d k) | None => Err KeyError end.
(** [curr_run["energies"][k].append(v)] *)
Definition energy (k : string) (f : result pyval) (r : dict) : result dict :=
  with_dict true TypeError r (kstr "energies") (fun e => append_late e (kstr k) f).
Definition last_number (line : str) : result pyval := s <- last_item (get_numbers line) ;; to_type TFloat (VStr s).
Definition energy_line (k : string) : action :=
  to_run (fun l _ r => energy k (last_number l) r).
(** 544 *)
Definition FREE_ENERGY_RE : re := RSeqs [RLit "Final free energy (E-TS)"; RPlus (RChar " "); RChar "="; RPlus (RChar " "); EXPFNUMBER_RE].
(** 553-562 *)
Definition solvation (line : str) (_ : list str) (r : dict) : result dict :=
  energy "solvation" (vs <- to_types TFloat (get_numbers line) ;; match vs with [v] => Ok v | _ => Err TypeError end) r.
(** castep_res.py 303-307 *)
Definition INTEGRATED_SPIN_DENSITY_RE : re :=
  RSeqs [ROpt (RGrp "vec" (RLit "2*")); RLit "Integrated "; ROpt (RChar "|"); RLit "Spin Density"; ROpt (RChar "|");
         RPlus (c_notof "="); RChar "="; ws_star;
         RGrp "val" (RSeqs [EXPFNUMBER_RE; ws_star; RCond "vec" (RTimes 2 (RSeq EXPFNUMBER_RE ws_star)) REps])].
Definition spin_density (line : str) (_ : list str) (r : dict) : result dict :=
  match re_match INTEGRATED_SPIN_DENSITY_RE line with
  | None => Ok r
  | Some x =>
      let s := group_s x "val" in
      v <- to_type TFloat (match split s with [_] => VStr s | ws => VList (map VStr ws) end) ;;
      append_to r (if chr_in "|" line then kstr "modspin" else kstr "spin") v
  end.
(** 600 *)
Definition symmetry (_ : str) (b : list str) (r : dict) : result dict :=
  ' (s, c) <- process_symmetry b ;;
  Ok (dset key_eqb (dset key_eqb r (kstr "symmetries") (VDict false s)) (kstr "constraints") (VDict false c)).
(** 603-614 *)
Definition tss (line : str) (b : list str) (r : dict) : result dict :=
  d <- process_atreg_block b ;;
  Ok (dset key_eqb r (if contains ($"Reactant") line then kstr "reactant" else kstr "product") (VDict false d)).
(** castep_res.py 278 *)
Definition LABELLED_POS_RE : re := RSeqs [ATOMIC_DATA_3VEC; RTimes 5 c_space; RGrp "label" (RRep true 0 (Some 8) c_nspace)].
(** 617-639: the labels and the positions *)
Definition labelled_line (st : dict * dict) (line : str) : result (dict * dict) :=
  let (labels, ps) := st in
  match re_search LABELLED_POS_RE line with
  | None => Ok st
  | Some x =>
      i <- py_int (group_s x "index") ;;
      v <- floats_of x FST_D ;;
      let sp := group_s x "spec" in
      let lab := strip (group_s x "label") in
      let k := Header.atom_key sp i in
      if isempty lab then Ok (dset key_eqb labels k (VStr ($"NULL")), dset key_eqb ps k v)
      else Ok (dset key_eqb labels k (VStr lab), dset key_eqb ps (Header.atom_key (sp ++ $" [" ++ lab ++ $"]") i) v)
  end.
Definition labelled (_ : str) (b : list str) (r : dict) : result dict :=
  let r1 := ensure r (kstr "labels") (VDict true []) in
  match dget key_eqb r1 (kstr "labels") with
  | Some (VDict f ls) =>
      ' (ls, ps) <- foldM labelled_line b (ls, []) ;;
      Ok (dset key_eqb (dset key_eqb r1 (kstr "labels") (VDict f ls)) (kstr "initial_positions") (VDict false ps))
  | _ => Err TypeError
  end.
(** castep_res.py 284-292 *)
Definition MIXTURE_LINE_1_RE : re :=
  RSeqs [RGrp "index" (RPlus c_digit); ws_plus; labelled_floats FST_D; ws_plus; RGrp "spec" ATOM_NAME_RE; ws_plus;
         labelled_floats ["weight"]%string].
Definition MIXTURE_LINE_2_RE : re := RSeqs [RGrp "spec" ATOM_NAME_RE; ws_plus; labelled_floats ["weight"]%string].
(** 641-664 *)
Definition weighted (pos w : pyval) : pyval := VDict false [(kstr "pos", pos); (kstr "weight", w)].
Definition mixture_line (st : option (Z * pyval) * dict) (line : str) : result (option (Z * pyval) * dict) :=
  let (mix, ps) := st in
  match re_search MIXTURE_LINE_1_RE line with
  | Some x =>
      i <- py_int (group_s x "index") ;; pos <- floats_of x FST_D ;; w <- float_group x "weight" ;;
      Ok (Some (i, pos), dset key_eqb ps (Header.atom_key (group_s x "spec") i) (weighted pos w))
  | None =>
  match re_search MIXTURE_LINE_2_RE line with
  | Some x =>
      w <- float_group x "weight" ;; ' (i, pos) <- bound mix ;;
      Ok (mix, dset key_eqb ps (Header.atom_key (strip (group_s x "spec")) i) (weighted pos w))
  | None => Ok st
  end end.
Definition mixture : action := fun _ b rest st =>
  ' (mix, ps) <- foldM mixture_line b (s_mix st, []) ;;
  Ok ({| s_runs := s_runs st; s_run := dset key_eqb (s_run st) (kstr "initial_positions") (VDict false ps); s_mix := mix |}, rest).
(** 677-681: [next] running out inside a generator gives RuntimeError *)
Fixpoint take_rows (n : nat) (ns : list str) : result (list pyval) :=
  match n with
  | O => Ok []
  | S n' => match ns with
            | a :: b :: c :: ns' => v <- to_tuple TFloat [a; b; c] ;; vs <- take_rows n' ns' ;; Ok (v :: vs)
            | _ => Err RuntimeError
            end
  end.
Definition supercell (line : str) : result pyval := rmap VTuple (take_rows 3 (get_numbers line)).
(** 707-718 *)
Definition target_stress (b : list str) : result pyval :=
  rmap (fun l => VList (concat l)) (mapM (fun l => to_types TFloat (get_numbers l)) b).
(** 721-724 *)
Definition DEDLNE_RE : re := RSeqs [RLit "finite basis dEtot/dlog(Ecut) ="; RPlus (RChar " "); RGrp "1" FNUMBER_RE].
Definition dedlne (line : str) : result pyval :=
  match re_search DEDLNE_RE line with Some x => to_type TFloat (group x "1") | None => Err AttributeError end.
(** 747-754 *)
Definition applied_field : action := fun _ _ rest st =>
  ' (l, rest) <- next_line rest ;;
  v <- numbers_as TFloat l ;;
  st <- in_run st (fun r => Ok (dset key_eqb r (kstr "applied_field") v)) ;; Ok (st, rest).
(** 757-798: [curr_run["forces"][k].append(v)] *)
Definition under (name : string) (k : key) (v : pyval) (r : dict) : result dict :=
  with_dict true TypeError r (kstr name) (fun d => append_to d k v).
Definition forces (_ : str) (b : list str) (r : dict) : result dict :=
  ' (k, d) <- process_forces b ;; under "forces" (KStr k) (VDict false d) r.
Definition com_force (_ : str) (b : list str) (r : dict) : result dict :=
  ns <- mapM (fun l => nthE (get_numbers l) 0) (filter (startswith ($" dF")) b) ;;
  v <- to_tuple TFloat ns ;; under "forces" (kstr "com_force_removal") v r.
Definition stresses (_ : str) (b : list str) (r : dict) : result dict :=
  ' (k, v) <- process_stresses b ;; under "stresses" (KStr k) v r.
(** 864-888: [if val[1]] *)
Definition tuple_true (v : pyval) : bool := match v with VTuple (_ :: _) => true | _ => false end.
Definition two_tensors (k1 k2 : string) (_ : str) (b : list str) (r : dict) : result dict :=
  ' (a, c) <- process_3_6_matrix true b ;;
  let r := dset key_eqb r (kstr k1) a in
  Ok (if tuple_true c then dset key_eqb r (kstr k2) c else r).
Definition first_tensor (b : list str) : result pyval := rmap fst (process_3_6_matrix false b).
(** 1023-1029: aliases and the memory estimate of a step of molecular dynamics *)
Definition POSITION_ALIASES : list (key * key) :=
  [(kstr "initial_positions", kstr "positions"); (kstr "initial_cell", kstr "cell")].
Definition alias_positions (d : dict) : result dict := foldM (alias_inplace key_eqb true) POSITION_ALIASES d.
(** [curr_run[k]] of a defaultdict(list) where the length is taken *)
Definition touch_list (r : dict) (k : key) : result dict :=
  match dget key_eqb r k with
  | None => Ok (dset key_eqb r k (VList []))
  | Some (VFloat _) => Err TypeError
  | Some _ => Ok r
  end.
Section Nested.
  (** [parse_castep_file] on a block *)
  Context (rec : filters -> list str -> result (list dict)).
  (** 479-497 *)
  Definition basis_set : action := fun line _ rest st =>
    match re_search CUTOFF_RE line with
    | None => Ok (st, rest)
    | Some x =>
        n <- py_int (group_s x "1") ;;
        ' (_, rest) <- next_line rest ;;
        match l_from_re [] rest (fun _ => true) scf_end (3 * Z.to_nat n) false with
        | (Err e, _) => Err e
        | (Ok b, rest) =>
            rs <- rec FULL b ;; data <- get_only rs ;;
            ' (scf, data) <- pop data (kstr "scf") ;;
            ' (en, data) <- pop data (kstr "energies") ;;
            match scf with
            | VList l =>
                z <- last_item l ;;
                st <- in_run st (fun r =>
                  Ok (update (dset key_eqb (dset key_eqb (dset key_eqb r (kstr "bsc_energies") en) (kstr "scf") z)
                                (kstr "bsc_scf") (VList (removelast l))) data)) ;;
                Ok (st, rest)
            | _ => Err TypeError
            end
        end
    end.
  (** 1000-1031 *)
  Definition md_block (_ : str) (b : list str) (r : dict) : result dict :=
    r <- touch_list r (kstr "md") ;;
    rs <- rec HIGH (tl b) ;; data <- get_only rs ;;
    data <- alias_positions data ;;
    let '(r, data) := match dget key_eqb data (kstr "memory_estimate") with
                      | Some v => (dset key_eqb r (kstr "memory_estimate") v, ddel key_eqb data (kstr "memory_estimate"))
                      | None => (r, data)
                      end in
    append_to r (kstr "md") (VDict true data).
  (** 1056-1088.  ["iterations"] is only ever given a list. *)
  Definition GEOM_START : list key :=
    map kstr ["enthalpy"; "initial_cell"; "initial_positions"; "scf"; "forces"; "stresses"; "minimisation"]%string.
  Definition GEOM_MOVED : list key := map kstr ["enthalpy"; "scf"; "forces"; "stresses"; "minimisation"]%string.
  Definition one_of (ks : list key) (k : key) : bool := existsb (key_eqb k) ks.
  Definition geom_start (r : dict) : result dict :=
    r1 <- with_dict true TypeError r (kstr "geom_opt") (fun g => touch_list g (kstr "iterations")) ;;
    match dget key_eqb r1 (kstr "geom_opt") with
    | Some (VDict f g) =>
        match dget key_eqb g (kstr "iterations") with
        | Some (VList []) =>
            data <- alias_positions (filter (fun kv => one_of GEOM_START (fst kv)) r1) ;;
            let r2 := filter (fun kv => negb (one_of GEOM_MOVED (fst kv))) r1 in
            Ok (dset key_eqb r2 (kstr "geom_opt") (VDict f (dset key_eqb g (kstr "iterations") (VList [VDict false data]))))
        | Some (VList _) => Ok r1
        | _ => Err TypeError
        end
    | _ => Err TypeError
    end.
  Definition geom_iteration (_ : str) (b : list str) (r : dict) : result dict :=
    r <- geom_start r ;;
    rs <- rec HIGH (tl b) ;; data <- get_only rs ;;
    data <- alias_positions data ;;
    with_dict true TypeError r (kstr "geom_opt") (fun g => append_to g (kstr "iterations") (VDict true data)).
End Nested.
(** 1043-1054: without geometry iterations [curr_run["geom_opt"]] is a new list *)
Definition final_config (_ : str) (b : list str) (r : dict) : result dict :=
  match dget key_eqb r (kstr "geom_opt") with
  | Some (VDict f g) =>
      c <- process_final_config b ;; Ok (dset key_eqb r (kstr "geom_opt") (VDict f (dset key_eqb g (kstr "final_configuration") (VDict false c))))
  | _ => _ <- process_final_config b ;; Err TypeError
  end.
(** 1057-1058 *)
Definition minim_iteration : re :=
  RSeqs [RLit "Starting "; MINIMISERS_RE; RLit " iteration"; ws_star; RPlus c_digit; ws_star; RLit "..."].
Definition minim_end : re :=
  RAlt (RSeqs [RBol; row_of "="; REol]) (RSeqs [RBol; ws_star; RLit "Finished"; ws_plus; MINIMISERS_RE; ws_star; REol]).
(** 1090-1102 *)
Definition ENTHALPY_RE : re :=
  RSeqs [MINIMISERS_RE; RLit ": finished iteration"; ws_star; RPlus c_digit; ws_star; RLit "with enthalpy"].
Definition enthalpy (line : str) (_ : list str) (r : dict) : result dict :=
  append_late (ensure r (kstr "geom_opt") (VDict true [])) (kstr "enthalpy") (last_number line).
(** 1104-1108 *)
Definition TRIAL_RE : re := RSeqs [RLit "trial guess (lambda="; ws_star; RGrp "1" EXPFNUMBER_RE; RChar ")"].
Definition trial (line : str) (_ : list str) (r : dict) : result dict :=
  match re_search TRIAL_RE line with
  | None => Ok r
  | Some x => v <- float_group x "1" ;; with_dict true TypeError r (kstr "geom_opt") (fun g => append_to g (kstr "trial") v)
  end.
(** 1110-1121, IGNORECASE *)
Definition FINAL_LINE_RE : re :=
  RSeqs [RBol; ws_star; MINIMISERS_I_RE; RChar ":"; ws_star; RGrp "key" (RSeq (RLitI "Final ") (RPlus (c_notof "="))); RChar "="; ws_star;
         RGrp "value" EXPFNUMBER_RE; RStar c_any].
Definition final_line (line : str) (_ : list str) (r : dict) : result dict :=
  match re_match FINAL_LINE_RE line with
  | None => Ok r
  | Some x =>
      v <- to_type TFloat (group x "value") ;;
      let k := KStr (join ($"_") (split (lower (normalise_string (group_s x "key"))))) in
      match dget key_eqb r (kstr "geom_opt") with
      | Some (VDict f g) =>
          match dget key_eqb g (kstr "final_configuration") with
          | Some (VDict f' c) =>
              Ok (dset key_eqb r (kstr "geom_opt")
                    (VDict f (dset key_eqb g (kstr "final_configuration") (VDict f' (dset key_eqb c k v)))))
          | _ => Err TypeError
          end
      | _ => Err TypeError
      end
  end.
(** 1123-1135 *)
Definition minim_tag : re := RSeqs [RLit "<--"; ROpt (RLit " min"); RChar " "; MINIMISERS_RE; REol].
Definition minim_table_end : re := RSeqs [RChar "+"; RRep true 4 (Some 5) (RSeq (row_of "-") (RChar "+"))].
(** [curr_run.setdefault(k, {})]; [curr_run[k].update(...)] *)
Definition extend (k : string) (f : list str -> result dict) (_ : str) (b : list str) (r : dict) : result dict :=
  match dget key_eqb r (kstr k) with
  | Some (VDict fl d) => e <- f b ;; Ok (dset key_eqb r (kstr k) (VDict fl (update d e)))
  | Some _ => Err AttributeError
  | None => e <- f b ;; Ok (dset key_eqb r (kstr k) (VDict false (update [] e)))
  end.
(** 1273-1330: [curr_run["elastic"][k] = v] *)
Definition elastic_item (k : key) (b : list str) (r : dict) : result dict :=
  v <- first_tensor b ;; with_dict false TypeError r (kstr "elastic") (fun d => Ok (dset key_eqb d k v)).
(** 1301-1317 *)
Definition CONTRIBUTION_RE : re := RGrp "type" (RSeq (RStar c_any) (RLit " Contribution")).
Definition contribution (F : filters) : action := fun line b rest st =>
  match re_match CONTRIBUTION_RE line with
  | None => Err ValueError
  | Some x => if has F F_ELASTIC then st <- in_run st (elastic_item (KStr (group_s x "type")) (tl b)) ;; Ok (st, rest)
              else Ok (st, rest)
  end.
(** 95-106.  [iter] is the order in which sets are taken (needed for .xrd_sf). *)
Definition PARSERS (iter : list str -> list str) : list (string * (list str -> result pyval)) :=
  [("bands", parse_bands_file); ("hug", parse_hug_file); ("phonon_dos", parse_phonon_dos_file);
   ("efield", parse_efield_file); ("xrd_sf", parse_xrd_sf_file iter); ("elf_fmt", parse_elf_fmt_file);
   ("chdiff_fmt", parse_chdiff_fmt_file); ("pot_fmt", parse_pot_fmt_file); ("den_fmt", parse_den_fmt_file);
   ("elastic", parse_elastic_file)]%string.
Definition extra_re (word : string) : re :=
  RSeqs [RLit word; RAlts (map (fun p => RLit (fst p)) (PARSERS (fun l => l))); RChar ">"].
(** 1372-1391 *)
Definition BEGIN_RE : re := RSeq (RLit "BEGIN ") (RGrp "1" (RPlus c_word)).
Definition extra (iter : list str -> list str) (line : str) (b : list str) (r : dict) : result dict :=
  match re_search BEGIN_RE line with
  | None => Err AttributeError
  | Some x =>
      let k := group_s x "1" in
      let r := ensure r (kstr "external_files") (VDict false []) in
      match find (fun p => str_eqb ($(fst p)) k) (PARSERS iter) with
      | None => Err KeyError
      | Some (_, f) =>
          v <- f (l_remove_bounds 1 1 b) ;;
          with_dict false TypeError r (kstr "external_files") (fun d => Ok (dset key_eqb d (KStr k) v))
      end
  end.

Section Rules.
  Context (iter : list str -> list str) (rec : filters -> list str -> result (list dict)) (F : filters).
  Definition only (x : filt) (act : action) : action := wanted F [x] act.

  (** 205-440 *)
  Definition rules_1 : list rule :=
    [ RBlock (re_test (RSeqs [RBol; ws_star; RLit "Compiled for"])) empty 1 false (compiled_for F);
      RLine (has_str "Run started") (only F_SYS_INFO (put_line "time_started" time_started));
      RBlock (has_str "Initialisation time") (re_test (RAlt EMPTY (RChar "<"))) 1 true (finalisation F);
      RLine (startswith ($"Overall parallel efficiency rating"))
        (only F_SYS_INFO (put_line "parallel_efficiency" (fun l => float_at l 0)));
      RLine (startswith ($"Reading continuation data"))
        (only F_SYS_INFO (put_line "continuation" (fun l => rmap VStr (last_item (split l)))));
      RBlock (rule_of "?") (rule_of "?") 1 false (only F_SYS_INFO (add "warning" warning_block));
      RLine (re_match_test WARNING_RE) (only F_SYS_INFO warning_line);
      RBlock (table (RSeq (RLit "MEMORY AND SCRATCH") (RPlus (RChr (fun c => is_word c || is_space c)))) pluses)
        (re_test (table_re None pluses)) 1 false (only F_SYS_INFO (add "memory_estimate" (as_dict process_memory_est)));
      RLine (re_match_test (table_re (Some (RLit "Title")) stars)) (only F_PARAMETERS title_line);
      RBlock (table (RSeq (RPlus (c_notof "*")) (RLit " Parameters")) stars) (rule_of "*") 1 false
        (only F_PARAMETERS (put "options" (as_dict process_params)));
      RLine (has_str "Quantisation axis") (only F_SPECIES_PROPS (put_line "quantisation_axis" (numbers_as TFloat)));
      RBlock (searches PS_SHELL_RE) empty 2 false (only F_SPECIES_PROPS (to_run ps_energy));
      RBlock (has_str "Mass of species in AMU") empty 1 false (only F_SPECIES_PROPS (to_run (fun _ => species_props mass)));
      RBlock (has_str "Electric Quadrupole Moment") (re_test (RAlt EMPTY (RSeqs [RBol; ws_star; row_of "x"; REol]))) 1 false
        (only F_SPECIES_PROPS (to_run (fun _ => species_props quadrupole)));
      RBlock (has_str "Files used for pseudopotentials") empty 1 false
        (only F_SPECIES_PROPS (to_run (fun _ => species_props (pseudopot F))));
      RBlock (table (RSeq (RLit "Pseudopotential Report") (RPlus (c_notof "|"))) (RChar "|")) (rule_of "=") 1 false
        (only F_PSPOT (add "pspot_detail" (as_dict process_pspot_report)));
      RLine (re_match_test EIGENVALUE_RE) (only F_PSPOT (to_run pspot_debug));
      RBlock (re_test (gen_table_re (Some (RLit "PairParams")) stars (RStar c_word) REps true)) empty 1 false
        (only F_PARAMETERS (add "pair_params" (as_dict process_pair_params)));
      RBlock (has_str "DFT-D parameters") empty 3 false (only F_PARAMETERS (put "dftd" (as_dict process_dftd))) ].

  (** 443-577 *)
  Definition line_tag : re := RLit "<- line".
  Definition rules_2 : list rule :=
    [ RBlock (has_str "SCF loop") scf_end 2 false (only F_SCF (add "scf" (as_listval process_scf)));
      RBlock (re_test (gen_table_re (Some (RLit "WAVEFUNCTION LINE MINIMISATION")) pluses REps line_tag true))
        (re_test (gen_table_re None pluses REps line_tag true)) 2 false
        (only F_SCF (add "wvfn_line_min" (as_dict process_wvfn_line_min)));
      RBlock (re_test (gen_table_re (Some (RLit "Occupancy")) (RChar "|") REps (RLit "<- occ") false)) (has_str "Have a nice day.") 1 false
        (only F_SCF (add "occupancies" (as_listval process_occupancies)));
      RLine (re_test CUTOFF_RE) (only F_SCF (basis_set rec));
      RLine (startswith ($"Final energy")) (energy_line "final_energy");
      RLine (has_str "Total energy corrected for finite basis set") (energy_line "final_basis_set_corrected");
      RLine (has_str "0K energy (E-0.5TS)") (energy_line "est_0K");
      RLine (startswith ($"(SEDC) Total Energy")) (energy_line "sedc_correction");
      RLine (startswith ($"Dispersion corrected final energy")) (energy_line "disperson_corrected");
      RLine (re_match_test FREE_ENERGY_RE) (energy_line "free_energy");
      RLine (startswith ($" Free energy of solvation")) (only F_SOLVATION (to_run solvation));
      RLine (re_match_test INTEGRATED_SPIN_DENSITY_RE) (wanted F [F_SCF; F_SPIN] (to_run spin_density)) ].

  (** 580-798 *)
  Definition rules_3 : list rule :=
    [ RBlock (titled "Unit Cell") empty 3 false (only F_CELL (put "initial_cell" (as_dict process_unit_cell)));
      RBlock (titled "Symmetry and Constraints") (has_str "Cell constraints are") 1 false (only F_SYMMETRIES (to_run symmetry));
      RBlock (table (RAlt (RLit "Reactant") (RLit "Product")) (RChar "x")) (rule_of "x") 2 false
        (only F_TSS (only F_POSITION (to_run tss)));
      RBlock (re_test (RSeqs [RLit "Fractional coordinates of atoms"; ws_plus; RLit "User-defined"])) (rule_of "x") 1 false
        (only F_POSITION (to_run labelled));
      RBlock (re_test (RSeqs [RLit "Mixture"; ws_plus; RLit "Fractional coordinates of atoms"])) (rule_of "x") 1 false
        (only F_POSITION mixture);
      RBlock (has_str "Fractional coordinates of atoms") (rule_of "x") 1 false
        (only F_POSITION (put "initial_positions" (as_dict process_atreg_block)));
      RLine (has_str "Supercell generated") (put_line "supercell" supercell);
      RBlock (has_str "User Supplied Ionic Velocities") (rule_of "x") 1 false
        (only F_POSITION (put "initial_velocities" (as_dict process_atreg_block)));
      RBlock (has_str "Initial magnetic") (rule_of "x") 1 false (only F_PARAMETERS (put "initial_spins" (as_dict process_initial_spins)));
      RBlock (has_str "External pressure/stress") (fun _ => true) 3 false (only F_PARAMETERS (add_val "target_stress" target_stress));
      RLine (re_test DEDLNE_RE) (put_line "dedlne" dedlne);
      RBlock (has_str "k-Points For BZ Sampling") empty 1 false (only F_PARAMETERS (put "k-points" (as_dict (process_kpoint_blocks true))));
      RBlock (table (RSeqs [RLit "Number"; RPlus (RChar " "); RLit "Fractional coordinates"; RPlus (RChar " "); RLit "Weight"]) (RChar "+"))
        (rule_of "+") 1 false (only F_PARAMETERS (put "k-points" (as_dict (process_kpoint_blocks false))));
      RLine (has_str "Applied Electric Field") (only F_PARAMETERS applied_field);
      RBlock (searches FORCES_BLOCK_RE) (re_test (RSeqs [RBol; ws_star; stars; REol])) 1 false (only F_FORCE (to_run forces));
      RBlock (has_str "firstd_calculate: removing force on centre of mass") empty 1 false (only F_FORCE (to_run com_force));
      RBlock (searches STRESSES_BLOCK_RE) (re_test (RSeqs [RBol; ws_star; stars; REol])) 1 false (only F_STRESS (to_run stresses)) ].

  (** 801-997 *)
  Definition eq_line : str -> bool := re_test (RSeqs [RBol; RChar " "; row_of "="; REol]).   (* ^ =+$ *)
  Definition opens (s : string) : str -> bool := re_test (RSeqs [RBol; ws_plus; RLit s]).
  Definition rules_4 : list rule :=
    [ RBlock (has_str "Vibrational Frequencies") (rule_of "=") 1 false (only F_PHONON (put "phonons" (as_listval process_phonon)));
      RBlock (has_str "Phonon Symmetry Analysis") empty 1 false
        (only F_PHONON (add_val "phonon_symmetry_analysis" (as_dict process_phonon_sym_analysis)));
      RBlock (titled "Dynamical matrix") (rule_of "-") 1 false (only F_PHONON (put "dynamical_matrix" process_dynamical_matrix));
      RBlock (table (RSeq (RLit "Raman Susceptibility Tensors") (RStar (c_notof "+"))) (RChar "+")) empty 1 false
        (only F_PHONON (add "raman" (as_listval process_raman)));
      RBlock (table (RLit "AUTOSOLVATION CALCULATION RESULTS") stars) (rule_of "*") 1 false
        (only F_SOLVATION (put "autosolvation" (as_dict process_autosolvation)));
      RBlock (opens "Optical Permittivity") eq_line 1 false (only F_OPTICS (to_run (two_tensors "optical_permittivity" "dc_permittivity")));
      RBlock (re_test (RSeqs [RBol; ws_plus; RLit "Polarisabilit"; RAlt (RLit "y") (RLit "ies")])) eq_line 1 false
        (only F_OPTICS (to_run (two_tensors "optical_polarisability" "static_polarisability")));
      RBlock (opens "Nonlinear Optical Susceptibility") eq_line 1 false (only F_OPTICS (put "nlo" first_tensor));
      RBlock (titled "Atomic Displacement Parameters (A**2)") (rule_of "-") 3 false
        (only F_THERMODYNAMICS (put "atomic_displacements" (fun b => rmap (VDict true) (process_atom_disp b))));
      RBlock (titled "Thermodynamics") (rule_of "-") 3 false (only F_THERMODYNAMICS (put "thermodynamics" (as_dict process_thermodynamics)));
      RBlock (titled "Atomic Populations (Mulliken)") (rule_of "=") 2 false (only F_POPN_ANALYSIS (put "mulliken_popn" (as_dict process_mulliken)));
      RBlock (titled "Born Effective Charges") (rule_of "=") 1 false (only F_POPN_ANALYSIS (add "born" (as_dict process_born)));
      RBlock (titled "Orbital Populations") (rule_of "-") 3 false
        (only F_POPN_ANALYSIS (put "orbital_popn" (fun b => rmap (VDict true) (process_orbital_populations b))));
      RBlock (re_test (RSeqs [RLit "Bond"; ws_plus; RLit "Population"; ROpt (RSeq ws_plus (RLit "Spin")); ws_plus; RLit "Length"])) (rule_of "=") 2 false
        (only F_POPN_ANALYSIS (put "bonds" (as_dict process_bond_analysis)));
      RBlock (titled "Hirshfeld Analysis") (rule_of "=") 2 false (only F_POPN_ANALYSIS (put "hirshfeld" (as_dict process_hirshfeld)));
      RBlock (titled "ELF grid sample") (rule_of "-") 2 false (only F_ELF (put "elf" (as_listval process_elf))) ].

  (** 1000-1169 *)
  Definition rules_5 : list rule :=
    [ RBlock (has_str "Starting MD iteration") (re_test (RAlt (RLit "finished MD iteration") (RSeq (RLit "Finished MD") REol))) 1 false
        (only F_MD (to_run (md_block rec)));
      RBlock (has_str "Starting MD") (rule_of "=") 1 false (only F_MD (to_run (md_block rec)));
      RBlock (table (RLit "MD Data:") (RChar "x")) (rule_of "x") 1 false
        (wanted F [F_MD; F_MD_SUMMARY] (to_run (fun _ b r => d <- process_md_block b ;; Ok (update r d))));
      RBlock (has_str "Final Configuration") (re_test (RSeqs [ws_star; MINIMISERS_RE; ws_star; RLit ": Final"])) 1 false
        (wanted F [F_GEOM_OPT; F_FINAL_CONFIG] (to_run final_config));
      RBlock (searches minim_iteration) (re_test minim_end) 2 false (only F_GEOM_OPT (to_run (geom_iteration rec)));
      RLine (re_test ENTHALPY_RE) (only F_GEOM_OPT (to_run enthalpy));
      RLine (re_test TRIAL_RE) (to_run trial);
      RLine (re_match_test FINAL_LINE_RE) (only F_GEOM_OPT (to_run final_line));
      RBlock (searches minim_tag) (re_test minim_table_end) 2 false (only F_GEOM_OPT (add "minimisation" (as_dict process_geom_table)));
      RBlock (has_str "INTERNAL CONSTRAINTS") empty 2 false (only F_GEOM_OPT (put "internal_constraints" (as_listval process_internal_constraints)));
      RBlock (has_str "Message: Generating deloc") (has_str "Message: Generation of deloc") 1 false
        (only F_GEOM_OPT (to_run (extend "delocalised_internal" process_deloc_table)));
      RBlock (has_str "The size of active space") empty 1 false
        (only F_GEOM_OPT (to_run (extend "delocalised_internal" process_deloc_act_space_table))) ].

  (** 1172-1391 *)
  Definition magres_rule (content : re) (task : nat) : rule :=
    RBlock (table content (RChar "|")) (rule_of "=") 1 false (only F_CHEM_SHIELDING (add_val "magres" (as_dict (parse_magres_block task)))).
  Definition tddft_tag : re := RLit "TDDFT".
  Definition rules_6 : list rule :=
    [ RBlock (re_test (gen_table_re (Some (RLit "TDDFT excitation energies")) (RChar "+") REps tddft_tag true))
        (re_test (gen_table_re (Some (row_of "=")) (RChar "+") REps tddft_tag true)) 2 false (only F_TDDFT (put "tddft" (as_listval process_tddft)));
      RBlock (table (RSeq (RAlt (RLit "B A N D") (RLit "Band Structure Calculation")) (RPlus (c_notof "+"))) (RChar "+")) (rule_of "=") 1 false
        (only F_BS (put "bs" (as_listval process_band_structure)));
      RBlock (table (RLit "D I P O L E   O F   M O L E C U L E   I N   S U P E R C E L L") (RChar "+")) (rule_of "=") 1 false
        (only F_DIPOLE (put "molecular_dipole" (as_dict process_dipole)));
      magres_rule (RLit "Chemical Shielding Tensor") 0;
      magres_rule (RLit "Chemical Shielding and Electric Field Gradient Tensors") 1;
      magres_rule (RLit "Electric Field Gradient Tensor") 2;
      magres_rule (RSeq (RAlt (RLit "I") (RLit "Ani")) (RLit "sotropic J-coupling")) 3;
      magres_rule (RLit "Hyperfine Tensor") 4;
      RBlock (titled "Elastic Constants Tensor (GPa)") (rule_of "=") 1 false
        (only F_ELASTIC (to_run (fun _ => elastic_item (kstr "elastic_constants"))));
      RBlock (titled "Compliance Matrix (GPa^-1)") (rule_of "=") 1 false
        (only F_ELASTIC (to_run (fun _ => elastic_item (kstr "compliance_matrix"))));
      RBlock (has_str "Contribution ::") empty 1 false (contribution F);
      RBlock (titled "Elastic Properties") (rule_of "=") 1 false (only F_ELASTIC (to_run (extend "elastic" process_elastic_properties)));
      RBlock (re_test (RSeqs [RBol; ws_star; RLit "Ionic contribution to polarisation"])) (re_test (row_of "=")) 14 false
        (only F_POLARISATION (to_run (extend "berry_phase" process_berry_phase)));
      RBlock (re_test (RSeqs [RBol; ws_star; RLit "Polarisation"])) (re_test (row_of "=")) 6 false
        (only F_POLARISATION (to_run (extend "berry_phase" process_berry_phase)));
      RBlock (has_str "Calculating MODOS weights") empty 1 false (only F_DELTA_SCF (put "delta_scf" (as_dict process_delta_scf)));
      RBlock (re_test (extra_re "<BEGIN ")) (re_test (extra_re "<END ")) 1 false (only F_TEST_EXTRA_DATA (to_run (extra iter))) ].

  Definition all_rules : list rule := rules_1 ++ rules_2 ++ rules_3 ++ rules_4 ++ rules_5 ++ rules_6.
  (** 202-1391: one turn of the loop *)
  Definition castep_step (st : cstate) (line : str) (rest : list str) : result (cstate * list str) :=
    try_rules all_rules line rest st.
End Rules.

(** 1393-1397 *)
Definition close_runs (st : cstate) : result (list dict) :=
  match s_run st with
  | [] => Ok (s_runs st)
  | r => r <- fix_data_types r [(kstr "energies", TFloat); (kstr "solvation", TFloat)] ;; Ok (s_runs st ++ [r])
  end.
(** 167-1397.  Blocks given to the function itself are shorter than the file, so the
    number of lines bounds the depth. *)
Fixpoint parse_castep (iter : list str -> list str) (depth : nat) (F : filters) (ls : list str) : result (list dict) :=
  let rec := match depth with O => fun _ _ => Err OutOfFuel | S d => parse_castep iter d end in
  st <- over_file (castep_step iter rec F) {| s_runs := []; s_run := []; s_mix := None |} ls ;;
  close_runs st.
Definition parse_castep_file (iter : list str -> list str) (F : filters) (ls : list str) : result pyval :=
  rmap (fun l => VList (map (VDict true) l)) (parse_castep iter (length ls) F ls).
