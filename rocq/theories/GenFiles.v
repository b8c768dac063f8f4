(** castep_outputs/tools/get_generated_files.py.  Values are those a parameter or cell file
    can give: None, bool, int, float (as exact rationals), str, tuple, list, dict.  Bytes,
    complex numbers and binary floats are not considered (they behave here like values
    without the operation in question). *)
From Verif Require Import PyBase PyVal Regex DictUtil PathLib.
Local Open Scope list_scope.
Local Open Scope nat_scope.

(** ** Python operations on values *)
(** [bool(v)] *)
Definition truth (v : pyval) : bool :=
  match v with
  | VNone => false
  | VBool b => b
  | VInt z => negb (z =? 0)%Z
  | VFloat (FQ q) => negb (Qnum q =? 0)%Z
  | VFloat (FBits b) => negb (zero_bits b)
  | VComplex _ _ => true
  | VStr s | VBytes s => negb (isempty s)
  | VTuple l | VList l => negb (isempty l)
  | VDict _ l => negb (isempty l)
  end.
(** [d.get(k, dflt)] of a dictionary *)
Definition pget (d : dict) (k : string) (dflt : pyval) : pyval :=
  match dget key_eqb d (KStr ($k)) with Some v => v | None => dflt end.
Definition pon (d : dict) (k : string) : bool := truth (pget d k VNone).
(** [v.get] / [v.items()]: the dictionary [v] is *)
Definition as_dict (v : pyval) : result dict :=
  match v with VDict _ its => Ok its | _ => Err AttributeError end.
(** [v.upper()] / [v.lower()]: the text [v] is *)
Definition as_str (v : pyval) : result str :=
  match v with VStr s => Ok s | _ => Err AttributeError end.
(** A number to compare with an integer *)
Definition as_num (v : pyval) : result Q :=
  match v with
  | VInt z => Ok (inject_Z z)
  | VBool b => Ok (if b then 1 else 0)%Q
  | VFloat (FQ q) => Ok q
  | _ => Err TypeError
  end.
Definition gt_int (q : Q) (z : Z) : bool := negb (Qle_bool q (inject_Z z)).
Definition ge_int (q : Q) (z : Z) : bool := Qle_bool (inject_Z z) q.
(** [hash(v)] exists *)
Fixpoint hashable (v : pyval) : bool :=
  match v with
  | VList _ | VDict _ _ => false
  | VTuple l => forallb hashable l
  | _ => true
  end.
(** [v in {strings}] *)
Definition in_texts (v : pyval) (l : list string) : result bool :=
  if hashable v then
    Ok (match v with VStr s => existsb (fun x => str_eqb s ($x)) l | _ => false end)
  else Err TypeError.
Definition text_in (s : str) (l : list string) : bool := existsb (fun x => str_eqb s ($x)) l.

(** [sorted(set)]: by code point, without repetitions *)
Fixpoint str_cmp (a b : str) : comparison :=
  match a, b with
  | [], [] => Eq
  | [], _ => Lt
  | _, [] => Gt
  | x :: a', y :: b' => match (ord x ?= ord y)%N with Eq => str_cmp a' b' | c => c end
  end.
Fixpoint insert_name (s : str) (l : list str) : list str :=
  match l with
  | [] => [s]
  | x :: l' => match str_cmp s x with
               | Lt => s :: l
               | Eq => l
               | Gt => x :: insert_name s l'
               end
  end.
Definition sorted_set (l : list str) : list str := fold_right insert_name [] l.

(** ** Enumerations (29-112) *)
(** 26, 37: letters upper-cased, "+" and " " removed *)
Definition squash (s : str) : str := upper (filter (fun c => negb (chr_in c ($"+ "))) s).
Inductive Task :=
| SINGLEPOINT | PHONON | PHONON_EFIELD | EFIELD | THERMODYNAMICS | EPCOUPLING | ELASTIC | GEOMOPT | MD
| SOCKET_DRIVER | TRANSITION_STATE_SEARCH | WANNIER | MAGRES | SPECTRAL | AUTOSOLVATION.
Definition task_eqb (a b : Task) : bool :=
  match a, b with
  | SINGLEPOINT, SINGLEPOINT | PHONON, PHONON | PHONON_EFIELD, PHONON_EFIELD | EFIELD, EFIELD
  | THERMODYNAMICS, THERMODYNAMICS | EPCOUPLING, EPCOUPLING | ELASTIC, ELASTIC | GEOMOPT, GEOMOPT | MD, MD
  | SOCKET_DRIVER, SOCKET_DRIVER | TRANSITION_STATE_SEARCH, TRANSITION_STATE_SEARCH | WANNIER, WANNIER
  | MAGRES, MAGRES | SPECTRAL, SPECTRAL | AUTOSOLVATION, AUTOSOLVATION => true
  | _, _ => false
  end.
(** 44-84: [Task.__members__] *)
Definition task_members : list (str * Task) := map (fun x => ($(fst x), snd x))
  [("SINGLEPOINT", SINGLEPOINT); ("PHONON", PHONON); ("PHONON_EFIELD", PHONON_EFIELD); ("EFIELD", EFIELD);
   ("THERMODYNAMICS", THERMODYNAMICS); ("EPCOUPLING", EPCOUPLING); ("ELASTIC", ELASTIC); ("GEOMOPT", GEOMOPT);
   ("MD", MD); ("SOCKET_DRIVER", SOCKET_DRIVER); ("TRANSITION_STATE_SEARCH", TRANSITION_STATE_SEARCH);
   ("WANNIER", WANNIER); ("MAGRES", MAGRES); ("SPECTRAL", SPECTRAL); ("AUTOSOLVATION", AUTOSOLVATION);
   ("GEOMETRYOPTIMISATION", GEOMOPT); ("GEOMETRYOPTIMIZATION", GEOMOPT); ("GEOM", GEOMOPT);
   ("SPE", SINGLEPOINT); ("ENERGY", SINGLEPOINT); ("MOLECULARDYNAMICS", MD); ("DYNAMICS", MD);
   ("SOCKETDRIVER", SOCKET_DRIVER); ("TSS", TRANSITION_STATE_SEARCH); ("TRANSITIONSTATESEARCH", TRANSITION_STATE_SEARCH);
   ("PHONONEFIELD", PHONON_EFIELD); ("ELECTRONICSPECTROSCOPY", SPECTRAL); ("BANDSTRUCTURE", SPECTRAL);
   ("ELNES", SPECTRAL); ("OPTICS", SPECTRAL)]%string.
(** 99-112 *)
Inductive SpectralTask := CORELOSS | BANDSTRUCTURE | OPTICS | DOS | ALL.
Definition spectral_task_members : list (str * SpectralTask) := map (fun x => ($(fst x), snd x))
  [("CORELOSS", CORELOSS); ("BANDSTRUCTURE", BANDSTRUCTURE); ("OPTICS", OPTICS); ("DOS", DOS); ("ALL", ALL)]%string.
Inductive SpectralTheory := TDDFT | DFT.
Definition spectral_theory_members : list (str * SpectralTheory) := map (fun x => ($(fst x), snd x))
  [("TDDFT", TDDFT); ("DFT", DFT)]%string.
(** [cls(value)]: a member's number (1, 2, ...), or a name through [_missing_] (32-40). *)
Definition enum_call {E} (members : list (str * E)) (v : pyval) : result E :=
  let number z := match (if (1 <=? z)%Z then nth_error members (Z.to_nat (z - 1)) else None) with
                  | Some m => Ok (snd m)
                  | None => Err ValueError
                  end in
  match v with
  | VInt z => number z
  | VBool b => number (if b then 1 else 0)%Z
  | VFloat (FQ q) => if Pos.eqb (Qden q) 1 then number (Qnum q) else Err ValueError
  | VStr s => match dget str_eqb members (squash s) with Some m => Ok m | None => Err ValueError end
  | _ => Err ValueError
  end.

(** 115-126 *)
Definition XC_TO_PS_THEORY : list (str * str) := map (fun x => ($(fst x), $(snd x)))
  [("pw91", "pbe"); ("pbe", "pbe"); ("rpbe", "rpbe"); ("pbesol", "pbesol"); ("wc", "wc"); ("blyp", "blyp");
   ("ms2", "ms2"); ("rscan", "rscan"); ("r2scan", "rscan"); ("lda_pw", "lda_pw")]%string.

(** The names written under a condition. *)
Definition when (b : bool) (l : list str) : list str := if b then l else [].

(** ** get_spectral_files (129-206) *)
Definition spec_calc (th : SpectralTheory) (t : SpectralTask) (is_nlxc : bool) : result (bool * bool * bool) :=
  match th, t with   (* elnes, ome, dome *)
  | TDDFT, OPTICS => Ok (false, false, true)
  | TDDFT, (DOS | BANDSTRUCTURE) => Ok (false, false, false)
  | TDDFT, ALL => Ok (false, false, true)
  | TDDFT, CORELOSS => Err KeyError
  | DFT, CORELOSS => if is_nlxc then Err KeyError else Ok (true, true, false)
  | DFT, OPTICS => Ok (false, false, true)
  | DFT, DOS => Ok (false, negb is_nlxc, false)
  | DFT, BANDSTRUCTURE => Ok (false, false, false)
  | DFT, ALL => Ok (negb is_nlxc, negb is_nlxc, negb is_nlxc)
  end.
Definition get_spectral_files (p : dict) (seed : str) (is_nlxc : bool) : result (list str) :=
  let devel_v := pget p "devel_code" (VDict false []) in
  task_text <- as_str (pget p "task" (VStr ($"SINGLEPOINT"))) ;;
  let raw_task := upper task_text in
  theory <- enum_call spectral_theory_members (pget p "spectral_theory" (VStr ($"dft"))) ;;
  task <- enum_call spectral_task_members (pget p "spectral_task" (VStr ($"bandstructure"))) ;;
  calc <- spec_calc theory task is_nlxc ;;
  let '(elnes, ome, dome) := calc in
  devel <- as_dict devel_v ;;
  sd <- as_dict (pget devel "spectral" (VDict false [])) ;;
  let elnes := truth (pget sd "calc_core" (VBool elnes)) in
  let ome := truth (pget sd "calc_ome" (VBool ome)) in
  let pdos := truth (pget sd "calc_pdos" (pget p "pdos_calculate_weights" VNone)) in
  let dome := truth (pget sd "calc_dome" (VBool dome)) in
  let bin x := [seed ++ match theory with DFT => $"." | TDDFT => $"_tddft." end ++ $x ++ $"_bin"] in
  Ok ([seed ++ $"-out.cell"] ++
      when (truth (pget p "spectral_restart" (VBool true))) [seed ++ $".*.spec"] ++
      when (pon p "write_orbitals" || str_eqb raw_task ($"BANDSTRUCTURE")) [seed ++ $".orbitals"] ++
      when (dmem key_eqb devel (KStr ($"spectral_spinvec")) && dmem key_eqb devel (KStr ($"spectral_spinvec_append")))
        [seed ++ $".nc_spinvec"] ++
      when elnes (bin "elnes"%string) ++ when ome (bin "ome"%string) ++
      when pdos (bin "pdos"%string) ++ when dome (bin "dome"%string)).

(** ** get_xc_info (209-249) *)
(** 247 *)
Definition LIBXC_RE : re :=
  RSeqs [RLitI "libxc"; ROpt (RLitI "_hyb"); RLitI "_"; RAlts [RSeq (ROpt (RLitI "m")) (RLitI "gga"); RLitI "lda"]].
Definition reduce_xc (s : str) : str :=
  match re_match LIBXC_RE s with Some x => m_text x | None => s end.
Definition lower_key (k : key) : result str :=
  match k with KStr s => Ok (lower s) | _ => Err TypeError end.
(** The set of names, as a list in which repetitions do not matter. *)
Definition get_xc_info (p : dict) : result (list str) :=
  f <- as_str (pget p "xc_functional" (VStr ($"lda"))) ;;
  let d := pget p "xc_definition" VNone in
  names <- (if truth d then
              match d with
              | VDict _ its => match dget key_eqb its (KStr ($"xc")) with
                               | None => Err KeyError
                               | Some (VDict _ fs) => mapM lower_key (keys fs)
                               | Some _ => Err AttributeError
                               end
              | _ => Err TypeError
              end
            else Ok [lower (lower f)]) ;;
  Ok (map reduce_xc names).
Definition meets (xc : list str) (l : list string) : bool := existsb (fun x => text_in x l) xc.

(** ** _get_generated_files (309-593) *)
(** [combinations_with_replacement(l, 2)] *)
Fixpoint pairs {A} (l : list A) : list (A * A) :=
  match l with
  | [] => []
  | x :: l' => map (fun y => (x, y)) l ++ pairs l'
  end.
(** [i:0>3d] *)
Definition farm_no (i : nat) : str := let s := str_of_Z (Z.of_nat i) in repeat "0"%char (3 - length s) ++ s.
(** 358-367 *)
Definition silence (p : dict) : dict :=
  fold_left (fun p k => dset key_eqb p (KStr ($k)) (VBool false))
    ["write_bib"; "write_checkpoint"; "write_cst_esp"; "write_bands"; "write_geom"; "write_md"]%string p.
(** 370-383: [str(v).upper()]; the text of values other than these is none of the words *)
Definition check_files (v : pyval) (seed : str) : result (list str) :=
  let word := match v with
              | VStr s => upper s
              | VBool true => $"TRUE"
              | VBool false => $"FALSE"
              | VNone => $"NONE"
              | _ => []
              end in
  if text_in word ["TRUE"; "ALL"; "BOTH"; "FULL"]%string then Ok [seed ++ $".check"; seed ++ $".castep_bin"]
  else if str_eqb word ($"MINIMAL") then Ok [seed ++ $".castep_bin"]
  else if text_in word ["FALSE"; "NONE"]%string then Ok []
  else Err NotImplementedErr.

Section Gen.
  (** [next(iter(xc))]: some element of the set; and the text of float and tuple keys. *)
  Context (first : list str -> str) (ext : key -> str).

  (** 456: unpacking a key of positions_frac (a string has characters to unpack).
      Simplification: a value that is no dictionary is refused. *)
  Definition species_of (k : key) : result key :=
    match k with
    | KTuple [a; _] => Ok a
    | KStr [c; _] => Ok (KStr [c])
    | KTuple _ | KStr _ => Err ValueError
    | _ => Err TypeError
    end.
  Fixpoint dedup (seen l : list key) : list key :=
    match l with
    | [] => []
    | x :: l' => if existsb (key_eqb x) seen then dedup seen l' else x :: dedup (x :: seen) l'
    end.
  (** 452-466 *)
  Definition pp_files (devel cell : dict) (seed : str) : result (list str) :=
    let pp_v := pget devel "pp" VNone in
    if pon devel "_pp" && truth pp_v then
      pp <- as_dict pp_v ;;
      pots <- (if pon pp "pot_print" then
                 if isempty cell then Ok [seed ++ $"_*_.pot"]
                 else match pget cell "positions_frac" (VDict false []) with
                      | VDict _ pos =>
                          spec <- mapM species_of (keys pos) ;;
                          Ok (map (fun ab => seed ++ $"_" ++ key_str ext (fst ab) ++ $"_" ++ key_str ext (snd ab) ++ $".pot") (pairs (dedup [] spec)))
                      | _ => Err TypeError
                      end
               else Ok []) ;;
      Ok (pots ++ when (pon pp "fd_check") [seed ++ $".fd"])
    else Ok [].

  (** 480-486 *)
  Definition theory_of (xc : list str) : result str :=
    if meets xc ["libxc_mgga"; "libxc_hyb_mgga"]%string then Ok ($"RSCAN")
    else if meets xc ["libxc_gga"; "libxc_hyb_gga"]%string then Ok ($"PBE")
    else if isempty xc then Err StopIteration
    else Ok (match dget str_eqb XC_TO_PS_THEORY (first xc) with Some t => t | None => $"LDA" end).
  (** 474-508: one entry of species_pot *)
  Definition pot_files (xc : list str) (is_mgga is_spin : bool) (p : dict) (st : bool * list str) (kv : key * pyval)
    : result (bool * list str) :=
    let '(is_usp, out) := st in
    match snd kv with
    | VStr _ => if is_usp then Ok (true, out) else Err TypeError   (* endswith with three arguments *)
    | pot =>
        theory <- theory_of xc ;;
        let otf := key_str ext (fst kv) ++ $"_EXT_" ++ theory ++ $"_OTF" in
        pot <- as_dict pot ;;
        Ok (is_usp, out ++
            when (pon pot "print") [otf ++ $".gamma"; otf ++ $".pwave"; otf ++ $".beta"; otf ++ $".econv"] ++
            when (negb is_mgga && truth (pget p "write_otfg" (VBool true)))
              [otf ++ (if is_usp then if is_spin then $".uspso" else $".usp" else $".recpot")])
    end.

  (** 510-519 *)
  Definition elastic_files (devel : dict) (seed : str) (no_deform : bool) : result (list str) :=
    if pon devel "calc_elastic" || dmem key_eqb devel (KStr ($"elastic")) then
      e <- as_dict (pget devel "elastic" (VDict false [])) ;;
      Ok ([seed ++ $".elastic"] ++ when (pon e "deform_pot" && negb no_deform) [seed ++ $".dbands_dstrain"])
    else Ok [].

  (** 545-567 *)
  Definition md_files (p : dict) (seed : str) : result (list str) :=
    hug <- in_texts (pget p "md_ensemble" VNone) ["nvhug"; "nphug"]%string ;;
    extrap <- rmap lower (as_str (pget p "md_extrap" (VStr ($"first")))) ;;
    strategy <- rmap lower (as_str (pget p "opt_strategy" (VStr ($"default")))) ;;
    opt_mem <- (if str_eqb strategy ($"memory") then Ok true
                else rmap (fun q => ge_int q 0) (as_num (pget p "opt_strategy_bias" (VInt 0)))) ;;
    mix <- rmap lower (as_str (pget p "metals_method" (VStr ($"dm")))) ;;
    beads <- as_num (pget p "md_num_beads" (VInt 1)) ;;
    farms <- (if gt_int beads 1 then
                n <- as_num (pget p "num_farms" (VInt 1)) ;;
                if gt_int n 1 then
                  match pget p "num_farms" VNone with
                  | VInt z => Ok (map (fun i => seed ++ $"_farm" ++ farm_no i ++ $".castep") (seq 0 (Z.to_nat z)))
                  | _ => Err TypeError
                  end
                else Ok []
              else Ok []) ;;
    Ok (when (truth (pget p "write_md" (VBool true))) [seed ++ $".md"] ++
        when hug [seed ++ $".hug"] ++
        when (str_eqb mix ($"dm") && text_in extrap ["first"; "second"; "mixed"]%string && opt_mem)
          [seed ++ $".*.wfm"; seed ++ $".*.drhom"] ++
        when (str_eqb mix ($"dm") && text_in extrap ["second"; "mixed"]%string && opt_mem)
          [seed ++ $".*.wf2m"; seed ++ $".*.drho2m"] ++
        farms).

  (** 521-573 *)
  Definition task_files (task : Task) (p : dict) (seed : str) (is_nlxc : bool) : result (list str) :=
    match task with
    | AUTOSOLVATION => Ok [seed ++ $".vacuum_den"]
    | EPCOUPLING => Ok [seed ++ $".epme"; seed ++ $"-*-*-*.ep_pot"]
    | GEOMOPT =>
        Ok (when (truth (pget p "write_geom" (VBool true))) [seed ++ $".geom"] ++
            when (match pget p "geom_method" VNone with VStr s => str_eqb s ($"pes") | _ => false end) [seed ++ $".pes"])
    | SPECTRAL => get_spectral_files p seed is_nlxc
    | MD => md_files p seed
    | MAGRES => Ok ([seed ++ $".magres"] ++ when (pon p "magres_write_response") [$"current.dat"; $"gsden.cube"])
    | TRANSITION_STATE_SEARCH => Ok [seed ++ $".ts"]
    | _ => Ok []
    end.

  (** 575-582.  A name that is no string makes the final sorting fail ([true]). *)
  Definition phonon_files (task : Task) (p devel : dict) (seed : str) : result (bool * list str) :=
    if task_eqb task PHONON || task_eqb task PHONON_EFIELD then
      ph <- as_dict (pget devel "phonon" (VDict false [])) ;;
      let born := pget ph "write_external_born" VNone in
      odd <- (if truth born then
                match born with
                | VStr s => Ok (false, [s])
                | v => if hashable v then Ok (true, []) else Err TypeError
                end
              else Ok (false, [])) ;;
      Ok (fst odd, [seed ++ $".phonon"] ++ when (pon p "phonon_calculate_dos") [seed ++ $".phonon_dos"] ++ snd odd ++
                   when (pon ph "write_first_order_potential") [seed ++ $"-*-*-*.ep_pot"])
    else Ok (false, []).

  (** 592-598 *)
  Definition tddft_files (on : bool) (devel : dict) (seed : str) : result (list str) :=
    if on then
      td <- as_dict (pget devel "tddft" (VDict false [])) ;;
      Ok ([seed ++ $".tddft"] ++ when (pon td "den1_write") [seed ++ $".td_den"] ++
          when (pon td "save_td_den_fmt") [$"den_dump*.dat"])
    else Ok [].

  (** 384-451: the files depending on single options *)
  Definition option_files (p devel : dict) (task : Task) (seed : str) (is_pp is_oep is_spin : bool) : list str :=
    when (truth (pget p "write_bands" (VBool true)) && negb is_pp)
      [seed ++ if negb (truth (pget p "tddft_selected_state" (VInt 0))) then $".bands" else $"_tddft.bands"] ++
    when (pon devel "write_formatted_bands") [seed ++ $"_*.orbit_fmt"] ++
    when (truth (pget p "write_bib" (VBool true))) [seed ++ $".bib"] ++
    when (negb is_pp && truth (pget p "write_cst_esp" (VBool true))) [seed ++ $".cst_esp"] ++
    when (pon p "write_formatted_potential") ([seed ++ $".pot_fmt"] ++ when is_oep [seed ++ $".oep_fmt"]) ++
    when (pon p "write_formatted_density") [seed ++ $".den_fmt"] ++
    when (pon p "calculate_densdiff")
      ([seed ++ $".chdiff"] ++ when (pon p "write_formatted_density") [seed ++ $".chdiff_fmt"]) ++
    when (pon p "calculate_elf") ([seed ++ $".elf"] ++ when (pon p "write_formatted_elf") [seed ++ $".elf_fmt"]) ++
    when (pon p "write_formatted_dielec_perm") [seed ++ $".eps_format"] ++
    when (pon p "write_orbitals") [seed ++ $".orbitals"] ++
    when (pon p "write_cif_structure") [seed ++ $"-out.cif"] ++
    when (pon p "write_cell_structure") [seed ++ $"-out.cell"] ++
    when (pon p "efield_calc_ion_permittivity") [seed ++ $".efield"] ++
    when (pon p "calculate_modos") [seed ++ $".modos_state*"] ++
    when (pon devel "zdos_scf") [seed ++ $".scf_zdos"] ++
    when (pon devel "write_unformatted_density") [seed ++ $".altden"] ++
    when (pon devel "trace" || pon devel "prof" || pon devel "profclass") [seed ++ $".*.profile"] ++
    when (pon devel "write_formatted_bands") [seed ++ $"_*.orbit_fmt"] ++
    when (pon devel "pp_hybrid" && (task_eqb task GEOMOPT || task_eqb task MD)) [seed ++ $".hybrid-md.xyz"] ++
    when (is_spin && pon devel "lda_sf_pot_write") [seed ++ $".B_xc.pot_fmt"] ++
    when (pon devel "calculate_xrd_sf") [seed ++ $".xrd_sf"] ++
    when (pon devel "zdos_spectral" && task_eqb task SPECTRAL) [seed ++ $".spectral_zdos"].

  (** 309-600, for the stem of the path *)
  Definition predict (p cell : dict) (seed : str) : result (list str) :=
    let devel_v := pget p "devel_code" (VDict false []) in
    task_text <- as_str (pget p "task" (VStr ($"SINGLEPOINT"))) ;;
    let raw_task := upper task_text in
    task <- enum_call task_members (VStr raw_task) ;;
    xc <- get_xc_info p ;;
    let is_mgga := meets xc ["ms2"; "rscan"; "r2scan"; "libxc_mgga"; "libxc_hyb_mgga"]%string in
    let is_nlxc := meets xc ["hf"; "hf-lda"; "shf"; "sx-lda"; "shf-lda"; "pbe0"; "b3lyp"; "hse03"; "hse06"; "spbe0"]%string in
    let is_oep := meets xc ["oep"; "lfx"; "elp"; "ceda"]%string in
    spin_text <- as_str (pget p "spin_treatment" (VStr ($"NONE"))) ;;
    let is_spin := str_eqb (upper spin_text) ($"VECTOR") || pon p "spin_orbit_coupling" ||
                   pon p "spin_polarised" || pon p "spin_polarized" in
    devel <- as_dict devel_v ;;
    let is_pp := truth (pget devel "_pp" (VBool false)) in
    tddft_on <- rmap (fun q => gt_int q 0) (as_num (pget p "tddft_selected_state" (VInt 0))) ;;
    let p := if pon p "write_none" then silence p else p in
    check <- check_files (pget p "write_checkpoint" (VStr ($"ALL"))) seed ;;
    let options := option_files p devel task seed is_pp is_oep is_spin in
    pp <- pp_files devel cell seed ;;
    let pdos := when (pon p "pdos_calculate_weights" && negb (text_in raw_task ["BANDSTRUCTURE"; "ELECTRONICSPECTROSCOPY"]%string))
                  [seed ++ $".pdos_weights"] in
    pots <- as_dict (pget cell "species_pot" (VDict false [])) ;;
    st <- foldM (pot_files xc is_mgga is_spin p) pots (true, []) ;;
    elastic <- elastic_files devel seed (is_mgga || fst st || is_spin || is_nlxc) ;;
    tf <- task_files task p seed is_nlxc ;;
    ph <- phonon_files task p devel seed ;;
    let ef := when (task_eqb task EFIELD || task_eqb task PHONON_EFIELD) [seed ++ $".efield"] in
    if task_eqb task WANNIER then Err KeyError
    else if task_eqb task SOCKET_DRIVER then Err NotImplementedErr
    else
      td <- tddft_files tddft_on devel seed ;;
      if fst ph then Err TypeError
      else Ok (sorted_set ([seed ++ $".castep"] ++ check ++ options ++ pp ++ pdos ++ snd st ++ elastic ++ tf ++ snd ph ++ ef ++ td)).
End Gen.

(** ** get_generated_files (252-306) *)
Section Top.
  Context (first : list str -> str) (ext : key -> str).
  (** Which files exist, and [parse_cell_param_file]. *)
  Context (exists_file : str -> bool) (read : str -> result (list dict)).
  (** 298-304 *)
  Definition data_from (data : option dict) (file : str) : result dict :=
    match data with
    | Some d => Ok d
    | None => if exists_file file then
                ds <- read file ;; match ds with d :: _ => Ok d | [] => Err IndexError end
              else Ok []
    end.
  Definition get_generated_files (seed : str) (param_file cell_file : option str) (param_data cell_data : option dict)
    : result (list str) :=
    let path := path_of seed in
    param_file <- match param_file with Some f => Ok (path_str (path_of f)) | None => rmap path_str (with_suffix path ($".param")) end ;;
    cell_file <- match cell_file with Some f => Ok (path_str (path_of f)) | None => rmap path_str (with_suffix path ($".cell")) end ;;
    param <- data_from param_data param_file ;;
    cell <- data_from cell_data cell_file ;;
    src <- with_suffix path [] ;;
    predict first ext param cell (path_stem src).
End Top.
