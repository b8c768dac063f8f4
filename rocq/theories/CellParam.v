(** parsers/cell_param_file_parser.py; [_parse_devel_code_block] (328-401) and the
    pseudopotential strings are in [Pspot.v].  Files are given by their lines. *)
From Verif Require Import PyBase PyVal Regex CastepRes StrUtil TypeConv DictUtil Stream Header.
Local Open Scope list_scope.
Local Open Scope nat_scope.

(** ** Regular expressions *)
(** 141: [^\s*%block ], IGNORECASE *)
Definition BLOCK_RE : re := RSeqs [RBol; ws_star; RLitI "%block "].
(** 142 and elsewhere: [^\s*%endblock], IGNORECASE *)
Definition ENDBLOCK_RE : re := RSeqs [RBol; ws_star; RLitI "%endblock"].
(** castep_res.py 600-612, IGNORECASE: [[a-z_]] is any letter or underscore *)
Definition PARAM_VALUE_RE : re :=
  RSeqs [RBol; ws_star; RGrp "key" (RPlus (RChr (fun c => is_alpha c || Ascii.eqb c "_")));
         ws_star; RChr (fun c => Ascii.eqb c " " || Ascii.eqb c tab || Ascii.eqb c ":" || Ascii.eqb c "="); ws_star;
         RAlt (RGrp "val" (RPlus (RSeq ws_star NUMBER_RE)))
              (RGrp "str" (RSeq (RChr (fun c => negb (chr_in c ($"-+.") || is_digit c || is_space c)))
                                (RStar (RSeq ws_star (RPlus c_nspace)))));
         RCond "val" (ROpt (RGrp "unit" (RSeq c_space (RPlus c_nspace)))) REps;
         ws_star; REol].
(** castep_res.py 614 *)
Definition IONIC_CONSTRAINTS_RE : re := RSeqs [RBol; ws_star; c_digit; ws_plus; ATOM_RE; THREEVEC_RE].
(** castep_res.py 615-618 *)
Definition POSITIONS_LINE_RE : re :=
  RSeqs [RBol; ws_star; RGrp "spec" SPECIES_RE; RGrp "pos" (RTimes 3 (RSeq ws_plus FLOAT_RAT_RE))].
(** castep_res.py 619-622, IGNORECASE.  [[= :\t]] *)
Definition c_eq_sep : re := RChr (fun c => Ascii.eqb c "=" || Ascii.eqb c " " || Ascii.eqb c ":" || Ascii.eqb c tab).
Definition POSITIONS_SPIN_RE : re :=
  RSeqs [RAlt (RLitI "spin") (RLitI "magmom"); ws_star; c_eq_sep; ws_star; RGrp "spin" FLOAT_RAT_RE].
(** castep_res.py 623-626, IGNORECASE *)
Definition POSITIONS_MIXTURE_RE : re :=
  RSeqs [RLitI "mixture"; c_eq_sep; RChar "("; ws_star; labelled_floats ["mix"; "ratio"]%string; RChar ")"].
(** castep_res.py 627 *)
Definition SPEC_PROP_RE : re := RSeqs [ws_star; ATOM_NAME_RE; ws_plus; RGrp "val" (RStar c_any)].
(** castep_res.py 281 *)
Definition COLON_SEP_RE : re :=
  RSeqs [RWordB; RGrp "key" (RPlus c_nspace); ws_star; RChar ":"; ws_star; RGrp "val" (RPlus c_nspace); RWordB].
(** 107 *)
Definition UNITS_RE : re := RSeqs [RBol; ws_star; RGrp "1" (RPlus c_nspace); ws_star; REol].
(** 525 *)
Definition HUBBARD_RE : re :=
  RSeqs [RBol; ws_star; RGrp "1" ATOM_NAME_RE; ws_star; ROpt (RGrp "2" (RPlus c_digit))].

(** ** Built-ins *)
(** [re.split(r"[#!]", line)[0]] *)
Definition uncomment (line : str) : str := before_match (c_of "#!") line.
(** [s.split(maxsplit=1)] *)
Definition split1 (s : str) : list str :=
  let s := lstrip s in
  let w := take_while (fun c => negb (is_space c)) s in
  let r := lstrip (drop_while (fun c => negb (is_space c)) s) in
  if isempty w then [] else if isempty r then [w] else [w; r].
(** [a, b = s.split(maxsplit=1)] *)
Definition unpack_split1 (s : str) : result (str * str) :=
  match split1 s with [a; b] => Ok (a, b) | _ => Err ValueError end.
(** [s.replace(old, "")] for a non-empty [old] *)
Fixpoint remove_all (fuel : nat) (old s : str) : str :=
  match fuel with
  | O => s
  | S f => match strip_prefix old s with
           | Some s' => remove_all f old s'
           | None => match s with [] => [] | c :: s' => c :: remove_all f old s' end
           end
  end.
Definition str_remove (old s : str) : str := remove_all (S (length s)) old s.
(** [to_type(val, determine_type(val))] *)
Definition auto_type (s : str) : result pyval := to_type (determine_type s) (VStr s).
Definition is_endblock (l : str) : bool := re_match_test ENDBLOCK_RE l.

(** ** Blocks: given by the lines after the title, without comments (146) *)
(** 89-113: the units and the lines left.  An exhausted block raises. *)
Definition get_block_units (block : list str) (default : str) : result (str * list str) :=
  match block with
  | [] => Err StopIteration
  | l :: rest => match re_match UNITS_RE l with
                 | Some x => Ok (group_s x "1", rest)
                 | None => Ok (default, block)
                 end
  end.

(** 418-426 *)
Definition ionic_line (accum : list (key * list pyval)) (line : str) : result (list (key * list pyval)) :=
  match re_match IONIC_CONSTRAINTS_RE line with
  | None => Ok accum
  | Some x =>
      ind <- atreg_match x ;;
      v <- to_tuple TFloat (split (group_s x "val")) ;;
      stack_dict true accum [(ind, v)]
  end.
Definition parse_ionic_constraints (block : list str) : result pyval :=
  accum <- foldM ionic_line block [] ;; Ok (VDict false (map (fun kv => (fst kv, VList (snd kv))) accum)).

(** 450-455: one match *)
Definition nonlinear_atom (x : mres) : result (key * pyval) :=
  ind <- atreg_match x ;; v <- to_tuple TInt (map (group_s x) FST_D) ;; Ok (ind, v).
(** 443-459 *)
Definition nonlinear_line (accum : list pyval) (line : str) : result (list pyval) :=
  if is_endblock line then Ok accum
  else
    ' (k, rest) <- unpack_split1 line ;;
    atoms <- mapM nonlinear_atom (finditer ATOMIC_DATA_3VEC rest) ;;
    Ok (accum ++ [VDict false [(kstr "key", VStr k); (kstr "atoms", VDict false (dict_of key_eqb atoms))]]).
Definition parse_nonlinear_constraints (block : list str) : result pyval :=
  rmap VList (foldM nonlinear_line block []).

(** 482-500: one line.  State: the atoms so far, the counter. *)
Definition position_line (units : option str) (st : dict * list (str * Z)) (line : str) : result (dict * list (str * Z)) :=
  let (accum, count) := st in
  match re_match POSITIONS_LINE_RE line with
  | None => Ok st
  | Some x =>
      let spec := group_s x "spec" in
      let n := (match dget str_eqb count spec with Some n => n | None => 0 end + 1)%Z in
      pos <- to_tuple TFloat (split (group_s x "pos")) ;;
      let info := (kstr "pos", pos) :: match units with Some u => [(kstr "units", VStr u)] | None => [] end in
      info <- match re_search POSITIONS_SPIN_RE line with
              | Some y => v <- to_type TFloat (VStr (group_s y "spin")) ;; Ok (info ++ [(kstr "spin", v)])
              | None => Ok info
              end ;;
      info <- match re_search POSITIONS_MIXTURE_RE line with
              | Some y => a <- to_type TInt (VStr (group_s y "mix")) ;;
                          b <- to_type TFloat (VStr (group_s y "ratio")) ;;
                          Ok (info ++ [(kstr "mix_index", a); (kstr "weight", b)])
              | None => Ok info
              end ;;
      Ok (dset key_eqb accum (KTuple [KStr spec; KInt n]) (VDict false info), dset str_eqb count spec n)
  end.
(** 476-502 *)
Definition parse_positions (absolute : bool) (block : list str) : result pyval :=
  ' (units, block) <- (if absolute then ' (u, b) <- get_block_units block ($"Ang") ;; Ok (Some u, b) else Ok (None, block)) ;;
  ' (accum, _) <- foldM (position_line units) block ([], []) ;;
  Ok (VDict false accum).

(** 528-531, 569-571: [{key: to_type(val, ...) for key, val in COLON_SEP_RE.findall(line)}] *)
Definition colon_dict (line : str) : result pyval :=
  l <- mapM (fun x => v <- auto_type (group_s x "val") ;; Ok (KStr (group_s x "key"), v)) (finditer COLON_SEP_RE line) ;;
  Ok (VDict false (dict_of key_eqb l)).
(** 521-531 *)
Definition hubbard_line (accum : dict) (line : str) : result dict :=
  if is_endblock line then Ok accum
  else match re_match HUBBARD_RE line with
  | None => Ok accum
  | Some x =>
      spec <- match cap (m_caps x) "2" with
              | Some d => n <- py_int d ;; Ok (KTuple [KStr (group_s x "1"); KInt n])
              | None => Ok (KStr (group_s x "1"))
              end ;;
      v <- colon_dict (str_remove (m_text x) line) ;;
      Ok (dset key_eqb accum spec v)
  end.
(** 519-533 *)
Definition parse_hubbard_u (block : list str) : result pyval :=
  ' (u, block) <- get_block_units block ($"eV") ;;
  rmap (VDict false) (foldM hubbard_line block [(kstr "units", VStr u)]).

(** 564-571 *)
Definition sedc_line (accum : dict) (line : str) : result dict :=
  if is_endblock line then Ok accum
  else
    ' (spec, rest) <- unpack_split1 (strip line) ;;
    v <- colon_dict rest ;;
    Ok (dset key_eqb accum (KStr spec) v).
(** 550-573 *)
Definition parse_sedc (block : list str) : result pyval :=
  match block with
  | [] => Err StopIteration
  | l :: rest =>
      let '(e, d, block) := match split l with
                            | [e; d] => (e, d, rest)
                            | _ => ($"eV", $"Ang", block)
                            end in
      rmap (VDict false) (foldM sedc_line block
        [(kstr "units", VDict false [(kstr "energy", VStr e); (kstr "distance", VStr d)])])
  end.

(** 590: [tmp] *)
Definition symop_rows (block : list str) : result (list pyval) :=
  rmap (@concat pyval)
    (mapM (fun line => match findall FLOAT_RAT_RE line with
                       | [] => Ok []
                       | ns => v <- to_tuple TFloat ns ;; Ok [v]
                       end) block).
(** 592-598 *)
Fixpoint symops_of (fuel : nat) (tmp : list pyval) : result (list pyval) :=
  match fuel with
  | O => Err OutOfFuel
  | S f =>
      match tmp with
      | [] => Ok []
      | _ => t <- nthE tmp 3 ;;
             ops <- symops_of f (skipn 4 tmp) ;;
             Ok (VDict false [(kstr "r", VList (firstn 3 tmp)); (kstr "t", t)] :: ops)
      end
  end.
Definition parse_symops (block : list str) : result pyval :=
  tmp <- symop_rows block ;; rmap VList (symops_of (S (length tmp)) tmp).

(** 618-629: one line; state ([xc], [params]) *)
Definition xc_line (st : dict * dict) (line : str) : result (dict * dict) :=
  let (xc, params) := st in
  ' (k, v) <- unpack_split1 line ;;
  let k := normalise_key k in
  if str_eqb k ($"nlxc_screening_length") then
    f <- py_float_builtin v ;; Ok (xc, dset key_eqb params (KStr k) (VFloat f))
  else if str_eqb k ($"nlxc_screening_function") then Ok (xc, dset key_eqb params (KStr k) (VStr v))
  else if existsb (str_eqb k) [$"nlxc_ppd_int"; $"nlxc_divergence_corr"] then
    Ok (xc, dset key_eqb params (KStr k) (VBool (str_eqb (upper v) ($"ON"))))
  else f <- py_float_builtin v ;; Ok (dset key_eqb xc (KStr k) (VFloat f), params).
(** 615-631 *)
Definition parse_xc_definition (block : list str) : result pyval :=
  ' (xc, params) <- foldM xc_line (strip_comments [$"#"; $"!"] false (l_remove_bounds 0 1 block)) ([], []) ;;
  Ok (VDict false [(kstr "xc", VDict false xc); (kstr "params", VDict false params)]).

(** 678-700: one line; state: [block_data["data"]] (a list, or a dict), the units *)
Inductive gdata := GList (l : list pyval) | GDict (d : dict).
Definition general_line (st : gdata * option str) (line : str) : result (gdata * option str) :=
  let (data, units) := st in
  let line := uncomment line in
  if re_match_test SPEC_PROP_RE line then
    let d := match data with GList _ => [] | GDict d => d end in
    ' (spec, v) <- unpack_split1 (strip line) ;;
    v <- auto_type v ;;
    Ok (GDict (dset key_eqb d (KStr spec) v), units)
  else match findall FLOAT_RAT_RE line with
  | [] => if is_endblock line then Ok st else Ok (data, Some (strip line))
  | ns => match data with
          | GDict _ => Err AssertionError
          | GList l => v <- to_tuple TFloat ns ;; Ok (GList (l ++ [v]), units)
          end
  end.
(** 676-702; "data" is the first entry, "units" is added when first met *)
Definition parse_general (block : list str) : result pyval :=
  ' (data, units) <- foldM general_line block (GList [], None) ;;
  Ok (VDict false ((kstr "data", match data with GList l => VList l | GDict d => VDict false d end)
                   :: match units with Some u => [(kstr "units", VStr u)] | None => [] end)).

(** ** The file *)
Section File.
  (** The block parsers modelled in [Pspot.v]: [_parse_devel_code_block] and
      [_parse_species_pot]. *)
  Context (devel_code species_pot : list str -> result pyval).

  (** 704-726, and 149 *)
  Definition block_parser (title : str) : list str -> result pyval :=
    match dget str_eqb (map (fun x => ($(fst x), snd x))
      [("devel_code", devel_code); ("ionic_constraints", parse_ionic_constraints);
       ("nonlinear_constraints", parse_nonlinear_constraints); ("positions_frac", parse_positions false);
       ("positions_frac_intermediate", parse_positions false); ("positions_frac_product", parse_positions false);
       ("positions_abs", parse_positions true); ("positions_abs_intermediate", parse_positions false);
       ("positions_abs_product", parse_positions false); ("positions_aspectral_intermediate", parse_positions false);
       ("positions_aspectral_product", parse_positions false); ("species_pot", species_pot);
       ("sedc_custom_params", parse_sedc); ("hubbard_u", parse_hubbard_u); ("symmetry_ops", parse_symops);
       ("xc_definition", parse_xc_definition)]%string) title with
    | Some f => f
    | None => parse_general
    end.

  (** 151-172: one line that does not open a block *)
  Definition keyword_line (curr : dict) (line : str) : result dict :=
    match re_match PARAM_VALUE_RE line with
    | None => Ok curr
    | Some x =>
        let k := KStr (lower (strip (group_s x "key"))) in
        match cap (m_caps x) "str" with
        | Some v => v' <- to_type (determine_type v) (VStr (strip v)) ;; Ok (dset key_eqb curr k v')
        | None =>
            let v := group_s x "val" in
            v' <- (if chr_in " " (strip v) then to_tuple (determine_type v) (split v)
                   else to_type (determine_type v) (VStr v)) ;;
            match cap (m_caps x) "unit" with
            | Some (c :: u) => Ok (dset key_eqb curr k (VTuple [v'; VStr (strip (c :: u))]))
            | _ => Ok (dset key_eqb curr k v')
            end
        end
    end.
  (** 131-174.  Every step takes at least one line. *)
  Fixpoint cell_loop (fuel : nat) (curr : dict) (ls : list str) : result dict :=
    match fuel with
    | O => Err OutOfFuel
    | S f =>
        match ls with
        | [] => Ok curr
        | line :: ls =>
            let line := uncomment line in
            let (blk, rest) := l_from_re line ls (re_test BLOCK_RE) (re_test ENDBLOCK_RE) 1 false in
            blk <- blk ;;
            if l_bool blk then
              first <- match blk with [] => Err StopIteration | l :: _ => Ok l end ;;
              w <- nthE (split first) 1 ;;
              let title := lower w in
              v <- block_parser title (strip_comments [$"#"; $"!"] true (tl blk)) ;;
              cell_loop f (dset key_eqb curr (KStr title) v) rest
            else
              curr <- keyword_line curr line ;; cell_loop f curr rest
        end
    end.
  Definition parse_cell_param_file (ls : list str) : result pyval :=
    d <- cell_loop (S (length ls)) [] ls ;; Ok (VList [VDict false d]).
End File.
