(** castep_outputs/parsers/cell_param_file_parser.py: pseudopotential strings,
    the SPECIES_POT block and the DEVEL_CODE block. *)
From Verif Require Import PyBase PyVal Regex CastepRes StrUtil TypeConv DictUtil Stream Header TextFiles CellParam CastepBlocks CastepNum CastepRows.
Local Open Scope list_scope.
Local Open Scope nat_scope.

(** castep_res.py 317 *)
Definition FP_NUM_RE : re :=
  RAlt (RSeqs [RPlus c_digit; ROpt (RChar "."); RStar c_digit]) (RSeqs [RStar c_digit; RChar "."; RPlus c_digit]).
(** castep_res.py 319 *)
Definition PSPOT_SHELL_RE : re := RSeq SHELL_RE (ROpt FNUMBER_RE).
(** castep_res.py 320 *)
Definition PROJ_TYPES : string := "UNGHLP".
(** castep_res.py 321-329 *)
Definition PSPOT_PROJ_RE : re :=
  RSeqs [RGrp "type" (c_of PROJ_TYPES); ROpt (RGrp "beta_rc" FP_NUM_RE);
         ROpt (RSeq (RAlt (RSeq (RChar "=") (ROpt (c_of "+-"))) (c_of "+-")) (RGrp "beta_e" FP_NUM_RE));
         ROpt (RSeq (RChar "@") (RGrp "beta_delta" FP_NUM_RE))].
(** castep_res.py 355-366 *)
Definition bare_float (n : string) : re := labelled_floats_gen REps REps [(n, None)].
Definition PSPOT_INFO_RE : re :=
  RSeqs [RBol; ROpt (RChar "-"); ROpt (labelled_floats_gen lf_sep (RChar "=") [("local_energy"%string, None)]);
         ROpt (RChar "-"); RGrp "local_channel" (RPlus c_digit); ROpt (RChar "-"); RChar "|";
         bare_float "core_radius"; RChar "|"; ROpt (RSeq (bare_float "beta_radius") (RChar "|"));
         RCond "beta_radius" (RSeq (bare_float "r_inner") (RChar "|")) REps;
         RSeq (bare_float "coarse") (RChar "|"); RSeq (bare_float "medium") (RChar "|");
         RSeq (bare_float "fine") (RChar "|")].
(** castep_res.py 371 *)
Definition PSPOT_FULL_LAZY : re := RSeq PSPOT_INFO_RE (RPlus c_nspace).
(** castep_res.py 373-375 *)
Definition shell_list : re := RSeq PSPOT_SHELL_RE (RStar (RSeq (RChar ",") PSPOT_SHELL_RE)).
Definition PSPOT_TEST_RE : re := RSeqs [RChar "["; RGrp "1" (ROpt shell_list); RChar "]"].
Definition PSPOT_ADJ_RE : re := RSeqs [RChar "{"; RGrp "1" shell_list; RChar "}"].
Definition PSPOT_FLAG_RE : re := RSeqs [RChar "("; RGrp "1" (RPlus (c_notof ")")); RChar ")"].

(** ** 181-241, [debug=False] *)
(** strip_nones (utility.py 116-146) for chosen keys; the order of the keys does not matter. *)
Definition without_nones (names : list string) (d : dict) : dict :=
  filter (fun kv => negb (existsb (fun n => key_eqb (fst kv) (kstr n)) names &&
                          match snd kv with VNone => true | _ => false end)) d.
(** 216 *)
Definition PROJ_RE : re := RSeq (c_of PROJ_TYPES) (RStar (c_notof PROJ_TYPES)).
(** 217-231 *)
Definition projector (s : str) : result pyval :=
  match re_match PSPOT_PROJ_RE s with
  | None => Err ValueError
  | Some x =>
      rmap (VDict false)
        (fix_data_types (without_nones ["beta_delta"; "beta_e"; "beta_rc"]%string (groupdict PSPOT_PROJ_RE x))
           (as_floats ["beta_delta"; "beta_e"; "beta_rc"]%string))
  end.
(** [string[i]] *)
Definition char_at (s : str) (i : nat) : result str := rmap (fun c => [c]) (nthE s i).
(** [SHELLS[i]] for a nonnegative [i]; constants.py 6 *)
Definition SHELL_NAMES : list str := [$"s"; $"p"; $"d"; $"f"].
Definition parse_beta_function (s : str) : result pyval :=
  ps <- mapM projector (findall PROJ_RE (skipn 2 s)) ;;
  o <- (c <- char_at s 0 ;; py_int c) ;;
  i <- (c <- char_at s 1 ;; py_int c) ;;
  n <- nthE SHELL_NAMES (Z.to_nat i) ;;
  Ok (VDict false [(kstr "orbital", VInt o); (kstr "shell", VStr n); (kstr "shell_ind", VInt i);
                   (kstr "projectors", VList ps)]).

(** ** 244-325, [debug=False] *)
(** The text before the first ["|"]; all but the last character when there is none (268) *)
Definition before_bar (s : str) : str :=
  if chr_in "|" s then take_while (fun c => negb (Ascii.eqb c "|")) s else removelast s.
(** 274: the last "-" before the first ["|"] is removed *)
Definition POLYFIT_RE : re :=
  RSeqs [RBol; RGrp "1" (RStar (c_notof "|")); RChar "-"; RGrp "2" (RStar (c_notof "|")); RChar "|"].
Definition drop_polyfit (s : str) : str :=
  match re_match POLYFIT_RE s with
  | Some x => group_s x "1" ++ group_s x "2" ++ $"|" ++ m_rest x
  | None => s
  end.
(** 276-290: what is between the marks, and the string without it *)
Definition pspot_part (mark : ascii) (r : re) (s : str) : result (pyval * str) :=
  if chr_in mark s then
    match search_from r None s with
    | None => Err ValueError
    | Some (pre, x) => Ok (VList (map VStr (split_chr "," (group_s x "1"))), pre ++ m_rest x)
    end
  else Ok (VNone, s).
Definition parse_pspot_string (s : str) : result pyval :=
  let print := chr_in "[" s in
  let poly := chr_in "-" (before_bar s) in
  let s1 := drop_polyfit s in
  ' (adj, s2) <- pspot_part "{" PSPOT_ADJ_RE s1 ;;
  ' (tst, s3) <- pspot_part "[" PSPOT_TEST_RE s2 ;;
  ' (flg, s4) <- pspot_part "(" PSPOT_FLAG_RE s3 ;;
  match re_match PSPOT_INFO_RE s4 with
  | None => Err ValueError
  | Some x =>
      let rest := m_rest x in
      bs <- mapM parse_beta_function (split_chr ":" rest) ;;
      let d := update [(kstr "print", VBool print); (kstr "poly_fit", VBool poly); (kstr "beta_functions", VList bs);
                       (kstr "string", VStr s); (kstr "adjustment", adj); (kstr "testing", tst); (kstr "flags", flg)]
                 (groupdict PSPOT_INFO_RE x) in
      let d := dset key_eqb d (kstr "beta_function_string") (VStr rest) in
      let d := without_nones ["local_energy"; "beta_radius"; "r_inner"; "adjustment"; "testing"; "flags"]%string d in
      rmap (VDict false)
        (fix_data_types d (as_floats ["beta_radius"; "coarse"; "core_radius"; "fine"; "local_channel"; "local_energy";
                                      "medium"; "r_inner"]%string))
  end.

(** ** 634-659 *)
Definition species_pot_line (d : dict) (line : str) : result dict :=
  match split1 line with
  | [spec] => Ok (dset key_eqb d KNone (VStr spec))
  | [spec; pot] =>
      v <- (if re_test PSPOT_FULL_LAZY pot then parse_pspot_string pot else Ok (VStr pot)) ;;
      Ok (dset key_eqb d (KStr spec) v)
  | _ => Ok d
  end.
Definition parse_species_pot (ls : list str) : result pyval :=
  rmap (VDict false) (foldM species_pot_line (l_remove_bounds 0 1 ls) []).

(** ** 328-401 *)
Definition c_namechar : re := RChr is_word.   (* [A-Za-z0-9_] *)
(** castep_res.py 597 *)
Definition DEVEL_CODE_VAL_RE : re :=
  RSeqs [RPlus c_namechar; c_of ":="; RPlus (RChr (fun c => negb (Ascii.eqb c " " || Ascii.eqb c tab || Ascii.eqb c newline || Ascii.eqb c ";")))].
(** castep_res.py 599, for text in lower case *)
Definition DEVEL_CODE_BLOCK_GENERIC_RE : re :=
  RSeqs [RGrp "1" (RPlus c_namechar); RChar ":"; RStar c_any; RLit ":end"; RBackref "1"].
(** 343 *)
Definition ENDBLOCK_DEVEL_RE : re := RSeqs [RLitI "%endblock"; ws_plus; RLitI "devel_code"].
(** 345: the blocks and their titles.  Ignoring case is the same as looking at the
    text in lower case, then taking the same places of the text itself. *)
Fixpoint cut_along (s : str) (l : list (str * mres)) : list (str * str) :=
  match l with
  | [] => []
  | (pre, x) :: l' =>
      let s1 := skipn (length pre) s in
      (firstn (length (group_s x "1")) s1, firstn (length (m_text x)) s1) :: cut_along (skipn (length (m_text x)) s1) l'
  end.
Definition devel_blocks (s : str) : list (str * str) :=
  cut_along s (iter_from (S (length s)) DEVEL_CODE_BLOCK_GENERIC_RE None (lower s)).
(** 355-358, 377-384: [re.split(r"[:=]", ...)] into exactly two *)
Fixpoint split_on (f : ascii -> bool) (s : str) : list str :=
  match s with
  | [] => [[]]
  | c :: s' => if f c then [] :: split_on f s'
               else match split_on f s' with [] => [[c]] | w :: ws => (c :: w) :: ws end
  end.
Definition key_value (par : str) : result (str * pyval) :=
  match split_on (fun c => Ascii.eqb c ":" || Ascii.eqb c "=") par with
  | [k; v] => x <- auto_type v ;; Ok (normalise_key k, x)
  | _ => Err ValueError
  end.
(** 352-365 *)
Definition devel_block (text : str) : result dict :=
  bs <- nthE (split_chr ":" text) 1 ;;
  let pars := findall DEVEL_CODE_VAL_RE bs in
  d <- foldM (fun d par => ' (k, v) <- key_value par ;; Ok (dset key_eqb d (KStr k) v)) pars [] ;;
  let left := fold_left (fun s par => str_remove par s) pars bs in
  if isempty (strip left) then Ok d
  else ws <- mapM auto_type (split left) ;; Ok (dset key_eqb d (kstr "data") (VList ws)).
(** 381-382, 396-397 *)
Definition free_name (d : dict) (k : str) : key :=
  if dmem key_eqb d (KStr k) then KStr ("_"%char :: k) else KStr k.
(** 387-391 *)
Definition PRESENT_RE : re :=
  RSeqs [RBehind false (fun c => Ascii.eqb c ":" || Ascii.eqb c "="); RWordB;
         RPlus (RChr (fun c => is_alpha c || Ascii.eqb c "_" || Ascii.eqb c "-")); RWordB; RAhead false (c_of ":=")].
(** 350-373: one block of the text *)
Definition devel_group (st : dict * str) (b : str * str) : result (dict * str) :=
  let (d, main) := st in
  e <- devel_block (snd b) ;;
  let k := KStr (normalise_key (fst b)) in
  let v := match dget key_eqb d k with Some (VDict f old) => VDict f (update old e) | _ => VDict false e end in
  Ok (dset key_eqb d k v, str_remove (snd b) main).
Definition parse_devel_code_block (ls : list str) : result pyval :=
  let main := re_sub ENDBLOCK_DEVEL_RE [] (join ($" ") (map strip ls)) in
  ' (d, main') <- foldM devel_group (devel_blocks main) ([], main) ;;
  d <- foldM (fun d par => ' (k, v) <- key_value par ;; Ok (dset key_eqb d (free_name d k) v))
         (findall DEVEL_CODE_VAL_RE main') d ;;
  Ok (VDict false (fold_left (fun d par => dset key_eqb d (free_name d (normalise_key par)) VNone)
                     (findall PRESENT_RE main') d)).
