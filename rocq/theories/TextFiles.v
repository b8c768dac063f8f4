(** The parsers of files made of delimited blocks: .phonon, .phonon_dos, .efield,
    .elastic, .tddft, .ts and .magres; and of .epme and .xrd_sf.
    Files are given by their lines (with their newlines). *)
From Verif Require Import PyBase PyVal Regex CastepRes TypeConv DictUtil StrUtil Stream Header TextParsers MdGeom.
Local Open Scope list_scope.
Local Open Scope nat_scope.

(** ** Shared shapes *)
(** [for line in file: ...] where the body may take further lines of the file. *)
Fixpoint file_loop {A} (step : A -> str -> list str -> result (A * list str)) (fuel : nat) (st : A) (ls : list str)
  : result A :=
  match ls with
  | [] => Ok st
  | l :: rest =>
      match fuel with
      | O => Err OutOfFuel
      | S f => ' (st', rest') <- step st l rest ;; file_loop step f st' rest'
      end
  end.
Definition over_file {A} (step : A -> str -> list str -> result (A * list str)) (st : A) (ls : list str) : result A :=
  file_loop step (length ls) st ls.
(** [if block := Block.from_re(line, file, start, end, ...): yes
     else: no] *)
Definition if_block {B} (line : str) (rest : list str) (startp endp : str -> bool) (n : nat) (eof : bool)
    (yes : list str -> list str -> result B) (no : list str -> result B) : result B :=
  match l_from_re line rest startp endp n eof with
  | (Err e, _) => Err e
  | (Ok b, rest') => if l_bool b then yes b rest' else no rest'
  end.
(** [d.update(e)] *)
Definition update (d e : dict) : dict := dupdate key_eqb d e.
(** The element-wise [map(complex, a, b)] *)
Definition complexes (a b : list pyval) : result (list pyval) :=
  mapM (fun p => match p with (VFloat x, VFloat y) => Ok (VComplex x y) | _ => Err TypeError end) (combine a b).
(** [l[::2]] and [l[1::2]] *)
Fixpoint evens {A} (l : list A) : list A :=
  match l with [] => [] | x :: l' => x :: match l' with [] => [] | _ :: l'' => evens l'' end end.
Definition odds {A} (l : list A) : list A := match l with [] => [] | _ :: l' => evens l' end.
(** [float(s)] *)
Definition float_of (s : str) : result pyval := rmap VFloat (py_float_builtin s).
(** A regular expression made from group names found in the file: [re.compile]
    rejects names that are not identifiers and repeated names.  (A name with ">" in
    it is rejected here too; CPython would split the name there.) *)
Definition identifier (s : str) : bool :=
  match s with [] => false | c :: _ => negb (is_digit c) && forallb is_word s end.
Fixpoint distinct (l : list str) : bool :=
  match l with [] => true | x :: l' => negb (existsb (str_eqb x) l') && distinct l' end.
Definition group_labels (l : list str) : result (list string) :=
  if forallb identifier l && distinct l then Ok (map string_of_list_ascii l) else Err ReError.
(** constants.py 12 *)
Definition SND_D : list string := ["xx"; "yy"; "zz"; "yz"; "xz"; "xy"]%string.

(** ** parsers/phonon_file_parser.py *)
(** [qdata] and how many entries at the end of [phonon_info["qpts"]] are this very object *)
Record pstate := { p_info : dict; p_end : option str; p_q : option (dict * nat) }.
(** [format(n, ">4")] *)
Definition format4 (v : option pyval) : result str :=
  match v with
  | Some (VInt z) => let s := str_of_Z z in Ok (repeat " "%char (4 - length s) ++ s)
  | _ => Err TypeError
  end.
(** 69-75 *)
Definition phonon_header (st : pstate) (block : list str) : result pstate :=
  data <- parse_regular_header [] block ;;
  let info := update (p_info st) data in
  if negb (dmem key_eqb info (KStr [])) then Err KeyError else
  let info := ddel key_eqb info (KStr []) in
  b <- format4 (dget key_eqb info (kstr "branches")) ;;
  i <- format4 (dget key_eqb info (kstr "ions")) ;;
  Ok {| p_info := info; p_end := Some (b ++ i); p_q := p_q st |}.
(** [s[a:b]] *)
Definition cols (a b : nat) (s : str) : str := firstn (b - a) (skipn a s).
(** 97-106 *)
Definition phonon_mode (q : dict) (line : str) : result dict :=
  v <- float_of (cols 8 23 line) ;;
  q <- append_to q (kstr "eigenvalues") v ;;
  q <- (if isempty (strip (cols 31 46 line)) then Ok q
        else v <- float_of (cols 31 46 line) ;; append_to q (kstr "ir_intensity") v) ;;
  if isempty (strip (cols 55 70 line)) then Ok q
  else v <- float_of (cols 55 70 line) ;; append_to q (kstr "raman_intensity") v.
(** 77-106 *)
Definition phonon_qpt (st : pstate) (line : str) (block : list str) : result pstate :=
  match split line with
  | _ :: _ :: x :: y :: z :: w :: dir =>
      pos <- to_tuple TFloat [x; y; z] ;;
      wt <- float_of w ;;
      q <- (match dir with
            | [] => Ok [(kstr "qpt", pos); (kstr "weight", wt)]
            | _ => d <- to_tuple TFloat dir ;; Ok [(kstr "qpt", pos); (kstr "weight", wt); (kstr "dir", d)]
            end) ;;
      match dget key_eqb (p_info st) (kstr "branches") with
      | Some (VInt n) =>
          if (Z.of_nat (length block) - 2 =? n)%Z then
            q <- foldM phonon_mode (l_remove_bounds 1 1 block) q ;;
            Ok {| p_info := p_info st; p_end := p_end st; p_q := Some (q, 0) |}
          else Err ValueError
      | _ => Err ValueError
      end
  | _ => Err ValueError
  end.
(** 120-124 *)
Definition phonon_vector (q : dict) (line : str) : result dict :=
  match split line with
  | _ :: _ :: ws =>
      vs <- to_types TFloat ws ;;
      cs <- complexes (evens vs) (odds vs) ;;
      append_to q (kstr "eigenvectors") (VTuple cs)
  | _ => Err ValueError
  end.
(** 126: [phonon_info["qpts"].append(qdata)]; [n] entries at the end are [qdata] already *)
Definition append_same (info : dict) (n : nat) (q : dict) : result dict :=
  match dget key_eqb info (kstr "qpts") with
  | None => Ok (dset key_eqb info (kstr "qpts") (VList [VDict true q]))
  | Some (VList l) =>
      Ok (dset key_eqb info (kstr "qpts") (VList (firstn (length l - n) l ++ repeat (VDict true q) (S n))))
  | Some _ => Err AttributeError
  end.
(** 108-126.  The variable [qdata] may be unbound. *)
Definition phonon_modes (st : pstate) (block : list str) : result pstate :=
  match dget key_eqb (p_info st) (kstr "branches"), dget key_eqb (p_info st) (kstr "ions") with
  | Some (VInt b), Some (VInt i) =>
      if (Z.of_nat (length block) - 1 =? b * i)%Z then
        match p_q st with
        | Some (q, n) =>
            q <- foldM phonon_vector (l_remove_bounds 1 0 block) q ;;
            info <- append_same (p_info st) n q ;;
            Ok {| p_info := info; p_end := p_end st; p_q := Some (q, S n) |}
        | None => Err UnboundLocalError
        end
      else Err ValueError
  | _, _ => Err TypeError
  end.
(** 68-126: one line of the file (and the block it starts) *)
Definition phonon_step (st : pstate) (line : str) (rest : list str) : result (pstate * list str) :=
  if_block line rest (contains ($"BEGIN header")) (contains ($"END header")) 1 false
    (fun b rest => st <- phonon_header st b ;; Ok (st, rest))
    (fun rest => if_block line rest (contains ($"q-pt")) (contains ($"Phonon Eigenvectors")) 1 false
      (fun b rest => st <- phonon_qpt st line b ;; Ok (st, rest))
      (fun rest =>
         match p_end st with
         | None => Err UnboundLocalError
         | Some e =>
             if_block line rest (contains ($"Mode Ion")) (contains e) 1 false
               (fun b rest => st <- phonon_modes st b ;; Ok (st, rest))
               (fun rest => Ok (st, rest))
         end)).
(** 45-128 *)
Definition parse_phonon_file (ls : list str) : result pyval :=
  st <- over_file phonon_step {| p_info := []; p_end := None; p_q := None |} ls ;;
  Ok (VDict true (p_info st)).

(** ** parsers/phonon_dos_file_parser.py *)
(** castep_res.py 576-582 *)
Definition PHONON_PHONON_RE : re :=
  RSeqs [ws_plus; RLit "q-pt="; ws_star; INTNUMBER_RE; ws_star;
         labelled_floats_gen lf_sep REps [("qpt", Some (3, 3)); ("pth", Some (1, 1))]%string].
(** castep_res.py 584 *)
Definition PROCESS_PHONON_PHONON_RE : re := labelled_floats ["n"; "f"; "Grad_qf"]%string.
(** 93-98 *)
Definition fix_gradients (q : dict) : result dict :=
  fix_data_types q [(kstr "qpt", TFloat); (kstr "pth", TFloat); (kstr "n", TInt); (kstr "f", TFloat);
                    (kstr "Grad_qf", TFloat)].
(** 102-104 and 114-116: [if qdata: fix(qdata); info["gradients"].append(qdata)] *)
Definition keep_gradients (info q : dict) : result dict :=
  match q with
  | [] => Ok info
  | _ => q <- fix_gradients q ;; append_to info (kstr "gradients") (VDict true q)
  end.
(** 100-112 *)
Definition gradient_line (st : dict * dict) (line : str) : result (dict * dict) :=
  let (info, q) := st in
  match re_match PHONON_PHONON_RE line with
  | Some x =>
      info <- keep_gradients info q ;;
      Ok (info, dict_of key_eqb (map (fun n => (kstr n, VList (map VStr (split (group_s x n))))) ["qpt"; "pth"]%string))
  | None =>
      match re_match PROCESS_PHONON_PHONON_RE line with
      | Some x => q <- stack_vals q (groupdict PROCESS_PHONON_PHONON_RE x) ;; Ok (info, q)
      | None => Ok (info, q)
      end
  end.
(** 88-116 *)
Definition dos_gradients (info : dict) (block : list str) : result dict :=
  ' (info, q) <- foldM gradient_line block (info, []) ;; keep_gradients info q.
(** [for line in block: stack_dict(out, regex.match(line).groupdict())] *)
Definition stack_row (r : re) (out : list (key * list pyval)) (line : str) : result (list (key * list pyval)) :=
  match re_match r line with
  | Some x => stack_dict true out (groupdict r x)
  | None => Err AttributeError
  end.
(** A table of floats, stored under [k] if it has rows *)
Definition keep_table (info : dict) (k : key) (heads : list key) (rows : list (key * list pyval)) : result dict :=
  match rows with
  | [] => Ok info
  | _ => d <- fix_data_types (lists_val rows) (map (fun h => (h, TFloat)) heads) ;; append_to info k (VDict true d)
  end.
(** 118-136 *)
Definition dos_table (info : dict) (block : list str) : result dict :=
  first <- nthE block 0 ;;
  heads <- group_labels ($"freq" :: $"g" :: skipn 5 (split first)) ;;
  rows <- foldM (stack_row (labelled_floats heads)) (l_remove_bounds 1 2 block) [] ;;
  keep_table info (kstr "dos") (map kstr heads) rows.
(** 83-136 *)
Definition phonon_dos_step (info : dict) (line : str) (rest : list str) : result (dict * list str) :=
  if_block line rest (contains ($"BEGIN header")) (contains ($"END header")) 1 false
    (fun b rest => data <- parse_regular_header [] b ;; Ok (update info data, rest))
    (fun rest => if_block line rest (contains ($"BEGIN GRADIENTS")) (contains ($"END GRADIENTS")) 1 false
      (fun b rest => info <- dos_gradients info b ;; Ok (info, rest))
      (fun rest => if_block line rest (contains ($"BEGIN DOS")) (contains ($"END DOS")) 1 false
        (fun b rest => info <- dos_table info b ;; Ok (info, rest))
        (fun rest => Ok (info, rest)))).
(** 65-138 *)
Definition parse_phonon_dos_file (ls : list str) : result pyval :=
  rmap (VDict true) (over_file phonon_dos_step [] ls).

(** ** parsers/efield_file_parser.py *)
(** 84 *)
Definition OSCILLATOR_RE : re := RSeqs [ws_star; RGrp "freq" INTNUMBER_RE; labelled_floats SND_D].
(** 97 *)
Definition PERMITTIVITY_RE : re := labelled_floats ("freq" :: SND_D)%string.
(** 81-89 and 94-102 *)
Definition efield_table (k : key) (r : re) (info : dict) (block : list str) : result dict :=
  rows <- foldM (stack_row r) (l_remove_bounds 1 2 block) [] ;;
  keep_table info k (map kstr ("freq" :: SND_D)%string) rows.
(** 71-102 *)
Definition efield_step (info : dict) (line : str) (rest : list str) : result (dict * list str) :=
  if_block line rest (contains ($"BEGIN header")) (contains ($"END header")) 1 false
    (fun b rest => data <- parse_regular_header ["Oscillator Q"%string] b ;; Ok (update info data, rest))
    (fun rest => if_block line rest (contains ($"BEGIN Oscillator Strengths"))
                   (contains ($"END Oscillator Strengths")) 1 false
      (fun b rest => info <- efield_table (kstr "oscillator_strengths") OSCILLATOR_RE info b ;; Ok (info, rest))
      (fun rest => if_block line rest (contains ($"BEGIN permittivity")) (contains ($"END permittivity")) 1 false
        (fun b rest => info <- efield_table (kstr "permittivity") PERMITTIVITY_RE info b ;; Ok (info, rest))
        (fun rest => Ok (info, rest)))).
(** 52-104 *)
Definition parse_efield_file (ls : list str) : result pyval :=
  rmap (VDict true) (over_file efield_step [] ls).

(** ** parsers/elastic_file_parser.py *)
(** castep_res.py 638 *)
Definition ELASTIC_BLOCK_RE : re :=
  RSeqs [ws_star; RLit "BEGIN "; RGrp "key" (RPlus (c_notof "("));
         ROpt (RSeqs [RChar "("; RGrp "unit" (RPlus (c_notof ")")); RChar ")"])].
(** castep_res.py 639-643 *)
Definition ELASTIC_INTERNAL_STRAIN_RE : re :=
  RSeqs [ws_star; RGrp "index" (RPlus c_digit); ws_plus; RGrp "spec" ATOM_NAME_RE; ws_plus;
         RGrp "dir" (c_of "XYZ"); ws_plus; labelled_floats SND_D].
(** [s.removesuffix(t)] *)
Definition removesuffix (t s : str) : str :=
  match strip_prefix (rev t) (rev s) with Some r => rev r | None => s end.
(** 44-45 and 57-58: key and units of a block *)
Definition elastic_head (first : str) : result (key * pyval) :=
  match re_match ELASTIC_BLOCK_RE first with
  | Some x => Ok (KStr (removesuffix ($"_xx_yy_zz_yz_zx_xy") (normalise_key (group_s x "key"))), group x "unit")
  | None => Err TypeError
  end.
(** 51-53 *)
Definition strain_line (d : dict) (line : str) : result dict :=
  match re_match ELASTIC_INTERNAL_STRAIN_RE line with
  | Some x => atom <- atreg_match x ;; v <- to_tuple TFloat (get_numbers line) ;; append_to d atom v
  | None => Err AttributeError
  end.
(** 44-53; [next(block)] has been taken before the bounds are removed *)
Definition elastic_strain (accum : dict) (block : list str) : result dict :=
  first <- nthE block 0 ;;
  ' (k, u) <- elastic_head first ;;
  d <- foldM strain_line (l_remove_bounds 1 1 block) [(kstr "units", u)] ;;
  Ok (dset key_eqb accum k (VDict true d)).
(** 61-63 *)
Definition number_rows (ls : list str) : result (list pyval) :=
  mapM (to_tuple TFloat) (filter (fun ws => negb (isempty ws)) (map get_numbers ls)).
(** 57-63 *)
Definition elastic_block (accum : dict) (block : list str) : result dict :=
  first <- nthE block 0 ;;
  ' (k, u) <- elastic_head first ;;
  rows <- number_rows (skipn 1 block) ;;
  Ok (dset key_eqb accum k (VDict false [(kstr "units", u); (kstr "val", VTuple rows)])).
(** 36-63 *)
Definition elastic_step (accum : dict) (line : str) (rest : list str) : result (dict * list str) :=
  if_block line rest (contains ($"BEGIN header")) (contains ($"END header")) 1 false
    (fun b rest =>
       data <- parse_regular_header [] b ;;
       let accum := update accum data in
       if dmem key_eqb accum (KStr []) then Ok (ddel key_eqb accum (KStr []), rest) else Err KeyError)
    (fun rest => if_block line rest (contains ($"BEGIN Internal Strain")) (contains ($"END")) 1 false
      (fun b rest => accum <- elastic_strain accum b ;; Ok (accum, rest))
      (fun rest => if_block line rest (contains ($"BEGIN")) (contains ($"END")) 1 false
        (fun b rest => accum <- elastic_block accum b ;; Ok (accum, rest))
        (fun rest => Ok (accum, rest)))).
(** 20-65 *)
Definition parse_elastic_file (ls : list str) : result pyval :=
  rmap (VDict false) (over_file elastic_step [] ls).

(** ** parsers/epme_file_parser.py *)
(** [next(file)] *)
Definition next_line (ls : list str) : result (str * list str) :=
  match ls with [] => Err StopIteration | l :: ls' => Ok (l, ls') end.
(** [next(file).rsplit(maxsplit=1)[1]] *)
Definition last_word (ls : list str) : result (str * list str) :=
  ' (l, ls) <- next_line ls ;;
  match rev (split l) with
  | w :: _ :: _ => Ok (w, ls)
  | _ => Err IndexError
  end.
(** 68-78 *)
Definition epme_header (ls : list str) : result (dict * list str) :=
  ' (_, ls) <- next_line ls ;;
  ' (w, ls) <- last_word ls ;; version <- py_int w ;;
  ' (_, ls) <- next_line ls ;;
  ' (w, ls) <- last_word ls ;; volume <- float_of w ;;
  ' (w, ls) <- last_word ls ;; fermi <- float_of w ;;
  ' (w, ls) <- last_word ls ;; bands <- py_int w ;;
  ' (w, ls) <- last_word ls ;; branches <- py_int w ;;
  Ok ([(kstr "version", VInt version); (kstr "volume", volume); (kstr "fermi_energy", fermi);
       (kstr "n_bands", VInt bands); (kstr "n_branches", VInt branches)], ls).
(** [complex] of at most two floats *)
Definition complex_of (vs : list pyval) : result pyval :=
  match vs with
  | [] => Ok (VComplex (FQ 0) (FQ 0))
  | [VFloat a] => Ok (VComplex a (FQ 0))
  | [VFloat a; VFloat b] => Ok (VComplex a b)
  | _ => Err TypeError
  end.
(** 107-112 *)
Definition epme_row (ki kf : pyval) (line : str) : result pyval :=
  let data := split line in
  ints <- to_types TInt (firstn 3 data) ;;
  match ints with
  | [ph; bi; bf] =>
      es <- to_types TFloat (firstn 2 (skipn 3 data)) ;;
      match es with
      | [ei; ef] =>
          va <- to_types TFloat (firstn 3 (skipn 5 data)) ;;
          vb <- to_types TFloat (firstn 3 (skipn 8 data)) ;;
          m <- to_types TFloat (firstn 2 (skipn 11 data)) ;;
          c <- complex_of m ;;
          Ok (VDict false [(kstr "kpt_i", ki); (kstr "kpt_f", kf); (kstr "ph_index", ph); (kstr "band_i", bi);
                           (kstr "band_f", bf); (kstr "e_i", ei); (kstr "e_f", ef);
                           (kstr "velocity", VTuple [VTuple va; VTuple vb]); (kstr "e_p_matrix", c)])
      | _ => Err ValueError
      end
  | _ => Err ValueError
  end.
(** 100-113.  State: the k-points and the entries so far *)
Definition epme_step (st : pyval * pyval * list pyval) (line : str) (rest : list str)
  : result ((pyval * pyval * list pyval) * list str) :=
  let '(ki, kf, data) := st in
  if startswith ($"Electron-Phonon coupling") line then
    ks <- to_types TFloat (get_numbers line) ;;
    ' (_, rest) <- next_line rest ;;
    Ok ((VTuple (firstn 3 ks), VTuple (skipn 3 ks), data), rest)
  else r <- epme_row ki kf line ;; Ok ((ki, kf, data ++ [r]), rest).
(** 82-115 *)
Definition parse_epme_file (ls : list str) : result pyval :=
  ' (h, ls) <- epme_header ls ;;
  ' (_, data) <- over_file epme_step (VNone, VNone, []) ls ;;
  Ok (VDict false (h ++ [(kstr "data", VList data)])).

(** ** parsers/xrd_sf_file_parser.py *)
(** 57: [f"{head[3:-1]}_{head[0:2]}".lower()] *)
Definition xrd_head (head : str) : str :=
  lower (firstn (length head - 4) (skipn 3 head) ++ $"_" ++ firstn 2 head).
(** 60-61 *)
Definition xrd_re (heads : list string) : re :=
  RSeq (RGrp "qvec" (RRep true 3 (Some 3) (RSeq ws_star INTNUMBER_RE))) (labelled_floats heads).
(** [match[name]] of a groupdict *)
Definition xrd_group (r : re) (x : mres) (n : str) : result str :=
  match dget key_eqb (groupdict r x) (KStr n) with Some (VStr s) => Ok s | Some _ => Err TypeError | None => Err KeyError end.
(** 65-70; [wo]: the set [headers_wo] in its iteration order *)
Definition xrd_line (r : re) (wo : list str) (xrd : list (key * list pyval)) (line : str)
  : result (list (key * list pyval)) :=
  match re_match r line with
  | None => Err AttributeError
  | Some x =>
      row <- mapM (fun h => a <- xrd_group r x (h ++ $"_re") ;; a <- py_float_builtin a ;;
                            b <- xrd_group r x (h ++ $"_im") ;; b <- py_float_builtin b ;;
                            Ok (KStr h, VComplex a b)) wo ;;
      q <- to_tuple TInt (split (group_s x "qvec")) ;;
      stack_dict true xrd (dset key_eqb row (kstr "qvec") q)
  end.
(** A set of texts: repeated elements count once; [iter] is its iteration order. *)
Fixpoint nub (l : list str) : list str :=
  match l with [] => [] | x :: l' => x :: filter (fun y => negb (str_eqb x y)) (nub l') end.
(** 40-72 *)
Definition parse_xrd_sf_file (iter : list str -> list str) (ls : list str) : result pyval :=
  ' (first, ls) <- next_line ls ;;
  let heads := map xrd_head (skipn 3 (split first)) in
  let wo := iter (nub (map (fun h => firstn (length h - 3) h) heads)) in
  labels <- group_labels ($"qvec" :: heads) ;;
  xrd <- foldM (xrd_line (xrd_re (tl labels)) wo) ls [] ;;
  Ok (VDict true (lists_val xrd)).

(** ** parsers/tddft_file_parser.py *)
(** castep_res.py 472-480 *)
Definition TDDFT_STATE_RE : re :=
  RSeqs [ws_star; RGrp "state" (RPlus c_digit); ws_star; RGrp "occ" (RPlus c_digit); ws_star; RLit "-->";
         ws_star; RGrp "unocc" (RPlus c_digit); ws_star; labelled_floats ["overlap"]%string].
(** 76 *)
Definition TDDFT_TOTAL_RE : re := RSeq ws_star (RLit "Total overlap for state").
(** 88-90 *)
Definition TDDFT_SPECTRUM_RE : re :=
  RSeqs [ws_star; RPlus c_digit; ws_star; labelled_floats ["energy"]%string; ws_star;
         RGrp "characterisation" (RPlus c_word); ws_star; RGrp "converged" (RAlt (RLit "Yes") (RLit "No"));
         ws_star; RGrp "dipoles" (RStar c_any)].
(** 72-79: the overlaps so far and the state being read *)
Definition overlap_line (st : list pyval * dict) (line : str) : result (list pyval * dict) :=
  let (done, curr) := st in
  match re_match TDDFT_STATE_RE line with
  | Some x =>
      v <- float_of (group_s x "overlap") ;;
      o <- py_int (group_s x "occ") ;;
      u <- py_int (group_s x "unocc") ;;
      Ok (done, dset key_eqb curr (KTuple [KInt o; KInt u]) v)
  | None =>
      match re_match TDDFT_TOTAL_RE line with
      | Some _ =>
          match rev (get_numbers line) with
          | w :: _ => v <- float_of w ;; Ok (done ++ [VDict false (dset key_eqb curr (kstr "total") v)], [])
          | [] => Err IndexError
          end
      | None => Ok (done, curr)
      end
  end.
(** 87-100 *)
Definition spectrum_line (done : list pyval) (line : str) : result (list pyval) :=
  match re_match TDDFT_SPECTRUM_RE line with
  | Some x =>
      e <- float_of (group_s x "energy") ;;
      dip <- to_types TFloat (get_numbers (group_s x "dipoles")) ;;
      cs <- complexes (evens dip) (odds dip) ;;
      Ok (done ++ [VDict false [(kstr "energy", e); (kstr "characterisation", group x "characterisation");
                                (kstr "converged", VBool (str_eqb (group_s x "converged") ($"Yes")));
                                (kstr "dipoles", VList cs)]])
  | None => Ok done
  end.
Definition states_title := "Characterisation of states as Kohn-Sham bands"%string.
(** 60-100 *)
Definition tddft_step (info : dict) (line : str) (rest : list str) : result (dict * list str) :=
  if_block line rest (contains ($"BEGIN header")) (contains ($"END header")) 1 false
    (fun b rest => data <- parse_regular_header ["Higest occupied band"%string] b ;; Ok (update info data, rest))
    (fun rest => if_block line rest (contains ($"BEGIN " ++ $states_title)) (contains ($"END " ++ $states_title)) 1 false
      (fun b rest => ' (done, _) <- foldM overlap_line b ([], []) ;;
                     Ok (dset key_eqb info (kstr "overlap") (VList done), rest))
      (fun rest => if_block line rest (contains ($"BEGIN TDDFT Spectroscopic Data"))
                     (contains ($"END TDDFT Spectroscopic Data")) 1 false
        (fun b rest => done <- foldM spectrum_line b [] ;;
                       Ok (dset key_eqb info (kstr "spectroscopic_data") (VList done), rest))
        (fun rest => Ok (info, rest)))).
(** 44-102 *)
Definition parse_tddft_file (ls : list str) : result pyval :=
  rmap (VDict false) (over_file tddft_step [] ls).

(** ** parsers/ts_file_parser.py *)
(** 77 *)
Definition ts_kind : re := RAlts [RLit "REA"; RLit "PRO"; RLit "TST"].
Definition TS_HEAD_RE : re :=
  RSeqs [ws_star; RGrp "type" ts_kind; ws_star; RPlus c_digit; ws_star; labelled_floats ["reaction_coordinate"]%string].
(** constants.py 33-35 *)
Definition TS_TYPES : list (str * key) := [($"REA", kstr "reagent"); ($"PRO", kstr "product"); ($"TST", kstr "test")].
(** 82-92.  [to_type] is evaluated before [append] is looked up (as in [MdGeom.frame_line]). *)
Definition ts_line (curr : dict) (line : str) : result dict :=
  match re_search ATOMIC_DATA_TAG line with
  | Some x =>
      ion <- atreg_match x ;;
      props <- match dget key_eqb curr ion with
               | None => Ok [] | Some (VDict _ d) => Ok d | Some _ => Err TypeError end ;;
      v <- to_tuple TFloat (map (group_s x) FST_D) ;;
      props <- tag_aliases (dset key_eqb props (KStr (group_s x "tag")) v) ;;
      Ok (dset key_eqb curr ion (VDict false props))
  | None =>
      match re_search TAG_RE line with
      | Some x => v <- to_tuple TFloat (get_numbers line) ;; append_to curr (KStr (group_s x "tag")) (as_list v)
      | None => Ok curr
      end
  end.
(** 76-95 *)
Definition ts_block (accum : dict) (line : str) (block : list str) : result dict :=
  match re_match TS_HEAD_RE line with
  | None => Err TypeError
  | Some x =>
      k <- dgetE str_eqb TS_TYPES (group_s x "type") ;;
      rc <- to_type TFloat (VStr (group_s x "reaction_coordinate")) ;;
      curr <- foldM ts_line block [(kstr "reaction_coordinate", rc)] ;;
      curr <- tag_aliases curr ;;
      append_to accum k (VDict true curr)
  end.
(** 71-95 *)
Definition ts_step (accum : dict) (line : str) (rest : list str) : result (dict * list str) :=
  if contains ($"TSConfirmation") line then Ok (dset key_eqb accum (kstr "confirmation") (VBool true), rest)
  else if_block line rest (re_test ts_kind) (re_test EMPTY) 1 true
         (fun b rest => accum <- ts_block accum line b ;; Ok (accum, rest))
         (fun rest => Ok (accum, rest)).
(** 55-97 *)
Definition parse_ts_file (ls : list str) : result pyval := rmap (VDict true) (over_file ts_step [] ls).

(** ** parsers/magres_file_parser.py *)
Definition c_wordp : re := RPlus c_word.
(** 90 *)
Definition MAGRES_BEGIN_RE : re := RSeqs [RBol; ws_star; RChar "["; c_wordp; RChar "]"; ws_star; REol].
Definition MAGRES_END_RE : re := RSeqs [RBol; ws_star; RLit "[/"; c_wordp; RChar "]"; ws_star; REol].
(** 91 *)
Definition magres_name (first : str) : str := strip_by (Ascii.eqb "]") (strip_by (Ascii.eqb "[") (strip first)).
(** 122-131 *)
Definition calc_line (calc : dict) (line : str) : result dict :=
  if startswith ($"[") line then Ok calc
  else
    let s := strip line in
    match split s with
    | [] => Err ValueError
    | [_] => Ok calc
    | k :: _ => Ok (dset key_eqb calc (KStr (skipn 5 k)) (VStr (lstrip (skipn (length k) s))))
    end.
(** 95 *)
Definition calc_version (calc : dict) : result Z :=
  v <- dgetE key_eqb calc (kstr "code_version") ;;
  match v with
  | VStr s => py_int (take_while (fun c => negb (Ascii.eqb c ".")) s)
  | _ => Err AttributeError
  end.
(** 148-161.  State: [units], [coords] and the other entries *)
Definition atoms_line (st : dict * dict * dict) (line : str) : result (dict * dict * dict) :=
  let '(units, coords, other) := st in
  if startswith ($"lattice") line then
    match split line with
    | k :: ws => v <- to_tuple TFloat ws ;; Ok (units, coords, dset key_eqb other (KStr k) v)
    | [] => Err ValueError
    end
  else if startswith ($"atom") line then
    match split line with
    | _ :: _ :: spec :: ind :: pos =>
        v <- to_tuple TFloat pos ;; i <- py_int ind ;; Ok (units, dset key_eqb coords (atom_key spec i) v, other)
    | _ => Err ValueError
    end
  else if startswith ($"units") line then
    match split line with
    | [_; k; v] => Ok (dset key_eqb units (KStr k) (VStr v), coords, other)
    | _ => Err ValueError
    end
  else Ok st.
Definition atoms_block (block : list str) : result dict :=
  ' (units, coords, other) <- foldM atoms_line block ([], [], []) ;;
  Ok ((kstr "units", VDict false units) :: (kstr "coords", VDict false coords) :: other).
(** [accum[key][k] = v] of a defaultdict(dict) *)
Definition set_in (d : dict) (k1 : key) (k2 : key) (v : pyval) : result dict :=
  match dget key_eqb d k1 with
  | None => Ok (dset key_eqb d k1 (VDict false [(k2, v)]))
  | Some (VDict b e) => Ok (dset key_eqb d k1 (VDict b (dset key_eqb e k2 v)))
  | Some _ => Err TypeError
  end.
(** 190-192: species and index written together *)
Definition unmunge (n : nat) (spec ind : str) (vs : list str) : str * str * list str :=
  match determine_type ind with
  | TFloat => (firstn (length spec - n) spec, skipn (length spec - n) spec, ind :: vs)
  | _ => (spec, ind, vs)
  end.
Definition tensor_names : list str := [$"ms"; $"efg"; $"efg_local"; $"efg_nonlocal"].
(** 182-199 *)
Definition magres_line (version : Z) (accum : dict) (line : str) : result dict :=
  let words := split line in
  if startswith ($"units") line then
    match words with
    | [_; k; v] => set_in accum (kstr "units") (KStr k) (VStr v)
    | _ => Err ValueError
    end
  else
    w <- nthE words 0 ;;
    if existsb (str_eqb w) tensor_names then
      match words with
      | k :: spec :: ind :: vs =>
          let '(spec, ind, vs) := unmunge (if (version <? 22)%Z then 3 else 5) spec ind vs in
          v <- to_tuple TFloat vs ;;
          i <- py_int ind ;;
          set_in accum (KStr k) (atom_key spec i) v
      | _ => Err ValueError
      end
    else if startswith ($"isc") w then
      match words with
      | k :: sa :: ia :: sb :: ib :: vs =>
          v <- to_tuple TFloat vs ;;
          i <- py_int ia ;;
          j <- py_int ib ;;
          set_in accum (KStr k) (KTuple [atom_key sa i; atom_key sb j]) v
      | _ => Err ValueError
      end
    else Ok accum.
(** 203-213 *)
Definition MAGRES_ALIASES : list (key * key) :=
  map (fun a => (kstr (fst a), kstr (snd a)))
    [("ms", "magnetic_resonance_shielding"); ("efg", "electric_field_gradient");
     ("efg_local", "local_electric_field_gradient"); ("efg_nonlocal", "nonlocal_electric_field_gradient");
     ("isc_fc", "j_coupling_fc"); ("isc_orbital_p", "j_coupling_orbital_p"); ("isc_orbital_d", "j_coupling_orbital_d");
     ("isc_spin", "j_coupling_spin"); ("isc", "j_coupling_k_total")]%string.
(** 178-216 *)
Definition magres_block (version : Z) (block : list str) : result dict :=
  accum <- foldM (magres_line version) block [] ;;
  rmap snd (add_aliases key_eqb accum MAGRES_ALIASES false true).
(** 251 *)
Definition RULE_RE : re := RSeqs [RBol; RPlus (RChar "="); REol].
(** 238-240 *)
Definition old_start (atoms : option pyval) : result (list (key * dict)) :=
  match atoms with
  | Some (VDict _ d) =>
      c <- dgetE key_eqb d (kstr "coords") ;;
      match c with
      | VDict _ items => Ok (map (fun kv => (fst kv, [(kstr "coords", snd kv)])) items)
      | _ => Err TypeError
      end
  | _ => Err KeyError
  end.
(** 253-261 *)
Definition old_line (info : list (key * dict)) (line : str) : result (list (key * dict)) :=
  match split line with
  | spec :: ind :: k :: val =>
      i <- py_int ind ;;
      let a := atom_key spec i in
      if str_eqb k ($"Eigenvalue") then
        d <- dgetE key_eqb info a ;;
        w <- nthE val 1 ;; v <- float_of w ;;
        d <- append_to d (kstr "eigvenvalue") v ;;
        Ok (dset key_eqb info a d)
      else if str_eqb k ($"Eigenvector") then
        d <- dgetE key_eqb info a ;;
        v <- to_tuple TFloat (skipn 1 val) ;;
        d <- append_to d (kstr "eigvenvector") v ;;
        Ok (dset key_eqb info a d)
      else if contains ($":") k then
        w <- nthE val 0 ;; v <- float_of w ;;
        d <- dgetE key_eqb info a ;;
        Ok (dset key_eqb info a (dset key_eqb d (KStr (normalise_key k)) v))
      else Ok info
  | _ => Err ValueError
  end.
(** 244-261.  State: the total shielding and the atoms *)
Definition old_step (st : pyval * list (key * dict)) (line : str) (rest : list str)
  : result ((pyval * list (key * dict)) * list str) :=
  let (total, info) := st in
  if_block line rest (contains ($"TOTAL Shielding Tensor")) (re_test EMPTY) 2 false
    (fun b rest => rows <- number_rows b ;; Ok ((VList rows, info), rest))
    (fun rest => if_block line rest (re_test RULE_RE) (re_test RULE_RE) 1 false
      (fun _ rest => Ok (st, rest))
      (fun rest =>
         if negb (isempty (strip line)) && negb (contains ($"[") line)
         then info <- old_line info line ;; Ok ((total, info), rest)
         else Ok (st, rest))).
(** 219-263 *)
Definition magres_old_block (atoms : option pyval) (block : list str) : result (pyval * pyval) :=
  info <- old_start atoms ;;
  ' (total, info) <- over_file old_step (VNone, info) block ;;
  Ok (total, VDict false (map (fun kv => (fst kv, VDict true (snd kv))) info)).
(** 89-103.  State: [accum] and [version] (if it is bound) *)
Definition magres_step (st : dict * option Z) (line : str) (rest : list str) : result ((dict * option Z) * list str) :=
  let (accum, version) := st in
  if_block line rest (re_test MAGRES_BEGIN_RE) (re_test MAGRES_END_RE) 1 false
    (fun b rest =>
       first <- nthE b 0 ;;
       let body := skipn 1 b in
       let name := magres_name first in
       if str_eqb name ($"calculation") then
         calc <- foldM calc_line body [] ;;
         v <- calc_version calc ;;
         Ok ((dset key_eqb accum (kstr "calc") (VDict false calc), Some v), rest)
       else if str_eqb name ($"atoms") then
         a <- atoms_block body ;; Ok ((dset key_eqb accum (kstr "atoms") (VDict false a), version), rest)
       else if str_eqb name ($"magres") then
         match version with
         | Some v => m <- magres_block v body ;; Ok ((dset key_eqb accum (kstr "magres") (VDict true m), version), rest)
         | None => Err UnboundLocalError
         end
       else if str_eqb name ($"magres_old") then
         ' (t, a) <- magres_old_block (dget key_eqb accum (kstr "atoms")) body ;;
         Ok ((dset key_eqb (dset key_eqb accum (kstr "total_shielding") t) (kstr "atom_info") a, version), rest)
       else Ok (st, rest))
    (fun rest => Ok (st, rest)).
(** 71-105 *)
Definition parse_magres_file (ls : list str) : result pyval :=
  rmap (fun st => VDict true (fst st)) (over_file magres_step ([], None) ls).
