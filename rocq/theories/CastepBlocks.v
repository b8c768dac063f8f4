(** castep_outputs/parsers/castep_file_parser.py: the functions that read one
    block of a .castep file.  A block is the list of its lines. *)
From Verif Require Import PyBase PyVal Regex CastepRes StrUtil TypeConv DictUtil Stream Header.
Local Open Scope list_scope.
Local Open Scope nat_scope.

(** castep_res.py 94-143 (gen_table_re); [content] is [None] for the empty text. *)
Definition gen_table_core (content : option re) (border pre post : re) : re :=
  RSeqs (match content with
         | Some r => [ws_star; pre; ws_star; border; ws_star; r; ws_star; border; ws_star; post; ws_star]
         | None => [ws_star; pre; ws_star; border; ws_star; post; ws_star]
         end).
Definition gen_table_re (content : option re) (border pre post : re) (whole : bool) : re :=
  if whole then RSeqs [RBol; gen_table_core content border pre post; REol] else gen_table_core content border pre post.
(** [gen_table_re(content, border)] *)
Definition table_re (content : option re) (border : re) : re := gen_table_re content border REps REps true.

(** The matches of a loop [for line in block if (match := ...)]. *)
Fixpoint matches (f : str -> option mres) (ls : list str) : list mres :=
  match ls with
  | [] => []
  | l :: ls' => match f l with Some x => x :: matches f ls' | None => matches f ls' end
  end.
(** A dictionary comprehension over them. *)
Definition dict_rows (f : str -> option mres) (kv : mres -> result (key * pyval)) (ls : list str) : result dict :=
  rmap (dict_of key_eqb) (mapM kv (matches f ls)).
Definition floats_of (x : mres) (names : list string) : result pyval :=
  to_type TFloat (VTuple (map (group x) names)).
(** [float(match[name])] *)
Definition float_group (x : mres) (n : string) : result pyval := rmap VFloat (py_float_builtin (group_s x n)).
(** [l[i]] of a list of strings *)
Definition item (l : list str) (i : nat) : result str := nthE l i.
(** [to_type(numbers[i], t)] *)
Definition number_at (t : ptype) (line : str) (i : nat) : result pyval :=
  s <- item (get_numbers line) i ;; to_type t (VStr s).
(** [float(numbers[i])] *)
Definition float_at (line : str) (i : nat) : result pyval :=
  s <- item (get_numbers line) i ;; rmap VFloat (py_float_builtin s).
(** [to_type(get_numbers(line), t)] *)
Definition numbers_as (t : ptype) (line : str) : result pyval := to_tuple t (get_numbers line).

(** ** Positions, velocities, forces, stresses *)

(** castep_file_parser.py 1430-1435 *)
Definition process_atreg_block (ls : list str) : result dict :=
  dict_rows (re_search ATOMIC_DATA_3VEC)
    (fun x => k <- atreg_match x ;; v <- floats_of x FST_D ;; Ok (k, v)) ls.

(** castep_res.py 274: each number may be followed by a parenthesised remark *)
Definition remark : re := ROpt (RSeqs [ws_star; RChar "("; RPlus (c_notof ")"); RChar ")"]).
Definition ATOMIC_DATA_FORCE : re := RSeq ATOM_RE (labelled_floats_gen lf_sep remark (map (fun n => (n, None)) FST_D)).
(** castep_res.py 377 and 379, IGNORECASE *)
Definition c_letter_blank : re := RChr (fun c => is_alpha c || Ascii.eqb c " ").   (* [a-zA-Z ] *)
Definition stars : re := RPlus (RChar "*").
Definition FORCES_BLOCK_RE : re := table_re (Some (RSeq (RGrp "1" (RStar c_letter_blank)) (RLitI "Forces"))) stars.
Definition STRESSES_BLOCK_RE : re := table_re (Some (RSeq (RGrp "1" (RStar c_letter_blank)) (RLitI "Stress Tensor"))) stars.
(** 1778-1781, 1792-1795: the kind of forces or stresses *)
Definition block_type (r : re) (first : str) : result str :=
  match re_search r first with
  | None => Err ValueError
  | Some x => let t := group_s x "1" in Ok (normalise_key (if isempty t then $"non_descript" else t))
  end.
(** 1777-1787 *)
Definition process_forces (ls : list str) : result (str * dict) :=
  match ls with
  | [] => Err StopIteration
  | l :: ls' =>
      t <- block_type FORCES_BLOCK_RE l ;;
      d <- dict_rows (re_search ATOMIC_DATA_FORCE)
             (fun x => k <- atreg_match x ;; v <- floats_of x FST_D ;; Ok (k, v)) ls' ;;
      Ok (t, d)
  end.
(** 1797-1805: the numbers a line adds *)
Definition stress_numbers (l : str) : list str :=
  if contains ($"*  x") l then get_numbers l
  else if contains ($"*  y") l then skipn 1 (get_numbers l)
  else if contains ($"*  z") l then skipn 2 (get_numbers l)
  else [].
(** 1791-1807 *)
Definition process_stresses (ls : list str) : result (str * pyval) :=
  match ls with
  | [] => Err StopIteration
  | l :: ls' =>
      t <- block_type STRESSES_BLOCK_RE l ;;
      v <- to_tuple TFloat (concat (map stress_numbers ls')) ;;
      Ok (t, v)
  end.

(** ** k-points, 2099-2121 *)
(** 2112-2113 *)
Definition KPOINT_ROW_RE : re :=
  table_re (Some (RSeqs [c_digit; ws_star; labelled_floats ["qx"; "qy"; "qz"; "wt"]%string])) (RChar "+").
(** 2114-2117; the coordinates are groups qx, qy and qx again *)
Definition process_kpoint_list (ls : list str) : result dict :=
  pts <- mapM (fun x => q <- floats_of x ["qx"; "qy"; "qx"]%string ;;
                        w <- to_type TFloat (group x "wt") ;;
                        Ok (VDict false [(kstr "qpt", q); (kstr "weight", w)]))
           (matches (re_match KPOINT_ROW_RE) ls) ;;
  Ok [(kstr "points", VList pts); (kstr "num_kpoints", VInt (Z.of_nat (length pts)))].
(** 2104-2110 *)
Definition kpoint_spec_line (d : dict) (line : str) : result dict :=
  if contains ($"MP grid size") line then rmap (dset key_eqb d (kstr "kpoint_mp_grid")) (numbers_as TInt line)
  else if contains ($"offset") line then rmap (dset key_eqb d (kstr "kpoint_mp_offset")) (numbers_as TFloat line)
  else if contains ($"Number of kpoints") line then rmap (dset key_eqb d (kstr "num_kpoints")) (number_at TInt line 0)
  else Ok d.
Definition process_kpoint_spec (ls : list str) : result dict := foldM kpoint_spec_line ls [].
Definition process_kpoint_blocks (implicit : bool) (ls : list str) : result dict :=
  if implicit then process_kpoint_spec ls else process_kpoint_list ls.

(** ** Bonds *)
(** castep_res.py 382-390 *)
Definition BOND_RE : re :=
  RSeqs [ws_star; RGrp "spec1" ATOM_NAME_RE; ws_star; RGrp "ind1" (RPlus c_digit); ws_star;
         RLit "--"; ws_star; RGrp "spec2" ATOM_NAME_RE; ws_star; RGrp "ind2" (RPlus c_digit); ws_star;
         labelled_floats_gen lf_sep REps
           [("population", None); ("spin", Some (0, 1)); ("length", None)]%string].
(** bool(x) of a float *)
Definition float_true (f : float) : bool := truthy (KFloat f).
(** 2266-2279; an entry is built (2267-2273) and loses its spin when that is
    absent or zero (2275-2277). *)
Definition bond_entry (x : mres) : result (key * (pyval * option float * pyval)) :=
  i1 <- py_int (group_s x "ind1") ;; i2 <- py_int (group_s x "ind2") ;;
  p <- float_group x "population" ;;
  s <- (if isempty (group_s x "spin") then Ok None else rmap Some (py_float_builtin (group_s x "spin"))) ;;
  n <- float_group x "length" ;;
  Ok (KTuple [atom_key (group_s x "spec1") i1; atom_key (group_s x "spec2") i2], (p, s, n)).
Definition bond_value (e : pyval * option float * pyval) : pyval :=
  let '(p, s, n) := e in
  VDict false ([(kstr "population", p)] ++
               match s with Some f => if float_true f then [(kstr "spin", VFloat f)] else [] | None => [] end ++
               [(kstr "length", n)]).
Definition process_bond_analysis (ls : list str) : result dict :=
  es <- mapM bond_entry (matches (re_match BOND_RE) ls) ;;
  Ok (map (fun kv => (fst kv, bond_value (snd kv))) (dict_of key_eqb es)).

(** ** Phonons *)
(** castep_res.py 440-449 *)
Definition PHONON_RE : re :=
  RSeqs [ws_plus; RChar "+"; ws_plus; RLit "q-pt="; ws_star; INTNUMBER_RE; ws_plus;
         RChar "("; labelled_float lf_sep REps ("qpt"%string, Some (3, 3)); RChar ")"; ws_plus;
         RGrp "w" FNUMBER_RE; ws_plus; RChar "+"].
(** castep_res.py 451-461 *)
Definition c_irrep : re := RChr (fun c => is_lower c || in_range 65 86 c).   (* [a-zA-V] *)
Definition PROCESS_PHONON_RE : re :=
  RSeqs [ws_plus; RChar "+"; ws_plus; RGrp "N" (RPlus c_digit); ws_plus;
         RGrp "frequency" FNUMBER_RE; ws_star;
         ROpt (RGrp "irrep" c_irrep); ws_star;
         ROpt (RGrp "ir_intensity" FNUMBER_RE); ws_star;
         ROpt (RGrp "ir_active" (c_of "YN")); ws_star;
         ROpt (RGrp "raman_intensity" FNUMBER_RE); ws_star;
         ROpt (RGrp "raman_active" (c_of "YN")); ws_star; RChar "+"].
(** Truth of the values collected for a q-point. *)
Definition some_true (v : pyval) : bool :=
  match v with
  | VNone => false
  | VStr s => negb (isempty s)
  | VDict _ its => negb (isempty its)
  | _ => true
  end.
(** 2017-2028 *)
Definition process_qdata (q : list (key * list pyval)) : result pyval :=
  let kept := filter (fun kv => existsb some_true (snd kv) || key_eqb (fst kv) (kstr "qpt")) q in
  rmap (VDict false)
    (fix_data_types (map (fun kv => (fst kv, VList (snd kv))) kept)
       [(kstr "qpt", TFloat); (kstr "N", TInt); (kstr "frequency", TFloat);
        (kstr "ir_intensity", TFloat); (kstr "raman_intensity", TFloat)]).
(** [phonon["qpt"]] of a stored entry (every stored entry has one) *)
Definition stored_qpt (v : pyval) : pyval :=
  match v with VDict _ its => match dget key_eqb its (kstr "qpt") with Some q => q | None => VNone end | _ => VNone end.
(** [qdata["qpt"] == phonon["qpt"]]: a list of strings is equal to nothing but an
    equal list; in particular to no tuple. *)
Definition strs_eq (l : list pyval) (v : pyval) : bool :=
  match v with
  | VList l' => (length l =? length l') &&
      forallb (fun p => match p with (VStr a, VStr b) => str_eqb a b | _ => false end) (combine l l')
  | _ => false
  end.
Definition qpt_of (q : list (key * list pyval)) : list pyval :=
  match dget key_eqb q (kstr "qpt") with Some l => l | None => [] end.
(** 2366-2368, 2420-2422 *)
Definition store_qdata (q : list (key * list pyval)) (accum : list pyval) : result (list pyval) :=
  if negb (isempty (qpt_of q)) && negb (existsb (fun p => strs_eq (qpt_of q) (stored_qpt p)) accum)
  then rmap (fun v => accum ++ [v]) (process_qdata q) else Ok accum.

(** [s.split(sep)] for a one-character separator *)
Fixpoint split_chr (sep : ascii) (s : str) : list str :=
  match s with
  | [] => [[]]
  | c :: s' => if Ascii.eqb c sep then [] :: split_chr sep s'
               else match split_chr sep s' with w :: ws => (c :: w) :: ws | [] => [[c]] end
  end.
(** [zip(headers, map(int, vals))]: the integers are converted as they are taken. *)
Fixpoint zip_ints (hs vs : list str) : result (list pyval) :=
  match hs, vs with
  | h :: hs', v :: vs' => z <- py_int v ;; r <- zip_ints hs' vs' ;; Ok (VTuple [VStr h; VInt z] :: r)
  | _, _ => Ok []
  end.
(** 2400-2416: one row of a character table *)
Definition char_row (headers : list str) (line : str) : result pyval :=
  match split_chr "|" line with
  | [head; tail] =>
      match split head with
      | _ :: rep :: more =>
          ' (name, mul) <- last_of more ;;
          ' (vals, _) <- last_of (split tail) ;;
          cs <- zip_ints headers vals ;; m <- py_int mul ;;
          Ok (VDict false ([(kstr "chars", VTuple cs); (kstr "mul", VInt m); (kstr "rep", VStr rep)] ++
                           match name with [] => [] | n :: _ => [(kstr "name", VStr n)] end))
      | _ => Err ValueError
      end
  | _ => Err ValueError
  end.
(** 2391-2398 *)
Definition char_stop (line : str) : bool :=
  re_test (RRep true 4 None (c_of "-=")) line || startswith ($" Sum over") line ||
  startswith ($" *** Warning") line || startswith ($"?") line.
Fixpoint char_rows (headers : list str) (ls : list str) : result (list pyval) :=
  match ls with
  | [] => Ok []
  | l :: ls' => if char_stop l then Ok []
                else r <- char_row headers l ;; rs <- char_rows headers ls' ;; Ok (r :: rs)
  end.
(** 2383-2416 *)
Definition char_table (blk : list str) : result (list pyval) :=
  match blk with
  | h :: _ :: ls => char_rows (skipn 4 (split h)) ls
  | _ => Err StopIteration
  end.
(** 2378-2380 *)
Definition REP_MUL_RE : re := RSeqs [RLit "Rep"; ws_plus; RLit "Mul"].
Definition CHAR_END_RE : re := table_re (Some (RPlus (c_of "-="))) (RChar "+").

Definition qdict := list (key * list pyval).
(** 2360-2424.  Every turn of the loop takes at least one line; [fuel] is the
    number of lines. *)
Fixpoint phonon_loop (fuel : nat) (q : qdict) (accum : list pyval) (ls : list str) : result (list pyval) :=
  match ls with
  | [] => store_qdata q accum
  | l :: ls' =>
      match fuel with
      | O => Err OutOfFuel
      | S fuel =>
          match re_match PHONON_RE l with
          | Some x =>
              accum <- store_qdata q accum ;;
              phonon_loop fuel [(kstr "qpt", map VStr (split (group_s x "qpt")))] accum ls'
          | None =>
              match re_match PROCESS_PHONON_RE l with
              | Some x => q <- stack_dict true q (groupdict PROCESS_PHONON_RE x) ;; phonon_loop fuel q accum ls'
              | None =>
                  let '(rb, rest) := l_from_re l ls' (re_test REP_MUL_RE) (re_test CHAR_END_RE) 1 true in
                  blk <- rb ;;
                  if l_bool blk then
                    c <- char_table blk ;;
                    phonon_loop fuel (dset key_eqb q (kstr "char_table") c) accum rest
                  else phonon_loop fuel q accum rest
              end
          end
      end
  end.
(** 2361.  (The tests of 2366 and 2420 add an empty list under "qpt" to a dictionary
    without one; that dictionary is never stored.) *)
Definition process_phonon (ls : list str) : result (list pyval) :=
  phonon_loop (length ls) [] [] ls.
