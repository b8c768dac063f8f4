(** parsers/bands_file_parser.py *)
From Verif Require Import PyBase PyVal Regex CastepRes TypeConv DictUtil Stream Header.
Local Open Scope list_scope.
Local Open Scope nat_scope.

(** 87: the pattern of an eigenvalue line *)
Definition EIGENVALUE_RE : re := RSeqs [RBol; ws_star; FNUMBER_RE; REol].

(** The variables of the loop 69-88. *)
Record bstate := { b_bands : list pyval; b_q : dict; b_accum : list str; b_current : string }.

(** 71-74 and 90-93 *)
Definition finish_q (q : dict) (current : string) (accum : list str) : result dict :=
  vals <- to_tuple TFloat accum ;;
  let q := dset key_eqb q (kstr current) vals in
  Ok (dset key_eqb q (kstr "spin_comp") (VBool (dmem key_eqb q (kstr "band_down")))).

(** 74 and 93; [clash]: a header line "Number of bands" has replaced the list *)
Definition append_q (clash : bool) (bands : list pyval) (q : dict) : result (list pyval) :=
  if clash then Err AttributeError else Ok (bands ++ [VDict false q]).

(** 69-88: one line *)
Definition bands_line (clash : bool) (st : bstate) (line : str) : result bstate :=
  if startswith ($"K-point") line then
    st' <- (if isempty (b_q st) then Ok st
            else q <- finish_q (b_q st) (b_current st) (b_accum st) ;;
                 bs <- append_q clash (b_bands st) q ;;
                 Ok {| b_bands := bs; b_q := b_q st; b_accum := []; b_current := "band" |}) ;;
    match split line with
    | _ :: _ :: ws =>
        ' (qpt, weight) <- last_of ws ;;
        p <- to_tuple TFloat qpt ;;
        w <- py_float_builtin weight ;;
        Ok {| b_bands := b_bands st'; b_q := [(kstr "qpt", p); (kstr "weight", VFloat w)];
              b_accum := b_accum st'; b_current := b_current st' |}
    | _ => Err ValueError
    end
  else if startswith ($"Spin component") line then
    w <- nthE (split line) 2 ;;
    spin <- py_int w ;;
    if (spin =? 1)%Z then Ok st
    else up <- to_tuple TFloat (b_accum st) ;;
         Ok {| b_bands := b_bands st; b_q := dset key_eqb (b_q st) (kstr "band_up") up;
               b_accum := []; b_current := "band_down" |}
  else if re_match_test EIGENVALUE_RE (strip line) then
    Ok {| b_bands := b_bands st; b_q := b_q st; b_accum := b_accum st ++ [strip line]; b_current := b_current st |}
  else Ok st.

(** 65: the end of the header is the third line with three numbers in a row *)
Definition bands_header_end (line : str) : bool := re_test THREEVEC_RE line.

(** 46-95 *)
Definition parse_bands_file (ls : list str) : result pyval :=
  let '(blk, rest) := l_from_re [] ls (fun _ => true) bands_header_end 3 false in
  block <- blk ;;
  data <- parse_regular_header ["Fermi energy"%string] block ;;
  let clash := dmem key_eqb data (kstr "bands") in
  st <- foldM (bands_line clash) rest {| b_bands := []; b_q := []; b_accum := []; b_current := "band" |} ;;
  bands <- (if isempty (b_q st) then Ok (b_bands st)
            else q <- finish_q (b_q st) (b_current st) (b_accum st) ;; append_q clash (b_bands st) q) ;;
  Ok (VDict false (dupdate key_eqb [(kstr "bands", VList bands)] data)).
