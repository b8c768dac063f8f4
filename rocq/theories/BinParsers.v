(** castep_outputs/bin_parsers/cst_esp_file_parser.py and epme_bin_parser.py. *)
From Verif Require Import PyBase PyVal Bytes Fortran DictUtil.
Local Open Scope list_scope.
Local Open Scope nat_scope.

(** Values used as integers *)
Definition as_int (v : pyval) : result Z := match v with VInt z => Ok z | _ => Err TypeError end.
(** [nx, _ny = v]: unpacking a tuple of two. *)
Definition unpack2 (v : pyval) : result (pyval * pyval) :=
  match v with
  | VTuple [a; b] => Ok (a, b)
  | VTuple _ => Err ValueError
  | _ => Err TypeError
  end.
(** [l[:z]], [l[z:]] *)
Definition slice_at {A} (l : list A) (z : Z) : nat :=
  if (z <? 0)%Z then Z.to_nat (Z.of_nat (length l) + z) else Z.to_nat z.

(** ** cst_esp_file_parser.py *)
(** 48-54, over the records the reader yields: finished planes, current plane, previous x. *)
Fixpoint esp_loop (ds : list (list ascii)) (esp : list (list pyval)) (curr : list pyval) (prev : option Z)
  : result (list (list pyval) * list pyval) :=
  match ds with
  | [] => Ok (esp, curr)
  | d :: ds' =>
      h <- parse_bytes (firstn 8 d) (Array BInt) ;;
      p <- unpack2 h ;;
      nx <- as_int (fst p) ;;
      let differs := match prev with None => true | Some q => negb (q =? nx)%Z end in
      let flush := differs && negb (isempty curr) in
      let esp := if flush then esp ++ [curr] else esp in
      let curr := if flush then [] else curr in
      col <- parse_bytes (skipn 8 d) (Array BComplex) ;;
      esp_loop ds' esp (curr ++ [col]) (Some nx)
  end.
(** [accum["grid"][0]] *)
Definition first_int (v : pyval) : result Z :=
  match v with
  | VTuple (x :: _) => as_int x
  | VTuple [] => Err IndexError
  | _ => Err TypeError
  end.
(** 40-62.  The reader's records are taken up front: a faulty record raises the
    same error either way. *)
Definition parse_cst_esp (file : list ascii) : result (list (str * pyval)) :=
  x <- get_dtype_dict [($"n_spins", Scalar BInt); ($"grid", Array BInt)] (open_bytes file) ;;
  let (accum, f) := x in
  ds <- records f ;;
  y <- esp_loop ds [] [] None ;;
  let (esp, curr) := y in
  let esp := map VList (esp ++ [curr]) in
  grid <- dgetE str_eqb accum ($"grid") ;;
  size <- first_int grid ;;
  if (Z.of_nat (length esp) >? size)%Z
  then Ok (dset str_eqb (dset str_eqb accum ($"esp") (VList (firstn (slice_at esp size) esp)))
             ($"mgga") (VList (skipn (slice_at esp size) esp)))
  else Ok (dset str_eqb accum ($"esp") (VList esp)).

(** ** epme_bin_parser.py *)
Definition acc := list (str * pyval).
Definition put (a : acc) (k : str) (v : pyval) : acc := dset str_eqb a k v.
Definition the (a : acc) (k : str) : result pyval := dgetE str_eqb a k.

(** 14-20 *)
Definition header_dtypes : list (str * bspec) :=
  [($"_FILE_TYPE", Scalar BStr); ($"version", Scalar BInt); ($"_HEADER", Scalar BStr);
   ($"n_spins", Scalar BInt); ($"fermi_energy", Scalar BFloat)].
(** 107-109 *)
Definition check_header (test : list ascii) (f : bfile) : result bfile :=
  x <- rnext f ;; let (d, f) := x in
  if str_eqb d test then Ok f
  else _ <- rrewind 2 f ;; Err ValueError.
(** 122 *)
Definition parse_header (f : bfile) (a : acc) : result (acc * bfile) :=
  x <- get_dtype_dict header_dtypes f ;; let (d, f) := x in
  Ok (dupdate str_eqb a (filter_underscore d), f).
(** 141-142: one turn of the cycle. *)
Definition one_ion (f : bfile) : result ((key * pyval) * bfile) :=
  x <- get_dtype_iter [Scalar BInt; Scalar BStr; Array BFloat] f ;;
  let (vs, f) := x in
  match vs with
  | [VInt ind; VStr spec; pos] => Ok ((KTuple [KStr (strip spec); KInt ind], pos), f)
  | _ => Err TypeError
  end.
(** 135-142 *)
Definition parse_atoms (f : bfile) (a : acc) : result (acc * bfile) :=
  f <- check_header ($"ATOM") f ;;
  x <- rget (Scalar BInt) f ;; let (n, f) := x in
  y <- rget (Array BFloat) f ;; let (lat, f) := y in
  n' <- as_int n ;;
  z <- cycle one_ion (Z.to_nat n') f ;; let (ions, f) := z in
  Ok (put (put (put a ($"n_ions") n) ($"real_lattice") lat) ($"ions") (VDict false (dict_of key_eqb ions)), f).

(** Dictionary values carry [key]s. *)
Definition str_keys (d : acc) : list (key * pyval) := map (fun kv => (KStr (fst kv), snd kv)) d.
(** [data.pop(k)] *)
Definition pop (d : acc) (k : str) : result (pyval * acc) := v <- the d k ;; Ok (v, ddel str_eqb d k).
(** 162-169 *)
Definition kpoint_dtypes : list (str * bspec) :=
  [($"ns", Scalar BInt); ($"nk", Scalar BInt); ($"n_bands", Scalar BInt); ($"min_band", Scalar BInt);
   ($"eigenvalues", Array BFloat); ($"velocities", Array BFloat)].
(** 171-174: one turn *)
Definition one_kpoint (f : bfile) : result ((key * pyval) * bfile) :=
  x <- get_dtype_dict kpoint_dtypes f ;; let (d, f) := x in
  y <- pop d ($"ns") ;; let (ns, d) := y in
  z <- pop d ($"nk") ;; let (nk, d) := z in
  s <- as_int ns ;; k <- as_int nk ;;
  Ok ((KTuple [KInt s; KInt k], VDict false (str_keys d)), f).
(** 155-174 *)
Definition parse_kpoint (f : bfile) (a : acc) : result (acc * bfile) :=
  f <- check_header ($"KPOINT") f ;;
  x <- rget (Scalar BInt) f ;; let (n, f) := x in
  n <- as_int n ;;
  y <- rget (Scalar BInt) f ;; let (nb, f) := y in
  let pairs := (n / 2)%Z in
  s <- the a ($"n_spins") ;; s <- as_int s ;;
  z <- cycle one_kpoint (Z.to_nat (s * pairs * 2)) f ;; let (ks, f) := z in
  Ok (put (put (put a ($"n_kpoint_pairs") (VInt pairs)) ($"n_bands") nb) ($"kpoints") (VDict false (dict_of key_eqb ks)), f).

(** [math.isqrt] *)
Definition isqrt (z : Z) : result Z := if (z <? 0)%Z then Err ValueError else Ok (Z.sqrt z).
(** [accum.setdefault(k, v)] *)
Definition setdefault (a : acc) (k : str) (v : pyval) : acc :=
  match dget str_eqb a k with Some _ => a | None => put a k v end.
(** 206-214 *)
Definition phonon_dtypes : list (str * bspec) :=
  [($"_nq", Scalar BInt); ($"_nb", Scalar BInt); ($"_nb2", Scalar BInt); ($"kpts", Array BInt);
   ($"frequencies", Array BFloat); ($"modes", Array BComplex); ($"matrix_elements", Array BComplex)].
(** 217: one turn *)
Definition one_phonon (f : bfile) : result (pyval * bfile) :=
  x <- get_dtype_dict phonon_dtypes f ;; let (d, f) := x in
  Ok (VDict false (str_keys (filter_underscore d)), f).
(** 192-218 *)
Definition parse_phonons (f : bfile) (a : acc) : result (acc * bfile) :=
  f <- check_header ($"EPCOUPLING") f ;;
  x <- rget (Scalar BInt) f ;; let (n, f) := x in
  n <- as_int n ;;
  y <- rget (Scalar BInt) f ;; let (m, f) := y in
  m <- as_int m ;;
  nb <- isqrt m ;;
  let a := setdefault (setdefault a ($"n_kpoint_pairs") (VInt n)) ($"n_bands") (VInt nb) in
  n0 <- the a ($"n_kpoint_pairs") ;; n0 <- as_int n0 ;;
  nb0 <- the a ($"n_bands") ;; nb0 <- as_int nb0 ;;
  if negb (n =? n0)%Z then Err ValueError
  else if negb (nb =? nb0)%Z then Err ValueError
  else
    z <- cycle one_phonon (Z.to_nat n) f ;; let (ps, f) := z in
    Ok (put a ($"phonons") (VList ps), f).
(** 235-243 *)
Definition parse_epme_bin (file : list ascii) : result acc :=
  x <- parse_header (open_bytes file) [] ;; let (a, f) := x in
  x <- parse_atoms f a ;; let (a, f) := x in
  x <- parse_kpoint f a ;; let (a, f) := x in
  x <- parse_phonons f a ;; let (a, _) := x in
  Ok a.
