(** castep_outputs/cli/castep_outputs_main.py, cli/args.py, utilities/dumpers.py,
    parsers/__init__.py and bin_parsers/__init__.py. *)
From Verif Require Import PyBase PyVal DictUtil PathLib.
Local Open Scope list_scope.
Local Open Scope nat_scope.

(** ** The tables of parsers *)
(** parsers/__init__.py 58-80; a parser is named by its function. *)
Definition PARSERS : list (str * str) := map (fun x => ($(fst x), $(snd x)))
  [("castep", "parse_castep_file"); ("cell", "parse_cell_file"); ("param", "parse_param_file");
   ("geom", "parse_md_geom_file"); ("md", "parse_md_geom_file"); ("bands", "parse_bands_file");
   ("hug", "parse_hug_file"); ("phonon_dos", "parse_phonon_dos_file"); ("efield", "parse_efield_file");
   ("xrd_sf", "parse_xrd_sf_file"); ("elf_fmt", "parse_elf_fmt_file"); ("chdiff_fmt", "parse_chdiff_fmt_file");
   ("pot_fmt", "parse_pot_fmt_file"); ("den_fmt", "parse_den_fmt_file"); ("elastic", "parse_elastic_file");
   ("ts", "parse_ts_file"); ("magres", "parse_magres_file"); ("tddft", "parse_tddft_file");
   ("err", "parse_err_file"); ("phonon", "parse_phonon_file"); ("epme", "parse_epme_file")]%string.
(** bin_parsers/__init__.py 10-13 *)
Definition BIN_PARSERS : list (str * str) := map (fun x => ($(fst x), $(snd x)))
  [("cst_esp", "parse_cst_esp_file"); ("epme_bin", "parse_epme_bin_file")]%string.
(** castep_outputs_main.py 25: [ChainMap(PARSERS, BIN_PARSERS)] *)
Definition all_parsers (k : str) : option str :=
  match dget str_eqb PARSERS k with Some p => Some p | None => dget str_eqb BIN_PARSERS k end.
(** args.py 16 *)
Definition ALL_NAMES : list str := keys PARSERS ++ keys BIN_PARSERS.

(** ** utilities/dumpers.py *)
(** 136-140 *)
Definition SUPPORTED_FORMATS : list (str * str) := map (fun x => ($(fst x), $(snd x)))
  [("json", "json_dumper"); ("ruamel", "ruamel_dumper"); ("pyyaml", "pyyaml_dumper");
   ("pprint", "pprint_dumper"); ("print", "print_dumper")]%string.
(** 10-18: which YAML packages can be imported *)
Definition yaml_type (has_pyyaml has_ruamel : bool) : option str :=
  let t := if has_pyyaml then Some ($"pyyaml") else None in
  if has_ruamel then Some ($"ruamel") else t.
(** 96-132 *)
Definition get_dumpers (yaml : option str) (fmt : str) : result str :=
  fmt <- (if str_eqb fmt ($"yaml") then
            match yaml with None => Err ImportError | Some t => Ok t end
          else Ok fmt) ;;
  match dget str_eqb SUPPORTED_FORMATS fmt with
  | None => Err ValueError
  | Some d => Ok d
  end.
(** args.py 42: [choices=SUPPORTED_FORMATS] *)
Definition cli_format_ok (fmt : str) : bool := dmem str_eqb SUPPORTED_FORMATS fmt.

(** ** parse_single (castep_outputs_main.py 28-95).  The log level only affects messages. *)
(** The file: a path given as text (a Path object is its text), or an open handle. *)
Inductive infile := InPath (s : str) | InHandle (id : nat).
(** The parser argument: none, a name, or a function. *)
Inductive parg := NoParser | Named (s : str) | Func (f : str).
Section Run.
  (** What a parser function returns for a file; the flag says whether
      [filters=Filters.TESTING] is passed. *)
  Context (call : str -> bool -> infile -> result pyval).
  (** The text of float and tuple keys (see [DictUtil]). *)
  Context (ext : key -> str).

  (** 61-77 *)
  Definition choose_parser (f : infile) (p : parg) : result str :=
    let p := match p with
             | NoParser => None
             | Named s => dget str_eqb PARSERS s
             | Func g => Some g
             end in
    match p, f with
    | Some g, _ => Ok g
    | None, InPath s =>
        match all_parsers (strip_by (Ascii.eqb ".") (path_suffix (path_of s))) with
        | None => Err ValueError
        | Some g => Ok g
        end
    | None, InHandle _ => Err ValueError
    end.
  (** 84-87 *)
  Definition prepare (out_format : str) (testing : bool) (v : pyval) : result pyval :=
    if str_eqb out_format ($"json") || testing then normalise (json_mapping ext) v
    else if existsb (str_eqb out_format) [$"yaml"; $"ruamel"] then normalise yaml_mapping v
    else Ok v.
  (** [flatten_dict(v)]; other things have no [.items()] *)
  Definition flatten_val (v : pyval) : result pyval :=
    match v with
    | VDict _ its => Ok (VDict false (flatten_dict ext its ($"_")))
    | _ => Err AttributeError
    end.
  (** 89-93.  A string or bytes object is a Sequence too. *)
  Definition flatten_all (v : pyval) : result pyval :=
    match v with
    | VList l | VTuple l => rmap VList (mapM flatten_val l)
    | VStr [] | VBytes [] => Ok (VList [])
    | VStr _ | VBytes _ => Err AttributeError
    | _ => flatten_val v
    end.
  (** 59-95 *)
  Definition parse_single (f : infile) (p : parg) (out_format : str) (testing : bool) : result pyval :=
    g <- choose_parser f p ;;
    v <- call g (str_eqb g ($"parse_castep_file") && testing) f ;;
    v <- prepare out_format testing v ;;
    if testing then flatten_all v else Ok v.

  (** ** parse_all (castep_outputs_main.py 98-140) *)
  (** 125-128; [data] is keyed by the path as given *)
  Definition parse_typ (out_format : str) (testing : bool) (data : list (str * pyval)) (tp : str * list str)
    : result (list (str * pyval)) :=
    match all_parsers (fst tp) with
    | None => Err KeyError
    | Some g =>
        foldM (fun data path => rmap (dset str_eqb data path) (parse_single (InPath path) (Func g) out_format testing))
              (snd tp) data
    end.
  (** Where the data goes: standard output, the handle given, or a file opened for
      appending. *)
  Inductive dest := ToStdout | ToHandle (id : nat) | ToFile (path : str).
  Inductive dumped := Single (v : pyval) | Several (d : list (str * pyval)).
  (** 122-140: what is dumped, how and where. *)
  Definition parse_all (yaml : option str) (output : dest) (out_format : str) (testing : bool)
    (files : list (str * list str)) : result (str * dest * dumped) :=
    dumper <- get_dumpers yaml out_format ;;
    data <- foldM (parse_typ out_format testing) files [] ;;
    Ok (dumper, output,
        match data with
        | [(_, v)] => Single v
        | _ => Several data
        end).
End Run.

(** ** parse_args (args.py 63-108), after argparse: the namespace it returns. *)
Record args := {
  a_seeds : list str;               (* seedname *)
  a_inc_all : bool;
  a_inc : str -> bool;              (* inc_<type> *)
  a_files : list (str * list str)   (* <type>: every name of ALL_NAMES is an attribute *)
}.
(** 83-92 *)
Definition included (a : args) (to_parse : list str) : str -> bool :=
  let parse_all := a_inc_all a || negb (existsb (a_inc a) ALL_NAMES) in
  let inc1 t := if parse_all && isempty to_parse then existsb (str_eqb t) ALL_NAMES || a_inc a t else a_inc a t in
  fun t => existsb (str_eqb t) to_parse || inc1 t.
(** [getattr(args, typ).append(x)] *)
Definition add_file (files : list (str * list str)) (typ : str) (l : list str) : result (list (str * list str)) :=
  match dget str_eqb files typ with
  | None => Err AttributeError
  | Some old => Ok (dset str_eqb files typ (old ++ l))
  end.
(** 101-103 *)
Definition try_typ (fs : fsys) (inc : str -> bool) (seed : path) (files : list (str * list str)) (typ : str)
  : result (list (str * list str)) :=
  trial <- with_suffix seed ("."%char :: typ) ;;
  if inc typ && is_file fs trial then add_file files typ [path_str trial] else Ok files.
(** 95-106 *)
Definition take_seed (fs : fsys) (inc : str -> bool) (files : list (str * list str)) (s : str)
  : result (list (str * list str)) :=
  let seed := path_of s in
  let e := tl (path_suffix seed) in
  if is_file fs seed && existsb (str_eqb e) ALL_NAMES then add_file files e [path_str seed]
  else
    files <- foldM (try_typ fs inc seed) ALL_NAMES files ;;
    if inc ($"err") then
      l <- glob fs (path_parent seed) (path_str seed ++ $".*.err") ;;
      add_file files ($"err") l
    else Ok files.
(** 83-108 *)
Definition parse_args (fs : fsys) (a : args) (to_parse : list str) : result args :=
  let inc := included a to_parse in
  files <- foldM (take_seed fs inc) (a_seeds a) (a_files a) ;;
  Ok {| a_seeds := a_seeds a; a_inc_all := a_inc_all a; a_inc := inc; a_files := files |}.
(** 111-125 *)
Definition extract_parsables (a : args) : result (list (str * list str)) :=
  mapM (fun t => match dget str_eqb (a_files a) t with
                 | Some l => Ok (t, l)
                 | None => Err AttributeError
                 end) ALL_NAMES.
