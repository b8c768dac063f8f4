(** Specification of the command line: paths, file selection, parser table. *)
From Coq Require Import Ascii String List.
From Verif Require Import PyBase PyVal SpecStr.
Import ListNotations.
Open Scope list_scope.

Notation text := (list ascii).
Definition slash : ascii := "/"%char.
Definition dot : ascii := "."%char.

(** The elements satisfying [P], in order. *)
Inductive kept {A} (P : A -> Prop) : list A -> list A -> Prop :=
| kept_nil : kept P [] []
| kept_in x l l' : P x -> kept P l l' -> kept P (x :: l) (x :: l')
| kept_out x l l' : ~ P x -> kept P l l' -> kept P (x :: l) l'.

(** ** Path names *)
Definition starts_with_slash (s : text) : Prop := exists t, s = slash :: t.
(** The root of a path name: none, "/" or, for exactly two leading slashes, "//". *)
Definition rooted (s root : text) : Prop :=
  (root = [] /\ ~ starts_with_slash s) \/
  (root = [slash] /\ exists t, s = slash :: t /\ (~ starts_with_slash t \/ exists t', t = slash :: t' /\ starts_with_slash t')) \/
  (root = [slash; slash] /\ exists t, s = slash :: slash :: t /\ ~ starts_with_slash t).
(** [s] is the pieces [ws] separated by slashes; the components of the path are the
    pieces other than "" and ".". *)
Definition denotes (s root : text) (comps : list text) : Prop :=
  rooted s root /\
  exists ws, ws <> [] /\ Forall (fun w => ~ In slash w) ws /\ s = joined [slash] ws /\
             kept (fun w => w <> [] /\ w <> [dot]) ws comps.
(** The normal spelling of a path. *)
Definition place (root : text) (comps : list text) : text :=
  match root, comps with
  | [], [] => [dot]
  | _, _ => root ++ joined [slash] comps
  end.
(** A file name split into what precedes its type and its type (empty if the last dot
    is missing, first or last). *)
Definition file_type (name base typ : text) : Prop :=
  (name = base ++ dot :: typ /\ base <> [] /\ typ <> [] /\ ~ In dot typ) \/
  (typ = [] /\ base = name /\ forall a b, name = a ++ dot :: b -> ~ In dot b -> a = [] \/ b = []).

(** ** Files selected.  [fs]: existing paths with "is a regular file". *)
Definition normal_fs (fs : list (text * bool)) : Prop :=
  forall e b, In (e, b) fs -> exists root comps, denotes e root comps /\ e = place root comps.
Definition no_wildcard (w : text) : Prop := ~ In "*"%char w /\ ~ In "?"%char w /\ ~ In "["%char w.

(** The files of type [typ] a seed stands for; [inc]: the included types. *)
Definition picked (types : list text) (fs : list (text * bool)) (inc : text -> Prop)
  (typ seed : text) (l : list text) : Prop :=
  exists root dirs name base e,
    denotes seed root (dirs ++ [name]) /\ file_type name base e /\
    ((In (place root (dirs ++ [name]), true) fs /\ In e types /\
      (typ = e /\ l = [place root (dirs ++ [name])] \/ typ <> e /\ l = [])) \/
     (~ (In (place root (dirs ++ [name]), true) fs /\ In e types) /\
      exists l1 l2, l = l1 ++ l2 /\
        (inc typ /\ In (place root (dirs ++ [base ++ dot :: typ]), true) fs /\
           l1 = [place root (dirs ++ [base ++ dot :: typ])] \/
         ~ (inc typ /\ In (place root (dirs ++ [base ++ dot :: typ]), true) fs) /\ l1 = []) /\
        (typ = $"err" /\ inc typ /\
           kept (fun f => exists x, f = place root (dirs ++ dirs ++ [name ++ dot :: x ++ $".err"]) /\ ~ In slash x)
                (map fst fs) l2 \/
         ~ (typ = $"err" /\ inc typ) /\ l2 = []))).

(** ** Parsers *)
Definition text_parsers : list (text * text) := map (fun x => ($(fst x), $(snd x)))
  [("castep", "parse_castep_file"); ("cell", "parse_cell_file"); ("param", "parse_param_file");
   ("geom", "parse_md_geom_file"); ("md", "parse_md_geom_file"); ("bands", "parse_bands_file");
   ("hug", "parse_hug_file"); ("phonon_dos", "parse_phonon_dos_file"); ("efield", "parse_efield_file");
   ("xrd_sf", "parse_xrd_sf_file"); ("elf_fmt", "parse_elf_fmt_file"); ("chdiff_fmt", "parse_chdiff_fmt_file");
   ("pot_fmt", "parse_pot_fmt_file"); ("den_fmt", "parse_den_fmt_file"); ("elastic", "parse_elastic_file");
   ("ts", "parse_ts_file"); ("magres", "parse_magres_file"); ("tddft", "parse_tddft_file");
   ("err", "parse_err_file"); ("phonon", "parse_phonon_file"); ("epme", "parse_epme_file")]%string.
Definition binary_parsers : list (text * text) := map (fun x => ($(fst x), $(snd x)))
  [("cst_esp", "parse_cst_esp_file"); ("epme_bin", "parse_epme_bin_file")]%string.
Definition every_parser := text_parsers ++ binary_parsers.
Definition known_types : list text := map fst every_parser.

(** The type of the file a path name stands for. *)
Definition type_of_path (s typ : text) : Prop :=
  exists root dirs name base, denotes s root (dirs ++ [name]) /\ file_type name base typ.

(** ** Dumpers *)
Definition dumpers : list (text * text) := map (fun x => ($(fst x), $(snd x)))
  [("json", "json_dumper"); ("ruamel", "ruamel_dumper"); ("pyyaml", "pyyaml_dumper");
   ("pprint", "pprint_dumper"); ("print", "print_dumper")]%string.
(** The dumper for a format; [yaml]: the installed YAML package preferred. *)
Definition dumps_with (yaml : option text) (fmt d : text) : Prop :=
  (fmt <> $"yaml" /\ In (fmt, d) dumpers) \/
  (fmt = $"yaml" /\ exists t, yaml = Some t /\ In (t, d) dumpers).
(** The files to parse as (type, path), in order. *)
Fixpoint requests (files : list (text * list text)) : list (text * text) :=
  match files with
  | [] => []
  | (t, ps) :: files' => map (fun p => (t, p)) ps ++ requests files'
  end.
