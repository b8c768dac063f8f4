(** Specification of the predicted output files: which option leads to which file.
    The option dictionaries have distinct keys. *)
From Coq Require Import Ascii String List ZArith QArith Sorted.
From Verif Require Import PyBase PyVal SpecDict SpecCli.
Import ListNotations.
Open Scope string_scope.
Open Scope list_scope.

Notation data := (list (key * pyval)).

(** The value of an option, [dflt] if it is not given. *)
Definition setting (d : data) (k : string) (dflt v : pyval) : Prop :=
  In (KStr ($k), v) d \/ (~ In (KStr ($k)) (map fst d) /\ v = dflt).
(** Values counting as "no". *)
Definition no (v : pyval) : Prop :=
  v = VNone \/ v = VBool false \/ v = VInt 0 \/ v = VStr [] \/ v = VBytes [] \/ v = VTuple [] \/ v = VList [] \/
  (exists b, v = VDict b []) \/ (exists d, v = VFloat (FQ (0 # d))) \/
  (exists b, v = VFloat (FBits b) /\ (b = [] \/ exists s z, b = s :: z /\ (s = ascii_of_nat 0 \/ s = ascii_of_nat 128) /\
                                                     Forall (fun c => c = ascii_of_nat 0) z)).
(** Switched on; [on_by_default]: unless switched off. *)
Definition on (d : data) (k : string) : Prop := exists v, setting d k VNone v /\ ~ no v.
Definition on_by_default (d : data) (k : string) : Prop := exists v, setting d k (VBool true) v /\ ~ no v.
(** An option that is a word. *)
Definition says (d : data) (k dflt : string) (t : text) : Prop := setting d k (VStr ($dflt)) (VStr t).
(** A group of options; an empty one if it is not given. *)
Definition group (d : data) (k : string) (g : data) : Prop := exists b, setting d k (VDict false []) (VDict b g).
(** A number, compared with an integer. *)
Definition number (v : pyval) (q : Q) : Prop :=
  (exists z, v = VInt z /\ q = inject_Z z) \/ (exists b : bool, v = VBool b /\ q = if b then 1%Q else 0%Q) \/ v = VFloat (FQ q).
Definition over (d : data) (k : string) (dflt z : Z) : Prop :=
  exists v q, setting d k (VInt dflt) v /\ number v q /\ (inject_Z z < q)%Q.

(** ** Text order *)
Inductive text_lt : text -> text -> Prop :=
| lt_end c b : text_lt [] (c :: b)
| lt_char x y a b : (N_of_ascii x < N_of_ascii y)%N -> text_lt (x :: a) (y :: b)
| lt_next x a b : text_lt a b -> text_lt (x :: a) (x :: b).

(** ** Functionals *)
(** The family of a libxc functional, or the name itself. *)
Definition family (n r : text) : Prop :=
  (exists h f rest, (h = [] \/ h = $"_hyb") /\ (f = $"gga" \/ f = $"mgga" \/ f = $"lda") /\
     r = $"libxc" ++ h ++ $"_" ++ f /\ n = r ++ rest) \/
  (r = n /\ forall h f rest, (h = [] \/ h = $"_hyb") -> (f = $"gga" \/ f = $"mgga" \/ f = $"lda") ->
     n <> $"libxc" ++ h ++ $"_" ++ f ++ rest).
(** The functionals in use: those of xc_definition if given, else xc_functional. *)
Definition functional (p : data) (r : text) : Prop :=
  (~ on p "xc_definition" /\ exists t, says p "xc_functional" "lda" t /\ family (lower t) r) \/
  (on p "xc_definition" /\ exists b its b' fs n v, setting p "xc_definition" VNone (VDict b its) /\
     In (KStr ($"xc"), VDict b' fs) its /\ In (KStr n, v) fs /\ family (lower n) r).
Definition one_of (p : data) (l : list string) : Prop := exists r, functional p r /\ exists x, In x l /\ r = $x.
Definition meta_gga (p : data) : Prop := one_of p ["ms2"; "rscan"; "r2scan"; "libxc_mgga"; "libxc_hyb_mgga"].
Definition non_local (p : data) : Prop :=
  one_of p ["hf"; "hf-lda"; "shf"; "sx-lda"; "shf-lda"; "pbe0"; "b3lyp"; "hse03"; "hse06"; "spbe0"].
Definition oep (p : data) : Prop := one_of p ["oep"; "lfx"; "elp"; "ceda"].
Definition spin (p : data) : Prop :=
  (exists t, says p "spin_treatment" "NONE" t /\ upper t = $"VECTOR") \/
  on p "spin_orbit_coupling" \/ on p "spin_polarised" \/ on p "spin_polarized".
(** The theory of generated pseudopotentials; [n]: the functional looked at. *)
Definition ps_theories : list (text * text) := map (fun x => ($(fst x), $(snd x)))
  [("pw91", "pbe"); ("pbe", "pbe"); ("rpbe", "rpbe"); ("pbesol", "pbesol"); ("wc", "wc"); ("blyp", "blyp");
   ("ms2", "ms2"); ("rscan", "rscan"); ("r2scan", "rscan"); ("lda_pw", "lda_pw")]%string.
Definition ps_theory (p : data) (n th : text) : Prop :=
  (one_of p ["libxc_mgga"; "libxc_hyb_mgga"] /\ th = $"RSCAN") \/
  (~ one_of p ["libxc_mgga"; "libxc_hyb_mgga"] /\ one_of p ["libxc_gga"; "libxc_hyb_gga"] /\ th = $"PBE") \/
  (~ one_of p ["libxc_mgga"; "libxc_hyb_mgga"] /\ ~ one_of p ["libxc_gga"; "libxc_hyb_gga"] /\
   (In (n, th) ps_theories \/ ~ In n (map fst ps_theories) /\ th = $"LDA")).

(** ** Tasks *)
Definition task_names : list (text * string) := map (fun x => ($(fst x), snd x))
  [("SINGLEPOINT", "singlepoint"); ("SPE", "singlepoint"); ("ENERGY", "singlepoint");
   ("PHONON", "phonon"); ("PHONON_EFIELD", "phonon_efield"); ("PHONONEFIELD", "phonon_efield"); ("EFIELD", "efield");
   ("THERMODYNAMICS", "thermodynamics"); ("EPCOUPLING", "epcoupling"); ("ELASTIC", "elastic");
   ("GEOMOPT", "geomopt"); ("GEOMETRYOPTIMISATION", "geomopt"); ("GEOMETRYOPTIMIZATION", "geomopt"); ("GEOM", "geomopt");
   ("MD", "md"); ("MOLECULARDYNAMICS", "md"); ("DYNAMICS", "md");
   ("SOCKET_DRIVER", "socket_driver"); ("SOCKETDRIVER", "socket_driver");
   ("TRANSITION_STATE_SEARCH", "tss"); ("TSS", "tss"); ("TRANSITIONSTATESEARCH", "tss");
   ("WANNIER", "wannier"); ("MAGRES", "magres"); ("AUTOSOLVATION", "autosolvation");
   ("SPECTRAL", "spectral"); ("ELECTRONICSPECTROSCOPY", "spectral"); ("BANDSTRUCTURE", "spectral");
   ("ELNES", "spectral"); ("OPTICS", "spectral")]%string.
(** A word ignoring case, "+" and " ". *)
Definition same_word (t w : text) : Prop :=
  exists k, kept (fun c => c <> "+"%char /\ c <> " "%char) t k /\ upper k = w.
Definition task (p : data) (k : string) : Prop :=
  exists t w, says p "task" "SINGLEPOINT" t /\ same_word t w /\ In (w, k) task_names.
(** The task spelt exactly so, up to case. *)
Definition task_word (p : data) (w : string) : Prop := exists t, says p "task" "SINGLEPOINT" t /\ upper t = $w.
(** A choice given as a word or by its number in the list. *)
Definition choice (names : list string) (v : pyval) (c : string) : Prop :=
  (exists t, v = VStr t /\ same_word t ($c) /\ In c names) \/
  (exists i, (number v (inject_Z (Z.of_nat (S i)))) /\ nth_error names i = Some c).
Definition spectral_theory (p : data) (c : string) : Prop :=
  exists v, setting p "spectral_theory" (VStr ($"dft")) v /\ choice ["TDDFT"; "DFT"] v c.
Definition spectral_task (p : data) (c : string) : Prop :=
  exists v, setting p "spectral_task" (VStr ($"bandstructure")) v /\
    choice ["CORELOSS"; "BANDSTRUCTURE"; "OPTICS"; "DOS"; "ALL"] v c.
(** The matrix elements calculated by default. *)
Definition calculates (p : data) (what : string) : Prop :=
  match what with
  | "elnes" => spectral_theory p "DFT" /\ ~ non_local p /\ (spectral_task p "CORELOSS" \/ spectral_task p "ALL")
  | "ome" => spectral_theory p "DFT" /\ ~ non_local p /\
             (spectral_task p "CORELOSS" \/ spectral_task p "DOS" \/ spectral_task p "ALL")
  | "dome" => spectral_task p "OPTICS" \/
              spectral_task p "ALL" /\ (spectral_theory p "TDDFT" \/ spectral_theory p "DFT" /\ ~ non_local p)
  | _ => False
  end%string.
(** ... unless the developer code says otherwise. *)
Definition writes (p g : data) (what key : string) : Prop :=
  on g key \/ (~ In (KStr ($key)) (map fst g) /\ calculates p what).

(** ** The rules.  [p], [cell]: parameters and cell; [dev]: the developer code. *)
Definition written (p : data) (k : string) : Prop := ~ on p "write_none" /\ on_by_default p k.
Definition post_processing (dev : data) : Prop := on dev "_pp".
Definition check_word (p : data) (l : list string) : Prop :=
  ~ on p "write_none" /\
  exists v, setting p "write_checkpoint" (VStr ($"ALL")) v /\
    ((exists t w, v = VStr t /\ upper t = $w /\ In w l) \/ (v = VBool true /\ In "TRUE"%string l)).
Definition rules (p cell dev : data) : list (Prop * string) :=
  [(True, ".castep");
   (check_word p ["TRUE"; "ALL"; "BOTH"; "FULL"], ".check");
   (check_word p ["TRUE"; "ALL"; "BOTH"; "FULL"; "MINIMAL"], ".castep_bin");
   (written p "write_bands" /\ ~ post_processing dev /\ ~ on p "tddft_selected_state", ".bands");
   (written p "write_bands" /\ ~ post_processing dev /\ on p "tddft_selected_state", "_tddft.bands");
   (on dev "write_formatted_bands", "_*.orbit_fmt");
   (written p "write_bib", ".bib");
   (written p "write_cst_esp" /\ ~ post_processing dev, ".cst_esp");
   (on p "write_formatted_potential", ".pot_fmt");
   (on p "write_formatted_potential" /\ oep p, ".oep_fmt");
   (on p "write_formatted_density", ".den_fmt");
   (on p "calculate_densdiff", ".chdiff");
   (on p "calculate_densdiff" /\ on p "write_formatted_density", ".chdiff_fmt");
   (on p "calculate_elf", ".elf");
   (on p "calculate_elf" /\ on p "write_formatted_elf", ".elf_fmt");
   (on p "write_formatted_dielec_perm", ".eps_format");
   (on p "write_orbitals" \/ task_word p "BANDSTRUCTURE", ".orbitals");
   (on p "write_cif_structure", "-out.cif");
   (on p "write_cell_structure" \/ task p "spectral", "-out.cell");
   (on p "efield_calc_ion_permittivity" \/ task p "efield" \/ task p "phonon_efield", ".efield");
   (on p "calculate_modos", ".modos_state*");
   (on dev "zdos_scf", ".scf_zdos");
   (on dev "write_unformatted_density", ".altden");
   (on dev "trace" \/ on dev "prof" \/ on dev "profclass", ".*.profile");
   (on dev "pp_hybrid" /\ (task p "geomopt" \/ task p "md"), ".hybrid-md.xyz");
   (on dev "lda_sf_pot_write" /\ spin p, ".B_xc.pot_fmt");
   (on dev "calculate_xrd_sf", ".xrd_sf");
   (on dev "zdos_spectral" /\ task p "spectral", ".spectral_zdos");
   (post_processing dev /\ (exists pp, group dev "pp" pp /\ on pp "pot_print") /\ cell = [], "_*_.pot");
   (post_processing dev /\ (exists pp, group dev "pp" pp /\ on pp "fd_check"), ".fd");
   (on p "pdos_calculate_weights" /\ ~ task_word p "BANDSTRUCTURE" /\ ~ task_word p "ELECTRONICSPECTROSCOPY", ".pdos_weights");
   (on dev "calc_elastic" \/ In (KStr ($"elastic")) (map fst dev), ".elastic");
   (task p "autosolvation", ".vacuum_den");
   (task p "epcoupling", ".epme");
   (task p "epcoupling" \/ (task p "phonon" \/ task p "phonon_efield") /\
      (exists ph, group dev "phonon" ph /\ on ph "write_first_order_potential"), "-*-*-*.ep_pot");
   (task p "geomopt" /\ written p "write_geom", ".geom");
   (task p "geomopt" /\ setting p "geom_method" VNone (VStr ($"pes")), ".pes");
   (task p "spectral" /\ on_by_default p "spectral_restart", ".*.spec");
   (task p "spectral" /\ In (KStr ($"spectral_spinvec")) (map fst dev) /\ In (KStr ($"spectral_spinvec_append")) (map fst dev), ".nc_spinvec");
   (task p "md" /\ written p "write_md", ".md");
   (task p "md" /\ (setting p "md_ensemble" VNone (VStr ($"nvhug")) \/ setting p "md_ensemble" VNone (VStr ($"nphug"))), ".hug");
   (task p "magres", ".magres");
   (task p "tss", ".ts");
   (task p "phonon" \/ task p "phonon_efield", ".phonon");
   ((task p "phonon" \/ task p "phonon_efield") /\ on p "phonon_calculate_dos", ".phonon_dos");
   (over p "tddft_selected_state" 0 0, ".tddft");
   (over p "tddft_selected_state" 0 0 /\ (exists td, group dev "tddft" td /\ on td "den1_write"), ".td_den")]%string.
(** Scratch files of molecular dynamics. *)
Definition extrapolates (p : data) (l : list string) : Prop :=
  task p "md" /\ (exists t, says p "metals_method" "dm" t /\ lower t = $"dm") /\
  (exists t w, says p "md_extrap" "first" t /\ lower t = $w /\ In w l) /\
  ((exists t, says p "opt_strategy" "default" t /\ lower t = $"memory") \/
   (exists v q, setting p "opt_strategy_bias" (VInt 0) v /\ number v q /\ (0 <= q)%Q)).
Definition md_rules (p : data) : list (Prop * string) :=
  [(extrapolates p ["first"; "second"; "mixed"], ".*.wfm"); (extrapolates p ["first"; "second"; "mixed"], ".*.drhom");
   (extrapolates p ["second"; "mixed"], ".*.wf2m"); (extrapolates p ["second"; "mixed"], ".*.drho2m")]%string.
(** Spectral matrix elements. *)
Definition spectral_rules (p g : data) : list (Prop * string) :=
  [(writes p g "elnes" "calc_core", "elnes"); (writes p g "ome" "calc_ome", "ome"); (writes p g "dome" "calc_dome", "dome");
   (on g "calc_pdos" \/ ~ In (KStr ($"calc_pdos")) (map fst g) /\ on p "pdos_calculate_weights", "pdos")]%string.
(** Files with fixed names. *)
Definition fixed_rules (p dev : data) : list (Prop * string) :=
  [(task p "magres" /\ on p "magres_write_response", "current.dat");
   (task p "magres" /\ on p "magres_write_response", "gsden.cube");
   (over p "tddft_selected_state" 0 0 /\ (exists td, group dev "tddft" td /\ on td "save_td_den_fmt"), "den_dump*.dat")]%string.
Definition by_rule (rs : list (Prop * string)) (name : string -> text) (f : text) : Prop :=
  exists c s, In (c, s) rs /\ c /\ f = name s.

(** Names with a number in three or more digits. *)
Definition three_digits (i : nat) (t : text) : Prop :=
  exists z, t = z ++ str_of_Z (Z.of_nat i) /\ Forall (eq "0"%char) z /\
    (length t = 3 \/ z = [] /\ 3 < length t).

(** [a] comes before [b] in [l] or is [b]; repetitions skipped. *)
Inductive firsts {A} : list A -> list A -> Prop :=
| fs_nil : firsts [] []
| fs_new l out x : firsts l out -> ~ In x out -> firsts (l ++ [x]) (out ++ [x])
| fs_old l out x : firsts l out -> In x out -> firsts (l ++ [x]) out.
Definition species_of_site (k s : key) : Prop :=
  (exists i, k = KTuple [s; i]) \/ (exists c d, k = KStr [c; d] /\ s = KStr [c]).

(** Everything predicted.  [str]: text of a key; [n]: see [ps_theory]. *)
Inductive predicted (str : key -> text) (p cell : data) (seed n : text) : text -> Prop :=
| pr_rule dev f : group p "devel_code" dev -> by_rule (rules p cell dev) (fun s => seed ++ $s) f -> predicted str p cell seed n f
| pr_fixed dev f : group p "devel_code" dev -> by_rule (fixed_rules p dev) (fun s => $s) f -> predicted str p cell seed n f
| pr_md f : by_rule (md_rules p) (fun s => seed ++ $s) f -> predicted str p cell seed n f
| pr_farm z i t : task p "md" -> over p "md_num_beads" 1 1 ->
    setting p "num_farms" (VInt 1) (VInt z) -> (1 < z)%Z -> (Z.of_nat i < z)%Z -> three_digits i t ->
    predicted str p cell seed n (seed ++ $"_farm" ++ t ++ $".castep")
| pr_spectral dev g c w f : group p "devel_code" dev -> group dev "spectral" g -> task p "spectral" ->
    spectral_theory p c -> (c = "DFT"%string /\ w = $"." \/ c = "TDDFT"%string /\ w = $"_tddft.") ->
    by_rule (spectral_rules p g) (fun s => seed ++ w ++ $s ++ $"_bin") f -> predicted str p cell seed n f
| pr_born dev ph f : group p "devel_code" dev -> group dev "phonon" ph -> task p "phonon" \/ task p "phonon_efield" ->
    f <> [] -> setting ph "write_external_born" VNone (VStr f) -> predicted str p cell seed n f
| pr_pot dev pp pos ss species before x after y : group p "devel_code" dev -> post_processing dev ->
    group dev "pp" pp -> on pp "pot_print" -> cell <> [] -> group cell "positions_frac" pos ->
    Forall2 species_of_site (map fst pos) ss -> firsts ss species ->
    species = before ++ x :: after -> In y (x :: after) ->
    predicted str p cell seed n (seed ++ $"_" ++ str x ++ $"_" ++ str y ++ $".pot")
| pr_otf pots b k pot th suf : group cell "species_pot" pots -> In (k, VDict b pot) pots -> ps_theory p n th ->
    (on pot "print" /\ In suf [$".gamma"; $".pwave"; $".beta"; $".econv"] \/
     ~ meta_gga p /\ on_by_default p "write_otfg" /\ (spin p /\ suf = $".uspso" \/ ~ spin p /\ suf = $".usp")) ->
    predicted str p cell seed n (str k ++ $"_EXT_" ++ th ++ $"_OTF" ++ suf).

(** ** Where the dictionaries come from *)
(** The dictionary used: the one given, or the first of the file if it exists, or none. *)
Definition used (exists_file : text -> bool) (read : text -> result (list data)) (given : option data) (file : text) (d : data) : Prop :=
  given = Some d \/
  (given = None /\ exists_file file = true /\ exists rest, read file = Ok (d :: rest)) \/
  (given = None /\ exists_file file = false /\ d = []).
(** The file looked at: the one given in its normal spelling, or the seed's with the type [typ]. *)
Definition file_used (given : option text) (root : text) (dirs : list text) (base : text) (typ : string) (file : text) : Prop :=
  (exists f r c, given = Some f /\ denotes f r c /\ file = place r c) \/
  (given = None /\ file = place root (dirs ++ [base ++ $typ])).


(** ** Input with values of the right kinds *)
Definition a_word (d : data) (k dflt : string) : Prop := exists t, says d k dflt t.
Definition a_number (d : data) (k : string) (dflt : Z) : Prop := exists v q, setting d k (VInt dflt) v /\ number v q.
Record sensible (p cell : data) : Prop := {
  se_task : exists w, task p w /\ w <> "wannier"%string /\ w <> "socket_driver"%string;
  se_xc : a_word p "xc_functional" "lda";
  se_spin : a_word p "spin_treatment" "NONE";
  se_state : a_number p "tddft_selected_state" 0;
  se_dev : exists dev, group p "devel_code" dev /\
    (forall k, In k ["pp"; "elastic"; "spectral"; "phonon"; "tddft"]%string -> exists g, group dev k g) /\
    (forall g, group dev "phonon" g -> exists v, setting g "write_external_born" VNone v /\ (no v \/ exists s, v = VStr s));
  se_def : on p "xc_definition" -> exists b its b' fs, setting p "xc_definition" VNone (VDict b its) /\
    In (KStr ($"xc"), VDict b' fs) its /\ forall k v, In (k, v) fs -> exists n, k = KStr n;
  se_check : exists v, setting p "write_checkpoint" (VStr ($"ALL")) v /\
    (v = VNone \/ (exists b, v = VBool b) \/
     exists s x, v = VStr s /\ upper s = $x /\ In x ["TRUE"; "ALL"; "BOTH"; "FULL"; "MINIMAL"; "FALSE"; "NONE"]%string);
  se_md : task p "md" ->
    (exists v, setting p "md_ensemble" VNone v /\ (v = VNone \/ exists s, v = VStr s)) /\
    a_word p "md_extrap" "first" /\ a_word p "opt_strategy" "default" /\ a_word p "metals_method" "dm" /\
    a_number p "opt_strategy_bias" 0 /\ a_number p "md_num_beads" 1 /\ exists z, setting p "num_farms" (VInt 1) (VInt z);
  se_spectral : task p "spectral" -> (exists c, spectral_theory p c) /\ (exists c, spectral_task p c) /\
    (spectral_task p "CORELOSS" -> ~ spectral_theory p "TDDFT" /\ ~ non_local p);
  se_pos : exists pos b, setting cell "positions_frac" (VDict false []) (VDict b pos) /\
    forall k v, In (k, v) pos -> exists s, species_of_site k s;
  se_pots : exists pots, group cell "species_pot" pots /\
    forall k v, In (k, v) pots -> (exists s, v = VStr s) \/ ((exists b d, v = VDict b d) /\ exists r, functional p r) }.
