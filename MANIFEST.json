{
 "claims": [
  {
   "property": "C01",
   "status": "proved",
   "theorems": [
    "C01_iteration"
   ],
   "note": ""
  },
  {
   "property": "C02",
   "status": "proved",
   "theorems": [
    "C02_histories"
   ],
   "note": ""
  },
  {
   "property": "C03",
   "status": "proved",
   "theorems": [
    "C03_lineno_exact",
    "C03_lineno_partial",
    "C03_lineno_refuted"
   ],
   "note": ""
  },
  {
   "property": "C04",
   "status": "proved",
   "theorems": [
    "C04_no_start",
    "C04_from_re",
    "C04_from_re_eof"
   ],
   "note": ""
  },
  {
   "property": "C05",
   "status": "proved",
   "theorems": [
    "C05_get_lines",
    "C05_get_lines_eof",
    "C05_natural_reading_refuted",
    "C05_natural_reading_refuted_eof"
   ],
   "note": ""
  },
  {
   "property": "C06",
   "status": "proved",
   "theorems": [
    "C06_block_histories"
   ],
   "note": ""
  },
  {
   "property": "C07",
   "status": "proved",
   "theorems": [
    "C07_block_lineno",
    "C07_get_lines_lineno",
    "C07_get_lines_lineno_refuted"
   ],
   "note": ""
  },
  {
   "property": "C08",
   "status": "proved",
   "theorems": [
    "C08_from_re_source",
    "C08_get_lines_source",
    "C08_file_block"
   ],
   "note": ""
  },
  {
   "property": "C09",
   "status": "proved",
   "theorems": [
    "C09_get_numbers"
   ],
   "note": ""
  },
  {
   "property": "C10",
   "status": "proved",
   "theorems": [
    "C10_get_numbers_sound",
    "C10_get_numbers_convert",
    "C10_no_exception_refuted"
   ],
   "note": ""
  },
  {
   "property": "C11",
   "status": "proved",
   "theorems": [
    "C11_float_value",
    "C11_float_overflow",
    "C11_float_zero_division",
    "C11_float_rejects",
    "C11_int_accepts",
    "C11_int_rejects"
   ],
   "note": ""
  },
  {
   "property": "C12",
   "status": "proved",
   "theorems": [
    "C12_detected_refuted",
    "C12_determine_type",
    "C12_detected_number_partial",
    "C12_detected_ratio_partial",
    "C12_detected_text_partial"
   ],
   "note": ""
  },
  {
   "property": "C13",
   "status": "proved",
   "theorems": [
    "C13_to_type",
    "C13_to_type_fails",
    "C13_to_type_exception"
   ],
   "note": ""
  },
  {
   "property": "C14",
   "status": "proved",
   "theorems": [
    "C14_logical",
    "C14_determine_logical"
   ],
   "note": ""
  },
  {
   "property": "C15",
   "status": "proved",
   "theorems": [
    "C15_int_or_float",
    "C15_int_or_float_string",
    "C15_signed_refuted"
   ],
   "note": ""
  },
  {
   "property": "C16",
   "status": "proved",
   "theorems": [
    "C16_ints",
    "C16_logicals",
    "C16_logicals_nonzero",
    "C16_floats",
    "C16_complexes",
    "C16_text",
    "C16_scalars"
   ],
   "note": ""
  },
  {
   "property": "C17",
   "status": "proved",
   "theorems": [
    "C17_array_length",
    "C17_scalar_length",
    "C17_text_rejects",
    "C17_complex_length_partial",
    "C17_complex_refuted"
   ],
   "note": ""
  },
  {
   "property": "C18",
   "status": "proved",
   "theorems": [
    "C18_records_roundtrip"
   ],
   "note": ""
  },
  {
   "property": "C19",
   "status": "proved",
   "theorems": [
    "C19_cursor",
    "C19_rewind_too_far",
    "C19_rewind_after_overrun_refuted"
   ],
   "note": ""
  },
  {
   "property": "C20",
   "status": "proved",
   "theorems": [
    "C20_dict",
    "C20_dict_runs_out",
    "C20_dict_bad_record",
    "C20_tuple",
    "C20_tuple_runs_out",
    "C20_cycle",
    "C20_cycle_past_end"
   ],
   "note": ""
  },
  {
   "property": "C21",
   "status": "proved",
   "theorems": [
    "C21_esp_roundtrip",
    "C21_same_x_merged_refuted"
   ],
   "note": ""
  },
  {
   "property": "C22",
   "status": "proved",
   "theorems": [
    "C22_epme_roundtrip",
    "C22_wrong_marker",
    "C22_wrong_counts"
   ],
   "note": ""
  },
  {
   "property": "C23",
   "status": "proved",
   "theorems": [
    "C23_normalise_string",
    "C23_idempotent"
   ],
   "note": ""
  },
  {
   "property": "C24",
   "status": "proved",
   "theorems": [
    "C24_normalise_key",
    "C24_canonical",
    "C24_idempotent"
   ],
   "note": ""
  },
  {
   "property": "C25",
   "status": "proved",
   "theorems": [
    "C25_strip_initial",
    "C25_strip_inline",
    "C25_unique"
   ],
   "note": ""
  },
  {
   "property": "C26",
   "status": "proved",
   "theorems": [
    "C26_flatten",
    "C26_flatten_sound",
    "C26_flatten_keys",
    "C26_distinct_needed_refuted",
    "C26_falsy_parent_refuted",
    "C26_separator_refuted",
    "C26_falsy_parent"
   ],
   "note": ""
  },
  {
   "property": "C27",
   "status": "proved",
   "theorems": [
    "C27_json_ready",
    "C27_empty_key_refuted"
   ],
   "note": ""
  },
  {
   "property": "C28",
   "status": "proved",
   "theorems": [
    "C28_atoms",
    "C28_atom_text_distinct",
    "C28_bonds",
    "C28_bonds_refuted"
   ],
   "note": ""
  },
  {
   "property": "C29",
   "status": "proved",
   "theorems": [
    "C29_yaml",
    "C29_pyyaml_refuted",
    "C29_keys_refuted"
   ],
   "note": "Proved for 'yaml' and 'ruamel'; refuted for 'pyyaml' and for tuple keys."
  },
  {
   "property": "C30",
   "status": "proved",
   "theorems": [
    "C30_add_aliases",
    "C30_chained_refuted",
    "C30_self_refuted"
   ],
   "note": ""
  },
  {
   "property": "C31",
   "status": "proved",
   "theorems": [
    "C31_stack",
    "C31_column_unique",
    "C31_plain"
   ],
   "note": ""
  },
  {
   "property": "C32",
   "status": "proved",
   "theorems": [
    "C32_strip_nones",
    "C32_filter_underscore",
    "C32_fix_data_types",
    "C32_fix_data_types_error",
    "C32_get_only",
    "C32_atreg_to_index"
   ],
   "note": ""
  },
  {
   "property": "C33",
   "status": "proved",
   "theorems": [
    "C33_frame_exact"
   ],
   "note": "All entries and only those, for every frame made of time lines, tagged rows and tagged atom lines; tags named like the added keys (ions, time, long names) excluded."
  },
  {
   "property": "C34",
   "status": "proved",
   "theorems": [
    "C34_file_frames",
    "C34_no_frames"
   ],
   "note": "Files and blocks alike; last frame may lack its empty line. A file that ends with the header raises StopIteration, not ValueError."
  },
  {
   "property": "C35",
   "status": "proved",
   "theorems": [
    "C35_two_empty_lines",
    "C35_separation_refuted"
   ],
   "note": "The property as wished for is false: refuted by two concrete files; general theorem that everything after two empty lines is dropped."
  },
  {
   "property": "C36",
   "status": "proved",
   "theorems": [
    "C36_random_access",
    "C36_next_frame",
    "C36_iteration",
    "C36_for_loop"
   ],
   "note": "Any finite history of get_frame, read_next, lists, slices and generator steps."
  },
  {
   "property": "C37",
   "status": "proved",
   "theorems": [
    "C37_lazy_eager",
    "C37_blank_separators_refuted"
   ],
   "note": "Holds for empty separator lines; refuted for separator lines of blanks."
  },
  {
   "property": "C38",
   "status": "proved",
   "theorems": [
    "C36_random_access",
    "C38_short_file",
    "C38_last_frame_refuted"
   ],
   "note": "Length equals the number of frames when all end with a blank line; otherwise the last one is not counted."
  },
  {
   "property": "C39",
   "status": "proved",
   "theorems": [
    "C39_canonical",
    "C39_dotted_seed_refuted"
   ],
   "note": "Strictly increasing, contains <stem>.castep, data priority (given dictionary, file, seed's file, nothing). The stem is the seed without directory and without up to two dotted parts; the refutation shows a dotted seed."
  },
  {
   "property": "C40",
   "status": "proved",
   "theorems": [
    "C40_rules",
    "C40_answers",
    "C40_wannier_refuted",
    "C40_coreloss_refuted",
    "C40_usp_refuted"
   ],
   "note": "Membership of every name is equivalent to one of the listed rules (about 60), for dictionaries with distinct keys; sensible input always answers. Refutations: wannier and core loss with non-local functionals raise, recpot/dbands_dstrain are never predicted."
  },
  {
   "property": "C41",
   "status": "proved",
   "theorems": [
    "C41_selection",
    "C41_extract",
    "C41_absolute",
    "C41_dotted_seed_refuted",
    "C41_dotted_seed_wrong_refuted",
    "C41_directory_err_refuted"
   ],
   "note": "Exact selection; the naive reading is refuted for dotted seeds, error files of seeds in directories and absolute seeds. Seeds without wildcard characters."
  },
  {
   "property": "C42",
   "status": "proved",
   "theorems": [
    "C42_dispatch",
    "C42_no_parser",
    "C42_unique",
    "C42_binary_name_refuted"
   ],
   "note": "Refuted for names of binary parsers."
  },
  {
   "property": "C43",
   "status": "proved",
   "theorems": [
    "C43_all",
    "C43_failure",
    "C43_format"
   ],
   "note": ""
  },
  {
   "property": "C44",
   "status": "proved",
   "theorems": [
    "C44_dumper",
    "C44_error",
    "C44_yaml",
    "C44_cli",
    "C44_cli_yaml_refuted"
   ],
   "note": ""
  },
  {
   "property": "C45",
   "status": "proved",
   "theorems": [
    "C45_bands_exact"
   ],
   "note": "exponents and spin-polarised headers: see C55, C56"
  },
  {
   "property": "C46",
   "status": "proved",
   "theorems": [
    "C46_hug_exact"
   ],
   "note": ""
  },
  {
   "property": "C47",
   "status": "proved",
   "theorems": [
    "C47_err_found",
    "C47_err_none"
   ],
   "note": ""
  },
  {
   "property": "C48",
   "status": "proved",
   "theorems": [
    "C48_fmt_exact",
    "C48_fmt_ragged"
   ],
   "note": ""
  },
  {
   "property": "C49",
   "status": "proved",
   "theorems": [
    "C49_file",
    "C49_unreadable",
    "C49_unclosed",
    "C49_two_blanks_refuted",
    "C49_digit_name_refuted"
   ],
   "note": "devel_code and species_pot blocks are parameters of the theorems; text is ASCII. Refuted parts: C49_two_blanks_refuted, C49_digit_name_refuted. Blocks covered by C49_file: positions, symmetry_ops, ionic_constraints and those without their own format."
  },
  {
   "property": "C50",
   "status": "proved",
   "theorems": [
    "C50_fractional",
    "C50_absolute",
    "C50_absolute_default",
    "C50_negative_ratio_refuted",
    "C50_label_refuted"
   ],
   "note": "devel_code and species_pot blocks are parameters of the theorems; text is ASCII. Refuted parts: C50_negative_ratio_refuted, C50_label_refuted."
  },
  {
   "property": "C51",
   "status": "proved",
   "theorems": [
    "C51_table",
    "C51_grid",
    "C51_coordinate_refuted",
    "C51_tenth_row_refuted"
   ],
   "note": "Proved: exactly what is read from every table and grid description. Refuted parts: the third coordinate and rows numbered 10 and above."
  },
  {
   "property": "C52",
   "status": "proved",
   "theorems": [
    "C52_bonds",
    "C52_zero_spin_refuted"
   ],
   "note": "Refuted part: a spin of exactly zero is not reported."
  },
  {
   "property": "C53",
   "status": "proved",
   "theorems": [
    "C53_stresses"
   ],
   "note": "For every title, tensor and surrounding lines; values must fit a double."
  },
  {
   "property": "C54",
   "status": "proved",
   "theorems": [
    "C54_phonons",
    "C54_repeats_refuted"
   ],
   "note": "Proved: exactly what is read from every such table, character tables included. Refuted: repeated q-points are not recognised."
  },
  {
   "property": "C55",
   "status": "proved",
   "theorems": [
    "C55_exponent_eigenvalue_refuted"
   ],
   "note": "false of the code; witness"
  },
  {
   "property": "C56",
   "status": "proved",
   "theorems": [
    "C56_spin_polarised_header_refuted"
   ],
   "note": "false of the code; witness"
  },
  {
   "property": "C57",
   "status": "proved",
   "theorems": [
    "C57_unindented_row_refuted"
   ],
   "note": "false of the code; witness"
  },
  {
   "property": "C58",
   "status": "proved",
   "theorems": [
    "C34_file_frames"
   ],
   "note": "Second conjunct; reader position follows from the first conjunct."
  },
  {
   "property": "C59",
   "status": "proved",
   "theorems": [
    "C59_json",
    "C59_plain"
   ],
   "note": "Values of the supported types (jsonable)."
  },
  {
   "property": "C60",
   "status": "proved",
   "theorems": [
    "C60_testing"
   ],
   "note": "Leaf correspondence holds when no container sits under a falsy key."
  },
  {
   "property": "C61",
   "status": "proved",
   "theorems": [
    "C61_symmetry_ops",
    "C61_negative_ratio_refuted"
   ],
   "note": "devel_code and species_pot blocks are parameters of the theorems; text is ASCII. Refuted part: C61_negative_ratio_refuted."
  },
  {
   "property": "C62",
   "status": "proved",
   "theorems": [
    "C62_ionic_constraints",
    "C62_tenth_refuted"
   ],
   "note": "devel_code and species_pot blocks are parameters of the theorems; text is ASCII. Refuted part: C62_tenth_refuted."
  },
  {
   "property": "C63",
   "status": "proved",
   "theorems": [
    "C63_rows",
    "C63_properties",
    "C63_rows_after_properties",
    "C63_rows_before_properties",
    "C63_end_digits_refuted"
   ],
   "note": "devel_code and species_pot blocks are parameters of the theorems; text is ASCII. Refuted part: C63_end_digits_refuted. Rows before species properties in one block are lost (C63_rows_before_properties)."
  },
  {
   "property": "C64",
   "status": "proved",
   "theorems": [
    "C64_vectors"
   ],
   "note": ""
  },
  {
   "property": "C65",
   "status": "proved",
   "theorems": [
    "C65_forces"
   ],
   "note": ""
  },
  {
   "property": "C66",
   "status": "proved",
   "theorems": [
    "C66_header"
   ],
   "note": "Numbers must be representable without overflow (fits); the three coordinate columns of a site contain no capital letters (exponents written with e), because the older form of line is tried first."
  },
  {
   "property": "C67",
   "status": "proved",
   "theorems": [
    "C67_phonon",
    "C67_phonon_lost_refuted",
    "C67_phonon_intensity_refuted",
    "C67_phonon_order_refuted",
    "C67_phonon_twice_refuted"
   ],
   "note": "The refutations record that a q-point without vectors is lost, that the intensities are not kept with their modes when some modes have none, that vectors before the first q-point raise UnboundLocalError, and that vectors given twice for a q-point make two equal entries, each with all vectors."
  },
  {
   "property": "C68",
   "status": "proved",
   "theorems": [
    "C68_phonon_dos",
    "C68_phonon_dos_refuted"
   ],
   "note": "The refutation records on a concrete file that the last row of a DOS table is lost and that an entry without name is returned."
  },
  {
   "property": "C69",
   "status": "proved",
   "theorems": [
    "C69_efield",
    "C69_efield_refuted"
   ],
   "note": "The refutation records that the oscillator strengths are read one column too far left (mode number as freq, frequency as xx, ...) and that the last row of a table is lost."
  },
  {
   "property": "C70",
   "status": "proved",
   "theorems": [
    "C70_elastic",
    "C70_elastic_refuted"
   ],
   "note": "At least one header line that is neither a count nor a cell line is required (BEGIN header itself is one), because the parser deletes the nameless entry. The refutation records that strain vectors have seven components, the index of the atom first."
  },
  {
   "property": "C71",
   "status": "proved",
   "theorems": [
    "C71_epme",
    "C71_epme_refuted"
   ],
   "note": "The refutation records that files have a column for the phonon frequency which is read as e_i, shifting every later column."
  },
  {
   "property": "C72",
   "status": "proved",
   "theorems": [
    "C72_xrd_sf"
   ],
   "note": "Headings must be Python identifiers after lowering and not 'qvec'. The iteration order of sets is an arbitrary permutation."
  },
  {
   "property": "C73",
   "status": "proved",
   "theorems": [
    "C73_tddft",
    "C73_tddft_refuted"
   ],
   "note": "The refutation records that the option for the highest occupied band is misspelt ('Higest'), so that the band given in headers is not returned."
  },
  {
   "property": "C74",
   "status": "proved",
   "theorems": [
    "C74_ts",
    "C74_ts_refuted"
   ],
   "note": "The refutation records that the first line of files other than confirmations, 'TSTYPE ...', contains 'TST' and makes the parser fail with TypeError."
  },
  {
   "property": "C75",
   "status": "proved",
   "theorems": [
    "C75_magres",
    "C75_magres_blank_refuted",
    "C75_magres_order_refuted",
    "C75_magres_shielding_refuted"
   ],
   "note": "The refutations record that a blank line in the magres block raises IndexError, that a magres block without a calculation block raises UnboundLocalError, and that with several atoms only the last atom's shielding tensor is kept."
  },
  {
   "property": "C76",
   "status": "proved",
   "theorems": [
    "C76_matrix",
    "C76_unit_cell",
    "C76_occupancies",
    "C76_occupancies_bad",
    "C76_raman",
    "C76_dynamical",
    "C76_dynamical_bad",
    "C76_phonon_symmetry"
   ],
   "note": "Sums and products of floats are exact in the model (Raman trace and second invariant)."
  },
  {
   "property": "C77",
   "status": "proved",
   "theorems": [
    "C77_finalisation",
    "C77_finalisation_bad",
    "C77_autosolvation",
    "C77_memory",
    "C77_active_space",
    "C77_delocalised",
    "C77_line_minimiser",
    "C77_dipole",
    "C77_elastic",
    "C77_build"
   ],
   "note": ""
  },
  {
   "property": "C78",
   "status": "proved",
   "theorems": [
    "C78_hirshfeld",
    "C78_initial_spins",
    "C78_born",
    "C78_displacements",
    "C78_displacements_text",
    "C78_mulliken",
    "C78_magres",
    "C78_orbitals"
   ],
   "note": "The sum of the two spin totals is exact in the model."
  },
  {
   "property": "C79",
   "status": "proved",
   "theorems": [
    "C79_filters_respected"
   ],
   "note": "Says what is not there; what is there for the blocks and lines is in C81."
  },
  {
   "property": "C80",
   "status": "proved",
   "theorems": [
    "C80_quiet_lines"
   ],
   "note": "The phrases are shown to be necessary for the patterns by a derivation on the patterns."
  },
  {
   "property": "C81",
   "status": "proved",
   "theorems": [
    "C81_runs"
   ],
   "note": "The kinds of blocks and lines are listed in SpecCastepRun; the remaining branches (among them memory estimates, molecular dynamics, geometry iterations, transition states, species) are modelled but their blocks are not in the theorem, nor are SCF loops with debugging output."
  },
  {
   "property": "C82",
   "status": "proved",
   "theorems": [
    "C82_asking_for_less",
    "C82_entries",
    "C82_less_is_part_refuted",
    "C82_less_is_read_refuted"
   ],
   "note": "The refuted theorems show where the property fails for other files."
  },
  {
   "property": "C83",
   "status": "proved",
   "theorems": [
    "C83_same_but_energies",
    "C83_run_alone_refuted"
   ],
   "note": "C81_runs gives the form of every run."
  },
  {
   "property": "C84",
   "status": "proved",
   "theorems": [
    "C84_parts",
    "C84_no_symbol",
    "C84_label",
    "C84_label_refused",
    "C84_from_str_refuted"
   ],
   "note": "from_str is refuted for every text: TypeError (index missing) or AttributeError (no symbol)."
  },
  {
   "property": "C85",
   "status": "proved",
   "theorems": [
    "C85_excitations",
    "C85_electron_localisation",
    "C85_thermodynamics",
    "C85_md_summary",
    "C85_geometry_table",
    "C85_bands",
    "C85_band_before_heading",
    "C85_pseudo_atomic",
    "C85_scf"
   ],
   "note": "Lines are described by relations of SpecCastep4.v. In C85_scf the contributions are the lines \"name = x eV\"; the form without \"=\" (a name of full width run into the number) and a sweep that is never concluded are outside the description."
  },
  {
   "property": "C86",
   "status": "proved",
   "theorems": [
    "C86_species_properties",
    "C86_dispersion",
    "C86_dispersion_label_refuted",
    "C86_internal_constraints",
    "C86_internal_constraints_other",
    "C86_excited_states",
    "C86_excited_states_refuted",
    "C86_parameters",
    "C86_parameters_refuted",
    "C86_developer_codes"
   ],
   "note": "Lines are described by relations of SpecCastep5.v. The three _refuted theorems are witnesses of texts read otherwise than one would expect (a labelled species in the dispersion table, 'spin' in a file name, a value such as 3-body). C86_parameters is about blocks without a Developer Code section, C86_developer_codes about blocks with any number of them; the sections themselves are described by SpecDevel.v."
  },
  {
   "property": "C87",
   "status": "proved",
   "theorems": [
    "C87_beta_functions_read",
    "C87_definitions_read",
    "C87_species_pot_read",
    "C87_species_pot_file",
    "C87_energy_sign_refuted",
    "C87_local_energy_refuted"
   ],
   "note": "Definitions are described by the writer of SpecPspot.v, which is separate from the parser's patterns. The two _refuted theorems are witnesses (the sign of beta_e is lost; a local energy is not accepted). Signed radii of projectors and shells with a signed occupation are not covered."
  },
  {
   "property": "C88",
   "status": "proved",
   "theorems": [
    "C88_report",
    "C88_report_string",
    "C88_report_string_refuted",
    "C88_symmetry"
   ],
   "note": "C88_report_string_refuted is the witness for the string that is never read: the pattern only matches at the start of a line (the same string alone on a line is read). The lines are described by SpecCastep6.v, separately from the patterns."
  },
  {
   "property": "C89",
   "status": "proved",
   "theorems": [
    "C89_pair_potentials",
    "C89_bare_values_refuted",
    "C89_bare_digit_refuted"
   ],
   "note": "The pattern for values demands a unit; the two refutations show values without one: 18.0000000005 is read as 18, 18 as 1, and 1 is lost. The report is described by SpecPairs.v and the dictionary by SpecTree.v, both separately from the patterns and from the code that builds nested dictionaries."
  },
  {
   "property": "C90",
   "status": "proved",
   "theorems": [
    "C90_final_configuration",
    "C90_in_run",
    "C90_later_value",
    "C90_other_line"
   ],
   "note": "The unit cell and the atoms inside the block are described as in C76 and C64."
  },
  {
   "property": "C91",
   "status": "proved",
   "theorems": [
    "C91_polarisation",
    "C91_two_reports",
    "C91_details_lost_refuted"
   ],
   "note": "Tables that the end of the report cuts off, of which the program drops the last line, are outside the theorem."
  },
  {
   "property": "C92",
   "status": "proved",
   "theorems": [
    "C92_devel_code_read",
    "C92_devel_code_closed",
    "C92_devel_code_file",
    "C92_exponent_refuted",
    "C92_setting_in_word_refuted",
    "C92_colon_refuted",
    "C92_repeated_group_refuted"
   ],
   "note": "Settings written with \":\" instead of \"=\" and groups given twice are outside the theorem. Refuted parts: C92_exponent_refuted, C92_setting_in_word_refuted, C92_colon_refuted, C92_repeated_group_refuted."
  },
  {
   "property": "C93",
   "status": "proved",
   "theorems": [
    "C93_warnings",
    "C93_next_line_lost",
    "C93_next_line_refuted"
   ],
   "note": "The word occurs once in the relevant part of the line (SpecWarn.warned). Files of one run. The refutation records that a final energy right after a warning of one line is lost."
  },
  {
   "property": "C94",
   "status": "proved",
   "theorems": [
    "C94_labelled_positions"
   ],
   "note": "A row has exactly five blanks before the label and a label of at most eight characters without blanks (SpecLabelled.label_row). One block and otherwise quiet lines."
  },
  {
   "property": "C95",
   "status": "proved",
   "theorems": [
    "C95_presets",
    "C95_membership"
   ],
   "note": "Flag arithmetic of enum.Flag is modelled by lists of flags."
  }
 ]
}