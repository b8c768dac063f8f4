# Formal model of castep_outputs in Rocq

This document says what is modelled, how each property of `properties.jsonl`
is proved, and what has to be trusted.

## 1. Approach

The parsers are ordinary Python functions over text or bytes.  Each modelled
function becomes a total computable Gallina function that mirrors it branch by
branch.  Exceptions are values: a function that may raise returns
`result A := Ok a | Err e`, with `e` naming the Python exception class.
Mutation is modelled by returning the new value.  `for` loops become folds or
structural recursion over the lines consumed.

Layers (files in `rocq/theories/`):

| layer | files | content |
|---|---|---|
| Python prelude | `PyBase`, `PyVal`, `PathLib` | results, ASCII strings and their methods, dictionaries, dynamic values, `int()`, `Fraction()`, `float()`, pure paths |
| regular expressions | `Regex`, `CastepRes`; proofs `RegexFacts`, `RegexComplete`, `NeedFacts`, `PhraseFacts`, `LangFacts` | a backtracking matcher for the constructs used by the code, and the patterns of `castep_res.py` as terms |
| line layer | `FileWrapper` (the classes), `Stream` (the view of the parsers: the lines left) | `FileWrapper`, `Block` |
| conversion | `TypeConv`, `StrUtil`, `DictUtil`, `Bytes` | `type_conv.py`, `utility.py` |
| binary | `Fortran`, `BinParsers` | Fortran reader, `cst_esp`, `epme_bin` |
| text parsers | `TextParsers` (.err, .hug, *_fmt), `Header`, `Bands`, `MdGeom`, `TextFiles` (.phonon, .phonon_dos, .efield, .elastic, .tddft, .ts, .magres, .epme, .xrd_sf), `CellParam`, `Pspot` (.cell, .param) | |
| .castep | `CastepBlocks`, `CastepNum`, `CastepRows`, `CastepRest` (functions on one block), `CastepFile` (the dispatch over lines) | all of `castep_file_parser.py` |
| tools, CLI | `GenFiles`, `Cli`, `MdGeom` | |
| statements | `T_*` | only theorems (`Proof. exact lemma. Qed.`), `Print Assumptions`, and examples that the hypotheses are met |

Specifications (`Spec*.v`, `NumSpec.v`) are written without using the model's
helpers: they describe file formats as renderers ("this is the text of a frame
with these data"), as relations between lines and what they say, or as abstract
machines ("a cursor over the list of records"), so a theorem reads
`parse (render x) = x`-style or `run model history = run abstract history`.

## 2. Modelling decisions and simplifications

* Text is a list of 8-bit characters (`list ascii`), with the character classes
  of ASCII.  Unicode characters (and Python's Unicode-aware `\w`, `\s`, `\d`,
  `lower`, `title`) are outside the model.
* Text files are modelled after newline translation; `tell`/`seek` are offsets
  in characters, which for ASCII files with `\n` newlines are byte offsets.
* `FileWrapper`/`Block` are modelled as classes (C01-C08).  The file parsers use
  the list of remaining lines; C04-C08 justify that view (a block or file, read
  by `next`, `from_re`, `get_lines`, is such a list).
* A Python float obtained from text is the exact rational number the text
  denotes (reduced fraction).  Rounding to binary64 is not modelled; numbers too
  large for binary64 are (`float(Fraction(..))` raises OverflowError, the
  builtin `float` gives an infinity), hence the hypothesis `fits` of many
  theorems.  Sums and products of such floats (Raman trace and invariant,
  Mulliken totals, charge spilling) are exact.  A float obtained from binary
  data is its 64-bit pattern.
* `Fraction(str)` follows the grammar of CPython 3.10/3.11 (no blanks around
  "/"); underscores between digits are not accepted; the limit of 4300 digits of
  `int()` is not modelled.
* Dictionaries are association lists in insertion order.  Keys are compared
  structurally (Python's `1 == 1.0 == True` identification of keys is not
  modelled; no modelled parser mixes such keys).  Whether a dictionary is a
  `defaultdict` is part of a value because it shows in the dumped output.
* The iteration order of a `set` (used by the .xrd_sf parser) is a parameter:
  theorems hold for every order.
* Logging is not modelled.
* Regular expressions: the matcher implements sequence, ordered alternation,
  greedy and lazy bounded/unbounded repetition, named groups,
  single-character lookbehind, lookahead, `^`, `$`, `\b`, back-references and
  conditional groups, exploring alternatives in the order of Python's `re`.
  Bodies of unbounded repetitions must consume a character per iteration (this
  is the case for all patterns modelled; `rep_ok` checks it for every pattern a
  completeness lemma is used for).
* Paths (`PathLib`): POSIX pure paths; links and `..` are not resolved; `*` is
  the only wildcard of `glob`.  The file system is a predicate or a finite list.
* `get_generated_files`: parameter values are what a parameter or cell file can
  give (None, bool, int, float, str, tuple, list, dict).
* Loops that take a varying number of lines carry a counter bounded by the
  number of lines.  The theorems are equations with `Ok`, so the counter is shown
  not to run out there; `parse_depths` shows that the depth of the recursion of
  `parse_castep_file` into its own blocks never matters.

### What is modelled of each file of `/repo/castep_outputs`

| file | modelled | not modelled |
|---|---|---|
| `utilities/filewrapper.py` | all | `log_factory`/logging |
| `utilities/utility.py` | all text, dictionary and nesting helpers | `log_factory`, `file_or_path` opening of files |
| `utilities/type_conv.py` | all | numpy arrays |
| `utilities/castep_res.py` | all patterns used by the parsers | |
| `utilities/dumpers.py` | choice of the dumper, preparation of the data | the JSON/YAML libraries and `pprint` |
| `utilities/constants.py`, `datatypes.py` | the constants used | type annotations |
| `bin_parsers/*` | all | |
| `parsers/*.py` | all | |
| `tools/*.py` | all | memory estimate of `MDGeomParser` (a position is enough) |
| `cli/*.py`, `__main__.py` | decisions, selection of files, errors | help texts of argparse |
| `processing/processing.py` | all (`Labels`) | |

The model was compared with the expected values of the repository's unit tests
for .castep files (89 texts), by evaluation of the model on the test inputs;
nothing of the repository was run.  The comparison follows python's ==
(1 and 1.0 are equal, the order of dictionary entries is irrelevant).  80 agree.
Four do not and belong to tests the repository skips as "Not implemented yet"
(elastic_scf, pimd_data, tss_info, tss_table); they are no evidence either way.
Of the other five, four (scf twice, solvation, verbose_com_remove) differ because
the model keeps the digits that are written; every differing pair was checked to be
equal after rounding to binary64.  The last (dynamical_matrix) differs because the
expectation writes 6 where the model has 6+0j, which python holds equal.

## 3. Properties: how each is proved

* C01-C03: `FileWrapper` as a state machine over (content, offset, remembered
  offset, line number); refinement to an abstract cursor over the list of lines
  by induction over histories.  C03 has a refutation for histories reaching EOF
  and a theorem for the others.
* C04, C05, C07, C08: `from_re`/`get_lines` over a stream of remaining lines,
  plus a proof that `FileWrapper` and `Block` refine such a stream.
* C06: abstract integer cursor; induction over histories.
* C09, C10: regex terms of `castep_res.py` run by the matcher; a grammar of
  number tokens written independently; induction over the token list / line.
* C11, C14, C15: value semantics of tokens written independently.
* C12: counterexamples by computation, positive theorems for the good classes.
* C13, C26-C29, C59, C60: induction over nested values.
* C16, C17: encoders are the specification; induction over arrays.
* C18-C20, C58: encoder as specification; reader state is (file bytes, offset);
  refinement to an index into the record list by induction over histories.
* C21, C22: encoders of whole files as specification.
* C23-C25, C30-C32: direct functional specifications.
* C33-C38: renderer of frames as specification; `MDGeomParser` as a state
  machine, refinement to "frame i of the list".
* C39, C40: the decision code of `get_generated_files.py` over a record of
  options; the rules (about 60) are listed independently in `SpecGen.v`.
* C41-C44: CLI decision logic over an abstract file system and argument record.
* C45-C48, C55-C57: renderers of the small file formats as specification.
* C49, C50, C61-C63, C87, C92: renderers of .param/.cell lines and blocks.
* C51-C54, C64, C65, C76-C78, C85, C86, C88-C91: per line, a relation "this line says this"
  (`Spec*Castep*.v`), written with the number grammar of `NumSpec.v`; the
  patterns are shown to accept exactly such lines (or the lines are shown to be
  read so), then induction over the lines of the block.
* C66-C75: the same for block files.
* C79: an invariant over the dispatch: which key may be stored under which
  filter; one lemma per branch.
* C80: for each branch a phrase every line taking it must contain, computed from
  the pattern (`PhraseFacts.must`, proved sound); a line with none of them
  changes nothing.
* C93: the pieces of C81 with warnings of one or more lines between them (SpecWarn.v).
* C94: one block of labelled positions between quiet lines (SpecLabelled.v).
* C95: what each preset set of filters leaves out.
* C81-C83: a file is a list of runs, a run a list of pieces (block kinds and line
  kinds, `SpecCastepRun.v`), each with the effect it has on the run; the dispatch
  is shown to give each piece to its branch (no earlier branch takes it), blocks
  are read by the theorems C51-C78, C85, C86, C88, C89 and C91, and effects compose.  C82/C83 are about the
  effects only.
* C84: see the statements in the `T_` files; the same methods.

Nothing on the list is declared inexpressible.  Not expressible in this kind of
model, and hence not listed: performance, memory use, behaviour of the JSON and
YAML libraries themselves, concurrent modification of files while reading.

## 4. Trusted base

* Coq 8.16.1's kernel (and `vm_compute`, used for examples and refutations).
* No axioms: `Print Assumptions` under each theorem reports "Closed under the
  global context", without exception.  (Loading the standard library's ssreflect
  support via other modules brings seven `Under_rel` parameters of `ssrunder`
  into scope; no theorem uses them.)
* The reading of the Python code into Gallina, definition by definition, as
  cited in the comments; and of CPython's `re`, `str`, `int`, `Fraction`,
  `struct`, file objects for the operations used.
* The statements themselves: the `Spec*.v` files and the `T_*.v` files.

## 5. Wrong programs

`seeded/run_seed.py` edits one definition of the model in a scratch copy,
rebuilds, and reports which theorems no longer hold; `seeded/LOG.jsonl` has one
line per attempt, with the theorems that failed and those added or tightened
because an edit went unnoticed.

## 6. State of the properties

| property | title | state | theorems |
|---|---|---|---|
| C01 | Wrapped files deliver every line exactly once | proved | `C01_iteration` |
| C02 | Any interleaving of next and rewind behaves like a line cursor | proved | `C02_histories` |
| C03 | Reported line numbers equal the number of lines consumed | proved | `C03_lineno_exact`, `C03_lineno_partial`, `C03_lineno_refuted` |
| C04 | Block.from_re consumes exactly one block | proved | `C04_no_start`, `C04_from_re`, `C04_from_re_eof` |
| C05 | Block.get_lines takes n lines and one more from the stream | proved | `C05_get_lines`, `C05_get_lines_eof`, `C05_natural_reading_refuted`, `C05_natural_reading_refuted_eof` |
| C06 | Any interleaving of next and rewind on a Block behaves like an index into its lines | proved | `C06_block_histories` |
| C07 | Block line numbers point at the right line of the file | proved | `C07_block_lineno`, `C07_get_lines_lineno`, `C07_get_lines_lineno_refuted` |
| C08 | A block is as good as a file as a source | proved | `C08_from_re_source`, `C08_get_lines_source`, `C08_file_block` |
| C09 | get_numbers recovers every number of a separated line | proved | `C09_get_numbers` |
| C10 | get_numbers only ever returns numbers, and to_type float reads them | proved | `C10_get_numbers_sound`, `C10_get_numbers_convert`, `C10_no_exception_refuted` |
| C11 | Numeric text converts to the value it denotes | proved | `C11_float_value`, `C11_float_overflow`, `C11_float_zero_division`, `C11_float_rejects`, `C11_int_accepts`, `C11_int_rejects` |
| C12 | determine_type never selects a type that fails | proved | `C12_detected_refuted`, `C12_determine_type`, `C12_detected_number_partial`, `C12_detected_ratio_partial`, `C12_detected_text_partial` |
| C13 | to_type preserves structure | proved | `C13_to_type`, `C13_to_type_fails`, `C13_to_type_exception` |
| C14 | Logicals are recognised case-insensitively | proved | `C14_logical`, `C14_determine_logical` |
| C15 | parse_int_or_float yields ints exactly for integers | proved | `C15_int_or_float`, `C15_int_or_float_string`, `C15_signed_refuted` |
| C16 | Binary records decode to the values that were written | proved | `C16_ints`, `C16_logicals`, `C16_logicals_nonzero`, `C16_floats`, `C16_complexes`, `C16_text`, `C16_scalars` |
| C17 | Malformed binary records are rejected, never misread | proved | `C17_array_length`, `C17_scalar_length`, `C17_text_rejects`, `C17_complex_length_partial`, `C17_complex_refuted` |
| C18 | A Fortran unformatted file is read back record by record | proved | `C18_records_roundtrip` |
| C19 | next/skip/rewind move a cursor over records | proved | `C19_cursor`, `C19_rewind_too_far`, `C19_rewind_after_overrun_refuted` |
| C20 | Typed reads consume exactly the described records | proved | `C20_dict`, `C20_dict_runs_out`, `C20_dict_bad_record`, `C20_tuple`, `C20_tuple_runs_out`, `C20_cycle`, `C20_cycle_past_end` |
| C21 | cst_esp files are read back in full | proved | `C21_esp_roundtrip`, `C21_same_x_merged_refuted` |
| C22 | epme_bin files are read back in full | proved | `C22_epme_roundtrip`, `C22_wrong_marker`, `C22_wrong_counts` |
| C23 | normalise_string keeps words and only words | proved | `C23_normalise_string`, `C23_idempotent` |
| C24 | normalise_key yields canonical keys | proved | `C24_normalise_key`, `C24_canonical`, `C24_idempotent` |
| C25 | Comment stripping removes comments and nothing else | proved | `C25_strip_initial`, `C25_strip_inline`, `C25_unique` |
| C26 | flatten_dict keeps every leaf under its path | proved | `C26_flatten`, `C26_flatten_sound`, `C26_flatten_keys`, `C26_distinct_needed_refuted`, `C26_falsy_parent_refuted`, `C26_separator_refuted`, `C26_falsy_parent` |
| C27 | Data handed to the JSON dumper is JSON-representable | proved | `C27_json_ready`, `C27_empty_key_refuted` |
| C28 | JSON key flattening loses no entry | proved | `C28_atoms`, `C28_atom_text_distinct`, `C28_bonds`, `C28_bonds_refuted` |
| C29 | Data handed to a YAML dumper contains no tuples | proved | `C29_yaml`, `C29_pyyaml_refuted`, `C29_keys_refuted` |
| C30 | add_aliases adds and removes exactly the named keys | proved | `C30_add_aliases`, `C30_chained_refuted`, `C30_self_refuted` |
| C31 | stack_dict transposes rows into columns | proved | `C31_stack`, `C31_column_unique`, `C31_plain` |
| C32 | Small dictionary helpers touch only what they name | proved | `C32_strip_nones`, `C32_filter_underscore`, `C32_fix_data_types`, `C32_fix_data_types_error`, `C32_get_only`, `C32_atreg_to_index` |
| C33 | An MD/geom frame is read back in full | proved | `C33_frame_exact` |
| C34 | An MD/geom file yields one frame per block | proved | `C34_file_frames`, `C34_no_frames` |
| C35 | Frame separation does not depend on invisible blanks | proved | `C35_two_empty_lines`, `C35_separation_refuted` |
| C36 | Random access to frames is independent of the access history | proved | `C36_random_access`, `C36_next_frame`, `C36_iteration`, `C36_for_loop` |
| C37 | Lazy and eager MD parsing agree | proved | `C37_lazy_eager`, `C37_blank_separators_refuted` |
| C38 | len(MDGeomParser) counts the frames | proved | `C36_random_access`, `C38_short_file`, `C38_last_frame_refuted` |
| C39 | Predicted output file lists are canonical and complete at the core | proved | `C39_canonical`, `C39_dotted_seed_refuted` |
| C40 | Prediction decision rules | proved | `C40_rules`, `C40_answers`, `C40_wannier_refuted`, `C40_coreloss_refuted`, `C40_usp_refuted` |
| C41 | Files selected for parsing follow the flags | proved | `C41_selection`, `C41_extract`, `C41_absolute`, `C41_dotted_seed_refuted`, `C41_dotted_seed_wrong_refuted`, `C41_directory_err_refuted` |
| C42 | Parser dispatch | proved | `C42_dispatch`, `C42_no_parser`, `C42_unique`, `C42_binary_name_refuted` |
| C43 | parse_all reports every file once | proved | `C43_all`, `C43_failure`, `C43_format` |
| C44 | Output format selection | proved | `C44_dumper`, `C44_error`, `C44_yaml`, `C44_cli`, `C44_cli_yaml_refuted` |
| C45 | .bands files are read back in full | proved | `C45_bands_exact` |
| C46 | .hug files are read back in full | proved | `C46_hug_exact` |
| C47 | .err files are read back in full | proved | `C47_err_found`, `C47_err_none` |
| C48 | Formatted grid files are read back in full | proved | `C48_fmt_exact`, `C48_fmt_ragged` |
| C49 | .cell/.param files are read as the assignments they make | proved | `C49_file`, `C49_unreadable`, `C49_unclosed`, `C49_two_blanks_refuted`, `C49_digit_name_refuted` |
| C50 | Every listed atom position is read | proved | `C50_fractional`, `C50_absolute`, `C50_absolute_default`, `C50_negative_ratio_refuted`, `C50_label_refuted` |
| C51 | k-point tables of a .castep file are read back | proved | `C51_table`, `C51_grid`, `C51_coordinate_refuted`, `C51_tenth_row_refuted` |
| C52 | Bond spins are reported when present | proved | `C52_bonds`, `C52_zero_spin_refuted` |
| C53 | Symmetric stress tensors are reported in a fixed order | proved | `C53_stresses` |
| C54 | Phonon tables of .castep files | proved | `C54_phonons`, `C54_repeats_refuted` |
| C55 | Eigenvalues in exponent notation | proved | `C55_exponent_eigenvalue_refuted` |
| C56 | Spin-polarised .bands headers | proved | `C56_spin_polarised_header_refuted` |
| C57 | Every row of a .hug file counts | proved | `C57_unindented_row_refuted` |
| C58 | The header of an MD/geom file is returned as its comment | proved | `C34_file_frames` |
| C59 | Data handed to the JSON dumper is serialisable and complete | proved | `C59_json`, `C59_plain` |
| C60 | Testing mode flattens every run | proved | `C60_testing` |
| C61 | Symmetry operations are read in groups of four rows | proved | `C61_symmetry_ops`, `C61_negative_ratio_refuted` |
| C62 | Ionic constraints are grouped by atom | proved | `C62_ionic_constraints`, `C62_tenth_refuted` |
| C63 | Blocks without a format of their own are read as rows or as species properties | proved | `C63_rows`, `C63_properties`, `C63_rows_after_properties`, `C63_rows_before_properties`, `C63_end_digits_refuted` |
| C64 | Positions and velocities of a .castep file are read back | proved | `C64_vectors` |
| C65 | Forces of a .castep file are read back | proved | `C65_forces` |
| C66 | The shared header of block files | proved | `C66_header` |
| C67 | Reading .phonon files | proved | `C67_phonon`, `C67_phonon_lost_refuted`, `C67_phonon_intensity_refuted`, `C67_phonon_order_refuted`, `C67_phonon_twice_refuted` |
| C68 | Reading .phonon_dos files | proved | `C68_phonon_dos`, `C68_phonon_dos_refuted` |
| C69 | Reading .efield files | proved | `C69_efield`, `C69_efield_refuted` |
| C70 | Reading .elastic files | proved | `C70_elastic`, `C70_elastic_refuted` |
| C71 | Reading .epme files | proved | `C71_epme`, `C71_epme_refuted` |
| C72 | Reading .xrd_sf files | proved | `C72_xrd_sf` |
| C73 | Reading .tddft files | proved | `C73_tddft`, `C73_tddft_refuted` |
| C74 | Reading .ts files | proved | `C74_ts`, `C74_ts_refuted` |
| C75 | Reading .magres files | proved | `C75_magres`, `C75_magres_blank_refuted`, `C75_magres_order_refuted`, `C75_magres_shielding_refuted` |
| C76 | Number tables of .castep files | proved | `C76_matrix`, `C76_unit_cell`, `C76_occupancies`, `C76_occupancies_bad`, `C76_raman`, `C76_dynamical`, `C76_dynamical_bad`, `C76_phonon_symmetry` |
| C77 | Lines of .castep files that name what they say | proved | `C77_finalisation`, `C77_finalisation_bad`, `C77_autosolvation`, `C77_memory`, `C77_active_space`, `C77_delocalised`, `C77_line_minimiser`, `C77_dipole`, `C77_elastic`, `C77_build` |
| C78 | Rows of atoms in .castep files | proved | `C78_hirshfeld`, `C78_initial_spins`, `C78_born`, `C78_displacements`, `C78_displacements_text`, `C78_mulliken`, `C78_magres`, `C78_orbitals` |
| C79 | The filters of a .castep file are obeyed | proved | `C79_filters_respected` |
| C80 | Lines of a .castep file that say nothing | proved | `C80_quiet_lines` |
| C81 | Whole .castep files | proved | `C81_runs` |
| C82 | Asking for less of a .castep file | proved | `C82_asking_for_less`, `C82_entries`, `C82_less_is_part_refuted`, `C82_less_is_read_refuted` |
| C83 | Runs of a .castep file that are not the last | proved | `C83_same_but_energies`, `C83_run_alone_refuted` |
| C84 | The parts of the name of an atom | proved | `C84_parts`, `C84_no_symbol`, `C84_label`, `C84_label_refused`, `C84_from_str_refuted` |
| C85 | Reports of a calculation in .castep files | proved | `C85_excitations`, `C85_electron_localisation`, `C85_thermodynamics`, `C85_md_summary`, `C85_geometry_table`, `C85_bands`, `C85_band_before_heading`, `C85_pseudo_atomic`, `C85_scf` |
| C86 | Species, dispersion, constraints, excited states and options in .castep files | proved | `C86_species_properties`, `C86_dispersion`, `C86_dispersion_label_refuted`, `C86_internal_constraints`, `C86_internal_constraints_other`, `C86_excited_states`, `C86_excited_states_refuted`, `C86_parameters`, `C86_parameters_refuted`, `C86_developer_codes` |
| C87 | Pseudopotential strings and SPECIES_POT blocks | proved | `C87_beta_functions_read`, `C87_definitions_read`, `C87_species_pot_read`, `C87_species_pot_file`, `C87_energy_sign_refuted`, `C87_local_energy_refuted` |
| C88 | Pseudopotential reports and symmetry blocks in .castep files | proved | `C88_report`, `C88_report_string`, `C88_report_string_refuted`, `C88_symmetry` |
| C89 | Pair potentials in .castep files | proved | `C89_pair_potentials`, `C89_bare_values_refuted`, `C89_bare_digit_refuted` |
| C90 | Final configurations in .castep files | proved | `C90_final_configuration`, `C90_in_run`, `C90_later_value`, `C90_other_line` |
| C91 | Polarisation reports in .castep files | proved | `C91_polarisation`, `C91_two_reports`, `C91_details_lost_refuted` |
| C92 | DEVEL_CODE blocks in .param and .cell files | proved | `C92_devel_code_read`, `C92_devel_code_closed`, `C92_devel_code_file`, `C92_exponent_refuted`, `C92_setting_in_word_refuted`, `C92_colon_refuted`, `C92_repeated_group_refuted` |
| C93 | Warnings in .castep files | proved | `C93_warnings`, `C93_next_line_lost`, `C93_next_line_refuted` |
| C94 | Labelled positions in .castep files | proved | `C94_labelled_positions` |
| C95 | The preset sets of filters | proved | `C95_presets`, `C95_membership` |
