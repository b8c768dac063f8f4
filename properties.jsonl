{"id": "C01", "title": "Wrapped files deliver every line exactly once", "statement": "Iterating a FileWrapper until StopIteration yields the lines of the file in order, each exactly once and unmodified: the concatenation of what was yielded is the file's text, every yielded line is non-empty, only the last may lack its newline, and further next() calls keep raising StopIteration.", "quantifier": "every text content (any length, with or without trailing newline, blank lines included)", "why_tests_cant": "Tests feed a handful of files; loss or duplication of a line depends on content and on where newlines fall.", "anchors": ["castep_outputs/utilities/filewrapper.py: FileWrapper.__next__"]}
{"id": "C02", "title": "Any interleaving of next and rewind behaves like a line cursor", "statement": "Under any history of next() and rewind() calls a FileWrapper behaves like a cursor over the list of lines in which rewind undoes at most the one latest successful next: after next();rewind() the next line read is the same line, a second rewind in a row is a no-op, and no history can skip, repeat or reorder lines otherwise.", "quantifier": "every file content and every finite sequence of next/rewind calls", "why_tests_cant": "The number of interleavings is unbounded; tests exercise one or two rewinds.", "anchors": ["castep_outputs/utilities/filewrapper.py: FileWrapper.__next__, FileWrapper.rewind"]}
{"id": "C03", "title": "Reported line numbers equal the number of lines consumed", "statement": "FileWrapper.lineno is always the number of lines before the cursor (so log messages name the right line), after every history of next and rewind. As stated this fails once end of file has been hit: each failed next() still increments the number and rewind() cannot undo it; it holds for histories that never read past the end.", "quantifier": "every content and every sequence of next/rewind calls", "why_tests_cant": "Only a history that reads at EOF exhibits the drift; the claim quantifies over histories.", "anchors": ["castep_outputs/utilities/filewrapper.py: FileWrapper.__next__, FileWrapper.rewind, FileWrapper.lineno"]}
{"id": "C04", "title": "Block.from_re consumes exactly one block", "statement": "Block.from_re(init, f, start, end, n_end) returns an empty block and consumes nothing when init does not match start; otherwise it returns init followed by the following lines up to and including the n_end-th one matching end, leaves f positioned at the line after it, and raises OSError exactly when fewer than n_end matching lines remain and eof_possible is false (with eof_possible it returns everything to the end).", "quantifier": "every init line, start/end predicate, n_end >= 1, eof_possible flag and remaining input", "why_tests_cant": "Consumption depends on arbitrary line sequences and predicates; tests check a few literal blocks.", "anchors": ["castep_outputs/utilities/filewrapper.py: Block.from_re"]}
{"id": "C05", "title": "Block.get_lines takes n lines and one more from the stream", "statement": "Block.get_lines(f, n) returns exactly the next n lines. It also always consumes one further line: it raises OSError whenever n or fewer lines remain (without eof_possible) and otherwise leaves the stream after line n+1. In particular the natural reading 'reads the next n lines and no more' is false.", "quantifier": "every n and every remaining input", "why_tests_cant": "The lost line only shows when the caller reads on; quantifies over all inputs and n.", "anchors": ["castep_outputs/utilities/filewrapper.py: Block.get_lines"]}
{"id": "C06", "title": "Any interleaving of next and rewind on a Block behaves like an index into its lines", "statement": "Under any history of next() and rewind() a Block behaves like an integer cursor over its stored lines: next returns the following line or raises StopIteration when past the end, rewind steps back one (any number of times) and raises ValueError exactly when already before the first line; len, indexing and truthiness never change with the history.", "quantifier": "every list of lines and every finite sequence of next/rewind calls", "why_tests_cant": "Unbounded number of histories.", "anchors": ["castep_outputs/utilities/filewrapper.py: Block.__next__, Block.rewind, Block.__len__, Block.__getitem__, Block.__bool__"]}
{"id": "C07", "title": "Block line numbers point at the right line of the file", "statement": "While iterating a Block obtained from a FileWrapper with from_re (also after remove_bounds), lineno is the 1-based number in the file of the line last returned. For get_lines the same claim is false: the number is one too small.", "quantifier": "every file content, block position, start/end predicate and bounds", "why_tests_cant": "Depends on the position of the block in an arbitrary file.", "anchors": ["castep_outputs/utilities/filewrapper.py: Block.__init__, Block.from_re, Block.get_lines, Block.remove_bounds, Block.lineno"]}
{"id": "C08", "title": "A block is as good as a file as a source", "statement": "from_re, get_lines and iteration give the same lines and leave the same remaining lines whether the source is a FileWrapper over a text, or a Block holding the same lines.", "quantifier": "every text, position and sequence of extraction calls", "why_tests_cant": "Nested parsing (blocks of blocks) happens with arbitrary content and depth.", "anchors": ["castep_outputs/utilities/filewrapper.py: Block.from_re, Block.get_lines, Block.__next__, FileWrapper.__next__"]}
{"id": "C09", "title": "get_numbers recovers every number of a separated line", "statement": "On a line made of number tokens (integers, decimals, exponents of 1-3 digits, any sign) separated by non-empty text without digits that does not touch the tokens with '.', '+', '-', 'e' or 'E', get_numbers returns exactly the tokens, in order and verbatim.", "quantifier": "every list of tokens of every length and digit count, every separator text", "why_tests_cant": "Regex alternation and lookaround interact with arbitrary digit strings; finitely many lines prove nothing about the rest.", "anchors": ["castep_outputs/utilities/castep_res.py: get_numbers, NUMBER_RE, EXPNUMBER_RE, FNUMBER_RE, INTNUMBER_RE"]}
{"id": "C10", "title": "get_numbers only ever returns numbers, and to_type float reads them", "statement": "For every line whatever, each string returned by get_numbers is a well-formed number token, the tokens occur in the line in order without overlapping, and converting one to float yields the number it denotes or raises OverflowError exactly when that number exceeds the double range (e.g. '1e400'); no other exception is possible. 'Never raises' is false because of that overflow.", "quantifier": "every string", "why_tests_cant": "Quantifies over every line of text.", "anchors": ["castep_outputs/utilities/castep_res.py: get_numbers", "castep_outputs/utilities/type_conv.py: to_type, _parse_float_or_rational"]}
{"id": "C11", "title": "Numeric text converts to the value it denotes", "statement": "to_type(s, float) of a decimal/exponent token is the number it denotes, of 'p/q' the quotient, and to_type(str(n), int) == n; text that is not a number raises ValueError and a zero denominator ZeroDivisionError.", "quantifier": "every token and every integer (rounding to double excluded from the model)", "why_tests_cant": "Infinite value space.", "anchors": ["castep_outputs/utilities/type_conv.py: to_type, _parse_float_or_rational, _TYPE_PARSERS"]}
{"id": "C12", "title": "determine_type never selects a type that fails", "statement": "For the value text of a .cell/.param entry, to_type(x, determine_type(x)) never raises. This is false: determine_type only inspects a prefix, so e.g. '-1/3' or '1x' select int and raise; a list such as '0 0.25 0' selects int from its first element. It does hold for a single number token, logical or text not starting with a number.", "quantifier": "every string", "why_tests_cant": "Needs every possible string; the failing ones are ordinary input values.", "anchors": ["castep_outputs/utilities/type_conv.py: determine_type, to_type"]}
{"id": "C13", "title": "to_type preserves structure", "statement": "to_type applied to nested mappings and sequences keeps keys, key order, nesting and lengths (sequences become tuples), converts exactly the string leaves with the parser of the type and leaves other scalars untouched; it raises exactly when some string leaf does.", "quantifier": "every finitely nested value", "why_tests_cant": "Arbitrary depth and shape.", "anchors": ["castep_outputs/utilities/type_conv.py: to_type, fix_data_types"]}
{"id": "C14", "title": "Logicals are recognised case-insensitively", "statement": "to_type(s, bool) is True exactly when s, ignoring case, is 't', 'true' or '1'; determine_type(s) is bool exactly when s, ignoring case, is one of t/true/f/false.", "quantifier": "every string", "why_tests_cant": "All strings and case combinations.", "anchors": ["castep_outputs/utilities/type_conv.py: _parse_logical, determine_type"]}
{"id": "C15", "title": "parse_int_or_float yields ints exactly for integers", "statement": "parse_int_or_float returns integers exactly when every token is an integer literal. It holds for unsigned tokens; for signed integers ('-7') it is false: a float is returned.", "quantifier": "every list of tokens", "why_tests_cant": "Sign and digits are arbitrary.", "anchors": ["castep_outputs/utilities/type_conv.py: parse_int_or_float"]}
{"id": "C16", "title": "Binary records decode to the values that were written", "statement": "parse_bytes inverts big-endian encoding: integers in [-2^31,2^31), logicals, 64-bit float patterns, complex pairs and ASCII text survive an encode/parse round trip, as arrays of any length and as scalars.", "quantifier": "every list of values of each type", "why_tests_cant": "Unbounded arrays and 2^64 patterns.", "anchors": ["castep_outputs/utilities/type_conv.py: parse_bytes, _parse_int_bytes, _parse_float_bytes, _parse_complex_bytes, _parse_bool_bytes, _parse_str_bytes"]}
{"id": "C17", "title": "Malformed binary records are rejected, never misread", "statement": "parse_bytes raises whenever the record length does not fit the requested type (not a multiple of the item size, or not exactly one item for a scalar). False for complex: a record with an odd number of doubles silently loses the last one.", "quantifier": "every byte string and type", "why_tests_cant": "All lengths and contents.", "anchors": ["castep_outputs/utilities/type_conv.py: parse_bytes, _parse_complex_bytes"]}
{"id": "C18", "title": "A Fortran unformatted file is read back record by record", "statement": "Iterating FortranBinaryReader over a file made of records (4-byte big-endian length, payload, length) yields exactly the payloads in order, then StopIteration.", "quantifier": "every list of byte strings shorter than 2^32", "why_tests_cant": "Arbitrary payloads and counts.", "anchors": ["castep_outputs/bin_parsers/fortran_bin_parser.py: FortranBinaryReader.__next__"]}
{"id": "C19", "title": "next/skip/rewind move a cursor over records", "statement": "Under any history of next(), skip(n) and rewind(n) staying within the file, the reader behaves like an index into the record list: skip(n) equals n discarded nexts, rewind(n) undoes n nexts, in any combination, and skip past the end leaves the reader exhausted.", "quantifier": "every record list and every finite sequence of operations", "why_tests_cant": "Seek arithmetic has to be right for every combination of record sizes.", "anchors": ["castep_outputs/bin_parsers/fortran_bin_parser.py: FortranBinaryReader.skip, FortranBinaryReader.rewind, FortranBinaryReader.__next__"]}
{"id": "C20", "title": "Typed reads consume exactly the described records", "statement": "get_dtype_dict reads one record per key in order and leaves the reader after the last one; get_dtype_cycle(n) does this n times. When records run out the dict form silently returns fewer keys, whereas the tuple form raises.", "quantifier": "every dtype mapping and record list", "why_tests_cant": "Lengths of both lists are arbitrary.", "anchors": ["castep_outputs/bin_parsers/fortran_bin_parser.py: FortranBinaryReader.get_dtype_dict, get_dtype_iter, get_dtype_cycle, get"]}
{"id": "C21", "title": "cst_esp files are read back in full", "statement": "Parsing a cst_esp file written plane by plane returns the spin count, the grid and every column of the potential in order, grouped by x index; when more planes than the grid size are present the remainder is returned as mgga.", "quantifier": "every grid, number of columns and data", "why_tests_cant": "Array shapes are unbounded; grouping relies on consecutive x indices.", "anchors": ["castep_outputs/bin_parsers/cst_esp_file_parser.py: parse_cst_esp_file"]}
{"id": "C22", "title": "epme_bin files are read back in full", "statement": "Parsing an epme_bin file returns header values, all ions, all k-points and all phonon entries that were written; wrong section markers or inconsistent counts raise ValueError.", "quantifier": "every header, ion list, k-point list and phonon list consistent with the counts", "why_tests_cant": "Nested counts are unbounded.", "anchors": ["castep_outputs/bin_parsers/epme_bin_parser.py: parse_epme_bin_file, _check_header, _parse_header, _parse_atoms, _parse_kpoint, _parse_phonons"]}
{"id": "C23", "title": "normalise_string keeps words and only words", "statement": "normalise_string returns the whitespace-separated words of its input joined by single spaces: no leading, trailing or doubled whitespace, words unchanged and in order, idempotent.", "quantifier": "every string", "why_tests_cant": "All strings.", "anchors": ["castep_outputs/utilities/utility.py: normalise_string"]}
{"id": "C24", "title": "normalise_key yields canonical keys", "statement": "normalise_key returns a key made only of lower-case letters, digits and single inner underscores, equal to the lower-cased alphanumeric runs of the input joined by '_', and is idempotent.", "quantifier": "every ASCII string", "why_tests_cant": "All strings.", "anchors": ["castep_outputs/utilities/utility.py: normalise_key"]}
{"id": "C25", "title": "Comment stripping removes comments and nothing else", "statement": "strip_comments without remove_inline drops exactly the lines whose first non-blank characters are a comment marker and the blank ones, with remove_inline it cuts each line at the first marker; surviving lines keep order and content up to trailing whitespace, and no surviving line is empty.", "quantifier": "every list of lines and set of (literal) comment markers", "why_tests_cant": "All texts.", "anchors": ["castep_outputs/utilities/utility.py: strip_comments, _strip_inline_comments, _strip_initial_comments"]}
{"id": "C26", "title": "flatten_dict keeps every leaf under its path", "statement": "flatten_dict of a nested structure has exactly one entry per leaf, whose key is the path joined by the separator, provided the joined paths are distinct. Without that proviso leaves are lost; empty containers disappear; and a separator other than '_' is not honoured below lists.", "quantifier": "every finitely nested structure of dicts, lists and tuples", "why_tests_cant": "Arbitrary nesting.", "anchors": ["castep_outputs/utilities/utility.py: flatten_dict"]}
{"id": "C27", "title": "Data handed to the JSON dumper is JSON-representable", "statement": "After normalise(data, {dict: json_safe, complex: json_safe}) no complex number, list or defaultdict and no tuple dictionary key remains at any depth, so every key is a scalar and every value JSON-representable.", "quantifier": "every nested value with keys that are scalars, tuples of scalars, or tuples of tuples of scalars", "why_tests_cant": "Arbitrary depth.", "anchors": ["castep_outputs/utilities/utility.py: normalise, json_safe", "castep_outputs/cli/castep_outputs_main.py: parse_single"]}
{"id": "C28", "title": "JSON key flattening loses no entry", "statement": "json_safe keeps one entry per dictionary key. True when the species names in the keys contain no '_' (and keys are of one kind); false in general: two different keys can be joined to the same string and the first value is overwritten.", "quantifier": "every dictionary of (species, index) keys", "why_tests_cant": "Depends on pairs of arbitrary keys.", "anchors": ["castep_outputs/utilities/utility.py: json_safe"]}
{"id": "C29", "title": "Data handed to a YAML dumper contains no tuples", "statement": "For every YAML output format, parse_single returns data whose sequences are all lists. False for format 'pyyaml', which is not normalised.", "quantifier": "every parsed value and output format", "why_tests_cant": "Arbitrary nested data.", "anchors": ["castep_outputs/cli/castep_outputs_main.py: parse_single", "castep_outputs/utilities/utility.py: normalise"]}
{"id": "C30", "title": "add_aliases adds and removes exactly the named keys", "statement": "add_aliases maps each present source key to the target holding the same value, removes the source iff replace, and leaves every other key alone; with inplace=False the argument is unchanged.", "quantifier": "every dictionary and alias table without chained or self aliases", "why_tests_cant": "All dictionaries.", "anchors": ["castep_outputs/utilities/utility.py: add_aliases"]}
{"id": "C31", "title": "stack_dict transposes rows into columns", "statement": "Stacking a list of row dictionaries yields, for every key, the list of that key's values over the rows having it, in row order.", "quantifier": "every list of rows", "why_tests_cant": "All tables.", "anchors": ["castep_outputs/utilities/utility.py: stack_dict"]}
{"id": "C32", "title": "Small dictionary helpers touch only what they name", "statement": "strip_nones removes exactly the None-valued keys selected by include/exclude; filter_underscore removes exactly keys starting with '_'; fix_data_types converts exactly the present listed keys; get_only returns the element of a singleton and raises ValueError otherwise; order of survivors is kept.", "quantifier": "every dictionary / sequence", "why_tests_cant": "All inputs.", "anchors": ["castep_outputs/utilities/utility.py: strip_nones, filter_underscore, get_only", "castep_outputs/utilities/type_conv.py: fix_data_types"]}
{"id": "C33", "title": "An MD/geom frame is read back in full", "statement": "Parsing a frame (time line, tagged value lines, tagged atom lines) returns the time, for each tag the rows of numbers in order, for each atom and tag the three components, plus the long-name aliases holding the same data.", "quantifier": "every number of rows and atoms, all species names, indices, number tokens and column spacing", "why_tests_cant": "Unbounded frames and tokens.", "anchors": ["castep_outputs/parsers/md_geom_file_parser.py: parse_md_geom_frame", "castep_outputs/utilities/castep_res.py: ATOMIC_DATA_TAG, TAG_RE"]}
{"id": "C34", "title": "An MD/geom file yields one frame per block", "statement": "parse_md_geom_file on a file of frames each followed by one empty line returns one entry per frame, in order; a file without frames raises ValueError.", "quantifier": "every number of frames and frame content", "why_tests_cant": "Unbounded files.", "anchors": ["castep_outputs/parsers/md_geom_file_parser.py: parse_md_geom_file, parse_header"]}
{"id": "C35", "title": "Frame separation does not depend on invisible blanks", "statement": "Frames separated by lines that contain only whitespace are separated as well. False: a separator line with blanks (as CASTEP writes them) merges the frames, and two empty lines in a row silently drop all following frames.", "quantifier": "every file", "why_tests_cant": "Requires reasoning about all separators.", "anchors": ["castep_outputs/parsers/md_geom_file_parser.py: parse_md_geom_file"]}
{"id": "C36", "title": "Random access to frames is independent of the access history", "statement": "For a file of equally sized frames, MDGeomParser[i] returns frame i for every i, negative i counting from the end, IndexError exactly when out of range, lists and slices elementwise, whatever was read before; iteration yields all frames in order.", "quantifier": "every frame count and every finite history of accesses", "why_tests_cant": "Histories are unbounded; the parser keeps file position and next-frame state.", "anchors": ["castep_outputs/tools/md_geom_parser.py: MDGeomParser.get_frame, read_next, __getitem__, __iter__, _go_to_frame"]}
{"id": "C37", "title": "Lazy and eager MD parsing agree", "statement": "For a file of equally sized frames each terminated by an empty line, MDGeomParser(f)[i] equals parse_md_geom_file(f)[i] and the lengths agree.", "quantifier": "every such file and index", "why_tests_cant": "Two independent code paths over unbounded input.", "anchors": ["castep_outputs/tools/md_geom_parser.py: MDGeomParser", "castep_outputs/parsers/md_geom_file_parser.py: parse_md_geom_file"]}
{"id": "C38", "title": "len(MDGeomParser) counts the frames", "statement": "len() is the number of frames in the file. True when every frame, also the last, ends with its blank line; if the last one lacks it that frame is not counted and cannot be indexed.", "quantifier": "every number of equally sized frames", "why_tests_cant": "All files.", "anchors": ["castep_outputs/tools/md_geom_parser.py: MDGeomParser.__init__, __len__"]}
{"id": "C39", "title": "Predicted output file lists are canonical and complete at the core", "statement": "get_generated_files, whenever it returns, returns a strictly increasing (sorted, duplicate-free) list of names that contains '<seed>.castep'.", "quantifier": "every seedname, parameter and cell dictionary", "why_tests_cant": "Huge option space.", "anchors": ["castep_outputs/tools/get_generated_files.py: get_generated_files, _get_generated_files"]}
{"id": "C40", "title": "Prediction decision rules", "statement": "Each optional file is predicted exactly under its documented condition (e.g. .geom for geometry optimisation with write_geom, .md for molecular dynamics with write_md, .check/.castep_bin by write_checkpoint), independent of the other options.", "quantifier": "every parameter dictionary", "why_tests_cant": "Product of dozens of options.", "anchors": ["castep_outputs/tools/get_generated_files.py: _get_generated_files, get_spectral_files"]}
{"id": "C41", "title": "Files selected for parsing follow the flags", "statement": "A seed that is an existing file with a known suffix is parsed as that type; otherwise exactly the existing '<seed>.<type>' files of the included types are; no --inc flag means all types. Seeds containing a dot or a directory break this for the sibling/err files.", "quantifier": "every set of flags, seeds and existing files", "why_tests_cant": "2^23 flag sets times all directory contents.", "anchors": ["castep_outputs/cli/args.py: parse_args, extract_parsables"]}
{"id": "C42", "title": "Parser dispatch", "statement": "parse_single uses the named or given parser, else the one of the file's extension, and raises ValueError when none exists. False for names of binary parsers, which are ignored in favour of the extension.", "quantifier": "every parser argument and file name", "why_tests_cant": "All strings.", "anchors": ["castep_outputs/cli/castep_outputs_main.py: parse_single, ALL_PARSERS"]}
{"id": "C43", "title": "parse_all reports every file once", "statement": "parse_all dumps a dictionary with one entry per distinct path in request order, or the bare data when there is exactly one; a path requested under two types keeps the later result.", "quantifier": "every mapping from types to path lists", "why_tests_cant": "All request sets.", "anchors": ["castep_outputs/cli/castep_outputs_main.py: parse_all"]}
{"id": "C44", "title": "Output format selection", "statement": "get_dumpers returns the dumper of each supported name, resolves 'yaml' to the installed backend (preferring ruamel), raises ImportError for 'yaml' with none installed and ValueError for other names; the command line rejects 'yaml'.", "quantifier": "every format name and installation state", "why_tests_cant": "All strings.", "anchors": ["castep_outputs/utilities/dumpers.py: get_dumpers, SUPPORTED_FORMATS", "castep_outputs/cli/args.py: get_parser"]}
{"id": "C45", "title": ".bands files are read back in full", "statement": "parse_bands_file returns for every k-point its position, weight and all its eigenvalues in order, per spin channel, with the counts, the Fermi energy and the cell of the header (one spin count, plain decimal eigenvalues).", "quantifier": "every number of k-points, bands and values, every layout of blanks", "why_tests_cant": "Unbounded number of k-points and values.", "anchors": ["castep_outputs/parsers/bands_file_parser.py: parse_bands_file", "castep_outputs/parsers/parse_utilities.py: parse_regular_header"]}
{"id": "C46", "title": ".hug files are read back in full", "statement": "parse_hug_file returns one column per named quantity with the values of all rows in order.", "quantifier": "every number of rows and values", "why_tests_cant": "Unbounded.", "anchors": ["castep_outputs/parsers/hug_file_parser.py: parse_hug_file"]}
{"id": "C47", "title": ".err files are read back in full", "statement": "parse_err_file returns the message before and the stack after the trace marker; without a marker it raises.", "quantifier": "every text", "why_tests_cant": "All texts.", "anchors": ["castep_outputs/parsers/err_file_parser.py: parse_err_file"]}
{"id": "C48", "title": "Formatted grid files are read back in full", "statement": "The *_fmt parsers return each grid point and its data column(s) in order.", "quantifier": "every grid size and number of columns", "why_tests_cant": "Unbounded.", "anchors": ["castep_outputs/parsers/parse_fmt_files.py: _parse_kpt_info"]}
{"id": "C49", "title": ".cell/.param files are read as the assignments they make", "statement": "parse_cell_param_file returns one dictionary holding, for every keyword line, the lower-cased name with its value (logical, text, integer, float, tuple of numbers, each number with its unit when given) and, for every block, the lower-cased title with its contents; later assignments replace earlier ones, comments and blank lines do not matter. Lists starting with an integer and containing other numbers, and lists separated by tabs only, raise ValueError; a block without an end raises OSError. False: two blanks before a unit lose the value; names with digits are dropped.", "quantifier": "every list of lines in the format, and every line of the unreadable kinds after it", "why_tests_cant": "All files.", "anchors": ["castep_outputs/parsers/cell_param_file_parser.py: parse_cell_param_file", "castep_outputs/utilities/castep_res.py: PARAM_VALUE_RE"]}
{"id": "C50", "title": "Every listed atom position is read", "statement": "For a positions block every species line yields one atom, numbered 1..n per species in order, with its three coordinates, spin and mixture as written and, for absolute positions, the unit (default Ang). False for negative fractions such as '-1/3' and for labelled species: the atom is dropped.", "quantifier": "every list of position lines", "why_tests_cant": "All coordinates and atom counts.", "anchors": ["castep_outputs/parsers/cell_param_file_parser.py: _parse_positions", "castep_outputs/utilities/castep_res.py: POSITIONS_LINE_RE, FLOAT_RAT_RE, RATIONAL_RE"]}
{"id": "C51", "title": "k-point tables of a .castep file are read back", "statement": "Every row of the k-point table appears with its three coordinates and weight. False twice over: the third coordinate returned is the first again, and rows numbered 10 and above are dropped.", "quantifier": "every table", "why_tests_cant": "All rows and coordinates.", "anchors": ["castep_outputs/parsers/castep_file_parser.py: _process_kpoint_blocks"]}
{"id": "C52", "title": "Bond spins are reported when present", "statement": "A bond row with a spin column reports that spin. False when the spin is exactly zero: the entry is removed.", "quantifier": "every bond table", "why_tests_cant": "All values.", "anchors": ["castep_outputs/parsers/castep_file_parser.py: _process_bond_analysis", "castep_outputs/utilities/castep_res.py: BOND_RE"]}
{"id": "C53", "title": "Symmetric stress tensors are reported in a fixed order", "statement": "A stress block yields xx, xy, xz, yy, yz, zz from the rows labelled x, y, z.", "quantifier": "every value of the tensor", "why_tests_cant": "All values.", "anchors": ["castep_outputs/parsers/castep_file_parser.py: _process_stresses"]}
{"id": "C54", "title": "Phonon tables of .castep files", "statement": "In the phonon table of a .castep file every q-point is read, in order, with its coordinates and its modes: number, frequency, irreducible representation, infrared intensity and flag, Raman intensity and flag, each column kept if some mode has it; a character table after the modes is read row by row (multiplicity, representation, name, and a character for every class named in its title) up to its end. A q-point already listed is not listed again. The last is false: the comparison never succeeds.", "quantifier": "For every number and order of q-points, modes and rows, any widths of blanks, any numbers written within the range of doubles, any other lines between them.", "why_tests_cant": "All tables; the tests check three.", "anchors": ["castep_outputs/parsers/castep_file_parser.py:2360-2424", "castep_outputs/parsers/castep_file_parser.py:2017-2028", "castep_outputs/utilities/castep_res.py:440-461"]}
{"id": "C55", "title": "Eigenvalues in exponent notation", "statement": "An eigenvalue written with an exponent (1.0E-03) is read like any other. False: such lines are skipped silently.", "quantifier": "every eigenvalue line", "why_tests_cant": "The sample files contain no such value.", "anchors": ["castep_outputs/parsers/bands_file_parser.py: parse_bands_file", "castep_outputs/parsers/parse_utilities.py: parse_regular_header"]}
{"id": "C56", "title": "Spin-polarised .bands headers", "statement": "The two electron and eigenvalue counts and the two Fermi energies of a spin-polarised file are reported under the names of the quantities. False: the first number becomes part of the key, the Fermi energies are dropped.", "quantifier": "every spin-polarised .bands file", "why_tests_cant": "Tests compare with recorded output.", "anchors": ["castep_outputs/parsers/bands_file_parser.py: parse_bands_file", "castep_outputs/parsers/parse_utilities.py: parse_regular_header"]}
{"id": "C57", "title": "Every row of a .hug file counts", "statement": "A row of four numbers is read whatever its indentation. False: a row without a leading blank is dropped silently.", "quantifier": "every row layout", "why_tests_cant": "Samples are always indented.", "anchors": ["castep_outputs/parsers/hug_file_parser.py: parse_hug_file", "castep_outputs/utilities/castep_res.py: labelled_floats"]}
{"id": "C58", "title": "The header of an MD/geom file is returned as its comment", "statement": "parse_header skips blank lines, returns the text between the BEGIN header and END header lines (joined by line feeds, stripped) or the empty string when there is none, and leaves the reader at the first line of the first frame.", "quantifier": "every header text, reader state and following frames", "why_tests_cant": "Unbounded header text and reader histories.", "anchors": ["castep_outputs/parsers/md_geom_file_parser.py: parse_header"]}
{"id": "C59", "title": "Data handed to the JSON dumper is serialisable and complete", "statement": "For out_format 'json', parse_single returns the parsed data with sequences as tuples, complex numbers as real/imag dictionaries and tuple keys joined by underscores, all of which json.dump accepts; formats other than json, yaml and ruamel receive the parsed data unchanged.", "quantifier": "every file, parser argument and parsed value made of the supported types", "why_tests_cant": "Arbitrary nested data.", "anchors": ["castep_outputs/cli/castep_outputs_main.py: parse_single", "castep_outputs/utilities/utility.py: normalise, json_safe"]}
{"id": "C60", "title": "Testing mode flattens every run", "statement": "With testing=True parse_single returns, for a dictionary or a sequence of dictionaries, one flat dictionary per run, whose entries are the leaves of the JSON form of the run under their joined keys.", "quantifier": "every file, parser argument, format and parsed value", "why_tests_cant": "Arbitrary nested data.", "anchors": ["castep_outputs/cli/castep_outputs_main.py: parse_single", "castep_outputs/utilities/utility.py: flatten_dict"]}
{"id": "C61", "title": "Symmetry operations are read in groups of four rows", "statement": "A symmetry_ops block gives, for every four rows, a rotation (the first three) and a translation (the fourth), with ratios read as their value. False for negative ratios, which become two numbers.", "quantifier": "every list of operations", "why_tests_cant": "All coordinates and counts.", "anchors": ["castep_outputs/parsers/cell_param_file_parser.py: _parse_symops"]}
{"id": "C62", "title": "Ionic constraints are grouped by atom", "statement": "An ionic_constraints block gives, for every constrained atom in order of first mention, the list of its constraint vectors in order. False for constraints numbered 10 and above, which are dropped.", "quantifier": "every list of constraint lines numbered by one digit", "why_tests_cant": "All atoms and counts.", "anchors": ["castep_outputs/parsers/cell_param_file_parser.py: _parse_ionic_constraints", "castep_outputs/utilities/castep_res.py: IONIC_CONSTRAINTS_RE"]}
{"id": "C63", "title": "Blocks without a format of their own are read as rows or as species properties", "statement": "Any other block gives its rows of numbers as tuples of floats, or one value for each (labelled) species with the last one winning, together with the unit line when there is one. False when the end line carries digits after its marker: they become one more row. A row after species properties raises AssertionError; rows before species properties are lost.", "quantifier": "every title, list of rows and list of species lines, and both in one block", "why_tests_cant": "All titles and contents.", "anchors": ["castep_outputs/parsers/cell_param_file_parser.py: _parse_general"]}
{"id": "C64", "title": "Positions and velocities of a .castep file are read back", "statement": "Each row of a block of positions or velocities gives the vector of its atom, keyed by species and number; a later row of the same atom replaces the earlier one; titles, borders and headings add nothing.", "quantifier": "every block of rows and other lines", "why_tests_cant": "Any number of rows, species, labels and number formats.", "anchors": ["castep_outputs/parsers/castep_file_parser.py: _process_atreg_block", "castep_outputs/utilities/castep_res.py: ATOM_RE, ATOMIC_DATA_3VEC"]}
{"id": "C65", "title": "Forces of a .castep file are read back", "statement": "A forces block yields the kind written in its title (non_descript when there is none) and the vector of each atom; remarks in parentheses after a component do not change it.", "quantifier": "every block", "why_tests_cant": "All titles, remarks and values.", "anchors": ["castep_outputs/parsers/castep_file_parser.py: _process_forces", "castep_outputs/utilities/castep_res.py: FORCES_BLOCK_RE, ATOMIC_DATA_FORCE"]}
{"id": "C66", "title": "The shared header of block files", "statement": "For the header of .phonon, .phonon_dos, .efield, .elastic and .tddft files, parse_regular_header returns exactly: every 'Number of X n' line under X as an integer, the three vectors after 'Unit cell vectors' under unit_cell, the numbers of every line mentioning the given option under that option (with no option: of every other line under the empty name), later entries replacing earlier ones, and the coordinates under coords: one column each for index, u, v, w, spec and mass (or a vector per atom in the older form).", "quantifier": "All headers made of any number of lines of the described kinds in any order, all numbers, at most one option, coordinates of one form.", "why_tests_cant": "Tests read one sample header per format; the theorem covers every order and number of lines, repeated entries, and decides exactly which lines count as which.", "anchors": ["castep_outputs/parsers/parse_utilities.py", "castep_outputs/utilities/castep_res.py"]}
{"id": "C67", "title": "Reading .phonon files", "statement": "For a file whose header says the numbers of branches and ions, parse_phonon_file returns the header's entries and a list qpts with one entry for every q-point, in order: its position, weight and direction (if written), the frequencies of its modes, the infrared and Raman intensities of those modes that have one, and the eigenvectors of every branch and ion as complex numbers. The header's unnamed entry and lines outside the blocks are left out. A second set of vectors for a q-point makes a second entry for it, equal to the first, with all vectors.", "quantifier": "All .phonon files: any header, any numbers of branches, ions and q-points, any modes with or without intensities, any text between blocks.", "why_tests_cant": "The one sample file has 6 branches and 2 ions; other counts, directions, missing intensities and text between blocks are never tried.", "anchors": ["castep_outputs/parsers/phonon_file_parser.py:45-128"]}
{"id": "C68", "title": "Reading .phonon_dos files", "statement": "parse_phonon_dos_file returns the entries of the header together with 'gradients': for each q-point, in order, its position, weight and the columns n, f and Grad_qf; and 'dos': for each DOS block, a table whose columns are freq, g and one per species named on the block's first line. The line before END DOS is not read, and header lines of no other kind leave an entry with an empty name.", "quantifier": "All .phonon_dos files: any header, any number and order of gradient blocks and DOS blocks, any number of q-points, rows and species.", "why_tests_cant": "The repository has a single sample file, compared with a stored answer that has the same missing row.", "anchors": ["castep_outputs/parsers/phonon_dos_file_parser.py:65-138"]}
{"id": "C69", "title": "Reading .efield files", "statement": "parse_efield_file returns the entries of the header together with 'oscillator_strengths' and 'permittivity', each a list with one table per block, of the first seven columns of every line but the first and the last two of the block, under freq, xx, yy, zz, yz, xz and xy.", "quantifier": "All .efield files: any header, any number and order of the two kinds of blocks, any number of rows.", "why_tests_cant": "The repository has a single sample file, compared with a stored answer that has the same shifted columns and missing rows.", "anchors": ["castep_outputs/parsers/efield_file_parser.py:52-104"]}
{"id": "C70", "title": "Reading .elastic files", "statement": "parse_elastic_file returns the entries of the header without the nameless one, then one entry for each block, later blocks replacing earlier ones of the same name. The name is made of the words of the block's title in small letters joined by '_', without a listing of components at its end. A block of numbers gives its units and, for every line with numbers, the vector of those numbers; a block of internal strain gives its units and for every atom the list of its vectors in order.", "quantifier": "All .elastic files: any header, any number and order of blocks, any titles, with or without units, any number of lines.", "why_tests_cant": "The repository has a single sample file, compared with a stored answer in which each strain vector also begins with the atom's index.", "anchors": ["castep_outputs/parsers/elastic_file_parser.py:20-65"]}
{"id": "C71", "title": "Reading .epme files", "statement": "parse_epme_file returns version, volume, fermi_energy, n_bands and n_branches from the last words of lines 2, 4, 5, 6 and 7, and under data one entry for each row after each 'Electron-Phonon coupling' line, in order: the two k-points of that line, three integers, two energies, two velocities and a complex matrix element, taken from the first thirteen columns of the row.", "quantifier": "All .epme files: any number of pairs of k-points, any number of rows.", "why_tests_cant": "The repository has a single sample file, compared with a stored answer that has the same shifted columns.", "anchors": ["castep_outputs/parsers/epme_file_parser.py:55-115"]}
{"id": "C72", "title": "Reading .xrd_sf files", "statement": "parse_xrd_sf_file returns, whatever the order in which sets are iterated, the list of triples of indices under qvec and, for every named structure factor, the list of its complex values: the real part from the column headed Re(name) and the imaginary part from the column headed Im(name), one for each row, in order. A file without rows gives an empty dictionary.", "quantifier": "All .xrd_sf files whose headings come in Re/Im pairs, in any order of columns, with any number of rows; all iteration orders of sets.", "why_tests_cant": "The repository has a single sample file with one order of columns; the parser iterates over a set, whose order differs between runs.", "anchors": ["castep_outputs/parsers/xrd_sf_file_parser.py:40-72"]}
{"id": "C73", "title": "Reading .tddft files", "statement": "parse_tddft_file returns the entries of the header, then for each block of states the list of its states, each with an overlap for each pair of bands and the total, and for each block of spectroscopic data one entry for each excitation: energy, characterisation, whether converged, and the dipoles as complex numbers. Overlaps after the last total are left out; later blocks replace earlier ones.", "quantifier": "All .tddft files: any header without atoms of its own or sites, any number and order of blocks, any number of rows and dipoles.", "why_tests_cant": "The repository has a single sample file with one block of each kind.", "anchors": ["castep_outputs/parsers/tddft_file_parser.py:44-102"]}
{"id": "C74", "title": "Reading .ts files", "statement": "parse_ts_file returns confirmation: True if a line says TSConfirmation, and under reagent, product and test the structures of that kind in order. A structure runs from its REA/PRO/TST line to the next blank line or the end of the file; it has its reaction coordinate, for every tag the list of its rows and the same under the tag's long name, and for every atom the vector given last under each tag, again also under the long name.", "quantifier": "All .ts files: any number and order of structures and confirmations, any tags (other than the long names and reaction_coordinate), any rows and atoms.", "why_tests_cant": "The repository has a single sample file, a confirmation; other kinds of search are never tried.", "anchors": ["castep_outputs/parsers/ts_file_parser.py:55-97"]}
{"id": "C75", "title": "Reading .magres files", "statement": "parse_magres_file returns an entry for every known block: calc with the text of every calculation entry that has one; atoms with the units, the coordinates of every atom and the lattice; magres with the units and, for every tensor and coupling, the numbers of every atom or pair of atoms, also under the long names, where indices filling their column (3 digits before version 22, 5 from then) are separated from the species; and for magres_old the rows of the last shielding tensor and, for every atom with coordinates, its coordinates, eigenvalues, eigenvectors and properties. Other blocks and lines are left out.", "quantifier": "All .magres files: any order and number of blocks (calculation before magres, atoms before magres_old), any entries, atoms, tensors, couplings, titles and properties.", "why_tests_cant": "The one sample file has a single atom; tensors of several atoms, repeated blocks, indices written together before version 22 and missing blocks are never tried.", "anchors": ["castep_outputs/parsers/magres_file_parser.py:71-263"]}
{"id": "C76", "title": "Number tables of .castep files", "statement": "The blocks that are tables of numbers are read number by number: a matrix block gives its rows of three or six numbers as floats (or the two halves of six); the unit cell gives real and reciprocal lattice, lattice parameters, angles, and in order volume, density in AMU and in g; an occupancy table gives band, eigenvalue and occupancy of every row and raises ValueError when a line has other than 0 or 3 numbers; a Raman block gives for every mode its rows, the last depolarisation and, if the mode is closed, the trace and the second invariant of the tensor; the dynamical matrix gives the complex numbers of its real and imaginary rows and raises ValueError when there are more rows of one than of the other; the phonon symmetry analysis gives its title and its rows, as integers if all are unsigned integers and as floats otherwise.", "quantifier": "All blocks: any number of rows, any numbers that fit a float, any text between them.", "why_tests_cant": "The unit tests have one text for each block.", "anchors": ["castep_outputs/parsers/castep_file_parser.py:1544-1563", "castep_outputs/parsers/castep_file_parser.py:1678-1704", "castep_outputs/parsers/castep_file_parser.py:1863-1906", "castep_outputs/parsers/castep_file_parser.py:2089-2123", "castep_outputs/parsers/castep_file_parser.py:2208-2222", "castep_outputs/parsers/castep_file_parser.py:2320-2334"]}
{"id": "C77", "title": "Lines of .castep files that name what they say", "statement": "The blocks made of labelled lines give one entry for each label, a later line replacing an earlier one of the same label: the finalisation block (ValueError for a line that is neither blank nor has exactly one '='), the results of autosolvation, the memory estimates, the active space and the table of delocalised internals, the line minimiser, the molecular dipole, the elastic properties, and the build information.", "quantifier": "All blocks: any labels, any order, any repetitions, any numbers that fit a float.", "why_tests_cant": "The unit tests have one text for each block, without repeated or missing lines.", "anchors": ["castep_outputs/parsers/castep_file_parser.py:1667-1677", "castep_outputs/parsers/castep_file_parser.py:2064-2088", "castep_outputs/parsers/castep_file_parser.py:2335-2360", "castep_outputs/parsers/castep_file_parser.py:2427-2448", "castep_outputs/parsers/castep_file_parser.py:2559-2590", "castep_outputs/parsers/castep_file_parser.py:2622-2652"]}
{"id": "C78", "title": "Rows of atoms in .castep files", "statement": "The blocks that have a row for every atom give one entry for each atom named, a later row replacing an earlier one of the same atom: Hirshfeld charges; initial spins with the moment and whether it is fixed; Born charges, three rows of three, the key having the label if there is one; displacement parameters kept by temperature (as written, not as a number) and atom; Mulliken populations on one line or one for each spin, with the sum of the two totals; the five kinds of magnetic resonance table, with None for an asymmetry of N/A; orbital populations kept by atom and orbital beside the totals.", "quantifier": "All blocks: any number of rows, any atoms in any order with any repetitions, any numbers that fit a float, any other lines between the rows.", "why_tests_cant": "The unit tests have one or two texts for each block with two or three atoms, none repeated.", "anchors": ["castep_outputs/parsers/castep_file_parser.py:1473-1489", "castep_outputs/parsers/castep_file_parser.py:1520-1541", "castep_outputs/parsers/castep_file_parser.py:1810-1860", "castep_outputs/parsers/castep_file_parser.py:1909-1956", "castep_outputs/parsers/castep_file_parser.py:2030-2061", "castep_outputs/parsers/castep_file_parser.py:2282-2296"]}
{"id": "C79", "title": "The filters of a .castep file are obeyed", "statement": "Reading a .castep file with a set of filters gives runs that hold nothing but what the filters ask for: every entry of every run has a name one of whose filters was asked for (or one that needs no filter), apart from the numbers of the closing lines and of the MD tables, whose names are free, and what the energies at several cut-offs bring along.", "quantifier": "All files and all sets of filters for which the reading succeeds; runs of any number, blocks in any order, blocks inside blocks to any depth.", "why_tests_cant": "The unit tests read each block with everything asked for.", "anchors": ["castep_outputs/parsers/castep_file_parser.py:104-161", "castep_outputs/parsers/castep_file_parser.py:164-1397"]}
{"id": "C80", "title": "Lines of a .castep file that say nothing", "statement": "A line that has none of the phrases looked for (the list is in the specification) changes nothing: a file that begins with such lines is read as the file without them, with the same runs or the same error.", "quantifier": "All lines without the phrases, all files after them, all sets of filters.", "why_tests_cant": "Tests have a few such lines; any of over eighty searches could match one by accident.", "anchors": ["castep_outputs/parsers/castep_file_parser.py:197-1391"]}
{"id": "C81", "title": "Whole .castep files", "statement": "A .castep file made of lines that say nothing and of 56 kinds of blocks and 14 kinds of lines gives one dictionary for each run that says anything: under each name the value, the list of values, the lists of values by a second name, or the dictionary of entries, that the pieces of that run say, in the order of the file; pieces not asked for are passed over as a whole. A build header starts a new run. The energies of the last run are tuples.", "quantifier": "All files made of these pieces: any number of runs, any pieces in any order and number, any lines between them without the phrases looked for, any numbers and atoms in the blocks, all sets of filters.", "why_tests_cant": "The unit tests read one block at a time; the branches are tried in an order that matters, and there are more than ninety.", "anchors": ["castep_outputs/parsers/castep_file_parser.py:164-1397"]}
{"id": "C82", "title": "Asking for less of a .castep file", "statement": "Reading a file of the pieces of C81 with fewer filters gives the same runs without what is not asked for and without any other change. In general this fails: a one-line warning takes the next line of the file along when warnings are asked for, and with the predefined low level of detail a geometry optimisation with a final configuration raises TypeError, although it is read with everything asked for.", "quantifier": "All files of the pieces of C81, all sets of filters, one contained in the other; the failures are shown by files.", "why_tests_cant": "Tests use one set of filters.", "anchors": ["castep_outputs/parsers/castep_file_parser.py:104-161", "castep_outputs/parsers/castep_file_parser.py:272-290", "castep_outputs/parsers/castep_file_parser.py:1042-1054"]}
{"id": "C83", "title": "Runs of a .castep file that are not the last", "statement": "Apart from its energies a run is given in the same way whether or not another run follows it; its energies are lists in a defaultdict when another run follows and tuples in a dict when not.", "quantifier": "All lists of pieces of C81; the difference is shown by a file.", "why_tests_cant": "Tests with two runs do not compare the first with the same run alone.", "anchors": ["castep_outputs/parsers/castep_file_parser.py:205-218", "castep_outputs/parsers/castep_file_parser.py:1393-1397"]}
{"id": "C84", "title": "The parts of the name of an atom", "statement": "get_atom_parts of a text that begins with a chemical symbol (a capital and at most two small letters), an optional tag after a colon and an optional label in brackets returns exactly the entries species, tag and label, the label without the blanks around it (an empty label gives no entry), whatever follows the name. A text that does not begin with a capital letter raises AttributeError. AtomLabel.from_str should return the label of every such text; it never does: it raises for every text, because the required index is never among the parts. An AtomLabel made of fields given by name has species, index, tag and label in this order, the last two empty if not given; another field, or a missing species or index, raises TypeError.", "quantifier": "for every symbol, tag, label, blanks and following text; from_str: for every text", "why_tests_cant": "Names, tags and labels are arbitrary text; the tests of the repository contain no call of AtomLabel.from_str at all.", "anchors": ["castep_outputs/utilities/castep_res.py:154-181", "castep_outputs/utilities/castep_res.py:241-243", "castep_outputs/processing/processing.py:10-37"]}
{"id": "C85", "title": "Reports of a calculation in .castep files", "statement": "The blocks of a .castep file that report a calculation are read as they are written. Excitations: energy, error and type of every state, in order. Electron localisation: the numbers, in order. Thermodynamics: the last zero-point energy, and under each of t, e, f, s, cv the column of that quantity (no entry without rows). Molecular dynamics: each named number under its normalised name. Convergence tables: each row under its name, either lambda/fdelta/enthalpy or value/tolerance/converged. Band structures: for every k-point its spin, position, group, bands and energies in order; a row of bands before any heading raises KeyError. Pseudo-atomic energies: the element, the energy and the spillings as fractions of one. Self-consistent fields: each iteration with energy, Fermi energy, gain (None when absent) and time, the notes written after it (density residual, constraint and dipole energies), and under debug_info what was reported of the cycle before it: number of bands, kinetic eigenvalues, each completed sweep over the eigenvalues, and the named contributions to the energy, three of them under a shortened name. Other lines have no effect.", "quantifier": "For every number of rows, every number written within the range of doubles, every spacing, and every arrangement of other lines.", "why_tests_cant": "Test files fix numbers, spacing, number of rows and the lines between them.", "anchors": ["castep_outputs/parsers/castep_file_parser.py:1400-1417", "castep_outputs/parsers/castep_file_parser.py:1420-1427", "castep_outputs/parsers/castep_file_parser.py:1456-1463", "castep_outputs/parsers/castep_file_parser.py:1466-1470", "castep_outputs/parsers/castep_file_parser.py:1492-1517", "castep_outputs/parsers/castep_file_parser.py:1708-1775", "castep_outputs/parsers/castep_file_parser.py:1959-1999", "castep_outputs/parsers/castep_file_parser.py:2513-2533"]}
{"id": "C86", "title": "Species, dispersion, constraints, excited states and options in .castep files", "statement": "Blocks of a .castep file with lines of several kinds are read as they are written. Properties of species: the words of exactly the lines that begin with a species (or end in on-the-fly), in order, whatever the lines. Dispersion: every named value (a float when the name says Parameter) and C6/R0 of every species; a species with a label is not read as one. Internal constraints: type, target, current value, whether satisfied, and the atoms with their cells; a row of another type raises AssertionError. Excited states: band and spin of every state, with the population and file later reported for exactly that band and spin, and the last file the bands are from; a file name containing 'spin' changes the spin of the last state. Options: every 'name : value' line under the group whose heading comes last before it (numbers typed, with units as a tuple, otherwise the text), every output unit under output_units, groups without entries absent, later entries of the same name replacing earlier ones; a Developer Code section is read like a DEVEL_CODE block and filed under devel_code, and the group before it goes on after it; a value whose first word only begins like a number raises ValueError.", "quantifier": "For every number and order of lines, every text of names and values, every number written within the range of doubles, and every spacing.", "why_tests_cant": "Tests have one text per block; the ordering, repeated groups, names with odd content and partly numeric values are never varied.", "anchors": ["castep_outputs/parsers/castep_file_parser.py:1438-1453", "castep_outputs/parsers/castep_file_parser.py:1609-1659", "castep_outputs/parsers/castep_file_parser.py:2298-2317", "castep_outputs/parsers/castep_file_parser.py:2583-2619", "castep_outputs/parsers/castep_file_parser.py:2725-2758"]}
{"id": "C87", "title": "Pseudopotential strings and SPECIES_POT blocks", "statement": "A pseudopotential definition written from its parts is read back as those parts: local channel, core radius, the radii (both or neither of beta_radius and r_inner), the three energies, every beta function with orbital, shell and its projectors in order (type and, where given, radius, energy and delta), and the flags, tested shells and adjustments, whatever order these are appended in and only where given; print says whether shells are tested and poly_fit whether a minus is attached to the channel; the string itself and the text of the beta functions are kept. In a SPECIES_POT block (also as the one block of a file) a single word is kept under None, a species with a text without bar keeps that text, and a species with a definition gets its reading; blank lines say nothing, the last line is not read and later lines for the same species replace earlier ones. The sign of a projector's energy is not kept, and a definition with a local energy is rejected (kept as plain text in a block).", "quantifier": "For every definition: any number of beta functions and projectors, any numbers written within the range of doubles, any flags without brackets or commas, any subset and order of the appended parts; for every number and order of lines in the block.", "why_tests_cant": "The tests print the reading of a few strings without checking anything.", "anchors": ["castep_outputs/parsers/cell_param_file_parser.py:181-241", "castep_outputs/parsers/cell_param_file_parser.py:244-325", "castep_outputs/parsers/cell_param_file_parser.py:634-659", "castep_outputs/utilities/castep_res.py:317-377"]}
{"id": "C88", "title": "Pseudopotential reports and symmetry blocks in .castep files", "statement": "In a pseudopotential report, given in a frame of bars, every line of the reference structure gives an orbital with occupation and energy, every line of the definition a projector (number or \"loc\", l, 2j or None, energy, radius, scheme, norm) in order, and the element, charge, theory, solver, augmentation radius and core radius are kept under their names; other lines say nothing. The string of the definition that also stands in the frame is never read, whatever the report. In the block of symmetry and constraints every \"name = value\" line is kept under its name, counted, split into the parts of a point or space group, or as text; every operation is read in order as three rows, a displacement and the related atoms; each constrained atom collects its vectors in order; whether the centre of mass is held and the cell constraints are kept; entries with \"constraints\" in the name go to the constraints and the others to the symmetry.", "quantifier": "For every number and order of such lines, any widths of blanks, any numbers written within the range of doubles, any number of operations, of related atoms and of constrained atoms, any other text in other lines.", "why_tests_cant": "The tests check two reports and two symmetry blocks with fixed values.", "anchors": ["castep_outputs/parsers/castep_file_parser.py:2124-2206", "castep_outputs/parsers/castep_file_parser.py:2227-2264", "castep_outputs/utilities/castep_res.py:331-377"]}
{"id": "C89", "title": "Pair potentials in .castep files", "statement": "A report of pair potentials made of blocks of two-body terms (lines of pairs \"H -He\" or of one species, then lines \"label numbers unit * <-- type\"), blocks of three-body terms (a line of three species, then lines with one number), lines with a value for all species and other lines is read as a dictionary by type of potential (after the tag at the start of the line, \"SR_SHO\"), label and, inside the blocks, the pair, triple or species: the n-th number of a line belongs to the n-th pair of the last line of pairs, keys stand in the order in which they first appear and the last value said of a path is kept. Values written without a unit, as CASTEP writes dimensionless ones, lose their last digit, or are lost if they have one digit only (refuted with witnesses).", "quantifier": "For every number and order of blocks and lines, any tags, labels and types made of word characters, any widths of blanks, one to four numbers on a line within the range of doubles, any unit that does not begin with a digit, any text in other lines; provided that no path both has a value and goes on.", "why_tests_cant": "The test checks one report, whose values without a unit all end in 0 after a decimal point, so that the loss of the last digit does not show.", "anchors": ["castep_outputs/parsers/castep_file_parser.py:2448-2507", "castep_outputs/utilities/castep_res.py:393-431"]}
{"id": "C90", "title": "Final configurations in .castep files", "statement": "A block with a final configuration, made of unit cells, tables of atoms, lines \" BFGS: name = number\" and other lines in any order, is read as a dictionary with the cell, the atoms and, under its name in lower case joined by underscores, each number as a float; what is said later replaces what was said earlier and keys stand in the order in which they first appear. The dictionary is filed under \"geom_opt\"/\"final_configuration\" of the run if \"geom_opt\" is a dictionary by then, as geometry iterations make it, and otherwise reading the file ends in TypeError. Later lines \" BFGS: Final name = number\" add to that dictionary, and lines without \"=\" or without a minimiser and \"Final\" at their start change nothing.", "quantifier": "For every number and order of parts and lines, every minimiser in any case, any names without \"=\", any number with a decimal point or an exponent within the range of doubles, any widths of blanks, any text after the number, and any state of the run.", "why_tests_cant": "The test reads one file with one block, one minimiser and the parts in one order; no test has a final configuration without geometry iterations.", "anchors": ["castep_outputs/parsers/castep_file_parser.py:2536-2556", "castep_outputs/parsers/castep_file_parser.py:1043-1054", "castep_outputs/parsers/castep_file_parser.py:1110-1121"]}
{"id": "C91", "title": "Polarisation reports in .castep files", "statement": "A Berry-phase polarisation report made of the table of the contributions of the ions, tables of the polarisation in phases, in other units or with the quanta, tables of the volume polarisation, lines with the ionic, electronic or total part, other tables and other lines, in any order, is read as a dictionary: per part its unit and vector, for the ions unit, total and, by species and number, coordinates and polarisation, under \"polarisation\" the rows of the tables by the first word of the row or by direction, and the last volume table; keys stand in the order in which they first appear and the last value said of a path is kept. A second report in the same run replaces all that the first said under a key it mentions too, so that of the detailed report, which CASTEP writes before the usual one, the polarisation in phases and by axes is lost (refuted with a witness).", "quantifier": "For every number and order of tables, rows and lines, any units without \")\", any names of rows, any count of numbers in the rows within the range of doubles, any widths of blanks and any text in other lines; each table has at least one row and is closed by its second line with \"=\".", "why_tests_cant": "The two tests check one usual and one detailed report; the expected result of the second has the polarisation in phases and by axes missing.", "anchors": ["castep_outputs/parsers/castep_file_parser.py:2653-2723", "castep_outputs/parsers/castep_file_parser.py:1334-1356", "castep_outputs/utilities/castep_res.py:634-639"]}
{"id": "C92", "title": "DEVEL_CODE blocks in .param and .cell files", "statement": "A block of settings \"name=value\", flags and groups \"title: ... :endtitle\" of settings and other words, over any number of lines, is read as a dictionary: groups by normalised title, each with its settings and its other words under \"data\"; then the settings outside groups; then the flags, with None. Values are numbers where they are written as numbers, truth values or text; within a group later entries of a name replace earlier ones; outside groups a name that is already taken is filed with an underscore in front. The reading is the same with the closing line among the lines and for the block in a whole file. That every text is so read is refuted with witnesses: the \"-\" of an exponent or inside a value gives further flags; a setting that is part of another word of its group is cut out of that word; a colon within a group loses all that follows in it; of a title given twice, what is between and what is in the second group is lost.", "quantifier": "For every number, order and length of lines, settings, flags and groups with the words as described: titles and names of word characters, values without blanks and \":=;%\", values outside groups without minus signs after letters or digits and without letters after signs or points.", "why_tests_cant": "The two tests check one block with one group and one with two groups; no value has an exponent and no name or title is repeated.", "anchors": ["castep_outputs/parsers/cell_param_file_parser.py:328-401", "castep_outputs/utilities/castep_res.py:597-599"]}
{"id": "C93", "title": "Warnings in .castep files", "statement": "When system information is asked for, a line that begins with the word \"warning\" in any case, after blanks or after text and a colon, and the lines after it that are indented further, give one text in the list under \"warning\": the lines without surrounding blanks, joined by blanks, in the order of the file. The line after a warning of several lines is read as if the warning were not there; the line right after a warning of one line is passed over, whatever it says. When system information is not asked for, only the line with the word is passed over.", "quantifier": "All files made of any number of such warnings and of the pieces of C81, in any order, for all sets of filters; for the loss of a line, also whatever the rest of the file is.", "why_tests_cant": "The unit test has a warning of one line only before an empty line, so that the lost line is not seen.", "anchors": ["castep_outputs/parsers/castep_file_parser.py:274-290"]}
{"id": "C94", "title": "Labelled positions in .castep files", "statement": "When positions are asked for, a block of fractional coordinates with user-defined labels gives, under \"labels\", the label of each atom, or \"NULL\" for an atom without one, and, under \"initial_positions\", the three coordinates of each atom, where an atom with a label is named by its species and the label in brackets.", "quantifier": "All files made of one such block, with any number of rows and of lines that are not rows, between any lines in which nothing is recognised; for all sets of filters with positions.", "why_tests_cant": "The unit test has three atoms in one layout.", "anchors": ["castep_outputs/parsers/castep_file_parser.py:617-639"]}
{"id": "C95", "title": "The preset sets of filters", "statement": "FULL has every filter but the extra test data; HIGH leaves out the SCF cycles too; MEDIUM also pseudopotentials, symmetries and system information; LOW also parameters, geometry optimisation, molecular dynamics and phonons; TESTING has every filter but the nine listed in the theorem. A filter is applied when and only when it is a member of the set asked for.", "quantifier": "All filters and, for membership, all sets of filters.", "why_tests_cant": "The unit tests use the default set and FULL and never look at what a preset leaves out.", "anchors": ["castep_outputs/parsers/castep_file_parser.py:139-162"]}
