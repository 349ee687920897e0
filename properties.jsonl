{"id": "C01", "title": "Plain column encoding round-trips", "statement": "Encoding any non-empty list of column values with the plain encoder, joining with the delimiter, adding the line break and splitting the line again yields exactly the same number of columns, each equal to the original value with every delimiter/newline byte replaced by the replacement byte; with the replacement never re-introducing a delimiter. Values without delimiter/newline come back byte for byte.", "quantifier": "every list of byte strings, every delimiter and replacement byte with delimiter <> newline and replacement not delimiter/newline", "why_tests_cant": "the space of byte strings and column counts is infinite; tests only sample a few field shapes", "anchors": ["src/util.rs: write_plain, split_plain, TextFileMode::write, TextFileMode::split, FakeSlice"]}
{"id": "C02", "title": "Backslash column encoding round-trips", "statement": "Encoding any list of column values with the backslash encoder, joining with the delimiter and splitting again gives back exactly the original values, including values containing delimiters, newlines and backslashes.", "quantifier": "every list of byte strings and every delimiter", "why_tests_cant": "needs all interleavings of escapes, delimiters and newlines across column borders", "anchors": ["src/util.rs: write_backslash, split_backslash, enslash, unslash"]}
{"id": "C03", "title": "Quoted column encoding round-trips", "statement": "Encoding column values in quote mode and splitting the line in quote mode gives back the original values, and a delimiter or newline inside a value never ends the column.", "quantifier": "every list of byte strings and every delimiter", "why_tests_cant": "needs every interleaving of quotes, delimiters and line breaks", "anchors": ["src/util.rs: write_quotes, split_quotes"]}
{"id": "C04", "title": "Line reading loses and invents nothing", "statement": "Reading a text source line by line until end of file returns lines, each ending in the line break, whose concatenation is the whole source (plus at most one final line break); in quote mode a record is never cut inside an open quote; and the result does not depend on how the source delivers its bytes in chunks.", "quantifier": "every byte string, every way of cutting it into read chunks, every line break and quoting mode", "why_tests_cant": "the read schedule (chunk boundaries) and contents are unbounded", "anchors": ["src/util.rs: TextFileMode::read_line, TextFileMode::ensure_eof"]}
{"id": "C05", "title": "Header detection does not depend on the read schedule", "statement": "Whether the first line is treated as a CDX header depends only on the bytes of the source, not on how many of them the first read happens to return.", "quantifier": "every byte string and every chunking of it", "why_tests_cant": "tests read from in-memory slices where the first read returns everything", "anchors": ["src/util.rs: TextFileMode::read_header"]}
{"id": "C06", "title": "Reader look-back window", "statement": "After any number of line reads, asking the reader for the k-th previous line (k up to the configured look-back) returns exactly the line read k reads earlier, the current line is the last line read, and reaching end of file shifts the window consistently.", "quantifier": "every source, every look-back size, every number of reads", "why_tests_cant": "ring-buffer positions depend on the whole history of reads", "anchors": ["src/util.rs: Reader::new, Reader::getline, Reader::prev_line, Reader::curr, Reader::incr"]}
{"id": "C07", "title": "Multi-file header policy", "statement": "For every sequence of first lines, the header checker accepts or rejects each file and passes on or suppresses its first line as its documented mode says: match - the first can be anything, the others must match it; require - the first must be CDX, the others must match it; strip - any CDX header is removed and nothing is rejected; none - no CDX header is allowed; trust - the first can be anything, later headers are dropped unchecked; ignore - nothing is treated as a header. At most one header line reaches the output.", "quantifier": "every sequence of first lines and every mode", "why_tests_cant": "the state carried across files makes histories unbounded", "anchors": ["src/util.rs: HeaderMode, HeaderChecker::check"]}
{"id": "C08", "title": "Column header names stay unique", "statement": "However a sequence of column names is pushed, if duplicates are not explicitly allowed, the accumulated header never holds two equal names, keeps the pushed order, and holds one entry per accepted push; a rejected push leaves the header unchanged.", "quantifier": "every sequence of pushes, every rename table and duplicate policy", "why_tests_cant": "uniqueness is an invariant of arbitrary histories of pushes", "anchors": ["src/column.rs: ColumnHeader::push, ColumnHeader::contains, ColumnHeader::check_rename"]}
{"id": "C09", "title": "Byte-range slices are clamped", "statement": "A position or range specification, one-based and inclusive, selects exactly bytes begin..end of a value; on values that are too short the safe accessor returns the part that exists, never fails, and never returns a byte outside the range.", "quantifier": "every range and every byte string", "why_tests_cant": "all lengths relative to the range must be covered", "anchors": ["src/util.rs: FakeSlice::new, FakeSlice::get, FakeSlice::get_safe"]}
{"id": "C10", "title": "Glob matching agrees with the meaning of * and ?", "statement": "A value matches a glob pattern exactly when the pattern can be expanded to it with ? standing for one character and * for any run of characters.", "quantifier": "every pattern and every value, both cases of case sensitivity", "why_tests_cant": "backtracking behaviour depends on arbitrary combinations of stars and repeats", "anchors": ["src/text.rs: Text::glob, Text::chars_equal"]}
{"id": "C11", "title": "Path heads and tails", "statement": "The first n and the last n delimited elements of a value are exactly the first/last n pieces of splitting the value at the delimiter, joined back; head of n and the remainder reassemble the value.", "quantifier": "every byte string, delimiter and count", "why_tests_cant": "element boundaries can be anywhere, including empty elements", "anchors": ["src/text.rs: Text::head, Text::tail_u8, tail_u8_len, Text::head_path, Text::tail_path_u8"]}
{"id": "C12", "title": "Integer parsing round-trips", "statement": "Printing any unsigned or signed integer in decimal and parsing the text followed by arbitrary non-numeric text returns that integer and exactly the remaining text.", "quantifier": "every integer that fits the machine word, every following text not starting with a digit or magnitude suffix", "why_tests_cant": "all integers and continuations", "anchors": ["src/text.rs: to_usize, to_isize, to_usize_whole"]}
{"id": "C13", "title": "Magnitude suffixes mean powers of ten and two", "statement": "Parsing a decimal integer followed by a magnitude suffix multiplies it by the documented power of 1000 (or 1024).", "quantifier": "every integer and every suffix letter", "why_tests_cant": "tests do not enumerate suffixes against values", "anchors": ["src/num.rs: suffix_valu, P2_VALUES_U, P10_VALUES_U", "src/text.rs: to_usize"]}
{"id": "C14", "title": "Comparators are total orders up to equality", "statement": "The plain, case-insensitive, length and IP comparators are total preorders: reflexive, antisymmetric in sign, transitive; so sorting, merging and binary search with them are well defined.", "quantifier": "every triple of byte strings", "why_tests_cant": "transitivity ranges over all triples of values", "anchors": ["src/comp.rs: CompPlain-style Compare impls, ip_cmp", "src/text.rs: cmp_insens"]}
{"id": "C15", "title": "Numeric comparison orders numbers by value", "statement": "The text-based numeric comparator orders decimal numerals by their numeric value, treats equal values as equal however written, and is a total preorder on all values.", "quantifier": "every pair and triple of byte strings", "why_tests_cant": "the set of numerals (leading zeros, trailing zeros, commas, signs) is infinite", "anchors": ["src/comp.rs: num_cmp_signed, num_cmp_unsigned, frac_cmp"]}
{"id": "C16", "title": "Cached comparison keys agree with real comparison", "statement": "Comparing two lines through the precomputed sort key gives the same result as comparing them directly, for every comparator.", "quantifier": "every pair of byte strings and every comparator", "why_tests_cant": "prefix-key collisions need carefully chosen pairs", "anchors": ["src/comp.rs: Compare::fill_cache, Item, make_array, LineComp::comp_items"]}
{"id": "C17", "title": "Multi-key comparison is lexicographic", "statement": "A list of comparison keys orders lines by the first key on which they differ, with each key's own direction, and is a total preorder whenever every key is.", "quantifier": "every list of keys and every pair/triple of lines", "why_tests_cant": "arbitrary numbers of keys and values", "anchors": ["src/comp.rs: CompList, LineCompList::comp_cols, LineCompList::comp_items"]}
{"id": "C18", "title": "In-memory sort is a stable sort", "statement": "Sorting the lines of a buffer yields the same lines (a permutation), in non-decreasing order, with equal lines kept in input order, for both sort implementations.", "quantifier": "every list of lines and every comparator that is a total preorder", "why_tests_cant": "all lengths and tie patterns; in-place merging indexes depend on lengths", "anchors": ["src/sort.rs: sort_lines, do_sort_lines, merge_lines, sort_lines_temp"]}
{"id": "C19", "title": "K-way merge is a stable merge", "statement": "Merging any number of sorted inputs writes all their lines, in sorted order, ties taken from the earlier input first; with unique set, exactly the first line of every group of equal lines is written. Tree merge and heap merge agree.", "quantifier": "every number of inputs, every content", "why_tests_cant": "the merge tree shape depends on the number of inputs and interleavings are unbounded", "anchors": ["src/sort.rs: merge_t1, merge_t2, MergeTreeItem"]}
{"id": "C20", "title": "External sort equals in-memory sort", "statement": "Sorting through bounded buffers spilled to temporary files and merged gives the same output as one in-memory stable sort of the whole input, for any buffer size that can hold the longest line.", "quantifier": "every input and every buffer size", "why_tests_cant": "spill points depend on lengths of lines and buffer size", "anchors": ["src/sort.rs: Sorter"]}
{"id": "C21", "title": "Binary search finds the equal range", "statement": "On a file of sorted lines the search terminates and returns exactly the byte range of the lines equal to the key: the lower bound is the start of the first line not less than the key, the upper bound the start of the first line greater.", "quantifier": "every sorted file and key", "why_tests_cant": "probe positions land mid-line anywhere; line lengths are arbitrary", "anchors": ["src/binsearch.rs: equal_range_n, lower_bound_n, upper_bound_n, find_start, find_end, find_prev"]}
{"id": "C22", "title": "Join pairs every line with its matches", "statement": "On key-sorted inputs, the quick join writes, in order, one output line for each line of a key group matched by the other input, sends every left line without partner to the left-unmatched output and every right line without partner to the right-unmatched output, and nothing else.", "quantifier": "every pair of sorted inputs", "why_tests_cant": "interleavings of groups are unbounded", "anchors": ["src/join.rs: Joiner::join_quick"]}
{"id": "C23", "title": "Uniq keeps one line per group", "statement": "Uniq partitions the input into maximal runs of adjacent equal lines, writes exactly one line per run (first, last, minimum or maximum as asked) and the count written is the length of the run; the counts add up to the number of input lines.", "quantifier": "every input and every equality", "why_tests_cant": "run structure is arbitrary", "anchors": ["src/bin/cdx/uniq_main.rs: main, Count::assign, Count::write"]}
{"id": "C24", "title": "Early decisions of column-count matchers are right", "statement": "When a multi-column condition (any, all, none, at least N, at most N, exactly N, uniform, ...) decides before seeing all columns, the decision is the one it would make after seeing all columns.", "quantifier": "every sequence of per-column verdicts, every threshold", "why_tests_cant": "all continuations of every prefix", "anchors": ["src/matcher.rs: Determiner::match_mid, Determiner::match_final, Thresh, ColSetMatcher::ok"]}
{"id": "C25", "title": "Fractional thresholds mean fractions", "statement": "'At most fraction f' accepts exactly when the matching share is at most f, and 'at least fraction f' when it is at least f (up to rounding to the nearest count).", "quantifier": "every fraction and every pair of counts", "why_tests_cant": "all counts and fractions", "anchors": ["src/matcher.rs: Thresh::at_most_final, Thresh::at_least_final", "src/num.rs: f64_less, f64_greater"]}
{"id": "C26", "title": "Matcher lists are and/or of their members", "statement": "A list of line matchers in and-mode accepts a line exactly when all members accept it, in or-mode when some member does; negation flips a member; the verbose variant gives the same verdict.", "quantifier": "every list of matchers and every line", "why_tests_cant": "arbitrary lists", "anchors": ["src/matcher.rs: LineMatcherList::ok, ok_and, ok_or, MatcherList"]}
{"id": "C27", "title": "Column sets select what they name", "statement": "Looking up a column set yields the named columns and ranges in the order written, without the excluded ones; if only exclusions are given, all other columns in file order; every selected index is a column of the file.", "quantifier": "every header and every list of column specifications", "why_tests_cant": "ranges, exclusions and headers combine arbitrarily", "anchors": ["src/column.rs: ColumnSet::lookup, ColumnSet::range, ColumnSet::single, ColumnSet::lookup_col, ColumnSet::match_range"]}
{"id": "C28", "title": "Selected columns are written faithfully", "statement": "Writing a looked-up column set emits exactly the selected fields, in order, separated by the delimiter, with one delimiter fewer than fields.", "quantifier": "every line and every selection", "why_tests_cant": "arbitrary widths and selections", "anchors": ["src/column.rs: ColumnSet::select, ColumnSet::write, ColumnSet::write2, ColumnSet::write3, ColumnSet::write_sloppy"]}
{"id": "C29", "title": "Aggregators compute their documented fold", "statement": "Over any sequence of values: count is the number of values, min/max a smallest/largest value, prefix/suffix the longest common prefix/suffix, the character and word counters the number of characters and words, sum and mean those of the numbers read, up to a rounding error bounded by the number of values; after reset an aggregator behaves like a fresh one.", "quantifier": "every sequence of values", "why_tests_cant": "folds over unbounded sequences", "anchors": ["src/agg.rs: Count, Min, Max, Prefix, Suffix, common_prefix, common_suffix, Chars, Swords, Awords, AMean, Sum, Mean"]}
{"id": "C30", "title": "Merge aggregator joins distinct values", "statement": "The merge aggregator returns the added non-empty values joined by its delimiter, sorted and deduplicated if asked, limited to the requested number of parts.", "quantifier": "every sequence of values and options", "why_tests_cant": "unbounded sequences", "anchors": ["src/agg.rs: Merge"]}
{"id": "C31", "title": "Accepted expressions evaluate without failure", "statement": "If an expression is accepted by the parser, evaluating it never runs out of operands and leaves exactly one value.", "quantifier": "every token sequence", "why_tests_cant": "all token sequences, including malformed ones", "anchors": ["src/shunting_yard.rs: to_rpn", "src/expr.rs: do_eval"]}
{"id": "C32", "title": "Operator precedence and associativity", "statement": "Parsing the infix form of any expression tree (with only the parentheses its precedences require) yields the evaluation order of that tree.", "quantifier": "every expression tree", "why_tests_cant": "trees are unbounded", "anchors": ["src/shunting_yard.rs: to_rpn, prec_assoc"]}
{"id": "C33", "title": "Constant folding preserves meaning", "statement": "Compiling an expression with constant folding gives the same value as evaluating the unfolded operations, for every assignment of the variables.", "quantifier": "every operation sequence and variable assignment", "why_tests_cant": "all expressions and environments", "anchors": ["src/expr.rs: rpn_to_expr, do_eval"]}
{"id": "C34", "title": "Documented comparison operators are usable", "statement": "The operators <=, >=, == and != listed by the expression language are recognised by the tokenizer.", "quantifier": "every expression text containing one of them", "why_tests_cant": "a universal claim about texts", "anchors": ["src/tok2.rs: tokenize"]}
{"id": "C35", "title": "Transform chains compose", "statement": "Applying a list of transforms gives the composition of the individual transforms, in order, regardless of the length of the list and of previous uses of the scratch buffers.", "quantifier": "every list of transforms, every input, every history of scratch contents", "why_tests_cant": "double buffering depends on parity of list length and on history", "anchors": ["src/trans.rs: TransList::trans"]}
{"id": "C36", "title": "Whitespace normalisation", "statement": "Normalising whitespace yields the words of the value separated by single spaces, with no leading or trailing space, and is idempotent.", "quantifier": "every byte string", "why_tests_cant": "arbitrary runs of whitespace", "anchors": ["src/trans.rs: NormSpace"]}
{"id": "C37", "title": "Smooth sampling keeps ends and order", "statement": "Sampling n lines from any stream outputs min(n, length) lines, in input order, always including the first and the last line.", "quantifier": "every stream length and every sample size", "why_tests_cant": "buffer collapses depend on the number of lines seen", "anchors": ["src/sampler.rs: Smooth"]}
{"id": "C38", "title": "Table display fits the screen", "statement": "Whenever the screen is wide enough to hold one separator per column, the chosen column widths plus separators fit the screen, no column is wider than its content, and the shrinking loop terminates.", "quantifier": "every list of column widths and every screen width", "why_tests_cant": "arbitrary widths", "anchors": ["src/tabs.rs: dec_max, show, show2"]}
{"id": "C39", "title": "Transpose swaps rows and columns", "statement": "Transposing a table puts field j of line i at line j, field i; transposing a rectangular table twice restores it.", "quantifier": "every table", "why_tests_cant": "arbitrary sizes", "anchors": ["src/transpose.rs: transpose"]}
{"id": "C40", "title": "Paste aligns files line by line", "statement": "Pasting files writes line i of every file on output line i, until the shortest or longest file ends as asked, with the exact mode failing exactly when lengths differ.", "quantifier": "every number of files and lengths", "why_tests_cant": "arbitrary lengths", "anchors": ["src/bin/cdx/paste_main.rs: main"]}
{"id": "C41", "title": "Line ranges select the requested lines", "statement": "The sample tool with a from/to/by range writes exactly the data lines whose one-based number lies in the range with the stride, in order, for all files given.", "quantifier": "every range and every input", "why_tests_cant": "arbitrary ranges and files", "anchors": ["src/bin/cdx/sample_main.rs: main"]}
{"id": "C42", "title": "Verify reports every failing line", "statement": "The verify tool counts each data line that violates a condition exactly once and succeeds only if no line fails.", "quantifier": "every input and condition", "why_tests_cant": "position of failing lines is arbitrary", "anchors": ["src/bin/cdx/verify_main.rs: main"]}
{"id": "C43", "title": "Concatenation pads missing newlines", "statement": "Concatenating files with padding on writes each file's bytes, followed by a newline exactly when the file does not end in one; nothing else is added or dropped.", "quantifier": "every list of files, every read chunking", "why_tests_cant": "file contents and chunking are arbitrary", "anchors": ["src/bin/cdx/cat_main.rs: main"]}
{"id": "C44", "title": "Registries replace rather than duplicate", "statement": "Registering an item under an existing name replaces it, lookups return the most recent registration, aliases resolve to the last alias added, and names stay unique whatever the sequence of registrations.", "quantifier": "every sequence of registrations and lookups", "why_tests_cant": "histories are unbounded", "anchors": ["src/matcher.rs: MatchMaker", "src/trans.rs: TransMaker", "src/agg.rs: AggMaker", "src/textgen.rs: GenMaker"]}
{"id": "C45", "title": "Floating comparison keys preserve order", "statement": "Mapping a finite double to its integer key is strictly monotone, so ULP based comparison orders like the numbers themselves.", "quantifier": "every pair of finite doubles", "why_tests_cant": "2^128 pairs", "anchors": ["src/num.rs: ulp_to_ulong, fcmp, f64_equal, f64_less, f64_greater"]}
{"id": "C46", "title": "Bracket matching finds the closing bracket", "statement": "Given text starting with an opening bracket the search returns the position just after the bracket that closes it, counting nesting, and fails exactly when there is none.", "quantifier": "every string", "why_tests_cant": "nesting depth is unbounded", "anchors": ["src/util.rs: find_close, closer"]}
{"id": "C47", "title": "Unescaping", "statement": "Unescaping replaces each backslash pair by the character it denotes and leaves all other bytes alone; text without backslashes is unchanged and the output is never longer than the input.", "quantifier": "every byte string", "why_tests_cant": "arbitrary escapes", "anchors": ["src/util.rs: unescape_vec, unslash"]}
{"id": "C48", "title": "Comparison operators and line checks", "statement": "A comparison operator applied to an ordering result accepts exactly the orderings it names; inverse operators accept the complement; the verbose and silent line checks agree; a two-sided check accepts exactly values within both bounds.", "quantifier": "every pair of values and every operator", "why_tests_cant": "all pairs of values", "anchors": ["src/util.rs: CompareOp, CheckLine, CheckBuff"]}
{"id": "C49", "title": "Composite columns substitute fields", "statement": "A composite column specification expands to its literal text with every field reference replaced by that field of the current line, in order.", "quantifier": "every specification and every line", "why_tests_cant": "arbitrary interleavings of literals and references", "anchors": ["src/column.rs: CompositeColumn::set, CompositeColumn::get"]}
{"id": "C50", "title": "Generated files have the requested shape", "statement": "Generating n lines from k generators writes exactly n lines of k fields, and the counting generator produces consecutive integers from its start.", "quantifier": "every n, k and start", "why_tests_cant": "arbitrary sizes", "anchors": ["src/textgen.rs: GenList::write, CountGen, GridGen"]}
{"id": "C51", "title": "Remote chunk streaming is faithful", "statement": "Reading from a chunked remote object returns exactly the concatenation of its chunks, whatever the sizes of the chunks and of the caller's buffers.", "quantifier": "every chunk sequence and every sequence of buffer sizes", "why_tests_cant": "schedules are unbounded", "anchors": ["src/util.rs: S3Reader::read"]}
{"id": "C52", "title": "Scoped values follow the last matching scope", "statement": "After lookup every column has the value of the last specification naming it, or the default.", "quantifier": "every list of specifications and every header", "why_tests_cant": "arbitrary overlaps", "anchors": ["src/column.rs: ScopedValues::lookup, ScopedValues::get"]}
{"id": "C53", "title": "Expressions follow the columns of the current file", "statement": "After looking an expression up against a header, each column reference reads the column of that name in that header, also when looked up again for another file.", "quantifier": "every sequence of headers", "why_tests_cant": "histories of lookups", "anchors": ["src/expr.rs: Expr::lookup, find_var, eval"]}
{"id": "C54", "title": "Sortedness check is exact", "statement": "Checking a file for order accepts exactly when every adjacent pair is in order (strictly, if unique is asked), which for a total preorder is exactly global sortedness.", "quantifier": "every sequence of lines", "why_tests_cant": "unbounded sequences", "anchors": ["src/comp.rs: comp_check", "src/bin/cdx/sort_main.rs: main"]}
{"id": "C55", "title": "Assigning a line copies it", "statement": "After assigning one line to another, the copy has the same fields and the same original text as the source.", "quantifier": "every pair of lines, every quoting mode", "why_tests_cant": "depends on previous contents of the target", "anchors": ["src/util.rs: TextLine::assign, TextLine::line"]}
{"id": "C56", "title": "Reported line locations are exact", "statement": "While reading a file the reader's line number is the one-based number of the current data line and its byte offset is the offset of that line in the uncompressed file, header included.", "quantifier": "every source, every number of reads, every quoting mode, both ways of opening", "why_tests_cant": "the offset accumulates over an unbounded number of lines and depends on mode and way of opening", "anchors": ["src/util.rs: Reader::getline, Reader::incr, Reader::new_open_with, Reader::open, FileLocData"]}
{"id": "C57", "title": "Copying the current line reproduces the input", "statement": "Writing the current line of a reader writes exactly the bytes of the input line, with its newline.", "quantifier": "every source, every line, every quoting mode", "why_tests_cant": "must hold for every line content and every mode, not for sample lines", "anchors": ["src/util.rs: Reader::write, Reader::write_curr, Reader::write_prev, TextFileMode::split"]}
{"id": "C58", "title": "Decimal text is read as the number it shows", "statement": "Reading text as a floating point number gives the value of the decimal numeral at its start (sign, digits, fraction, exponent, magnitude letter), as the nearest double, and leaves the text after the numeral unread.", "quantifier": "every numeral and every following text", "why_tests_cant": "infinitely many numerals; rounding errors show only on particular digit strings", "anchors": ["src/text.rs: Text::to_f64, to_f64_lossy, is_exp", "src/num.rs: suffix_valf"]}
{"id": "C59", "title": "Text matchers accept what their help says", "statement": "prefix, suffix, infix, exact, length, empty, blank, comment, hash, slash and file-exact accept a text exactly when it starts with, ends with, contains, equals, ... the pattern; with 'case' the same up to ASCII case; 'null' additionally accepts the empty text; a multi-pattern with and/or accepts when all/some of its parts do.", "quantifier": "every pattern and every target text", "why_tests_cant": "all texts and patterns", "anchors": ["src/matcher.rs: MatchMaker::make2, PrefixMatch, SuffixMatch, InfixMatch, ExactMatch, LengthMatch, FileExactMatch, Matcher::umatch, Matcher::smatch"]}
{"id": "C60", "title": "cgrep writes exactly the matching lines", "statement": "cgrep writes, in order and unchanged, exactly the lines its conditions accept, and with --invert exactly the others.", "quantifier": "every list of conditions and every file", "why_tests_cant": "arbitrary files and conditions", "anchors": ["src/bin/cdx/cgrep_main.rs: main"]}
{"id": "C61", "title": "Line conditions are read as documented", "statement": "'Columns,Method,Pattern' is a condition on that column (or the whole line when empty), and '[Determiner,Columns],Method,Pattern' a condition on a group of columns with any determiner.", "quantifier": "every specification text", "why_tests_cant": "all specification texts", "anchors": ["src/matcher.rs: MatchMaker::make_line, make_line3, ColSetMatcher::new, ColGroup::new_with"]}
{"id": "C62", "title": "Files without a header have columns named c1, c2, ...", "statement": "When a file has no header line, its columns are named c1, c2, ... up to the number of fields of its first line, for every delimiter in use, and selecting by number or by such a name works.", "quantifier": "every first line and every delimiter", "why_tests_cant": "all first lines and all delimiters; the tools' tests only use tabs", "anchors": ["src/util.rs: StringLine::fake", "src/util.rs: InfileContext::read_header", "src/util.rs: make_header"]}
{"id": "C63", "title": "Written headers read back as the same names", "statement": "The header line a tool writes is read back by every reader as the same list of column names, whatever the delimiter.", "quantifier": "every list of column names and every delimiter", "why_tests_cant": "all lists of names and all delimiters, including non-ASCII ones and headers without columns", "anchors": ["src/column.rs: ColumnHeader::get_head, get_size", "src/util.rs: InfileContext::read_header, make_header", "src/util.rs: StringLine::split"]}
{"id": "C64", "title": "Rows have as many fields as the header", "statement": "Every row a column writer writes has exactly as many fields as the header it announced has names.", "quantifier": "every list of column writers and every line", "why_tests_cant": "all combinations of writers, selections, delimiters and lines, including empty selections and short lines", "anchors": ["src/column.rs: Writer::write, Writer::add_names, Writer::lookup", "src/column.rs: ColumnFun implementations"]}
{"id": "C65", "title": "Aggregated rows keep the file's columns", "statement": "When lines are grouped with aggregators, the output has the columns asked for in front, then the columns of the file, then the columns asked for behind; a column of the file shows the aggregate that replaces it, or the kept line's value; every aggregate is the one of exactly the lines of its group, over exactly its column.", "quantifier": "every header, list of aggregates and group of lines", "why_tests_cant": "unbounded headers, lists of aggregates and groups; the order of columns, state carried from one group to the next and the binding of names to columns interact", "anchors": ["src/agg.rs: LineAggList::fill, lookup, reset, add; LineAgger::new, new_replace, new_prefix, new_append; AggCol", "src/bin/cdx/uniq_main.rs: aggregation loop"]}
{"id": "C66", "title": "Built-in functions and constants compute what they are named for", "statement": "In expressions, max, min, avg and if give the greatest, the least and the mean of their arguments and the chosen one; n! is the factorial of n; acos is the arc cosine; and every constant of the documented list can be used.", "quantifier": "every list of arguments", "why_tests_cant": "argument lists of any length and any values", "anchors": ["src/expr.rs: apply_func, factorial, FACTORIAL, CONSTS, FUNCS"]}
{"id": "C67", "title": "Numbered concatenation numbers every line once and keeps every file", "statement": "With --number, --skip or --remove, cat writes all files one after the other with the header once and the new column at the side asked for; lines that are not removed keep their text, the lines that are neither removed nor skipped get consecutive numbers from the start given, running on over all files, and skipped lines get an empty number.", "quantifier": "every list of files, every set of removed and skipped lines, every start, name and side", "why_tests_cant": "any number of files and lines, any removal pattern", "anchors": ["src/bin/cdx/cat_main.rs: LineNumber::set, main (slow branch)", "src/column.rs: ColumnCount, ColumnWhole, ColumnLiteral, Writer"]}
{"id": "C68", "title": "wc counts what it is asked to count, per file, per column and in total", "statement": "wc writes for every file (or, with --columns, for every column name over all files) one line with exactly the numbers of lines, bytes, characters and words asked for, labelled if labels are wanted, in the number format asked for; the totals are the sums of the lines above; all lines have the shape of the header.", "quantifier": "every list of files and every list of options without --agg", "why_tests_cant": "any number of files, columns, lines and options", "anchors": ["src/bin/cdx/wc_main.rs: main", "src/agg.rs: Agger, AggList", "src/util.rs: Tri::new"]}
{"id": "C69", "title": "Printed numbers read as what they stand for", "statement": "A number format is recognised by its name, in any case, with or without a number of digits, and by nothing else. The power formats print a number as a decimal with a unit whose value is within a tenth of the number, small numbers as the nearest whole number; the units printed are those read. The short format prints the shorter of the plain text and the text with an exponent.", "quantifier": "every double and every text of a format", "why_tests_cant": "2^64 doubles, and errors that show only near the limits of a unit", "anchors": ["src/num.rs: NumFormat", "src/num.rs: suffix_valf"]}
{"id": "C70", "title": "Smooth samples are spread evenly", "statement": "The lines of a sample of n lines are spread evenly over the stream: they begin with the first line, end with the last, and the distance from one to the next is about the length of the stream divided by the number of gaps; no part of the stream of twice that length goes unsampled.", "quantifier": "every stream and every sample size", "why_tests_cant": "the stream may have any length and the sampler changes its stride each time the sample fills up, by floating point steps", "anchors": ["src/sampler.rs: Smooth", "src/bin/cdx/sample_main.rs"]}
{"id": "C71", "title": "cgrep tells where lines were found", "statement": "cgrep writes exactly the lines that meet the conditions (or with reverse exactly those that do not), in the order of the files and unchanged; with location columns each is preceded by the places asked for: the byte offset at which it starts in its file, its line number counting from one after the header, the file name or its last N parts; the header has the names of those columns first. The places are asked for by bytes, line, name and name.N in any case, with an optional column name, and by nothing else.", "quantifier": "every list of files, every content, all location options and all conditions", "why_tests_cant": "offsets and numbers are carried along by the reader across all lines, chunks and files, so every content matters", "anchors": ["src/bin/cdx/cgrep_main.rs: main", "src/util.rs: FileLocList", "src/util.rs: Reader::new_open_with"]}
{"id": "C72", "title": "Options reach the tool in command-line order", "statement": "Each option given on the command line reaches its tool exactly once, with its value, in the order of the command line and whatever the order of the tool's table; the global options set the formats, the last one given winning; the files are those given or standard input. Every option a tool declares is handled by it. cdx runs the tool named by its first argument and no other, and its exit code is zero exactly for success, help or a reader that went away.", "quantifier": "every command line and every tool", "why_tests_cant": "options may be given in any number and order and mixed with files, and every tool has its own table", "anchors": ["src/bin/cdx/args.rs: parse", "src/bin/cdx/globals.rs: Settings::consume", "src/bin/cdx/main.rs: inner_main", "src/bin/cdx/cdxmain.rs: MAINLIST"]}
{"id": "C73", "title": "Text format options mean what their help says", "statement": "A text format of up to five letters sets header mode, delimiter, quoting, replacement and line end in that order; omitted letters keep their defaults, other letters are refused; delimiters are auto-escaped as documented. An output format defaults to the input format. With y a header is required, with n it is forbidden, on input as on output.", "quantifier": "every format text and every pair of defaults", "why_tests_cant": "any characters may be given, also beyond ASCII, and formats combine with each other and with every file", "anchors": ["src/util.rs: TextFileMode::new_with", "src/util.rs: auto_escape", "src/bin/cdx/globals.rs: Settings"]}
{"id": "C74", "title": "A sort key means what its text says", "statement": "A key is columns, a method and a pattern separated by commas. The columns, names or numbers from 1 separated by dots, serve the files in turn, the last one all further files, and each stands for that column of its file. The last word of the method that is no modifier names the comparison, in any case; rev turns the order round. Several keys are compared in order and the first difference decides. Unknown methods, texts that are no column and names a file lacks are refused, and strict, trail and low say how junk is treated.", "quantifier": "every list of columns, words, files and lines", "why_tests_cant": "columns, words, files and lines combine without bound, and one column list is stretched over any number of files", "anchors": ["src/comp.rs: CompMaker::make_line_comp", "src/comp.rs: CompMaker::make_comp", "src/comp.rs: LineCompare::lookup", "src/comp.rs: LineCompList::add", "src/column.rs: NamedCol"]}
{"id": "C75", "title": "The sort tool", "statement": "cdx sort writes the common header once and then the lines of all files in the order of its keys, by name or by number, or as whole lines if no key is given; with --unique one line of every group of equal lines. If everything fits into the buffer ties keep their order and --unique keeps the first. --merge does the same for files already sorted. --check writes nothing and succeeds exactly if the lines of each file are sorted; what sort wrote passes the check. Contradictory or unreadable options are refused before anything is written.", "quantifier": "for all options, keys, numbers of files, contents, buffer sizes and read sizes", "why_tests_cant": "the result depends on the keys, on how lines fall into the buffer and temporary files, on cached key prefixes and on the merge; tests see a few inputs that fit into memory", "anchors": ["src/bin/cdx/sort_main.rs:6-85", "src/sort.rs:343-660"]}
{"id": "C76", "title": "The join tool", "statement": "cdx join of two files sorted by the keys, the second without repeated keys, writes to the main output one row for every line of the first file that has a partner in the second: the columns asked for by --output, or all columns of the first file and the columns of the second that are no key. The rows come under a header of the names of those columns if the first file has a header. --also writes the lines of a file that have no partner, unchanged and in order, under the header of that file. Outputs for files that are not there, repeated --also, columns without a file number, and fewer than two files are refused.", "quantifier": "for all keys by name or number, all column specifications, all numbers of outputs and all contents of the two files", "why_tests_cant": "rows depend on the merge of two sorted files of any length by any list of keys placed differently in each file, and on which columns are keys; tests compare a few small files", "anchors": ["src/bin/cdx/join_main.rs:5-66", "src/join.rs:157-323"]}
{"id": "C77", "title": "The uniq tool", "statement": "cdx uniq writes the header, with the name of the count where --count puts it, and one line for every maximal run of adjacent lines with the same keys: the first, last, smallest or largest line of the run as --which asks, unchanged but for the length of the run in front or behind. With --agg, --agg-pre and --agg-post it writes for each run a row of new columns in front, the columns of that line with aggregates in their place, and new columns behind, every aggregate being over exactly the lines of the run, under a header of the same columns. Of options given several times the last counts, but keys and aggregates add up. Running it again on its output changes nothing. An empty file gives no output, and words that are not understood are refused before anything is written.", "quantifier": "for all keys by name or number, all lists of options, all numbers of aggregates and all contents of the file", "why_tests_cant": "the output depends on runs of any length and number, on keys, selection and aggregates in any combination; tests compare a few small files", "anchors": ["src/bin/cdx/uniq_main.rs:81-132", "src/bin/cdx/uniq_main.rs:156-293", "src/agg.rs:613-685"]}
{"id": "C78", "title": "The cut tool", "statement": "cdx cut writes a header once and then one row for every line of every file, made of the cells of its options in the order they are given: --fields one cell for each chosen column, under its own or its new name, through its transform, --group the chosen columns in one cell with the group's character between them, --composite its text with the columns' values in place of their names, --expr the value of the expression for that line. Columns are found in each file's own header, a line too short has empty columns, and the output delimiter and line end are kept out of single columns and composite text. Files without header give rows only, empty files count for nothing, and with all columns asked for the file is copied. New names that are repeated are refused unless the last --dups allows them, and without any of these options nothing is written and it is an error.", "quantifier": "for all lists of options of these kinds, all numbers of files, all headers and all contents of the files", "why_tests_cant": "the row depends on any mixture of options, on where each file has its columns and on how many columns a line has; tests compare a few small files", "anchors": ["src/bin/cdx/cut_main.rs:5-68", "src/column.rs:551-586", "src/column.rs:1393-1425"]}
{"id": "C79", "title": "The binsearch tool", "statement": "cdx binsearch writes the header once and then, for each file in turn, exactly the lines whose key columns equal the parts of the pattern, in the order of the file, as long as the file is sorted by those keys. Columns of the keys are found in each file's own header, without --key the first column is the key, the pattern has one part for each key, and the last of several patterns or contexts counts. Lines of context are those right before and after the found lines, or, when nothing is found, around the place where the line would stand. With --filename every line has the last parts of its file's path in front and the header a new first column. Without a pattern or a file, or with a wrong number of parts, nothing is written and it is an error.", "quantifier": "for all lists of options, all numbers of files and all contents of the files, all keys of the plain kinds", "why_tests_cant": "the answer depends on where a run of equal lines stands in a file of any length, on the lengths of the lines around it and on the keys; tests search a few short files", "anchors": ["src/bin/cdx/binsearch_main.rs:89-184", "src/binsearch.rs:12-278", "src/comp.rs:1415-1465"]}
{"id": "C80", "title": "The calc tool", "statement": "cdx calc answers every line that is an expression with a value by one line holding that value, in the order of the lines and of the files; expressions that cannot be evaluated leave no line. A line may begin with the name of a format and a comma; the value is written in that format, and the format holds for the following lines, also of the following files, until another is named; before that the last --fmt holds, and otherwise the default. An expression with commas is never mistaken for one with a format in front. A --fmt that names no format is an error and nothing is written.", "quantifier": "for all lists of options, all numbers of files and all lines", "why_tests_cant": "the format of a line depends on all the lines before it and any expression may hold commas; tests evaluate a few lines", "anchors": ["src/bin/cdx/calc_main.rs:8-44", "src/expr.rs:15-35"]}
{"id": "C81", "title": "The tooltest tool", "statement": "cdx tooltest passes a test written in the documented .test format if and only if the program, started with the words of #command ($TMP standing for the directory) and the given input and input files, ended with the asked status, wrote exactly the asked output and errors, left every #outfile with exactly the asked contents, and left no other file. The directory is empty again after such a test, so that one test does not influence the next; with --tmp the directory is kept and other files are allowed. A test file that is missing or no test file counts as a failure and does not stop the others. The tool writes how many tests there were, passed and failed, and fails if and only if one failed.", "quantifier": "for all test files in the format, however they are read in chunks, all programs, all contents of files and all numbers of tests", "why_tests_cant": "the tool is what runs the tests: whether a wrong output can pass depends on every possible output and file, and on the tests run before", "anchors": ["src/tooltest.rs:15-476", "src/bin/cdx/tooltest_main.rs:5-41", "src/matcher.rs:1583-1593"]}
{"id": "C82", "title": "Several files on one screen", "statement": "cdx tabs shows one file as a table as wide and as high as the screen allows. Several files are shown one below the other, each with its name in the middle above it and a rule between them, together on no more lines than the screen has and none wider than it; every file gets an equal share of the lines, or all lines it needs, and lines a file does not need go to the files after it. Files that can be shown one by one can be shown together as long as there are three lines of screen for each.", "quantifier": "for all files in any number, all sizes of the screen, however the files are read in chunks", "why_tests_cant": "whether everything fits depends on the number of files, their lengths and widths and the size of the screen together", "anchors": ["src/bin/cdx/tabs_main.rs:5-64", "src/tabs.rs:15-204", "src/util.rs:872-972"]}
{"id": "C83", "title": "Tools one after the other", "statement": "What cdx sort writes is a proper input for the other tools with the same keys: sorting it again changes nothing; uniq shows exactly one line for every key that occurs in any of the input files, the one asked for, with the number of all lines that have it; binsearch finds exactly the lines of the input files that have the values; join of two such outputs, the second without repeated keys, gives exactly the pairs of lines of the inputs with the same keys, ordered by key, and exactly the lines without partner where they are asked for. A file that cut takes apart between two columns, and paste puts together again, is the file as it was, and lines that cat has numbered are the lines as they were once cut leaves out the number. Searching with cgrep before sorting or after it gives the same bytes, and two searches in a row keep exactly the lines that meet both conditions, in either order. Sorting several files is sorting what cat makes of them. sort --unique writes what uniq writes after sort.", "quantifier": "for all files and keys, however the bytes are cut into reads on the way from one tool to the next", "why_tests_cant": "every tool has its own reading of columns, headers and keys and its own comparison code (cached, whole line, by column); they must agree on all lines", "anchors": ["src/bin/cdx/sort_main.rs:6-85", "src/bin/cdx/uniq_main.rs", "src/bin/cdx/binsearch_main.rs", "src/bin/cdx/join_main.rs", "src/comp.rs:1143-1480", "src/bin/cdx/cut_main.rs", "src/bin/cdx/paste_main.rs", "src/bin/cdx/cat_main.rs", "src/bin/cdx/cgrep_main.rs"]}
{"id": "C84", "title": "UTF-8 text is safe in tools that work on bytes", "statement": "For input in UTF-8: plain comparison orders by the numbers of the characters and takes texts as equal exactly if their characters are; comparison without case does so after making A to Z small. Splitting at an ASCII character never cuts a character, and columns chosen and joined again are text. Prefix, suffix, infix and exact matchers on bytes hold exactly if they hold of the characters; lower and upper case and normspace give text again.", "quantifier": "for all sequences of characters, of any length and any plane", "why_tests_cant": "the number of characters and texts is without bound, and it depends on an agreement of all four code lengths", "anchors": ["src/text.rs:475-640", "src/comp.rs", "src/matcher.rs:323-850", "src/trans.rs"]}
{"id": "C85", "title": "Matchers in utf8 mode work on characters", "statement": "With utf8, prefix, suffix, infix and exact accept exactly if the characters of the pattern stand at the start, the end, somewhere, or are the text; with case the same holds of the small letters. Length counts characters, a question mark stands for one character, a star for any number, trim removes white space as Unicode defines it. On ASCII text the verdict is the one without Unicode. Bytes that are not text are refused. Comparisons of strings without case are an order on the small letters.", "quantifier": "for all texts and patterns, and all tables of small letters and white space", "why_tests_cant": "small letters may be several, or of another length in bytes, for only a few of more than a million characters", "anchors": ["src/matcher.rs:323-850", "src/matcher.rs:1549-1593", "src/text.rs:218-259", "src/text.rs:319-473"]}
{"id": "C86", "title": "Decimals are compared by value", "statement": "The float comparison orders decimal texts (sign, digits, point, digits) by the numbers they show, and calls two texts equal exactly if they show the same number, for numbers of up to fourteen digits; text after the number has no influence.", "quantifier": "all decimal texts that fit a common grid of at most fourteen digits, all following texts", "why_tests_cant": "the reader adds up one rounded term per digit, so whether neighbouring numbers keep their order depends on rounding errors of 10^14 digit strings", "anchors": ["src/text.rs: Text::to_f64", "src/comp.rs: CompF64 comp, equal, comp_self, equal_self"]}
{"id": "C87", "title": "Sorting by number", "statement": "cdx sort with float or numeric keys, also reversed and mixed with text keys, writes the header once and the lines in the order of the keys; --unique keeps one line per value, --merge does the same for sorted files. If the key column holds decimals of up to fourteen digits, the output is in the order of those numbers. For float keys the texts must be read as numbers other than NaN and minus zero, for numeric keys they must be whole numbers below 2^53.", "quantifier": "all options, keys, numbers of files, contents with fitting key values, buffer and read sizes", "why_tests_cant": "the sorter compares cached 64-bit images of the numbers in memory and the texts again when merging; whether both orders agree depends on every pair of values and on how lines fall into the buffer", "anchors": ["src/bin/cdx/sort_main.rs:6-85", "src/sort.rs:343-660", "src/comp.rs: CompF64, CompNumeric, Item"]}
{"id": "C88", "title": "Which text counts as a number", "statement": "Reading a number takes the longest beginning of the text that has the form of a number (for whole numbers a sign, digits and a unit letter, for floats also a point with digits and an exponent) and leaves the rest unread. Where an option requires a whole number or a float, the text is accepted exactly if all of it has that form; with K and k for 1024 and 1000 the value is the number written, if it fits 64 bits. The junk rules choose between that value and the least or greatest value: any junk allowed, trailing junk allowed, no junk allowed.", "quantifier": "every byte string", "why_tests_cant": "a claim about all texts, including malformed ones; longest match over unbounded digit strings", "anchors": ["src/text.rs:97-215, 624-753", "src/num.rs:33-101, 310-337"]}
{"id": "C89", "title": "Joining and counting by number", "statement": "With a key that compares numbers, join pairs exactly the lines whose keys are equal as numbers, however they are written (0.3, .30 and 0.30 are one key), and writes the lines without partner where asked. uniq --which min or max by such a key shows the first line whose number is least or greatest. Sorting by a column of decimals and then running uniq with the same key gives one line for every distinct number of all files, in the order of the numbers, with the count of the lines that have it; sorting two sets of files and joining them gives exactly the pairs of lines with equal numbers.", "quantifier": "any number of files and lines, any decimals of up to fourteen digits; in general any keys whose float values are numbers and whose numeric values are whole numbers", "why_tests_cant": "a relation between rounded floating point comparisons and exact numbers, over all files", "anchors": ["src/join.rs:157-323", "src/bin/cdx/uniq_main.rs:156-293", "src/bin/cdx/sort_main.rs:6-85", "src/comp.rs:1692-1712"]}
