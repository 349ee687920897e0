# Design of the cdx verification

Source: avjewe/cdx (Rust), read as text in `/repo`, never built or run. Model and proofs: Coq 8.16.1 in
`rocq/theories`. Properties: `properties.jsonl`. Claims: `MANIFEST.json`. Seeded bugs: `seeded/LOG.jsonl`.

## Layout

For each area `X` there are up to four kinds of file:

* `XModel.v`  - Gallina transcription of the Rust functions. Every definition cites file and lines.
* `XSpec.v`   - small specifications written without the model's helpers.
* `XProofs.v` (and other lemma files) - lemmas.
* `XProps.v`  - the claimed theorems with a concrete `Example` beside each.

`Assumptions.v` prints the assumptions of every claimed theorem during the build.

| Area | Model file | Properties |
|------|-----------|------------|
| bytes, outcomes, quoting | `Base`, `TextModel` | C01-C03, C47, C55 |
| readers, headers of streams, locations | `ReadModel` | C04-C06, C51, C55-C57 |
| header policy over several files | `HeadModel` | C07 |
| strings, numbers, paths, globs, slices | `StrModel`, `FloatModel` | C09-C13, C45, C46, C58 |
| comparators, keys, key lists | `CompModel` | C14-C17, C44, C54 |
| sorting, merging, external sort | `SortModel` | C18-C20 |
| binary search | `BinModel` | C21 |
| join | `JoinModel` | C22 |
| uniq | `UniqModel` | C23 |
| matchers, determiners, line checks | `MatchModel`, `CheckModel` | C24-C26, C48, C59-C61 |
| column headers, column sets, writers | `HdrModel`, `ColModel` | C08, C27, C28, C49, C52, C62-C64 |
| aggregators | `AggModel` | C29, C30, C65 |
| expressions | `ExprModel` | C31-C34, C53, C66 |
| transforms | `TransModel` | C35, C36 |
| registries | `RegModel` | C44 |
| sampler, tables | `SampModel`, `TabsModel` | C37, C38 |
| tools: transpose, paste, sample, verify, cat | `ToolModel` | C39-C43 |
| cat with numbers | `NumbModel` | C67 |
| wc | `WcModel` | C68 |
| number formats | `FmtModel` | C69 |
| spread of samples | `SampModel`, `SampEven` | C70 |
| lines found and where | `LocModel` | C71 |
| command line | `CliModel` | C72 |
| sort keys | `KeyModel` | C74 |
| sort tool | `OrderModel` | C75 |
| join tool | `JoinMain` | C76 |
| uniq tool | `UniqMain` | C77 |
| cut tool | `CutMain` | C78 |
| binsearch tool | `BinMain` | C79 |
| calc tool | `CalcMain` | C80 |
| tooltest tool | `TestMain` | C81 |
| tabs tool | `TabsMain` | C82 |
| tools in a row | `Pipe`, on top of the tools | C83 |
| UTF-8 | `Utf`, `UtfGlob`, `UtfMode`, `UtfAscii` | C84, C85 |
| Decimals | `FracErr`, `Dec` | C58, C86 |
| Sorting by numbers | `ValSame`, `Val` | C87 |
| Form of numbers | `JunkModel`, `Junk` | C88 |
| Joining and counting by number | `NumKey` | C89 |
| text formats | `FormModel` | C73 |
| generated files | `GenModel` | C50 |

## Modelling conventions

* A byte is an `N` (all naturals, a superset of `u8`); a byte string is `list N`; text `str` is modelled as
  bytes or as a list of characters, as the citing comment says.
* `usize` is `nat` or `N` without wrap-around unless the comment says otherwise; subtraction that would
  underflow, addition that would overflow where the comment says so, out-of-range indexing, `unwrap` on
  `None` and `unreachable!()` are the explicit value `Panic`. (In a release build without overflow checks
  an overflow wraps instead of panicking; index and unwrap panics stay.)
* `Result` is `Ok | Err`, with `Panic` as a third outcome. Error message text is dropped.
* `&mut` state is returned. Loops are structural recursion or fuel; running out of fuel is a distinct
  outcome which the theorems exclude by proving a bound on the turns.
* I/O: a reader is a list of chunks (the schedule of `read` results); a writer is the list of bytes written.
  Reads that return an I/O error are not modelled: a schedule ends in end-of-file.
* `f64` is Coq's `SpecFloat` (binary64, round to nearest even), which the kernel computes; statements about
  the value of a double go through Flocq's `B2R` or exact integers.
* External code (comparators supplied by the caller, regex engine, random numbers, transcendental
  functions, Unicode tables, base64) is a function parameter, i.e. universally quantified in the theorem.
* Rust's stable `sort_by` is insertion sort (any two stable sorts agree, which C18 proves).

## Trusted base

* Coq's kernel, 8.16.1, and its `vm_compute` (used for concrete examples, refutation witnesses and sweeps
  over finite domains such as all 256 bytes).
* The axioms printed by `Print Assumptions` for each theorem: see the table "Assumptions of each theorem".
  All of them are axioms of Coq's standard library.
  No axiom, `Admitted`, functor or module type is added here.
* The transcription from Rust to Gallina, which is by hand, and the behaviour of the Rust standard library
  functions used by the code (`Vec`, slices, `sort_by`, `BufRead::read_until`, `BufReader`, `BTreeMap`).
* The properties are about the model. Nothing here runs the Rust program.

## Plan and result per property

| Id | Property | What is modelled | How it is proved | Status | Remarks: what is missing or false |
|----|----|----|----|----|----|
| C01 | Plain column encoding round-trips | `write_plain`, `split_plain` on byte lists | induction on the fields; refutation for another line break | proved | Proved for the newline line break; refuted for any other configured line break, which stays in the last column. |
| C02 | Backslash column encoding round-trips | `write_backslash`, `split_backslash`, `unslash` | induction on bytes; refutations for an empty last column and the delimiters n, r, t | partial | False as stated: an empty last column is lost and delimiters n, r, t decode wrongly. Proved for all other delimiters and a non-empty last value. |
| C03 | Quoted column encoding round-trips | `write_quotes`, `split_quotes` | refutations; induction for values that need no quotes | partial | False as stated; proved that quoting never protects a delimiter. Round trip only for values needing no quoting. |
| C04 | Line reading loses and invents nothing | `read_line` in every text mode over a chunked `BufRead` | induction on the chunks: the lines are the unique cut of the content, for every schedule | proved | All modes, all chunkings; quote mode needs a line break other than the quote itself. |
| C05 | Header detection does not depend on the read schedule | `read_header` with `fill_buf` | case analysis on the first chunk; refutation by a chunking | partial | False as stated: a first read shorter than four bytes hides a CDX header. Holds when the first read shows four bytes or the whole file, and always for explicit header modes. |
| C06 | Reader look-back window | `Reader`: ring buffer, `getline`, `prev_line`, `line` | invariant of the ring over any number of reads | proved | Proved with splitting on, for look-back up to the configured size; findings for splitting off in decoding modes and for larger look-back. |
| C07 | Multi-file header policy | `HeaderChecker::check`, `check_file` | per mode, induction over the history of files | partial | Match, trust and ignore as documented; require, strip and none deviate (refuted) and are characterised exactly. |
| C08 | Column header names stay unique | `ColumnHeader::push`, `push_all`, rename lists | invariant over all pushes; counting argument for numeric renaming | partial | Uniqueness holds for every sequence of names and renames, except what the refutations show: under numeric renaming the 10001st duplicate is dropped without an error, and rename targets are not checked against names already there. |
| C09 | Byte-range slices are clamped | `FakeSlice` parsing and `get` | induction on digits, arithmetic; refutation at 2^32 | partial | Exact for numbers below 2^32; larger positions are truncated to 32 bits (refuted). |
| C10 | Glob matching agrees with the meaning of * and ? | `glob` loops for text and bytes | termination measure; soundness against a recursive definition of matching; exact outcome for any number of stars (pieces between stars placed leftmost, `GlobSpec.outcome`) by induction on the pieces; refutations | partial | Exact outcome (yes, no or panic) for every text and every pattern; sound for all patterns; the claim itself is refuted: a star other than the last never stands for exactly one character, an earlier place of a piece is never given up, and matching can panic. |
| C11 | Path heads and tails | `head`, `tail_u8`, `head_path`, `tail_path` | equality with split and join | proved |  |
| C12 | Integer parsing round-trips | `to_usize`, `to_isize` families | induction on digits, wrap-around explicit | proved | Release build arithmetic (wrapping). |
| C13 | Magnitude suffixes mean powers of ten and two | `suffix_valu` and the magnitude tables | computation of the whole (finite) table; refutation | partial | Only K and k are right; the tables use exclusive or for power. |
| C14 | Comparators are total orders up to equality | all comparators of `comp.rs` | total-preorder laws by case; Flocq for doubles; refutation through NaN | partial | Plain, case-insensitive, length, IP and always-equal comparators proved; the float comparator only where no text converts to NaN. comp_self needs lengths below 2^32. |
| C15 | Numeric comparison orders numbers by value | `num_cmp_*` | digit-string arithmetic: result against the rational value; refutations | partial | False as stated; the pairs of numerals judged wrongly are characterised exactly. Numerals with junk or exponents are not covered by the value theorem. |
| C16 | Cached comparison keys agree with real comparison | `fill_cache`, cache keys of every comparator and key list | order of keys against order of values; refutations | partial | False as stated; proved for column keys outside the listed exceptions. |
| C17 | Multi-key comparison is lexicographic | `LineCompList`, `Comp`, `LineComp` | induction over the keys | proved |  |
| C18 | In-memory sort is a stable sort | `sort_lines`, alternative (cached) sort | ordered, permutation, stable; uniqueness of such a list | partial | Stable sort output is an ordered permutation keeping input order among equals, and is the only such list. The cached-key implementation is proved equal when every key's cached form is faithful; numeric keys leave it out of order (refuted). |
| C19 | K-way merge is a stable merge | `merge_t1`, `merge_t2`, binary heap | heap invariant; merge equals sorting the concatenation; refutation of stability | partial | Tree merge proved stable and equal to sorting the concatenation; heap merge proved ordered and complete but not stable across files (refuted). |
| C20 | External sort equals in-memory sort | `Sorter`: buffer, spill files, final merge | refinement to one sort of the whole content; refutations | partial | External sort equals the in-memory sort up to order of equal lines when the data do not fill the buffer exactly; six deviations are proved with witnesses. |
| C21 | Binary search finds the equal range | `lower_bound_n`, `upper_bound_n`, `equal_range_n`, the tool's output | loop invariants over byte positions; a measure for termination; a non-terminating run as refutation | partial | Proved for every text whose lines are in order, unless a blank line is above the value: then the search never ends (refuted). The command searches the header line too (refuted) and panics on context before the end of an unterminated file (refuted). |
| C22 | Join pairs every line with its matches | `join_quick` and output columns | refinement to a relational specification; refutations | partial | Two key-ordered files, no key twice in the second: all three outputs exact. Repeated keys in the second file, unordered input, a third file and repeated column names are refuted. |
| C23 | Uniq keeps one line per group | `uniq` loops | refinement to the decomposition into runs; refutations | partial | Proved for files read without decoding, with at least a key and an ASCII delimiter. No key, decoding modes, wide delimiters and unsplit lines are refuted. Header lines are not covered here. |
| C24 | Early decisions of column-count matchers are right | `Determiner`, `ColumnGroup` loop | monotone counts: the early answer equals the final one | proved | The loop over the columns (early exit included) equals the determiner's verdict on all columns, for every determiner, threshold and continuation; counting determiners are given an independent meaning. |
| C25 | Fractional thresholds mean fractions | `Thresh` fractions | exact arithmetic of the double product against the rational share | partial | Refuted: at-most and at-least fractions are exchanged (proved for every share m/tot and every count, totals below 2^50), and with no columns both accept. 'exactly' is proved right for shares m/tot. |
| C26 | Matcher lists are and/or of their members | `LineMatcherList`, `MatcherList` | induction on the list; refutations | partial | And/or, verbose and 'not' in front of a method proved for line matchers. Refuted for lists of text matchers, where negation is ignored, and for 'null', which negates. |
| C27 | Column sets select what they name | `ColumnSet` parsing and lookup | induction over specifications; refutations | partial | Proved for every sequence of well-written specifications and every header: the selection is exactly the one written. The refutations give the specifications for which it fails: numbers beyond the file are accepted, empty specifications panic, groups are cut at commas and colons. |
| C28 | Selected columns are written faithfully | `ColumnSet` selection and writers | induction; refutations | partial | Proved for all selections and lines, with reading back; refuted where a line lacks the first selected column (panic), where a transform fails (panic) and for write_sloppy, which writes no delimiter. |
| C29 | Aggregators compute their documented fold | `Agg` implementations, `AggMaker` | folds over all value lists; Flocq for sums: exact on whole numbers, and for any doubles a relative error of each addition summed up over the fold, joined with the reading error of C58 | partial | Proved from the specification text to the result for every list of values. min and max need a comparator that is a total preorder on the values; sum and mean are exact for whole numbers whose partial sums stay below 2^53, and within 1.01 n + 5.5 D + 11 units of 2^-53 of the sum of sizes for n decimals of up to D digits on either side of the point. Refuted: max of values below the empty text shows nothing, reversed comparators are ignored, the mean of counts prints the sum, sums depend on the order of the values. |
| C30 | Merge aggregator joins distinct values | `Merge` aggregator | sorting, duplicates, limits; refutations | partial | Proved for every list of values whose last value does not end in the delimiter or a newline, a limit of at least one part, and a comparator that is a total preorder. Refuted: a limit of no parts, count with limits, new delimiters alone, values ending in the delimiter, reversed comparators. |
| C31 | Accepted expressions evaluate without failure | `rpn_to_expr` and evaluation | stack invariants over the operation sequence | partial | Proved for every token list whose converted form is not empty: if it compiles, every assignment of the variables evaluates to exactly one value; and a whole calculation panics only on texts of brackets alone. Refuted: the empty text and empty brackets are accepted and then panic; operators after their operands are accepted. |
| C32 | Operator precedence and associativity | `tokenize`, shunting yard | printing every tree and parsing it back, at token level; text level partly | partial | Proved at the level of tokens for every tree, however bracketed. From text to value proved for texts without the spellings that are refused or misread. Refuted on text: a sign as first argument, a sum after a factorial, spaces. |
| C33 | Constant folding preserves meaning | constant folding in `rpn_to_expr` | simulation between folded and unfolded sequences | proved | Every operation sequence that runs, every assignment; the functions of the maths library, remainder and power are parameters. |
| C34 | Documented comparison operators are usable | `tokenize` | the universal negative: induction over the text | partial | The claim is false: proved that no text with an equals sign is ever accepted. |
| C35 | Transform chains compose | `TransList`, `TransMaker` | induction over the list with arbitrary scratch contents | partial | Composition proved for every non-empty list, input and scratch contents; names to transforms proved for the names in the specification. Refuted: an empty list returns the scratch buffer, and the first transform of a program cannot be an alias. Non-ASCII case mapping and base64 itself are parameters. |
| C36 | Whitespace normalisation | `NormSpace` | state machine against the list of words | partial | Proved for values that do not start with blank space, with the exact result for values that do: the first word is broken after its first character. Idempotence holds for every value. |
| C37 | Smooth sampling keeps ends and order | `Smooth` | invariant over adds, with the double arithmetic that picks positions bounded through Flocq | partial | Proved for every stream and every sample size from 3 up to 2^48, including the double arithmetic choosing the positions. Refuted for sample sizes 1 and 2: the third line panics, and a sample of one line writes two. |
| C38 | Table display fits the screen | `tabs`: widths, cells, rows | measure for the shrinking loop; sums of widths | partial | Proved for all widths and screens: the loop ends, the widths fit, nothing is cut needlessly or unfairly, and every line written is narrower than the screen. Text width and cutting are the external crates' and enter as hypotheses. Refuted for a line with more fields than the header, which panics. |
| C39 | Transpose swaps rows and columns | `transpose` with the reader | refinement of the whole tool to matrix transposition | partial | Proved of the whole tool (open, header, line loop) for a rectangular tab-delimited file read plainly, header or not; transposing twice gives the file back. Refuted: a header-only file gets an extra empty field per line, another delimiter without a header writes one column only, fields beyond the width are dropped, a decoded line break makes an extra line. |
| C40 | Paste aligns files line by line | `paste` with several readers | invariant linking every reader to its remaining lines | partial | Proved of the whole tool for any number of files read plainly with tabs: the line side by side, the shortest or longest ending as asked, exact mode failing exactly when lengths differ, the header names. Refuted: last-value filling of a header-only file panics, decoding modes lose the last character of every line or panic, a zero-byte file removes the header, tabs are used whatever the delimiter. |
| C41 | Line ranges select the requested lines | `sample`: loops and ranges | refinement to filtering numbered lines | partial | Proved of the whole tool in plain quoting mode for all files with data lines, all loops and ranges: exactly the chosen lines in order, but counted from zero. Refuted: line 1 selects the second line, a header-only file ends the run, decoding modes write the wrong lines. |
| C42 | Verify reports every failing line | `verify` | refinement to a count of failing lines | partial | Proved of the whole tool for all files and modes: valid files are accepted, accepted ones meet every demand but columns and patterns of each file's last line; the failures counted. Patterns and comparisons are functions of the lines. Refuted: the last line is never held to columns and patterns, a first line failing both its own check and a pattern counts twice. |
| C43 | Concatenation pads missing newlines | `cat`, fast path | induction over the files | partial | Proved for all files, chunkings and header modes: nothing is dropped but suppressed headers, and the newline is added exactly after files without any newline; so the claim holds if every file ends in a newline or has none. Refuted: a file of several lines without final newline is never padded. |
| C44 | Registries replace rather than duplicate | registries of comparators, matchers, aggregators, transforms, generators | association-list laws over all histories | partial | Uniqueness, latest registration and aliases proved for every history. From a full name to its maker needs the name to be no alias and no modifier; four refutations show why. |
| C45 | Floating comparison keys preserve order | `ulp_to_ulong`, `f64` ordering | bit-level arithmetic on Z, Flocq's order | partial | Strictly monotone on distinct values; minus zero and zero are equal numbers with different keys (refuted). |
| C46 | Bracket matching finds the closing bracket | `find_close` | induction on the text | proved | Nesting counter modelled as unbounded integer (i32 in the code). |
| C47 | Unescaping | `unescape_vec` | induction on the text | proved | unescape_vec; unslash is covered by C02. |
| C48 | Comparison operators and line checks | `CompareOp`, `RangeSpec`, `CheckLine`, `CheckBuff` | case analysis; refutations | partial | Operators and the range matcher exact; silent line check mirrored, second bound and symbol spellings of the line check wrong (refuted). |
| C49 | Composite columns substitute fields | `CompositeColumn` | induction over parts; refutations | partial | Proved for every list of literals and references. Refuted: a unit letter after a number, counting from the end, a field the line does not have, and output with quotes. |
| C50 | Generated files have the requested shape | `GenList`, generators, `filegen` | refinement of the whole tool; induction over lines and columns | partial | Proved of the whole tool: the shape for all generators, the cells of counting, grid, empty and decimal columns, headers and repeated columns. Expressions and normal distributions are functions of line and column, random draws are given. Refuted: counting up to 2^63 - 1 panics. |
| C51 | Remote chunk streaming is faithful | `S3Reader::read` | induction over schedules; refutation for empty chunks | partial | False if the remote body yields an empty chunk; proved otherwise. |
| C52 | Scoped values follow the last matching scope | `ScopedValues` | induction over scopes; refutations | partial | Proved for every list of scopes within the header. Refuted: numbers beyond the header panic, columns beyond the header get the last column's value, the delimiter as a value cannot be given, numeric access always panics. |
| C53 | Expressions follow the columns of the current file | `Expr::lookup`, `Expr::eval` | invariant over all histories of lookups; refutations | partial | Proved for every history of lookups and evaluations: numbered and bracketed references always read the column of the latest header, plain names on the first lookup. Refuted: plain names keep their first column, a column called c2 hides the second column, columns called e or pi cannot be named, c0 panics. |
| C54 | Sortedness check is exact | `comp_check` | induction over the lines | proved | On comparators already looked up; the command never calls lookup, so keys by column name use column 0 there. |
| C55 | Assigning a line copies it | `TextLine::assign` | case analysis; refutation | partial | Text not copied in decoding modes. |
| C56 | Reported line locations are exact | `Reader` with `FileLocData` | invariant over reads; refutations | partial | Exact in plain mode through new_open; wrong in decoding modes and after open. |
| C57 | Copying the current line reproduces the input | `Reader::write_curr` | case analysis on the text mode; refutation | partial | Plain mode only; in decoding modes the decoded text is written, without newline. |
| C58 | Decimal text is read as the number it shows | `to_f64` families | error-free steps below 2^53; with Flocq a bound on the error of each fraction digit, exponent and unit; refutation by 0.3 | partial | Every decimal with fraction, exponent and unit is read within a relative error proportional to its number of digits (up to 300 digits on each side, magnitude from 2^-900 to 2^1000, exp10 good to two units for the exponent used); whole numbers exactly. Nearest-double reading is refuted by 0.3. Missing: subnormal results and overflow. |
| C59 | Text matchers accept what their help says | text matchers of `matcher.rs` | induction on the pattern and text; refutations | partial | Byte mode proved for all patterns and targets. comment/hash/slash also accept blank texts; utf8.case.exact misses; empty case-blind suffix panics; empty lines of a file are skipped; empty multi pattern panics. Regular expressions are outside the model; utf8 mode is the subject of C85. |
| C60 | cgrep writes exactly the matching lines | `cgrep` | refinement of the line loop to a filter | partial | Proved for the lines of one file; headers and location columns are not part of the statement. Group conditions cannot be written (C61). |
| C61 | Line conditions are read as documented | `LineMatcherList::push` parsing | splitting lemmas; refutations | partial | The plain form is proved. Group conditions: the closing bracket stays in the column text for every specification, thresholds with a comma are never read, and a group at the end panics. |
| C62 | Files without a header have columns named c1, c2, ... | `make_header` | induction on fields; refutation | partial | Proved for tab-delimited files. Refuted for every other delimiter: the whole first line counts as one column. |
| C63 | Written headers read back as the same names | header writing and reading | induction on names; refutations | partial | Proved for ASCII delimiters other than the blank and non-empty headers; the other cases are refuted. The sorter reads headers as tab-delimited whatever the delimiter. |
| C64 | Rows have as many fields as the header | `Writer` | induction over writers; refutations | partial | Proved for plain text output when each writer fits the line. Refuted for empty selections, clumps whose fields hold the delimiter, and single columns on short lines. |
| C65 | Aggregated rows keep the file's columns | `LineAggList` | induction over columns; refutations | partial | Proved for headers of distinct proper names and lines at least as wide as the header. Refuted: repeated names show the first column's value twice, improper names panic, a second replacement and expressions as replacements are not shown, the general form of the request fails for prefix and append. |
| C66 | Built-in functions and constants compute what they are named for | `func_*`, constants | Flocq for max, min, avg and factorial; refutations | partial | max and min for all numbers but NaN, avg for whole numbers, factorials to one part in 2^49. Refuted: acos is the absolute value, 0! is 0, 28! is not the nearest double, constants with an underscore cannot be written. Other functions are parameters. |
| C67 | Numbered concatenation numbers every line once and keeps every file | `cat --number/--skip/--remove`, `LineNumber::set` | induction over lines and files on top of `Writer` and the reader; refutations | partial | Proved in plain quoting for every list of files with data lines, all headerless or all with the same names; removed and skipped lines are arbitrary predicates. Refuted: a file with header only ends the run, headerless files pass under another file's header, headerless files with another delimiter are refused, decoding modes write wrong text. |
| C68 | wc counts what it is asked to count, per file, per column and in total | `wc`, `AggList`, `Agger`, `Tri` | induction over lines, files, columns and options; exact sums in Flocq; refutations | partial | Proved of the whole tool for all option lists without --agg and all files with data lines, totals below 2^53; the printing of numbers is a parameter. Refuted: no line for files without data, default count ignores the format, other delimiters give ragged output, decoding modes miscount, --columns stops at a header-only file, panics on wide lines and labels inconsistently. |
| C69 | Printed numbers read as what they stand for | `NumFormat` | Flocq: relative error of the division, exact bounds of the units by computation, induction over the units; refutations | partial | Proved for all finite doubles: the power formats are within a tenth, given that the library prints a nearest decimal; the names of the formats exactly. Refuted: short is not the shorter of the two (every whole number from 1000 on not ending in zero, and zero), a small negative number is printed as negative zero. |
| C70 | Smooth samples are spread evenly | `Smooth` sampling: the distances | invariant on the stride and the next line due, Flocq error bounds of the float steps; refutation | partial | Proved for samples of 3 to 2^24 lines and every stream: no two neighbours are twice the average distance apart, unless adjacent. Refuted: an even spread; of 129 lines the sample of three is the first, the last but one and the last. |
| C71 | cgrep tells where lines were found | `cgrep`, `FileLocList` | induction over lines and files on top of the reader; refutations | partial | Proved of the whole tool in plain quoting for every list of files, all headerless or all with the same names, with arbitrary conditions. Refuted: offsets when headers are skipped, offsets and texts in quoted files, a tab after the places when the delimiter is another. |
| C72 | Options reach the tool in command-line order | `args::parse`, `Settings::consume`, `inner_main`, the option tables of all tools | permutation and sortedness determine the sorted list; sweep over the finite tables; refutations | partial | Proved for every command line as clap reports it and for all tools. Refuted: four declared options (binsearch sub-delim, uniq agg-help, verify report and show-matchers) make their tool panic, and two names verify knows cannot be given. clap itself is outside the model. |
| C73 | Text format options mean what their help says | `TextFileMode::new_with`, `auto_escape`, `Settings::text_out` | case analysis on the letters; refutations | partial | Proved for all formats of byte characters and all defaults. Refuted: the output format does not default to the input format, longer texts are accepted, characters beyond 255 are cut, y and n neither require nor forbid a header, on output y writes one that is not a CDX header and n still writes the names. |
| C74 | A sort key means what its text says | `CompMaker::make_comp`, `make_line_comp`, `LineCompCol::lookup`, `LineCompList::add` | an invariant on the columns looked up so far, including those cloned for further files; first_diff decides; sweep over the finite table of kinds; refutations | partial | Proved from the text of the keys to the comparison of two lines, for any number of keys, columns and files. Refuted: short names in other cases, the junk words, columns counted from the end, letters after a number; a key that is not looked up compares the first column, whole lines are compared with their line ends. What an expression computes is C66. |
| C75 | The sort tool | `sort_main`, on top of the models of C16 to C20, C54 and C74 | cached comparison of items shown equal to the comparison of lines, so that the sorter with caches is the sorter without; transfer of sortedness between equal orders; refutations | partial | Proved from the options and the bytes of the files to the bytes written, for keys with proper orders (plain, lower, ip, equal, length), the first not reversed, and lines without null bytes shorter than the buffer. Refuted: --check and --merge with named keys, a reversed first key, the number of reports over several files, the text mode, which only --check obeys. |
| C76 | The join tool | `join_main`: options, --output and --also, opening with the default text mode, keys looked up in every file, output columns, on top of the quick join of C22 | parsing of --output shown to give the column sets of its parts, column lookup by C27; keys by C74; the joined lines renamed to the raw lines; refutations | partial | Proved from the options and the bytes of two files to the bytes of every output, for keys by name or number with proper orders (plain, lower, ip, equal, length), for files sorted by the keys of which the second has no repeated keys. Refuted: the header of unmatched lines of a file without header, the header of the second file when the first has none, new names and transforms in --output, empty parts of --output (a panic), output files that exist. Repeated keys, unsorted files and a third file are refuted under C22. |
| C77 | The uniq tool | `uniq_main`: options, --count and --which, lookup of keys and aggregators, header, reading with and without splitting, on top of the models of C23, C29, C65 and C74 | runs of read lines renamed to runs of the bytes of the file; aggregator list shown to be the requests in order; uniqueness of runs for the second pass; refutations | partial | Proved from the options and the bytes of the file to the bytes written, for plain text modes, keys by name or number or the whole line, selection by keys with proper orders (plain, lower, ip, equal, length), and with aggregates for files whose lines have at least as many columns as the header. Refuted: no key at all, different delimiters of input and output, columns with the whole line as key, two aggregates in place of one column, --agg-help. |
| C78 | The cut tool | `cut_main`: options, the list of writers, lookup in every file, new header and its check, the loops over files and lines, on top of the models of C07, C27, C49 and C53 | an invariant of each writer over all files looked up so far; cells of a line from C27, C28, C49 and the compiled tree of the expression; refutations | partial | Proved from the options and the bytes of the files to the bytes written, for plain text modes, files all with a header (check mode match, the same new header for all) or all without, columns as in C27, composite text as in C49 and expressions as in C53 whose plain names are at the same place in every file. Not covered: quoted modes, --dups numeric with repeated names, a mixture of files with and without header. Refuted: a column written twice where no header is written, plain names in expressions at different places in the files, the output delimiter within groups. |
| C79 | The binsearch tool | `binsearch_main`: options, the settings for context and file name, the mapped file and its invented header, lookup of the keys in every file, the check of headers and the loop over files, on top of the models of C07, C21 and C74 | files reduced to lists of lines; the order of values against lines embedded in one total preorder, so that sorted lines are in order for every value; refutations | partial | Proved from the options and the bytes of the files to the bytes written: with context for files that are in order for the values (c79_headed, c79_headless), and without context for files sorted by keys of the plain kinds (c79_finds), by reduction to the search of C21 and the keys of C74. Not covered: a mixture of files with and without header, files with a delimiter other than the tab. Refuted: the delimiter of the header, keys of whole lines, the header as a line of context, --filename with a name only or with a number only, --sub-delim. |
| C80 | The calc tool | `calc_main` and `parse_fmt_expr`: options, the loops over files and lines with the format carried along, on top of the models of C32 and C69 | induction over the lines with the format as state; the first comma of a written expression is preceded by the bracket of a call, by induction on the grammar; only brackets tokenize to brackets; refutations | partial | Proved from the options and the bytes of the files to the bytes on standard output, for plain text modes and lines that are valid UTF-8, with expressions written as in C32 and formats as in C69. Refused lines are those with a character no expression has, or with a call that is unknown or has a wrong number of arguments; for all other lines c80_goes_on_partial says only that the tool reaches the end. Messages on standard error are not modelled. Refuted: an empty line panics, failed expressions do not show in the exit status, unknown names count as 0. |
| C81 | The tooltest tool | `tooltest.rs` and `tooltest_main`: `grab`, `Test::open`, `Test::run` over a directory of named files, `Config` with its counts and `report`, on top of the matchers of C26 and C59; the program run, UTF-8, regular expressions and gzip are parameters | the sections of a file read one after the other with the record of what was asked as invariant; the directory as a list of files with removal by name; refutations | partial | Proved from the bytes of the test file, cut into reads in any way, to the verdict and the files left, for any behaviour of the program. Expected outputs given by a matcher instead of a text are modelled and shown by examples only. The counts are proved for tests whose files are all there in the end, with --bin and --verbose, and for a single test with --tmp; missing files are where independence of the tests is refuted. Messages on standard error are not modelled, directories made by the program neither. |
| C82 | Several files on one screen | `tabs_main`, `Rect::from_screen`, the reading in `show2`, `show` and `basic`, on top of the model of C38; the widths and cuts of the external crates and `from_utf8_lossy` are parameters | induction over the files with the lines left as state; division for the shares; refutations | partial | Proved from the bytes of the files to the bytes written, for plain text modes, files without a line of more fields than the header, and three lines of screen for each file (or two, if no file has a header). With fewer lines files with headers always panic (c82_crowded); a mixture of files with and without headers in between is not covered. Refuted: the number of files, long names, names of empty files, escapes, a terminal without size. |
| C83 | Tools one after the other | no further code: `sort` (C75) followed by `sort`, `uniq` (C77), `binsearch` (C79) or `join` (C76), and `cut` (C78) twice followed by `paste` (C40), and `cat` with numbers (C67) followed by `cut`, and `cgrep` (C71) before or after `sort` or `cgrep`, and `cat` (C43) before `sort`, each reading the bytes the one before has written | the runs of a sorted list are its groups; the stable sort of a sorted list is itself; what passes a test of a stable sort is the stable sort of what passes it; the rows of a join with distinct keys are the pairs of the product that agree; a refutation | partial | Composed from the theorems about the single tools, from the bytes of the input files to the bytes the last tool writes; the source that carries the bytes from one tool to the next may be cut into reads in any way. Files with headers, keys by name or number with the comparisons known to be orders, the first key not reversed (see c75_reverse_refuted), lines shorter than the buffer of sort. For uniq and join the first read must give four bytes, for binsearch the header must be below the values: otherwise the property fails, c83_search_refuted. c83_grep (cgrep and sort exchanged) and c83_cat (sort after cat) are without --unique; these and c83_unique (sort --unique as uniq after sort) are for input smaller than the buffer of sort, where ties are known to keep their order. |
| C84 | UTF-8 text is safe in tools that work on bytes | no further code: comparisons (C17), splitting, path parts, byte matchers (C59) and transforms (C35) on bytes that are the coding of characters | lead and continuation bytes are disjoint and no code is the start of another, hence prefixes, infixes, order and splitting carry over from bytes to characters; refutations | partial | Proved for all texts in UTF-8, with the coding table of the Unicode standard as specification. Refuted: normspace puts a space into a character when white space comes first, byte ranges cut characters, the question mark and the length of the matchers count bytes. |
| C85 | Matchers in utf8 mode work on characters | `smatch` of every matcher in `matcher.rs`, `Text for str` in `text.rs` (comparisons without case, `chars_equal`, `glob`, `new_lower`, `trim`), `do_match`, `do_match_safe`, `load_hashset_c`, on decoded characters; the standard library's tables and `from_utf8_lossy` are parameters | decoding is inverse to coding; the loops by induction on characters; agreement with the model for ASCII text used in C59; refutations | partial | Proved for all texts, patterns and tables of small letters and white space (these tables are parameters). Without case: for patterns without capital sigma, and for the comparisons where small letters take as many bytes. The outcome of a pattern with stars is given exactly, for any number of stars; it is not always the meaning of the pattern, as in C10. Refuted: the capital sigma at the end of a pattern, capital letters with exact, the Kelvin sign in comparisons (equal to longer texts, and no order at all), bytes that are not text. |
| C86 | Decimals are compared by value | `to_f64` and the float comparator | the error bound of C58 is less than half a step of the grid, and equal values are read by the same additions; refutation by 17 digits | proved | All decimals of up to fourteen digits; without that bound it is refuted by two numbers of seventeen digits. |
| C87 | Sorting by number | as C75, with the comparators float and numeric for any key | the sorter only compares lines of its input, so it behaves as with a total preorder that agrees with the keys on fitting lines, in memory and when merging; then C19, C20; decimals by C86 | proved | Proved for key values that fit as the statement says; a reversed first key must compare numbers or lengths (otherwise C75 and C16 refute it). Refuted for minus zero: sorting keeps it beside zero under unique, merging does not. |
| C88 | Which text counts as a number | `to_usize`, `to_isize`, `to_f64`, their `_whole` and `_junk` forms, `Junk` | the greedy reading is decomposed into sign, digits, point, exponent and letter, and any other decomposition of the same text is shown to be no longer | partial | Proved for every text. Refuted: text without any digit, such as k or a lone minus sign or point, counts as a float even when no junk is allowed, and the empty text passes where an option requires a number. |
| C89 | Joining and counting by number | join_main, uniq_main and sort_main as in C75 to C77, with the comparators float and numeric | join only compares lines of the two files, so the merge argument needs a total preorder that agrees with the keys on those lines; decimals by C86; the pipelines from C87 and the argument of C83 | partial | Proved for keys whose float values are numbers and whose numeric values are whole numbers; against the exact value for decimals of up to fourteen digits without exponent or unit. Refuted: 1001 and 1.001k are different keys, and a value that overflows to not-a-number, such as 0e400, does not equal itself, so identical lines are counted apart and not joined. |

## Findings

Each is proved of the model with a witness; the theorem is named in front.

* `c01_plain_custom_line_break_refuted`: with a line break other than newline configured, the line break byte stays in the last column.
* `c02_backslash_empty_last_refuted`: backslash mode: an empty last column is lost on reading back.
* `c02_backslash_delim_refuted`: backslash mode: with delimiter n, r or t the escaped delimiter decodes to a control character.
* `c03_quote_roundtrip_refuted`: quote mode: a value with the delimiter does not read back; the closing quote is never written where it protects anything.
* `c03_quote_only_quotes_refuted`: quote mode: a value made of adjacent quotes does not read back.
* `c05_header_schedule_refuted`: a first read of fewer than four bytes hides a ` CDX` header.
* `c06_lookback_beyond_refuted`: looking back beyond the configured size returns a wrong line or panics.
* `c06_unsplit_line_refuted`: with splitting off and a decoding mode, the current line's text is stale.
* `c07_require_refuted`: header mode require accepts later files whose header differs from the first.
* `c07_strip_refuted`: header mode strip rejects a first file that has a header instead of removing it.
* `c07_none_refuted`: header mode none accepts a header in the first file.
* `c08_numeric_refuted`: numeric renaming silently drops the 10001st column of the same name.
* `c08_rename_target_refuted`: a rename target is not checked against names already present, so names can repeat.
* `c09_large_position_refuted`: positions are truncated to 32 bits.
* `c10_glob_refuted`: a star that is not at the end never stands for exactly one character; some patterns panic (`c10_glob_panics`).
* `c10_greedy_refuted`: Globbing puts every piece between two stars at the first place it is tried and never gives that place up. With the one-character gap this loses matches even when no star has to stand for one character: `*a*b` on `xxaab`..
* `c13_magnitude_refuted`: the magnitude tables use `^` (exclusive or) for power; only K and k are right.
* `c14_float_refuted`: `0e400` reads as NaN, which is less than itself under the float comparator.
* `c15_transitive_refuted`: numeric comparison: 1.5 = 1 and 1 = 1.2 but 1.5 > 1.2.
* `c15_value_refuted`: numeric comparison: 1.10 > 1.1.
* `c15_minus_zero_refuted`: numeric comparison: -0 < 0.
* `c16_nul_refuted`: cached text keys confuse a text with its extension by NUL bytes.
* `c16_numeric_comma_refuted`: cached numeric keys order `1,000` below `2` though the comparator reads the comma.
* `c16_float_zero_refuted`: cached float keys order -0 and 0, the comparator calls them equal.
* `c16_reverse_refuted`: reversed text keys with a common 8-byte prefix are reversed twice.
* `c16_whole_refuted`: whole-line length and float keys never look at the line.
* `c18_numeric_refuted`: sorting through cached numeric keys leaves the output out of order.
* `c19_heap_stable_refuted`: the heap merge is not stable across files.
* `c20_exact_fill_refuted`: a file that fills the sort buffer exactly loses the rest of its data.
* `c20_plain_files_refuted`: a later file without a header makes the sort fail.
* `c20_long_line_refuted`: a line longer than the buffer panics.
* `c20_header_line_refuted`: a data line starting ` CDX` is taken for a header of the temporary file and lost.
* `c20_stable_refuted`: the external sort is not stable.
* `c20_unique_refuted`: external unique keeps a line that is not the first of its run.
* `c21_blank_refuted`: a blank line above the value makes the binary search run for ever.
* `c21_header_refuted`: the header line is searched as data.
* `c21_context_refuted`: context before the end of a file without final newline panics.
* `c22_repeated_refuted`: join: the second line of the right file with the same key is called unmatched.
* `c22_unsorted_refuted`: join: unsorted input is not reported.
* `c22_third_file_refuted`: join: the third file's columns always come from its first line.
* `c22_header_refuted`: join: the output header can repeat a name.
* `c23_no_key_refuted`: uniq without a key calls all lines equal.
* `c23_decoded_refuted`: uniq in decoding modes writes the first line's text for every run.
* `c23_delim_refuted`: uniq writes a delimiter above 127 as two bytes.
* `c23_unsplit_refuted`: uniq with a whole-line key does not split lines, so columns are missing.
* `c25_at_most_refuted`: fractional thresholds: at-most and at-least are exchanged.
* `c25_no_columns_refuted`: 0 of 0 columns satisfies at-least-half.
* `c26_text_negation_refuted`: lists of text matchers ignore negation.
* `c26_null_refuted`: the method `null` negates instead of accepting the empty text.
* `c27_number_refuted`: column numbers beyond the file are accepted.
* `c27_end_zero_refuted`: `+0` stands for one column past the end.
* `c27_empty_refuted`: an empty specification or trailing comma panics.
* `c27_group_list_refuted`: a group followed by a further specification always fails.
* `c27_group_excluded_refuted`: an excluded group is cut at its first comma.
* `c27_label_refuted`: a label without a name panics.
* `c27_group_colon_refuted`: a group holding a colon is taken for a label.
* `c27_exclusion_trans_refuted`: a transform is ignored when only exclusions are given.
* `c28_short_refuted`: a line without the first selected column panics.
* `c28_trans_refuted`: a failing transform panics instead of reporting the error.
* `c28_sloppy_refuted`: `write_sloppy` writes no delimiters.
* `c29_amean_refuted`: the mean of counts prints the sum.
* `c29_reverse_refuted`: min and max ignore a reversed comparator.
* `c29_max_refuted`: max of values all below the empty text shows nothing.
* `c29_sum_order_refuted`: the sum depends on the order of the values: after 10000000000000000 a 1 is lost.
* `c30_no_parts_refuted`: merge with a limit of no parts writes one.
* `c30_count_refuted`: merge's count ignores its limits.
* `c30_delim_refuted`: merge refuses a request that only changes the delimiters.
* `c30_end_refuted`: merge drops a final delimiter or newline of the last value.
* `c30_reverse_refuted`: merge ignores a reversed comparator.
* `c31_accepted_refuted`: the empty text and `()` are accepted and then panic.
* `c31_wellformed_refuted`: `2(3)+` is accepted and gives 5.
* `c32_text_refuted`: `abs(-5)`, `5!-3` and texts with spaces are refused.
* `c34_usable_refuted`: no expression with an equals sign is ever accepted.
* `c35_empty_refuted`: an empty transform list returns the scratch buffer.
* `c35_first_alias_refuted`: the first transform made by a program cannot be an alias.
* `c36_leading_refuted`: a leading blank makes the first word break after its first character.
* `c37_refuted`: sample size 2: the third line panics.
* `c37_one_refuted`: sample size 1 writes two lines.
* `c38_refuted`: a line with more fields than the header panics.
* `c39_header_only_refuted`: transpose of a header-only file has an extra empty field on every line.
* `c39_delim_refuted`: transpose of a headerless file with another delimiter writes the first column only.
* `c39_wide_refuted`: transpose drops fields beyond the width of the header.
* `c39_quote_refuted`: a quoted line break makes an extra line.
* `c40_last_refuted`: paste with last-value filling panics on a header-only file.
* `c40_quote_refuted`: paste in decoding modes loses the last character of every line.
* `c40_quote_panic_refuted`: paste in decoding modes panics on an empty line.
* `c40_empty_refuted`: a zero-byte file removes the header of the result.
* `c40_delim_refuted`: paste writes tabs between files whatever the delimiter.
* `c41_refuted`: sample counts lines from zero: asking for line 1 gives the second line.
* `c41_header_only_refuted`: a header-only file ends the run; later files are ignored.
* `c41_quote_refuted`: decoding modes write the first line's text for every line.
* `c42_refuted`: verify never holds the last line of a file to column counts and patterns.
* `c42_twice_refuted`: a first line failing both its own check and a pattern counts as two failures.
* `c43_refuted`: a file of several lines without final newline is not padded, so its last line merges with the next file.
* `c43_end_refuted`: the same with padding at the end of the output.
* `c44_alias_hides_refuted`: an alias hides a later registration of its own name.
* `c44_modifier_case_refuted`: the registered name UTF8 is taken for a modifier.
* `c44_comp_case_refuted`: a comparator registered with capital letters is never found.
* `c44_counter_utf8_refuted`: the counter utf8 cannot be reached.
* `c45_zeros_refuted`: -0 and 0 are equal numbers with different keys.
* `c48_silent_refuted`: the silent line check compares in the opposite direction.
* `c48_second_bound_refuted`: the second bound of a line check is ignored or compared against the operator's text.
* `c48_symbol_cut_refuted`: `<=` and `>=` are cut to `<` and `>` in line checks.
* `c49_quotes_refuted`: in quote mode the pieces of a composite are quoted one by one.
* `c49_missing_refuted`: a missing field panics in one method and is empty in the other.
* `c49_magnitude_refuted`: a unit letter after a column number is taken as part of the number.
* `c49_end_refuted`: counting columns from the end always fails in composites.
* `c50_refuted`: a counter reaching 2^63-1 panics with overflow checks.
* `c51_s3_empty_chunk_refuted`: an empty chunk of a remote body ends the stream early.
* `c52_delimiter_refuted`: the delimiter cannot be given as a value.
* `c52_beyond_refuted`: a scope naming a column number beyond the header panics.
* `c52_default_refuted`: a column beyond the header gets the last column's value; an empty header panics.
* `c52_numbers_refuted`: numeric access to scoped values always panics.
* `c53_again_refuted`: a plain column name keeps the column of the first header when the next file's header differs.
* `c53_number_refuted`: a column called c2 hides the second column.
* `c53_names_refuted`: columns called e or pi are shadowed by the constants; c0 panics.
* `c55_assign_refuted`: assigning a line does not copy its original text.
* `c56_location_decoded_refuted`: byte offsets are wrong in decoding modes.
* `c56_location_open_refuted`: line numbers stay 0 after `open`.
* `c57_write_curr_refuted`: in decoding modes the current line is written decoded and without newline.
* `c58_nearest_refuted`: `0.3` is read as the upper neighbour of the nearest double.
* `c59_comment_refuted`: comment, hash and slash matchers accept blank text.
* `c59_utf8_case_refuted`: case-blind exact matching of texts rejects an identical upper-case text.
* `c59_empty_suffix_refuted`: an empty case-blind suffix panics.
* `c59_file_empty_refuted`: empty lines of a pattern file are skipped.
* `c59_multi_refuted`: an empty multi-pattern panics.
* `c61_group_refuted`: a group condition keeps a stray closing bracket.
* `c61_group_never_refuted`: that holds for every group condition.
* `c61_end_refuted`: a group at the end of a condition panics.
* `c61_threshold_refuted`: thresholds with a comma cannot be read.
* `c62_delim_refuted`: a headerless file with another delimiter gets one (invalid) name.
* `c63_space_refuted`: a header with blank delimiter does not read back.
* `c63_high_refuted`: a header with a delimiter above 127 does not read back.
* `c63_empty_refuted`: an empty header panics.
* `c63_sorter_refuted`: the sorter reads headers as tab-delimited whatever the delimiter.
* `c64_empty_refuted`: an empty selection still gets a delimiter.
* `c64_clump_refuted`: a clump is not protected against the file's delimiter.
* `c64_single_refuted`: a single column on a short line panics.
* `c65_general_refuted`: the general request form fails for prefix and append.
* `c65_repeat_refuted`: repeated names show the first column's value twice.
* `c65_name_refuted`: an improper column name panics the setup.
* `c65_second_refuted`: a second replacement of a column is not shown.
* `c66_factorial_refuted`: 0! is 0 and 28! is not the nearest double.
* `c66_acos_refuted`: acos is the absolute value.
* `c66_constants_refuted`: constants with an underscore cannot be written.
* `c67_header_only_refuted`: numbered `cat` returns at the first file that has only a header; later files are not written.
* `c67_mixed_refuted`: numbered `cat` accepts a headerless file of any width after a file with a header, where plain `cat` refuses.
* `c67_delim_refuted`: numbered `cat` refuses every headerless file of two or more columns whose delimiter is not tab.
* `c67_quote_refuted`: numbered `cat` in the decoding modes does not write the lines.
* `c68_no_row_refuted`: `wc` writes no line for an empty or header-only file.
* `c68_format_refuted`: `wc --format` is not applied to the default line count, only to its total.
* `c68_delim_refuted`: `wc` with a delimiter other than tab writes labels and totals with tabs, header and values with the delimiter.
* `c68_quote_refuted`: `wc` counts stale text in the decoding modes.
* `c68_columns_end_refuted`: `wc --columns` stops at the first header-only file.
* `c68_columns_wide_refuted`: `wc --columns` panics on a line with more fields than there are names.
* `c68_columns_label_refuted`: `wc --columns` labels the line of a single column but not the total.
* `c69_short_refuted`: `NumFormat::Short` is documented as the shorter of plain and exponent; 1234 is printed as 1.234e3.
* `c69_zero_refuted`: The default number format prints zero with an exponent, 0e0 by the library's rules.
* `c69_negative_zero_refuted`: The power formats print -0.4 as negative zero, with its sign.
* `c70_refuted`: a smooth sample need not be even: of 129 lines the sample of three is the first, the last but one and the last, since the sampler doubles its stride whenever it fills up and then takes the last line as well.
* `c71_skip_refuted`: `cgrep --location bytes` with headers skipped counts the offset from the end of the header, since the length of a skipped header is lost.
* `c71_quote_refuted`: `cgrep` on quoted files writes the lines without their quotes and without line ends, and the offsets count only the decoded bytes.
* `c71_delimiter_refuted`: `cgrep --location` always writes a tab after each place: with another delimiter the places run into the first column, while the header separates them properly.
* `c72_handled_refuted`: `binsearch --sub-delim`, `uniq --agg-help`, `verify --report` and `verify --show-matchers` are declared but fall through to `unreachable!()`: the tool panics (`c72_forgotten`).
* `c72_known_refuted`: `verify` has code for `--fail` and `--or`, which are not declared and so cannot be given; the number of failures reported cannot be changed.
* `c73_out_defaults_refuted`: `--text-out` is documented to default to the values of `--text-in`; it is read with the built-in defaults, so `--text-in n, --text-out n` writes tabs.
* `c73_longer_refuted`: a text format of more than five letters is accepted, the rest ignored.
* `c73_char_refuted`: a delimiter beyond U+00FF is cut down to its low byte: U+0109 gives a tab.
* `c73_required_refuted`: `--text-in y` does not require a CDX header: the first line, whatever it is, is taken for the names.
* `c73_forbidden_refuted`: `--text-in n` does not refuse a CDX header: it is taken for a line of data.
* `c73_out_yes_refuted`: `--text-out y` writes the names without the CDX mark, so the output does not read back as having a header.
* `c73_out_no_refuted`: `--text-out n` still writes the names, as a first line of data.
* `c74_short_case_refuted`: `num` and `len` must be written in lower case although `NUMERIC` and `LENGTH` may be written in any: `--key 1,NUM` is refused.
* `c74_junk_refuted`: the words `strict`, `trail` and `low` are accepted and stored but nothing reads them, so junk is always ignored.
* `c74_from_end_refuted`: `+1`, the last column elsewhere, is refused in a key: `take_first` gives the plus sign again.
* `c74_suffix_refuted`: a letter after the column number multiplies it: `2k` means column 2000 instead of being refused.
* `c74_wrap_refuted`: column 2^64 wraps to 0 and then `num - 1` overflows: a panic in checked builds, the last possible column otherwise.
* `c74_unlooked_refuted`: a key of names compares the first column until `lookup` is called; `sort --merge` and `sort --check` never call it.
* `c74_line_end_refuted`: keys of whole lines include the line end, so `a` sorts after `a<TAB>b`.
* `c75_named_check_refuted`: `sort --check` never looks up column names: sorted output of `sort -k name` fails `sort -c -k name`.
* `c75_named_merge_refuted`: `sort --merge` never looks up column names: files sorted by a named column are merged by the first column.
* `c75_reverse_refuted`: `sort -k 1,rev` sorts upwards where the first eight bytes of the key agree.
* `c75_count_refuted`: `sort -C 1` over three unsorted files makes three reports: the inner loop ends, the loop over the files goes on.
* `c75_mode_refuted`: `sort` and `sort --merge` ignore `--text-in` and split at tabs, `sort --check` obeys it.
* `c76_headerless_refuted`: `join --also` writes an invented header line `c1 c2` above the unmatched lines of a file that has no header.
* `c76_lost_header_refuted`: `join` drops the header when the first file has none although the second has.
* `c76_labels_refuted`: `join --output 1.new:old` and `1.col+lower` accept the new name and the transform and ignore them.
* `c76_empty_part_refuted`: `join --output 1.id,` panics on the empty part instead of reporting an error.
* `c76_truncate_refuted`: `join --file` onto an existing longer file leaves the end of the old text behind the new: `get_writer` does not truncate.
* `c77_no_key_refuted`: `uniq` without `--key` writes only the first line of a file of different lines.
* `c77_delimiters_refuted`: `uniq --count` with different input and output delimiters writes a header with the one and lines with the other.
* `c77_columns_refuted`: `uniq --key ''` with an aggregate does not split lines after the first: it writes columns cut at the places of an earlier line, or panics on a shorter line.
* `c77_twice_refuted`: `uniq --agg id,count --agg id,max` silently ignores the second aggregate.
* `c77_help_refuted`: `uniq --agg-help` panics: the option is declared but not handled.
* `c78_dups_refuted`: `cut -f 2,1,2` on a file without header is refused because of the repeated name, although no header is written.
* `c78_stale_refuted`: `cut --expr ten:a*10` over two files with different orders of columns reads in the second file the column where `a` was in the first.
* `c78_group_refuted`: `cut --group` does not keep the output delimiter out of its cell when it differs from the input delimiter, as `--fields` does.
* `c79_delim_refuted`: `binsearch` compares columns split at tabs although the header says ` CDX,`: a key by name is accepted and nothing is found.
* `c79_whole_refuted`: `binsearch --key ,plain` never finds a line, as the line end belongs to the line compared.
* `c79_context_refuted`: `binsearch --context 1` writes the header a second time as the line before the first line.
* `c79_filename_refuted`: `binsearch --filename name` without a number of parts writes an empty file name in front of every line.
* `c79_parts_refuted`: `binsearch --filename 1` gives a column without a name, so that every file with a header is refused.
* `c79_sub_delim_refuted`: `binsearch --sub-delim` panics: the code compares with `subdelim`.
* `c80_blank_refuted`: `calc` panics on an empty line, and on one made of brackets only, and leaves the rest of the lines unanswered.
* `c80_status_refuted`: `calc` ends successfully although no expression could be evaluated.
* `c80_name_refuted`: `calc` takes an unknown name for 0: `2*pie` gives 0.
* `c81_missing_refuted`: `tooltest`: a test whose #outfile was not written ends in an error before the other files are removed, and the next test fails because of them.
* `c81_unstarted_refuted`: `tooltest`: a test whose program cannot be started leaves its input files, and the next test fails because of them.
* `c81_stale_refuted`: `tooltest --tmp`: an #infile shorter than a file of that name left by an earlier test keeps the tail of the old one, because `get_writer` does not truncate.
* `c81_empty_refuted`: `tooltest`: an empty test file is said to be always ignored (tooltest.rs:176) and is a failure.
* `c81_in_place_refuted`: `tooltest`: a file which is both #infile and #outfile is removed before it is compared, so that no test of a program changing a file in place can pass.
* `c81_status_refuted`: `tooltest`: #status is taken modulo 2^32, `#status 4294967297` accepts status 1.
* `c81_not_refuted`: `tooltest`: `#stdout not.infix,err` passes exactly when the output does contain err: `do_match_safe` ignores the negation.
* `c81_blanks_refuted`: `tooltest`: two blanks in a row, or one at the end, of #command make empty arguments.
* `c81_tmp_blank_refuted`: `tooltest`: a directory with a blank in its path makes two arguments of every $TMP.
* `c81_hash_refuted`: `tooltest`: an expected output whose last line begins with a number sign and a blank loses that line and the test passes without it.
* `c81_twice_refuted`: `tooltest`: #nonewline behind an empty second #stdin takes the newline off the first one.
* `c82_many_refuted`: `tabs`: nine files with headers, each of which can be shown alone, panic on the default screen of 24 lines.
* `c82_title_refuted`: `tabs`: the name of a file is left out if it is longer than its table is wide, so that the files cannot be told apart.
* `c82_empty_refuted`: `tabs`: an empty file among several shows neither its name nor a rule, only an empty line.
* `c82_escape_refuted`: `tabs`: the fields of a line are split without regard to escapes, so that an escaped delimiter is a panic.
* `c82_no_size_refuted`: `tabs`: on a terminal that reports no rows the number of lines underflows.
* `c82_no_columns_refuted`: `tabs::basic` takes one off a width it does not use: on a terminal without columns it panics.
* `c83_search_refuted`: `binsearch` counts the header line as a line of data: a file written by `sort --key animal` is searched in vain for a value that comes before the header, such as `ant` where the header has `id` in the place of the column.
* `c84_words_refuted`: normspace on a text that begins with white space puts its space after the first byte instead of the first character: ` é` becomes bytes that are no text.
* `c84_slice_refuted`: a byte range such as 1-1 cuts a character of two bytes in the middle.
* `c84_glob_refuted`: without utf8 the question mark of a glob and the length matcher count bytes: `?` does not match one accented letter.
* `c85_sigma_refuted`: utf8.case.prefix and utf8.case.suffix with a pattern that ends in a capital sigma do not match the very same text, since `str::to_lowercase` gives the pattern a final sigma and the text is lowered character by character; utf8.case.infix has the same trouble when the word goes on.
* `c85_exact_refuted`: utf8.case.exact does not match a capital letter with itself: the arguments of `equal_insens_quick` are swapped.
* `c85_equal_refuted`: `equal_insens` and `cmp_insens` of strings compare the characters they have in common and then the lengths in bytes: the Kelvin sign equals `kab`, and not `k`.
* `c85_circle_refuted`: for the same reason `cmp_insens` of strings is no order: `kz` < the Kelvin sign < `kaaa` < `kz`.
* `c85_lossy_refuted`: in utf8 mode a column of invalid bytes is matched as the replacement character, so that utf8.exact accepts texts other than the pattern.
* `c86_all_refuted`: With seventeen digits the float comparison can invert the order: 999999999999990.29 compares greater than 999999999999990.30, because to_f64 adds up one rounded term per digit..
* `c87_zero_refuted`: sort --unique with a float key keeps both -0 and 0, although the key calls them equal and --merge --unique keeps only one of them: the cached key distinguishes them.
* `c88_no_digit_refuted`: text without any digit (`k`, `-`, `.`) is accepted as a float, even where no junk is allowed.
* `c88_empty_refuted`: the empty text is accepted as 0 wherever an option requires a whole number or a float.
* `c89_unit_refuted`: join and uniq by float tell apart equal numbers that are written with a unit or many digits: 1001 and 1.001k are neither joined nor counted together.
* `c89_same_refuted`: a float key whose value is not a number, such as 0e400, is unlike itself: uniq counts two identical lines apart and join does not pair them.

## What is modelled and what is not

Counted from the citations in the model files. "Cited" counts functions with at least one cited line; several
cited functions are simplified, as the comment at the definition says.

| Source file | Functions cited | Model files |
|---|---|---|
| agg.rs | 127 of 150 | AggModel, AggProps, RegModel, UniqMain, WcModel |
| bin/cdx/args.rs | 3 of 6 | CliModel |
| bin/cdx/binsearch_main.rs | 6 of 8 | BinMain, BinModel, CliModel |
| bin/cdx/calc_main.rs | 1 of 1 | CalcMain, CliModel |
| bin/cdx/cat_main.rs | 3 of 3 | CliModel, CliProps, NumbModel, ToolModel |
| bin/cdx/cgrep_main.rs | 1 of 1 | CliModel, CliProps, LocModel, MatchModel |
| bin/cdx/cut_main.rs | 1 of 1 | CliModel, CutMain, HdrModel, HeadModel |
| bin/cdx/filegen_main.rs | 1 of 1 | CliModel, GenModel |
| bin/cdx/globals.rs | 4 of 7 | CliModel, FormModel, WcModel |
| bin/cdx/join_main.rs | 1 of 1 | CliModel, JoinMain |
| bin/cdx/main.rs | 2 of 2 | CliModel |
| bin/cdx/paste_main.rs | 2 of 2 | CliModel, ToolModel |
| bin/cdx/sample_main.rs | 5 of 5 | CliModel, EvenProps, HeadModel, SampModel, ToolModel |
| bin/cdx/sort_main.rs | 1 of 1 | CliModel, CompModel, OrderModel |
| bin/cdx/tabs_main.rs | 2 of 2 | CliModel, TabsMain |
| bin/cdx/tooltest_main.rs | 1 of 1 | CliModel, TestMain, TestSpec |
| bin/cdx/transpose_main.rs | 1 of 1 | CliModel |
| bin/cdx/uniq_main.rs | 7 of 9 | AggModel, CliModel, UniqMain, UniqModel |
| bin/cdx/verify_main.rs | 1 of 1 | CliModel, ToolModel |
| bin/cdx/wc_main.rs | 2 of 2 | CliModel, WcModel |
| binsearch.rs | 8 of 14 | BinMain, BinModel |
| column.rs | 97 of 121 | AggModel, ColModel, CompModel, CutMain, HdrModel, JoinMain, KeyModel, NumbModel, ToolModel, UniqMain, WcModel |
| comp.rs | 162 of 205 | AggModel, AggProps, BinMain, BinModel, CompModel, JoinMain, KeyModel, RegModel, ToolModel, UniqMain |
| expr.rs | 25 of 29 | CalcMain, ExprModel, JoinMain, KeyModel |
| join.rs | 5 of 11 | JoinMain, JoinModel, KeyModel |
| matcher.rs | 127 of 160 | MatchModel, RegModel, TestMain, UtfModel |
| num.rs | 12 of 12 | AggModel, AggProps, FloatModel, FmtModel, FmtProofs, FmtProps, JunkModel, MatchModel, StrModel, WcModel |
| sampler.rs | 5 of 7 | SampEven, SampFloat, SampModel |
| shunting_yard.rs | 2 of 2 | ExprModel |
| sort.rs | 24 of 31 | HdrModel, OrderModel, SortModel |
| tabs.rs | 5 of 6 | TabsMain, TabsModel, TabsProps |
| text.rs | 42 of 59 | Base, CompModel, ExprModel, FloatModel, JunkModel, LocModel, MatchModel, NumbModel, StrModel, TestMain, TransModel, UtfModel |
| textgen.rs | 20 of 23 | GenModel, RegModel |
| tok2.rs | 2 of 3 | ExprModel |
| tooltest.rs | 15 of 15 | TestMain, TestProps, TestSpec, TestTight |
| trans.rs | 21 of 25 | RegModel, TransModel |
| transpose.rs | 1 of 1 | ToolModel |
| util.rs | 91 of 158 | Base, BinMain, BinModel, CheckModel, CliModel, ColModel, CompModel, FormModel, HdrModel, HeadModel, HeadSpec, JoinMain, JoinModel, LocModel, MatchModel, NumbModel, ReadModel, SortModel, StrModel, TabsMain, TestMain, TestSpec, TextModel, ToolModel, WcModel |

Trait declarations and the methods `help`, `fmt`, `default`, `clone`, `box_clone` are left out of the count.
Not modelled, by file (line of the function in brackets). Most are constructors, accessors and forwarding
methods whose body appears inline in the model; the tools' option parsing, `tooltest`, process and terminal
handling are outside the model.

* `agg.rs`: LineAgger::is_col (89), LineAgger::value (105), LineAgger::lookup (109), LineAgger::replace (113), LineAgger::can_replace (117), ColumnFun for LineAgger::lookup (430), ColumnFun for Agger::add_names (451), Agger::result (469), Agger::reset (473), Agger::value (477), Agger::deep_clone (500), AggList::len (522), AggList::write (544), AggList::write_names (552), AggList::get (562), AggList::is_empty (573), AggList::fill (592), LineAggList::new (609), AggMaker::push (1345), AggMaker::push_counter (1353), AggMaker::add_alias (1361), AggMaker::make (1519), AggMaker::make_counter (1527)
* `bin/cdx/args.rs`: version (62), ProgSpec::new (72), add_arg (108)
* `bin/cdx/binsearch_main.rs`: Context::new (60), Context::is_empty (63)
* `bin/cdx/globals.rs`: global_args (28), Settings::add_std_help (60), Settings::handle_std_help (67)
* `bin/cdx/uniq_main.rs`: Count::is_plain (62), Count::lookup (150)
* `binsearch.rs`: MemMap::get (49), MemMap::get_delim (54), MemMap::header (64), MemMap::names (69), lower_bound (115), equal_range (122)
* `column.rs`: ColSetPart::new (321), OutCol::new (343), OutCol::new_trans (352), OutCol::from_num (361), OutCol::from_num_trans (370), ScopedValue::lookup (424), ScopedValues::new (444), ScopedValues::set_default (448), ScopedValues::make_floats (478), ScopedValues::add (487), ScopedValues::add2 (492), ScopedValues::get_int (507), ScopedValues::get_float (516), ScopedValues::is_empty (534), ColumnSet::from_spec (741), ColumnSet::lookup_col2 (838), ColumnSet::to_outcols (891), ColumnSet::ranges (900), ColumnSet::get_cols (1179), ColumnSet::get_cols_full (1186), ColumnSet::get_cols_num (1192), ColumnSet::lookup_cols_full (1216), Writer::new (1381), Writer::is_empty (1389)
* `comp.rs`: Comp::new (146), Comp::with_line_comp (151), LineComp::new (234), LineComp::used_cols (238), LineComp::lookup (335), LineComp::lookup_n (339), LineComp::need_split (344), LineComp::equal_self_line (374), comp_items (586), equal_items (598), make_array (628), CompMaker::push (910), CompMaker::push_line (918), CompMaker::add_alias (926), CompMaker::make_comp_box (1026), CompMaker::make_line_comp_box (1030), CompList::new (1151), CompList::is_empty (1156), CompList::push (1160), CompList::add (1164), CompList::fill_cache (1190), CompList::set (1196), CompList::comp_self (1216), CompList::equal_self (1227), LineCompList::new (1240), LineCompList::is_empty (1245), LineCompList::used_cols (1250), LineCompList::push (1263), LineCompList::comp_cols (1299), LineCompList::equal_cols (1319), LineCompList::comp_lines (1338), LineCompList::equal_lines (1358), LineCompList::fill_cache_cols (1398), LineCompList::get_value (1411), LineCompList::equal_self_line (1464), Item::new (1739), Item::begin (1779), Item::end (1784), Item::equal (1789), Item::compare (1800), LineCompExpr::new (1840), LineCompare for LineCompExpr::lookup (1898), LineCompare for LineCompExpr::equal_self_line (1929)
* `expr.rs`: show_const (149), show_func (159), Expr::expr (451), Expr::prepare_line (510)
* `join.rs`: NoMatch::new (45), OutColSpec::new (65), OneOutCol::new (109), OneOutCol::new_plain (115), OneOutCol::write_head (125), JoinConfig::join (143)
* `matcher.rs`: not_str (62), Thresh::new_count (157), ColGroup::lookup (898), LineMatcherList::new (1203), LineMatcherList::new_with (1211), LineMatcherList::push (1218), LineMatcherList::is_empty (1224), LineMatcherList::ok_and (1248), LineMatcherList::ok_or (1267), LineMatcherList::ok (1288), LineMatcherList::ok_verbose (1292), LineMatcherList::lookup (1296), LineMatcherList::show (1303), LineMatch for LineMatcherList::ok (1319), LineMatch for LineMatcherList::ok_verbose (1322), LineMatch for LineMatcherList::lookup (1325), LineMatch for LineMatcherList::show (1328), MatcherList::new (1350), MatcherList::new_with (1358), MatcherList::push_obj (1370), MatcherList::is_empty (1375), MatcherList::umatch_tagged (1400), MatcherList::show (1424), Match for MatcherList::smatch (1464), Match for MatcherList::umatch (1467), Match for MatcherList::show (1470), Match for MatcherList::verbose_smatch (1473), MatchMaker::push (1769), MatchMaker::add_alias (1777), ExprMatcher::new (1971), LineMatch for ExprMatcher::ok_verbose (1982), LineMatch for ExprMatcher::lookup (1995), LineMatch for ExprMatcher::show (1999)
* `sampler.rs`: Smooth::verify (39), Smooth::dump (117)
* `sort.rs`: SortConfig::merge (204), SortConfig::merge_2 (220), Sorter::check (364), Sorter::avail (372), Sorter::no_del (498), MergeTreeItem::new_node (573), MergeTreeItem::new_leaf (576)
* `tabs.rs`: Rect::new (18)
* `text.rs`: equal_nocase (306), Text for [u8]::len (498), Text for [u8]::num_chars (501), Text for [u8]::as_bytes (504), Text for [u8]::ascii (507), Text for [u8]::empty (510), Text for [u8]::is_empty (513), Text for [u8]::first (516), Text for [u8]::skip_first (535), Text for [u8]::is_blank (539), Text for [u8]::take_first (556), Text for [u8]::assign_lower (594), Text for [u8]::new_lower (598), Text for [u8]::new_upper (607), Text for [u8]::get (615), Text for [u8]::last_byte (618), Text for [u8]::to_str (621)
* `textgen.rs`: GenList::new (229), GenList::push (233), GenList::is_empty (239)
* `tok2.rs`: Token::make_func (52)
* `trans.rs`: Transform::trans (188), Transform::lookup (191), TransList::push (214), TransList::lookup (243)
* `util.rs`: std::ops::Index<usize> for TextLine::index (748), std::ops::Index<usize> for StringLine::index (755), TextLine::parts (773), TextLine::raw (791), TextLine::iter (812), TextLine::clear (819), TextLine::len (825), TextLine::strlen (830), TextLine::is_empty (835), TextLine::read (848), TextLine::split (862), TextLine::vec (867), StringLine::new (875), StringLine::iter (884), StringLine::clear (900), StringLine::len (906), StringLine::strlen (911), StringLine::is_empty (916), StringLine::split (943), StringLine::vec (948), IntoIterator for &'a TextLine::into_iter (966), IntoIterator for &'a StringLine::into_iter (978), Iterator for StringLineIter<'a>::next (1018), S3Reader::new (1036), S3Reader::new_path (1052), Infile::new (1110), Deref for Infile::deref (1130), DerefMut for Infile::deref_mut (1136), AsRef<io::BufReader<Box<dyn Read>>> for Infile::as_ref (1142), AsMut<io::BufReader<Box<dyn Read>>> for Infile::as_mut (1148), Outfile::new (1159), Deref for Outfile::deref (1179), DerefMut for Outfile::deref_mut (1185), AsRef<io::BufWriter<Box<dyn Write>>> for Outfile::as_ref (1191), AsMut<io::BufWriter<Box<dyn Write>>> for Outfile::as_mut (1197), InfileContext::new (1297), FileLoc::write_data (1424), FileLocList::new (1437), FileLocList::is_empty (1442), FileLocList::write_names (1466), FileLocList::add (1473), Reader::loc (1505), Reader::new_open2 (1532), Reader::new_open (1536), Reader::prev_nl (1569), Reader::delim (1575), Reader::names (1580), Reader::header_line (1595), Reader::is_empty (1600), Reader::is_done (1605), Reader::curr_line (1637), Reader::curr_mut (1641), Reader::curr (1646), Reader::write_curr (1660), Reader::write_prev (1665), Reader::header (1676), Reader::has_header (1681), prerr (1687), prerr_n (1694), bytes_equal (1700), chars_equal (1713), bglob (1728), first (1767), skip_first (1776), take_first (1781), sglob (1789), CheckLine::set (2287)

Also outside: regular expressions, Unicode case and width tables, base64, random numbers, the S3 client,
compression, the maths library, file creation and deletion, I/O errors. They are parameters or absent.

## Assumptions of each theorem

Printed by `Assumptions.v` in the build. "none" means closed under the global context.

* **A1**: `ClassicalDedekindReals.sig_forall_dec`, `FunctionalExtensionality.functional_extensionality_dep`
* **A2**: `ClassicalDedekindReals.sig_forall_dec`, `ClassicalDedekindReals.sig_not_dec`, `Classical_Prop.classic`, `FunctionalExtensionality.functional_extensionality_dep`

| Theorem | File | Assumptions |
|---|---|---|
| `c01_plain_roundtrip` | TextProps | none |
| `c01_plain_roundtrip_exact` | TextProps | none |
| `c01_split_is_pieces` | TextProps | none |
| `c01_split_no_newline` | TextProps | none |
| `c01_plain_custom_line_break_refuted` | TextProps | none |
| `c02_backslash_roundtrip` | TextProps | none |
| `c02_backslash_empty_last_refuted` | TextProps | none |
| `c02_backslash_delim_refuted` | TextProps | none |
| `c03_quote_roundtrip_refuted` | TextProps | none |
| `c03_quote_only_quotes_refuted` | TextProps | none |
| `c03_quotes_never_protect` | TextProps | none |
| `c03_quote_roundtrip_partial` | TextProps | none |
| `c03_quote_written` | TextProps | none |
| `c04_lines` | ReadProps | none |
| `c04_quoted_records` | ReadProps | none |
| `c04_chunk_independent` | ReadProps | none |
| `c04_lines_unique` | ReadProps | none |
| `c04_end` | EofProps | none |
| `c05_header_schedule_partial` | ReadProps | none |
| `c05_header_explicit_mode` | ReadProps | none |
| `c05_header_schedule_refuted` | ReadProps | none |
| `c06_lookback` | ReadProps | none |
| `c06_lookback_eof` | ReadProps | none |
| `c06_lookback_beyond_refuted` | ReadProps | none |
| `c06_unsplit_line_refuted` | ReadProps | none |
| `c07_match` | HeadProps | none |
| `c07_trust` | HeadProps | none |
| `c07_ignore` | HeadProps | none |
| `c07_require_partial` | HeadProps | none |
| `c07_require_refuted` | HeadProps | none |
| `c07_strip_partial` | HeadProps | none |
| `c07_strip_refuted` | HeadProps | none |
| `c07_none_partial` | HeadProps | none |
| `c07_none_refuted` | HeadProps | none |
| `c07_at_most_one_header` | HeadProps | none |
| `c07_check_file` | HeadProps | none |
| `c08_unique` | HdrProps | none |
| `c08_rejected` | HdrProps | none |
| `c08_accepts` | HdrProps | none |
| `c08_accepted_partial` | HdrProps | none |
| `c08_push_all` | HdrProps | none |
| `c08_rename_spec` | HdrProps | none |
| `c08_numeric_refuted` | HdrProps | none |
| `c08_unused_renames` | HdrProps | none |
| `c08_rename_target_refuted` | HdrProps | none |
| `c09_range_parse` | StrProps | none |
| `c09_position_parse` | StrProps | none |
| `c09_get_safe` | StrProps | none |
| `c09_get` | StrProps | none |
| `c09_large_position_refuted` | StrProps | none |
| `c10_glob_terminates` | StrProps | none |
| `c10_glob_sound_partial` | StrProps | none |
| `c10_glob_no_star_partial` | StrProps | none |
| `c10_glob_final_star_partial` | StrProps | none |
| `c10_glob_one_star_partial` | StrProps | none |
| `c10_glob_exact` | GlobProps | none |
| `c10_matcher` | GlobProps | none |
| `c10_glob_refuted` | StrProps | none |
| `c10_greedy_refuted` | GlobProps | none |
| `c10_glob_panics` | StrProps | none |
| `c11_head` | StrProps | none |
| `c11_tail` | StrProps | none |
| `c11_reassemble` | StrProps | none |
| `c11_head_path_absolute` | StrProps | none |
| `c11_head_path_relative` | StrProps | none |
| `c11_tail_path_directory` | StrProps | none |
| `c11_tail_path_file` | StrProps | none |
| `c12_unsigned_roundtrip` | StrProps | none |
| `c12_unsigned_wraps` | StrProps | none |
| `c12_unsigned_whole` | StrProps | none |
| `c12_signed_roundtrip` | StrProps | none |
| `c13_kilo_partial` | StrProps | none |
| `c13_actual_table` | StrProps | none |
| `c13_magnitude_refuted` | StrProps | none |
| `c14_preorder` | CompProps | none |
| `c14_plain` | CompProps | none |
| `c14_lower` | CompProps | none |
| `c14_length` | CompProps | none |
| `c14_ip` | CompProps | none |
| `c14_equal_agrees` | CompProps | none |
| `c14_self_agrees` | CompProps | none |
| `c14_float_partial` | CompProps | A2 |
| `c14_antisymmetric` | CompProps | none |
| `c14_float_refuted` | CompProps | none |
| `c15_exact_partial` | CompProps | none |
| `c15_integers` | CompProps | none |
| `c15_transitive_refuted` | CompProps | none |
| `c15_value_refuted` | CompProps | none |
| `c15_minus_zero_refuted` | CompProps | none |
| `c16_text_key_partial` | CompProps | none |
| `c16_other_keys` | CompProps | none |
| `c16_float_key_partial` | CompProps | A2 |
| `c16_numeric_key_partial` | CompProps | A2 |
| `c16_list_partial` | CompProps | none |
| `c16_nul_refuted` | CompProps | none |
| `c16_numeric_comma_refuted` | CompProps | none |
| `c16_float_zero_refuted` | CompProps | none |
| `c16_reverse_refuted` | CompProps | none |
| `c16_whole_refuted` | CompProps | none |
| `c17_lines_first_key` | CompProps | none |
| `c17_cols_first_key` | CompProps | none |
| `c17_direction` | CompProps | none |
| `c17_preorder` | CompProps | none |
| `c17_preorder_cols` | CompProps | none |
| `c17_equal_agrees` | CompProps | none |
| `c17_remembered` | CompProps | none |
| `c17_column_text` | CompProps | none |
| `c17_raw_split_agree` | CompProps | none |
| `c18_stable` | SortProps | none |
| `c18_determined` | SortProps | none |
| `c18_unique` | SortProps | none |
| `c18_cached_partial` | SortProps | none |
| `c18_numeric_refuted` | SortProps | none |
| `c19_tree` | SortProps | none |
| `c19_tree_unique` | SortProps | none |
| `c19_heap_partial` | SortProps | none |
| `c19_heap_queue` | SortProps | none |
| `c19_agree` | SortProps | none |
| `c19_heap_stable_refuted` | SortProps | none |
| `c19_files` | SortProps | none |
| `c20_one_file` | SortProps | none |
| `c20_header_files` | SortProps | none |
| `c20_buffer_independent` | SortProps | none |
| `c20_empty_file` | SortProps | none |
| `c20_exact_fill_refuted` | SortProps | none |
| `c20_plain_files_refuted` | SortProps | none |
| `c20_long_line_refuted` | SortProps | none |
| `c20_header_line_refuted` | SortProps | none |
| `c20_stable_refuted` | SortProps | none |
| `c20_unique_refuted` | SortProps | none |
| `c21_lower` | BinProps | none |
| `c21_upper` | BinProps | none |
| `c21_equal_range` | BinProps | none |
| `c21_sorted` | BinProps | none |
| `c21_output_partial` | BinProps | none |
| `c21_blank_refuted` | BinProps | none |
| `c21_header_refuted` | BinProps | none |
| `c21_context_refuted` | BinProps | none |
| `c22_quick_partial` | JoinProps | none |
| `c22_rows_partial` | JoinProps | none |
| `c22_any_order_partial` | JoinProps | none |
| `c22_conserve` | JoinProps | none |
| `c22_sound` | JoinProps | none |
| `c22_columns` | JoinProps | none |
| `c22_row_columns` | JoinProps | none |
| `c22_output_partial` | JoinProps | none |
| `c22_repeated_refuted` | JoinProps | none |
| `c22_unsorted_refuted` | JoinProps | none |
| `c22_third_file_refuted` | JoinProps | none |
| `c22_header_refuted` | JoinProps | none |
| `c23_uniq_partial` | UniqProps | none |
| `c23_runs_unique` | UniqProps | none |
| `c23_aggregates_partial` | UniqProps | none |
| `c23_no_key_refuted` | UniqProps | none |
| `c23_decoded_refuted` | UniqProps | none |
| `c23_delim_refuted` | UniqProps | none |
| `c23_unsplit_refuted` | UniqProps | none |
| `c24_early` | MatchProps | none |
| `c24_loop` | MatchProps | none |
| `c25_swapped` | MatchProps | A2 |
| `c25_exactly_partial` | MatchProps | A2 |
| `c25_at_most_refuted` | MatchProps | none |
| `c25_no_columns_refuted` | MatchProps | none |
| `c26_and` | MatchProps | none |
| `c26_or` | MatchProps | none |
| `c26_verdict` | MatchProps | none |
| `c26_texts` | MatchProps | none |
| `c26_not` | MatchProps | none |
| `c26_text_negation_refuted` | MatchProps | none |
| `c26_null_refuted` | MatchProps | none |
| `c27_selected` | ColProps | none |
| `c27_in_file` | ColProps | none |
| `c27_rejected` | ColProps | none |
| `c27_number_refuted` | ColProps | none |
| `c27_end_zero_refuted` | ColProps | none |
| `c27_empty_refuted` | ColProps | none |
| `c27_group_list_refuted` | ColProps | none |
| `c27_group_excluded_refuted` | ColProps | none |
| `c27_label_refuted` | ColProps | none |
| `c27_group_colon_refuted` | ColProps | none |
| `c27_exclusion_trans_refuted` | ColProps | none |
| `c28_select` | ColProps | none |
| `c28_write` | ColProps | none |
| `c28_short_refuted` | ColProps | none |
| `c28_write2` | ColProps | none |
| `c28_fields` | ColProps | none |
| `c28_write3` | ColProps | none |
| `c28_trans_refuted` | ColProps | none |
| `c28_select_sloppy` | ColProps | none |
| `c28_sloppy_refuted` | ColProps | none |
| `c29_count` | AggProps | none |
| `c29_min_partial` | AggProps | none |
| `c29_max_partial` | AggProps | none |
| `c29_max_text` | AggProps | none |
| `c29_prefix` | AggProps | none |
| `c29_suffix` | AggProps | none |
| `c29_counters` | AggProps | none |
| `c29_counted` | AggProps | none |
| `c29_counter_names` | AggProps | none |
| `c29_alias` | AggProps | none |
| `c29_sum_mean_partial` | AggProps | A2 |
| `c29_sum_near` | SumProps | A2 |
| `c29_sum_decimals` | SumProps | A2 |
| `c29_reset` | AggProps | none |
| `c29_amean_refuted` | AggProps | none |
| `c29_reverse_refuted` | AggProps | none |
| `c29_max_refuted` | AggProps | none |
| `c29_sum_order_refuted` | SumProps | none |
| `c30_merge_partial` | AggProps | none |
| `c30_distinct` | AggProps | none |
| `c30_count_partial` | AggProps | none |
| `c30_values` | AggProps | none |
| `c30_options` | AggProps | none |
| `c30_options_delim` | AggProps | none |
| `c30_no_parts_refuted` | AggProps | none |
| `c30_count_refuted` | AggProps | none |
| `c30_delim_refuted` | AggProps | none |
| `c30_end_refuted` | AggProps | none |
| `c30_reverse_refuted` | AggProps | none |
| `c31_accepted_partial` | ExprProps | none |
| `c31_no_panic_partial` | ExprProps | none |
| `c31_accepted_refuted` | ExprProps | none |
| `c31_wellformed_refuted` | ExprProps | none |
| `c32_order` | ExprProps | none |
| `c32_least_brackets` | ExprProps | none |
| `c32_value_partial` | ExprProps | none |
| `c32_text_refuted` | ExprProps | none |
| `c33_folding` | ExprProps | none |
| `c33_every_assignment` | ExprProps | none |
| `c34_no_equals` | ExprProps | none |
| `c34_usable_refuted` | ExprProps | none |
| `c35_chain` | TransProps | none |
| `c35_named_partial` | TransProps | none |
| `c35_case` | TransProps | none |
| `c35_bytes` | TransProps | none |
| `c35_base64` | TransProps | none |
| `c35_empty_refuted` | TransProps | none |
| `c35_first_alias_refuted` | TransProps | none |
| `c36_words_partial` | TransProps | none |
| `c36_leading` | TransProps | none |
| `c36_leading_refuted` | TransProps | none |
| `c36_idempotent` | TransProps | none |
| `c37_sample_partial` | SampProps | A2 |
| `c37_two` | SampProps | none |
| `c37_refuted` | SampProps | none |
| `c37_one_refuted` | SampProps | none |
| `c38_widths` | TabsProps | none |
| `c38_table_partial` | TabsProps | none |
| `c38_lines` | TabsProps | none |
| `c38_wide` | TabsProps | none |
| `c38_refuted` | TabsProps | none |
| `c38_narrow` | TabsProps | none |
| `c39_cell` | TurnProps | none |
| `c39_transpose_partial` | TurnProps | none |
| `c39_twice` | TurnProps | none |
| `c39_twice_head` | TurnProps | none |
| `c39_header_only_refuted` | TurnProps | none |
| `c39_delim_refuted` | TurnProps | none |
| `c39_wide_refuted` | TurnProps | none |
| `c39_quote_refuted` | TurnProps | none |
| `c40_paste_partial` | PasteProps | none |
| `c40_exact` | PasteProps | none |
| `c40_names` | PasteProps | none |
| `c40_last_refuted` | PasteProps | none |
| `c40_quote_refuted` | PasteProps | none |
| `c40_quote_panic_refuted` | PasteProps | none |
| `c40_empty_refuted` | PasteProps | none |
| `c40_delim_refuted` | PasteProps | none |
| `c41_sample_partial` | PickProps | none |
| `c41_for_spec` | PickProps | none |
| `c41_for_long` | PickProps | none |
| `c41_empty` | PickProps | none |
| `c41_range_spec` | PickProps | none |
| `c41_default_drops_first` | PickProps | none |
| `c41_refuted` | PickProps | none |
| `c41_header_only_refuted` | PickProps | none |
| `c41_quote_refuted` | PickProps | none |
| `c42_verdict_partial` | VerProps | none |
| `c42_valid_accepted` | VerProps | none |
| `c42_count_partial` | VerProps | none |
| `c42_one_line` | VerProps | none |
| `c42_refuted` | VerProps | none |
| `c42_twice_refuted` | VerProps | none |
| `c43_cat_partial` | CatProps | none |
| `c43_padded` | CatProps | none |
| `c43_headed` | CatSortProps | none |
| `c43_refuted` | CatProps | none |
| `c43_end_refuted` | CatProps | none |
| `c44_unique` | RegProps | none |
| `c44_reserved` | RegProps | none |
| `c44_latest` | RegProps | none |
| `c44_made_partial` | RegProps | none |
| `c44_alias_hides_refuted` | RegProps | none |
| `c44_modifier_case_refuted` | RegProps | none |
| `c44_comp_case_refuted` | RegProps | none |
| `c44_counter_utf8_refuted` | RegProps | none |
| `c45_monotone` | FloatProps | none |
| `c45_injective` | FloatProps | none |
| `c45_key_order` | FloatProps | none |
| `c45_fcmp_value` | FloatProps | none |
| `c45_zeros_refuted` | FloatProps | none |
| `c46_find_close` | StrProps | none |
| `c46_find_close_sound` | StrProps | none |
| `c46_find_close_fails` | StrProps | none |
| `c47_unescape` | StrProps | none |
| `c47_unescape_covers` | StrProps | none |
| `c47_unescape_plain` | StrProps | none |
| `c47_unescape_shrinks` | StrProps | none |
| `c48_operators` | CheckProps | none |
| `c48_words` | CheckProps | none |
| `c48_invert` | CheckProps | none |
| `c48_complement` | CheckProps | none |
| `c48_range_one` | CheckProps | none |
| `c48_range_two` | CheckProps | none |
| `c48_line_verbose_partial` | CheckProps | none |
| `c48_silent_mirrored` | CheckProps | none |
| `c48_silent_refuted` | CheckProps | none |
| `c48_second_bound_refuted` | CheckProps | none |
| `c48_symbol_cut_refuted` | CheckProps | none |
| `c49_expand` | ColProps | none |
| `c49_write` | ColProps | none |
| `c49_quotes_refuted` | ColProps | none |
| `c49_missing_refuted` | ColProps | none |
| `c49_magnitude_refuted` | ColProps | none |
| `c49_end_refuted` | ColProps | none |
| `c50_shape` | GenProps | none |
| `c50_columns_partial` | GenProps | none |
| `c50_multi` | GenProps | none |
| `c50_decimal` | GenProps | none |
| `c50_unknown` | GenProps | none |
| `c50_refuted` | GenProps | none |
| `c51_s3_stream` | ReadProps | none |
| `c51_s3_empty_chunk_refuted` | ReadProps | none |
| `c52_last` | ColProps | none |
| `c52_spec` | ColProps | none |
| `c52_delimiter_refuted` | ColProps | none |
| `c52_beyond_refuted` | ColProps | none |
| `c52_default_refuted` | ColProps | none |
| `c52_numbers_refuted` | ColProps | none |
| `c53_columns_partial` | ExprProps | none |
| `c53_line_partial` | ExprProps | none |
| `c53_again_refuted` | ExprProps | none |
| `c53_number_refuted` | ExprProps | none |
| `c53_names_refuted` | ExprProps | none |
| `c54_check_exact` | CompProps | none |
| `c54_check_global` | CompProps | none |
| `c54_one_pair` | CompProps | none |
| `c55_assign_partial` | ReadProps | none |
| `c55_assign_refuted` | ReadProps | none |
| `c56_location_partial` | ReadProps | none |
| `c56_location_decoded_refuted` | ReadProps | none |
| `c56_location_open_refuted` | ReadProps | none |
| `c57_write_curr_partial` | ReadProps | none |
| `c57_write_curr_refuted` | ReadProps | none |
| `c58_decimal` | DecProps | A2 |
| `c58_whole_partial` | NumTextProps | A2 |
| `c58_small_exponent_partial` | NumTextProps | A2 |
| `c58_exponent_partial` | NumTextProps | A2 |
| `c58_magnitude_partial` | NumTextProps | A2 |
| `c58_nearest_refuted` | NumTextProps | none |
| `c59_prefix` | MatchProps | none |
| `c59_suffix` | MatchProps | none |
| `c59_infix` | MatchProps | none |
| `c59_exact` | MatchProps | none |
| `c59_length` | MatchProps | none |
| `c59_empty_blank` | MatchProps | none |
| `c59_comment_partial` | MatchProps | none |
| `c59_file` | MatchProps | none |
| `c59_multi` | MatchProps | none |
| `c59_comment_refuted` | MatchProps | none |
| `c59_utf8_case_refuted` | MatchProps | none |
| `c59_empty_suffix_refuted` | MatchProps | none |
| `c59_file_empty_refuted` | MatchProps | none |
| `c59_multi_refuted` | MatchProps | none |
| `c60_grep` | MatchProps | none |
| `c61_plain` | MatchProps | none |
| `c61_group_refuted` | MatchProps | none |
| `c61_group_never_refuted` | MatchProps | none |
| `c61_end_refuted` | MatchProps | none |
| `c61_threshold_refuted` | MatchProps | none |
| `c62_tab` | HdrProps | none |
| `c62_sorter` | HdrProps | none |
| `c62_delim_refuted` | HdrProps | none |
| `c63_roundtrip` | HdrProps | none |
| `c63_space_refuted` | HdrProps | none |
| `c63_high_refuted` | HdrProps | none |
| `c63_empty_refuted` | HdrProps | none |
| `c63_sorter_refuted` | HdrProps | none |
| `c63_sorter_tab` | HdrProps | none |
| `c64_fields` | ColProps | none |
| `c64_empty_refuted` | ColProps | none |
| `c64_clump_refuted` | ColProps | none |
| `c64_single_refuted` | ColProps | none |
| `c65_row_partial` | AggProps | none |
| `c65_spec` | AggProps | none |
| `c65_lookup` | AggProps | none |
| `c65_general_refuted` | AggProps | none |
| `c65_repeat_refuted` | AggProps | none |
| `c65_name_refuted` | AggProps | none |
| `c65_second_refuted` | AggProps | none |
| `c66_max` | ExprProps | none |
| `c66_min` | ExprProps | none |
| `c66_avg_partial` | ExprProps | A2 |
| `c66_if` | ExprProps | none |
| `c66_factorial_partial` | ExprProps | none |
| `c66_factorial_small` | ExprProps | none |
| `c66_acos_is_abs` | ExprProps | none |
| `c66_no_underscore` | ExprProps | none |
| `c66_factorial_refuted` | ExprProps | none |
| `c66_acos_refuted` | ExprProps | none |
| `c66_constants_refuted` | ExprProps | none |
| `c67_headerless_partial` | NumbProps | none |
| `c67_headed_partial` | NumbProps | none |
| `c67_empty` | NumbProps | none |
| `c67_spec` | NumbProps | none |
| `c67_header_only_refuted` | NumbProps | none |
| `c67_mixed_refuted` | NumbProps | none |
| `c67_delim_refuted` | NumbProps | none |
| `c67_quote_refuted` | NumbProps | none |
| `c68_files_partial` | WcProps | A2 |
| `c68_columns_partial` | WcProps | A2 |
| `c68_settings` | WcProps | none |
| `c68_agg_name` | WcProps | none |
| `c68_tri` | WcProps | none |
| `c68_no_row_refuted` | WcProps | none |
| `c68_format_refuted` | WcProps | none |
| `c68_delim_refuted` | WcProps | none |
| `c68_quote_refuted` | WcProps | none |
| `c68_columns_end_refuted` | WcProps | none |
| `c68_columns_wide_refuted` | WcProps | none |
| `c68_columns_label_refuted` | WcProps | none |
| `c69_power_partial` | FmtProps | A2 |
| `c69_special` | FmtProps | none |
| `c69_tenth` | FmtProps | none |
| `c69_letters` | FmtProps | none |
| `c69_new` | FmtProps | none |
| `c69_new_digits` | FmtProps | none |
| `c69_new_only` | FmtProps | none |
| `c69_digits_used` | FmtProps | none |
| `c69_short` | FmtProps | A2 |
| `c69_short_longer` | FmtProps | A2 |
| `c69_short_refuted` | FmtProps | none |
| `c69_zero_refuted` | FmtProps | none |
| `c69_negative_zero_refuted` | FmtProps | A1 |
| `c70_even_partial` | EvenProps | A2 |
| `c70_refuted` | EvenProps | none |
| `c71_headerless_partial` | LocProps | none |
| `c71_headed_partial` | LocProps | none |
| `c71_offset` | LocProps | none |
| `c71_options` | LocProps | none |
| `c71_all_options` | LocProps | none |
| `c71_only` | LocProps | none |
| `c71_success` | LocProps | none |
| `c71_skip_refuted` | LocProps | none |
| `c71_quote_refuted` | LocProps | none |
| `c71_delimiter_refuted` | LocProps | none |
| `c72_parse` | CliProps | none |
| `c72_tables` | CliProps | none |
| `c72_tools` | CliProps | none |
| `c72_help` | CliProps | none |
| `c72_show` | CliProps | none |
| `c72_bad_format` | CliProps | none |
| `c72_handled` | CliProps | none |
| `c72_forgotten` | CliProps | none |
| `c72_values` | CliProps | none |
| `c72_dispatch` | CliProps | none |
| `c72_no_tool` | CliProps | none |
| `c72_exit` | CliProps | none |
| `c72_handled_refuted` | CliProps | none |
| `c72_known_refuted` | CliProps | none |
| `c73_format` | CliProps | none |
| `c73_omitted` | CliProps | none |
| `c73_only` | CliProps | none |
| `c73_out` | CliProps | none |
| `c73_out_defaults_refuted` | CliProps | none |
| `c73_longer_refuted` | CliProps | none |
| `c73_char_refuted` | CliProps | none |
| `c73_required_refuted` | CliProps | none |
| `c73_forbidden_refuted` | CliProps | none |
| `c73_out_yes_refuted` | CliProps | none |
| `c73_out_no_refuted` | CliProps | none |
| `c74_expr_files` | TightProps | none |
| `c74_compares` | KeyProps | none |
| `c74_keys` | KeyProps | none |
| `c74_whole` | KeyProps | none |
| `c74_values` | KeyProps | none |
| `c74_one_kind` | KeyProps | none |
| `c74_unknown` | KeyProps | none |
| `c74_unknown_values` | KeyProps | none |
| `c74_bad_column` | KeyProps | none |
| `c74_missing` | KeyProps | none |
| `c74_expression` | KeyProps | none |
| `c74_short_case_refuted` | KeyProps | none |
| `c74_junk_refuted` | KeyProps | none |
| `c74_from_end_refuted` | KeyProps | none |
| `c74_suffix_refuted` | KeyProps | none |
| `c74_wrap_refuted` | KeyProps | none |
| `c74_unlooked_refuted` | KeyProps | none |
| `c74_line_end_refuted` | KeyProps | none |
| `c75_reports_asked` | TightProps | none |
| `c75_empty_file` | TightProps | none |
| `c75_named` | OrderProps | none |
| `c75_sorts` | OrderProps | none |
| `c75_plain` | OrderProps | none |
| `c75_whole` | OrderProps | none |
| `c75_check` | OrderProps | none |
| `c75_check_sorted` | OrderProps | none |
| `c75_reports` | OrderProps | none |
| `c75_merge` | OrderProps | none |
| `c75_passes` | OrderProps | none |
| `c75_refuses` | OrderProps | none |
| `c75_named_check_refuted` | OrderProps | none |
| `c75_named_merge_refuted` | OrderProps | none |
| `c75_reverse_refuted` | OrderProps | none |
| `c75_count_refuted` | OrderProps | none |
| `c75_mode_refuted` | OrderProps | none |
| `c76_join` | JoinMainProps | none |
| `c76_headed` | JoinMainProps | none |
| `c76_plain` | JoinMainProps | none |
| `c76_needs` | JoinMainProps | none |
| `c76_no_file` | JoinMainProps | none |
| `c76_headerless_refuted` | JoinMainProps | none |
| `c76_lost_header_refuted` | JoinMainProps | none |
| `c76_labels_refuted` | JoinMainProps | none |
| `c76_empty_part_refuted` | JoinMainProps | none |
| `c76_truncate_refuted` | JoinMainProps | none |
| `c77_uniq` | UniqMainProps | none |
| `c77_aggregates` | UniqMainProps | none |
| `c77_again` | UniqMainProps | none |
| `c77_empty` | UniqMainProps | none |
| `c77_words` | UniqMainProps | none |
| `c77_no_key_refuted` | UniqMainProps | none |
| `c77_delimiters_refuted` | UniqMainProps | none |
| `c77_columns_refuted` | UniqMainProps | none |
| `c77_twice_refuted` | UniqMainProps | none |
| `c77_help_refuted` | UniqMainProps | none |
| `c78_headed` | CutMainProps | none |
| `c78_headless` | CutMainProps | none |
| `c78_all` | CutMainProps | none |
| `c78_range` | CutPasteProps | none |
| `c78_nothing` | CutMainProps | none |
| `c78_dups_refuted` | CutMainProps | none |
| `c78_stale_refuted` | CutMainProps | none |
| `c78_group_refuted` | CutMainProps | none |
| `c79_headed` | BinMainProps | none |
| `c79_headless` | BinMainProps | none |
| `c79_finds` | BinMainProps | none |
| `c79_refuses` | BinMainProps | none |
| `c79_one_filename` | BinMainProps | none |
| `c79_delim_refuted` | BinMainProps | none |
| `c79_whole_refuted` | BinMainProps | none |
| `c79_context_refuted` | BinMainProps | none |
| `c79_filename_refuted` | BinMainProps | none |
| `c79_parts_refuted` | BinMainProps | none |
| `c79_sub_delim_refuted` | BinMainProps | none |
| `c80_answers` | CalcMainProps | none |
| `c80_plain` | CalcMainProps | none |
| `c80_unmistaken` | CalcMainProps | none |
| `c80_option` | CalcMainProps | none |
| `c80_goes_on_partial` | CalcMainProps | none |
| `c80_blank_refuted` | CalcMainProps | none |
| `c80_status_refuted` | CalcMainProps | none |
| `c80_name_refuted` | CalcMainProps | none |
| `c81_verdict` | TestProps | none |
| `c81_clean` | TestProps | none |
| `c81_kept` | TestProps | none |
| `c81_counts_partial` | TestProps | none |
| `c81_kept_tool` | TestProps | none |
| `c81_format` | TestProps | none |
| `c81_unknown_line` | TestTight | none |
| `c81_bad_name` | TestTight | none |
| `c81_missing_refuted` | TestProps | none |
| `c81_unstarted_refuted` | TestProps | none |
| `c81_stale_refuted` | TestProps | none |
| `c81_empty_refuted` | TestProps | none |
| `c81_in_place_refuted` | TestProps | none |
| `c81_status_refuted` | TestProps | none |
| `c81_not_refuted` | TestProps | none |
| `c81_blanks_refuted` | TestProps | none |
| `c81_tmp_blank_refuted` | TestProps | none |
| `c81_hash_refuted` | TestProps | none |
| `c81_twice_refuted` | TestProps | none |
| `c82_one` | TabsMainProps | none |
| `c82_several` | TabsMainProps | none |
| `c82_fits` | TabsMainProps | none |
| `c82_share` | TabsMainProps | none |
| `c82_crowded` | TabsMainProps | none |
| `c82_wide` | TabsMainProps | none |
| `c82_basic` | TabsMainProps | none |
| `c82_many_refuted` | TabsMainProps | none |
| `c82_title_refuted` | TabsMainProps | none |
| `c82_empty_refuted` | TabsMainProps | none |
| `c82_escape_refuted` | TabsMainProps | none |
| `c82_no_size_refuted` | TabsMainProps | none |
| `c82_no_columns_refuted` | TabsMainProps | none |
| `c83_again` | PipeProps | none |
| `c83_uniq` | PipeProps | none |
| `c83_search` | PipeProps | none |
| `c83_join` | PipeProps | none |
| `c83_split` | CutPasteProps | none |
| `c83_number` | NumbCutProps | none |
| `c83_grep` | GrepSortProps | none |
| `c83_grep_twice` | GrepSortProps | none |
| `c83_cat` | CatSortProps | none |
| `c83_unique` | SortUniqProps | none |
| `c83_search_refuted` | PipeProps | none |
| `c84_order` | UtfProps | none |
| `c84_order_case` | UtfProps | none |
| `c84_fields` | UtfProps | none |
| `c84_select` | UtfProps | none |
| `c84_paths` | UtfProps | none |
| `c84_matchers` | UtfProps | none |
| `c84_matchers_case` | UtfProps | none |
| `c84_lower_upper` | UtfProps | none |
| `c84_words` | UtfProps | none |
| `c84_words_refuted` | UtfProps | none |
| `c84_slice_refuted` | UtfProps | none |
| `c84_glob_refuted` | UtfProps | none |
| `c85_plain` | UtfModeProps | none |
| `c85_case_partial` | UtfModeProps | none |
| `c85_exact_case` | UtfModeProps | none |
| `c85_length` | UtfModeProps | none |
| `c85_glob_partial` | UtfModeProps | none |
| `c85_glob_exact` | UtfModeProps | none |
| `c85_trim` | UtfModeProps | none |
| `c85_file` | UtfModeProps | none |
| `c85_not_text` | UtfModeProps | none |
| `c85_compare_partial` | UtfModeProps | none |
| `c85_ascii` | UtfModeProps | none |
| `c85_sigma_refuted` | UtfModeProps | none |
| `c85_exact_refuted` | UtfModeProps | none |
| `c85_equal_refuted` | UtfModeProps | none |
| `c85_circle_refuted` | UtfModeProps | none |
| `c85_lossy_refuted` | UtfModeProps | none |
| `c86_order` | DecProps | A2 |
| `c86_equal` | DecProps | A2 |
| `c86_all_refuted` | DecProps | none |
| `c87_named` | ValProps | A2 |
| `c87_plain` | ValProps | A2 |
| `c87_merge` | ValProps | A2 |
| `c87_decimals` | ValProps | A2 |
| `c87_zero_refuted` | ValProps | none |
| `c88_unsigned` | JunkProps | none |
| `c88_signed` | JunkProps | none |
| `c88_float` | JunkProps | none |
| `c88_whole` | JunkProps | none |
| `c88_whole_float` | JunkProps | none |
| `c88_junk_unsigned` | JunkProps | none |
| `c88_junk_signed` | JunkProps | none |
| `c88_junk_float` | JunkProps | none |
| `c88_no_digit_refuted` | JunkProps | none |
| `c88_empty_refuted` | JunkProps | none |
| `c89_join` | NumKeyProps | A2 |
| `c89_join_numbers` | NumKeyProps | A2 |
| `c89_pick` | NumKeyProps | A2 |
| `c89_count` | NumKeyProps | A2 |
| `c89_pairs` | NumKeyProps | A2 |
| `c89_unit_refuted` | NumKeyProps | none |
| `c89_same_refuted` | NumKeyProps | none |
