{
 "claims": [
  {
   "property": "C01",
   "status": "proved",
   "theorems": [
    "c01_plain_roundtrip",
    "c01_plain_roundtrip_exact",
    "c01_split_is_pieces",
    "c01_split_no_newline",
    "c01_plain_custom_line_break_refuted"
   ],
   "note": "Proved for the newline line break; refuted for any other configured line break, which stays in the last column."
  },
  {
   "property": "C02",
   "status": "partial",
   "theorems": [
    "c02_backslash_roundtrip",
    "c02_backslash_empty_last_refuted",
    "c02_backslash_delim_refuted"
   ],
   "note": "False as stated: an empty last column is lost and delimiters n, r, t decode wrongly. Proved for all other delimiters and a non-empty last value."
  },
  {
   "property": "C03",
   "status": "partial",
   "theorems": [
    "c03_quote_roundtrip_refuted",
    "c03_quote_only_quotes_refuted",
    "c03_quotes_never_protect",
    "c03_quote_roundtrip_partial",
    "c03_quote_written"
   ],
   "note": "False as stated; proved that quoting never protects a delimiter. Round trip only for values needing no quoting."
  },
  {
   "property": "C04",
   "status": "proved",
   "theorems": [
    "c04_lines",
    "c04_quoted_records",
    "c04_chunk_independent",
    "c04_lines_unique",
    "c04_end"
   ],
   "note": "All modes, all chunkings; quote mode needs a line break other than the quote itself."
  },
  {
   "property": "C05",
   "status": "partial",
   "theorems": [
    "c05_header_schedule_partial",
    "c05_header_explicit_mode",
    "c05_header_schedule_refuted"
   ],
   "note": "False as stated: a first read shorter than four bytes hides a CDX header. Holds when the first read shows four bytes or the whole file, and always for explicit header modes."
  },
  {
   "property": "C06",
   "status": "proved",
   "theorems": [
    "c06_lookback",
    "c06_lookback_eof",
    "c06_lookback_beyond_refuted",
    "c06_unsplit_line_refuted"
   ],
   "note": "Proved with splitting on, for look-back up to the configured size; findings for splitting off in decoding modes and for larger look-back."
  },
  {
   "property": "C07",
   "status": "partial",
   "theorems": [
    "c07_match",
    "c07_trust",
    "c07_ignore",
    "c07_require_partial",
    "c07_require_refuted",
    "c07_strip_partial",
    "c07_strip_refuted",
    "c07_none_partial",
    "c07_none_refuted",
    "c07_at_most_one_header",
    "c07_check_file"
   ],
   "note": "Match, trust and ignore as documented; require, strip and none deviate (refuted) and are characterised exactly."
  },
  {
   "property": "C08",
   "status": "partial",
   "theorems": [
    "c08_unique",
    "c08_rejected",
    "c08_accepts",
    "c08_accepted_partial",
    "c08_push_all",
    "c08_rename_spec",
    "c08_numeric_refuted",
    "c08_unused_renames",
    "c08_rename_target_refuted"
   ],
   "note": "Uniqueness holds for every sequence of names and renames, except what the refutations show: under numeric renaming the 10001st duplicate is dropped without an error, and rename targets are not checked against names already there."
  },
  {
   "property": "C09",
   "status": "partial",
   "theorems": [
    "c09_range_parse",
    "c09_position_parse",
    "c09_get_safe",
    "c09_get",
    "c09_large_position_refuted"
   ],
   "note": "Exact for numbers below 2^32; larger positions are truncated to 32 bits (refuted)."
  },
  {
   "property": "C10",
   "status": "partial",
   "theorems": [
    "c10_glob_terminates",
    "c10_glob_sound_partial",
    "c10_glob_no_star_partial",
    "c10_glob_final_star_partial",
    "c10_glob_one_star_partial",
    "c10_glob_exact",
    "c10_matcher",
    "c10_glob_refuted",
    "c10_greedy_refuted",
    "c10_glob_panics"
   ],
   "note": "Exact outcome (yes, no or panic) for every text and every pattern; sound for all patterns; the claim itself is refuted: a star other than the last never stands for exactly one character, an earlier place of a piece is never given up, and matching can panic."
  },
  {
   "property": "C11",
   "status": "proved",
   "theorems": [
    "c11_head",
    "c11_tail",
    "c11_reassemble",
    "c11_head_path_absolute",
    "c11_head_path_relative",
    "c11_tail_path_directory",
    "c11_tail_path_file"
   ],
   "note": ""
  },
  {
   "property": "C12",
   "status": "proved",
   "theorems": [
    "c12_unsigned_roundtrip",
    "c12_unsigned_wraps",
    "c12_unsigned_whole",
    "c12_signed_roundtrip"
   ],
   "note": "Release build arithmetic (wrapping)."
  },
  {
   "property": "C13",
   "status": "partial",
   "theorems": [
    "c13_kilo_partial",
    "c13_actual_table",
    "c13_magnitude_refuted"
   ],
   "note": "Only K and k are right; the tables use exclusive or for power."
  },
  {
   "property": "C14",
   "status": "partial",
   "theorems": [
    "c14_preorder",
    "c14_plain",
    "c14_lower",
    "c14_length",
    "c14_ip",
    "c14_equal_agrees",
    "c14_self_agrees",
    "c14_float_partial",
    "c14_antisymmetric",
    "c14_float_refuted"
   ],
   "note": "Plain, case-insensitive, length, IP and always-equal comparators proved; the float comparator only where no text converts to NaN. comp_self needs lengths below 2^32."
  },
  {
   "property": "C15",
   "status": "partial",
   "theorems": [
    "c15_exact_partial",
    "c15_integers",
    "c15_transitive_refuted",
    "c15_value_refuted",
    "c15_minus_zero_refuted"
   ],
   "note": "False as stated; the pairs of numerals judged wrongly are characterised exactly. Numerals with junk or exponents are not covered by the value theorem."
  },
  {
   "property": "C16",
   "status": "partial",
   "theorems": [
    "c16_text_key_partial",
    "c16_other_keys",
    "c16_float_key_partial",
    "c16_numeric_key_partial",
    "c16_list_partial",
    "c16_nul_refuted",
    "c16_numeric_comma_refuted",
    "c16_float_zero_refuted",
    "c16_reverse_refuted",
    "c16_whole_refuted"
   ],
   "note": "False as stated; proved for column keys outside the listed exceptions."
  },
  {
   "property": "C17",
   "status": "proved",
   "theorems": [
    "c17_lines_first_key",
    "c17_cols_first_key",
    "c17_direction",
    "c17_preorder",
    "c17_preorder_cols",
    "c17_equal_agrees",
    "c17_remembered",
    "c17_column_text",
    "c17_raw_split_agree"
   ],
   "note": ""
  },
  {
   "property": "C18",
   "status": "partial",
   "theorems": [
    "c18_stable",
    "c18_determined",
    "c18_unique",
    "c18_cached_partial",
    "c18_numeric_refuted"
   ],
   "note": "Stable sort output is an ordered permutation keeping input order among equals, and is the only such list. The cached-key implementation is proved equal when every key's cached form is faithful; numeric keys leave it out of order (refuted)."
  },
  {
   "property": "C19",
   "status": "partial",
   "theorems": [
    "c19_tree",
    "c19_tree_unique",
    "c19_heap_partial",
    "c19_heap_queue",
    "c19_agree",
    "c19_heap_stable_refuted",
    "c19_files"
   ],
   "note": "Tree merge proved stable and equal to sorting the concatenation; heap merge proved ordered and complete but not stable across files (refuted)."
  },
  {
   "property": "C20",
   "status": "partial",
   "theorems": [
    "c20_one_file",
    "c20_header_files",
    "c20_buffer_independent",
    "c20_empty_file",
    "c20_exact_fill_refuted",
    "c20_plain_files_refuted",
    "c20_long_line_refuted",
    "c20_header_line_refuted",
    "c20_stable_refuted",
    "c20_unique_refuted"
   ],
   "note": "External sort equals the in-memory sort up to order of equal lines when the data do not fill the buffer exactly; six deviations are proved with witnesses."
  },
  {
   "property": "C21",
   "status": "partial",
   "theorems": [
    "c21_lower",
    "c21_upper",
    "c21_equal_range",
    "c21_sorted",
    "c21_output_partial",
    "c21_blank_refuted",
    "c21_header_refuted",
    "c21_context_refuted"
   ],
   "note": "Proved for every text whose lines are in order, unless a blank line is above the value: then the search never ends (refuted). The command searches the header line too (refuted) and panics on context before the end of an unterminated file (refuted)."
  },
  {
   "property": "C22",
   "status": "partial",
   "theorems": [
    "c22_quick_partial",
    "c22_rows_partial",
    "c22_any_order_partial",
    "c22_conserve",
    "c22_sound",
    "c22_columns",
    "c22_row_columns",
    "c22_output_partial",
    "c22_repeated_refuted",
    "c22_unsorted_refuted",
    "c22_third_file_refuted",
    "c22_header_refuted"
   ],
   "note": "Two key-ordered files, no key twice in the second: all three outputs exact. Repeated keys in the second file, unordered input, a third file and repeated column names are refuted."
  },
  {
   "property": "C23",
   "status": "partial",
   "theorems": [
    "c23_uniq_partial",
    "c23_runs_unique",
    "c23_aggregates_partial",
    "c23_no_key_refuted",
    "c23_decoded_refuted",
    "c23_delim_refuted",
    "c23_unsplit_refuted"
   ],
   "note": "Proved for files read without decoding, with at least a key and an ASCII delimiter. No key, decoding modes, wide delimiters and unsplit lines are refuted. Header lines are not covered here."
  },
  {
   "property": "C24",
   "status": "proved",
   "theorems": [
    "c24_early",
    "c24_loop"
   ],
   "note": "The loop over the columns (early exit included) equals the determiner's verdict on all columns, for every determiner, threshold and continuation; counting determiners are given an independent meaning."
  },
  {
   "property": "C25",
   "status": "partial",
   "theorems": [
    "c25_swapped",
    "c25_exactly_partial",
    "c25_at_most_refuted",
    "c25_no_columns_refuted"
   ],
   "note": "Refuted: at-most and at-least fractions are exchanged (proved for every share m/tot and every count, totals below 2^50), and with no columns both accept. 'exactly' is proved right for shares m/tot."
  },
  {
   "property": "C26",
   "status": "partial",
   "theorems": [
    "c26_and",
    "c26_or",
    "c26_verdict",
    "c26_texts",
    "c26_not",
    "c26_text_negation_refuted",
    "c26_null_refuted"
   ],
   "note": "And/or, verbose and 'not' in front of a method proved for line matchers. Refuted for lists of text matchers, where negation is ignored, and for 'null', which negates."
  },
  {
   "property": "C27",
   "status": "partial",
   "theorems": [
    "c27_selected",
    "c27_in_file",
    "c27_rejected",
    "c27_number_refuted",
    "c27_end_zero_refuted",
    "c27_empty_refuted",
    "c27_group_list_refuted",
    "c27_group_excluded_refuted",
    "c27_label_refuted",
    "c27_group_colon_refuted",
    "c27_exclusion_trans_refuted"
   ],
   "note": "Proved for every sequence of well-written specifications and every header: the selection is exactly the one written. The refutations give the specifications for which it fails: numbers beyond the file are accepted, empty specifications panic, groups are cut at commas and colons."
  },
  {
   "property": "C28",
   "status": "partial",
   "theorems": [
    "c28_select",
    "c28_write",
    "c28_short_refuted",
    "c28_write2",
    "c28_fields",
    "c28_write3",
    "c28_trans_refuted",
    "c28_select_sloppy",
    "c28_sloppy_refuted"
   ],
   "note": "Proved for all selections and lines, with reading back; refuted where a line lacks the first selected column (panic), where a transform fails (panic) and for write_sloppy, which writes no delimiter."
  },
  {
   "property": "C29",
   "status": "partial",
   "theorems": [
    "c29_count",
    "c29_min_partial",
    "c29_max_partial",
    "c29_max_text",
    "c29_prefix",
    "c29_suffix",
    "c29_counters",
    "c29_counted",
    "c29_counter_names",
    "c29_alias",
    "c29_sum_mean_partial",
    "c29_sum_near",
    "c29_sum_decimals",
    "c29_reset",
    "c29_amean_refuted",
    "c29_reverse_refuted",
    "c29_max_refuted",
    "c29_sum_order_refuted"
   ],
   "note": "Proved from the specification text to the result for every list of values. min and max need a comparator that is a total preorder on the values; sum and mean are exact for whole numbers whose partial sums stay below 2^53, and within 1.01 n + 5.5 D + 11 units of 2^-53 of the sum of sizes for n decimals of up to D digits on either side of the point. Refuted: max of values below the empty text shows nothing, reversed comparators are ignored, the mean of counts prints the sum, sums depend on the order of the values."
  },
  {
   "property": "C30",
   "status": "partial",
   "theorems": [
    "c30_merge_partial",
    "c30_distinct",
    "c30_count_partial",
    "c30_values",
    "c30_options",
    "c30_options_delim",
    "c30_no_parts_refuted",
    "c30_count_refuted",
    "c30_delim_refuted",
    "c30_end_refuted",
    "c30_reverse_refuted"
   ],
   "note": "Proved for every list of values whose last value does not end in the delimiter or a newline, a limit of at least one part, and a comparator that is a total preorder. Refuted: a limit of no parts, count with limits, new delimiters alone, values ending in the delimiter, reversed comparators."
  },
  {
   "property": "C31",
   "status": "partial",
   "theorems": [
    "c31_accepted_partial",
    "c31_no_panic_partial",
    "c31_accepted_refuted",
    "c31_wellformed_refuted"
   ],
   "note": "Proved for every token list whose converted form is not empty: if it compiles, every assignment of the variables evaluates to exactly one value; and a whole calculation panics only on texts of brackets alone. Refuted: the empty text and empty brackets are accepted and then panic; operators after their operands are accepted."
  },
  {
   "property": "C32",
   "status": "partial",
   "theorems": [
    "c32_order",
    "c32_least_brackets",
    "c32_value_partial",
    "c32_text_refuted"
   ],
   "note": "Proved at the level of tokens for every tree, however bracketed. From text to value proved for texts without the spellings that are refused or misread. Refuted on text: a sign as first argument, a sum after a factorial, spaces."
  },
  {
   "property": "C33",
   "status": "proved",
   "theorems": [
    "c33_folding",
    "c33_every_assignment"
   ],
   "note": "Every operation sequence that runs, every assignment; the functions of the maths library, remainder and power are parameters."
  },
  {
   "property": "C34",
   "status": "partial",
   "theorems": [
    "c34_no_equals",
    "c34_usable_refuted"
   ],
   "note": "The claim is false: proved that no text with an equals sign is ever accepted."
  },
  {
   "property": "C35",
   "status": "partial",
   "theorems": [
    "c35_chain",
    "c35_named_partial",
    "c35_case",
    "c35_bytes",
    "c35_base64",
    "c35_empty_refuted",
    "c35_first_alias_refuted"
   ],
   "note": "Composition proved for every non-empty list, input and scratch contents; names to transforms proved for the names in the specification. Refuted: an empty list returns the scratch buffer, and the first transform of a program cannot be an alias. Non-ASCII case mapping and base64 itself are parameters."
  },
  {
   "property": "C36",
   "status": "partial",
   "theorems": [
    "c36_words_partial",
    "c36_leading",
    "c36_leading_refuted",
    "c36_idempotent"
   ],
   "note": "Proved for values that do not start with blank space, with the exact result for values that do: the first word is broken after its first character. Idempotence holds for every value."
  },
  {
   "property": "C37",
   "status": "partial",
   "theorems": [
    "c37_sample_partial",
    "c37_two",
    "c37_refuted",
    "c37_one_refuted"
   ],
   "note": "Proved for every stream and every sample size from 3 up to 2^48, including the double arithmetic choosing the positions. Refuted for sample sizes 1 and 2: the third line panics, and a sample of one line writes two."
  },
  {
   "property": "C38",
   "status": "partial",
   "theorems": [
    "c38_widths",
    "c38_table_partial",
    "c38_lines",
    "c38_wide",
    "c38_refuted",
    "c38_narrow"
   ],
   "note": "Proved for all widths and screens: the loop ends, the widths fit, nothing is cut needlessly or unfairly, and every line written is narrower than the screen. Text width and cutting are the external crates' and enter as hypotheses. Refuted for a line with more fields than the header, which panics."
  },
  {
   "property": "C39",
   "status": "partial",
   "theorems": [
    "c39_cell",
    "c39_transpose_partial",
    "c39_twice",
    "c39_twice_head",
    "c39_header_only_refuted",
    "c39_delim_refuted",
    "c39_wide_refuted",
    "c39_quote_refuted"
   ],
   "note": "Proved of the whole tool (open, header, line loop) for a rectangular tab-delimited file read plainly, header or not; transposing twice gives the file back. Refuted: a header-only file gets an extra empty field per line, another delimiter without a header writes one column only, fields beyond the width are dropped, a decoded line break makes an extra line."
  },
  {
   "property": "C40",
   "status": "partial",
   "theorems": [
    "c40_paste_partial",
    "c40_exact",
    "c40_names",
    "c40_last_refuted",
    "c40_quote_refuted",
    "c40_quote_panic_refuted",
    "c40_empty_refuted",
    "c40_delim_refuted"
   ],
   "note": "Proved of the whole tool for any number of files read plainly with tabs: the line side by side, the shortest or longest ending as asked, exact mode failing exactly when lengths differ, the header names. Refuted: last-value filling of a header-only file panics, decoding modes lose the last character of every line or panic, a zero-byte file removes the header, tabs are used whatever the delimiter."
  },
  {
   "property": "C41",
   "status": "partial",
   "theorems": [
    "c41_sample_partial",
    "c41_for_spec",
    "c41_for_long",
    "c41_empty",
    "c41_range_spec",
    "c41_default_drops_first",
    "c41_refuted",
    "c41_header_only_refuted",
    "c41_quote_refuted"
   ],
   "note": "Proved of the whole tool in plain quoting mode for all files with data lines, all loops and ranges: exactly the chosen lines in order, but counted from zero. Refuted: line 1 selects the second line, a header-only file ends the run, decoding modes write the wrong lines."
  },
  {
   "property": "C42",
   "status": "partial",
   "theorems": [
    "c42_verdict_partial",
    "c42_valid_accepted",
    "c42_count_partial",
    "c42_one_line",
    "c42_refuted",
    "c42_twice_refuted"
   ],
   "note": "Proved of the whole tool for all files and modes: valid files are accepted, accepted ones meet every demand but columns and patterns of each file's last line; the failures counted. Patterns and comparisons are functions of the lines. Refuted: the last line is never held to columns and patterns, a first line failing both its own check and a pattern counts twice."
  },
  {
   "property": "C43",
   "status": "partial",
   "theorems": [
    "c43_cat_partial",
    "c43_padded",
    "c43_headed",
    "c43_refuted",
    "c43_end_refuted"
   ],
   "note": "Proved for all files, chunkings and header modes: nothing is dropped but suppressed headers, and the newline is added exactly after files without any newline; so the claim holds if every file ends in a newline or has none. Refuted: a file of several lines without final newline is never padded."
  },
  {
   "property": "C44",
   "status": "partial",
   "theorems": [
    "c44_unique",
    "c44_reserved",
    "c44_latest",
    "c44_made_partial",
    "c44_alias_hides_refuted",
    "c44_modifier_case_refuted",
    "c44_comp_case_refuted",
    "c44_counter_utf8_refuted"
   ],
   "note": "Uniqueness, latest registration and aliases proved for every history. From a full name to its maker needs the name to be no alias and no modifier; four refutations show why."
  },
  {
   "property": "C45",
   "status": "partial",
   "theorems": [
    "c45_monotone",
    "c45_injective",
    "c45_key_order",
    "c45_fcmp_value",
    "c45_zeros_refuted"
   ],
   "note": "Strictly monotone on distinct values; minus zero and zero are equal numbers with different keys (refuted)."
  },
  {
   "property": "C46",
   "status": "proved",
   "theorems": [
    "c46_find_close",
    "c46_find_close_sound",
    "c46_find_close_fails"
   ],
   "note": "Nesting counter modelled as unbounded integer (i32 in the code)."
  },
  {
   "property": "C47",
   "status": "proved",
   "theorems": [
    "c47_unescape",
    "c47_unescape_covers",
    "c47_unescape_plain",
    "c47_unescape_shrinks"
   ],
   "note": "unescape_vec; unslash is covered by C02."
  },
  {
   "property": "C48",
   "status": "partial",
   "theorems": [
    "c48_operators",
    "c48_words",
    "c48_invert",
    "c48_complement",
    "c48_range_one",
    "c48_range_two",
    "c48_line_verbose_partial",
    "c48_silent_mirrored",
    "c48_silent_refuted",
    "c48_second_bound_refuted",
    "c48_symbol_cut_refuted"
   ],
   "note": "Operators and the range matcher exact; silent line check mirrored, second bound and symbol spellings of the line check wrong (refuted)."
  },
  {
   "property": "C49",
   "status": "partial",
   "theorems": [
    "c49_expand",
    "c49_write",
    "c49_quotes_refuted",
    "c49_missing_refuted",
    "c49_magnitude_refuted",
    "c49_end_refuted"
   ],
   "note": "Proved for every list of literals and references. Refuted: a unit letter after a number, counting from the end, a field the line does not have, and output with quotes."
  },
  {
   "property": "C50",
   "status": "partial",
   "theorems": [
    "c50_shape",
    "c50_columns_partial",
    "c50_multi",
    "c50_decimal",
    "c50_unknown",
    "c50_refuted"
   ],
   "note": "Proved of the whole tool: the shape for all generators, the cells of counting, grid, empty and decimal columns, headers and repeated columns. Expressions and normal distributions are functions of line and column, random draws are given. Refuted: counting up to 2^63 - 1 panics."
  },
  {
   "property": "C51",
   "status": "partial",
   "theorems": [
    "c51_s3_stream",
    "c51_s3_empty_chunk_refuted"
   ],
   "note": "False if the remote body yields an empty chunk; proved otherwise."
  },
  {
   "property": "C52",
   "status": "partial",
   "theorems": [
    "c52_last",
    "c52_spec",
    "c52_delimiter_refuted",
    "c52_beyond_refuted",
    "c52_default_refuted",
    "c52_numbers_refuted"
   ],
   "note": "Proved for every list of scopes within the header. Refuted: numbers beyond the header panic, columns beyond the header get the last column's value, the delimiter as a value cannot be given, numeric access always panics."
  },
  {
   "property": "C53",
   "status": "partial",
   "theorems": [
    "c53_columns_partial",
    "c53_line_partial",
    "c53_again_refuted",
    "c53_number_refuted",
    "c53_names_refuted"
   ],
   "note": "Proved for every history of lookups and evaluations: numbered and bracketed references always read the column of the latest header, plain names on the first lookup. Refuted: plain names keep their first column, a column called c2 hides the second column, columns called e or pi cannot be named, c0 panics."
  },
  {
   "property": "C54",
   "status": "proved",
   "theorems": [
    "c54_check_exact",
    "c54_check_global",
    "c54_one_pair"
   ],
   "note": "On comparators already looked up; the command never calls lookup, so keys by column name use column 0 there."
  },
  {
   "property": "C55",
   "status": "partial",
   "theorems": [
    "c55_assign_partial",
    "c55_assign_refuted"
   ],
   "note": "Text not copied in decoding modes."
  },
  {
   "property": "C56",
   "status": "partial",
   "theorems": [
    "c56_location_partial",
    "c56_location_decoded_refuted",
    "c56_location_open_refuted"
   ],
   "note": "Exact in plain mode through new_open; wrong in decoding modes and after open."
  },
  {
   "property": "C57",
   "status": "partial",
   "theorems": [
    "c57_write_curr_partial",
    "c57_write_curr_refuted"
   ],
   "note": "Plain mode only; in decoding modes the decoded text is written, without newline."
  },
  {
   "property": "C58",
   "status": "partial",
   "theorems": [
    "c58_decimal",
    "c58_whole_partial",
    "c58_small_exponent_partial",
    "c58_exponent_partial",
    "c58_magnitude_partial",
    "c58_nearest_refuted"
   ],
   "note": "Every decimal with fraction, exponent and unit is read within a relative error proportional to its number of digits (up to 300 digits on each side, magnitude from 2^-900 to 2^1000, exp10 good to two units for the exponent used); whole numbers exactly. Nearest-double reading is refuted by 0.3. Missing: subnormal results and overflow."
  },
  {
   "property": "C59",
   "status": "partial",
   "theorems": [
    "c59_prefix",
    "c59_suffix",
    "c59_infix",
    "c59_exact",
    "c59_length",
    "c59_empty_blank",
    "c59_comment_partial",
    "c59_file",
    "c59_multi",
    "c59_comment_refuted",
    "c59_utf8_case_refuted",
    "c59_empty_suffix_refuted",
    "c59_file_empty_refuted",
    "c59_multi_refuted"
   ],
   "note": "Byte mode proved for all patterns and targets. comment/hash/slash also accept blank texts; utf8.case.exact misses; empty case-blind suffix panics; empty lines of a file are skipped; empty multi pattern panics. Regular expressions are outside the model; utf8 mode is the subject of C85."
  },
  {
   "property": "C60",
   "status": "partial",
   "theorems": [
    "c60_grep"
   ],
   "note": "Proved for the lines of one file; headers and location columns are not part of the statement. Group conditions cannot be written (C61)."
  },
  {
   "property": "C61",
   "status": "partial",
   "theorems": [
    "c61_plain",
    "c61_group_refuted",
    "c61_group_never_refuted",
    "c61_end_refuted",
    "c61_threshold_refuted"
   ],
   "note": "The plain form is proved. Group conditions: the closing bracket stays in the column text for every specification, thresholds with a comma are never read, and a group at the end panics."
  },
  {
   "property": "C62",
   "status": "partial",
   "theorems": [
    "c62_tab",
    "c62_sorter",
    "c62_delim_refuted"
   ],
   "note": "Proved for tab-delimited files. Refuted for every other delimiter: the whole first line counts as one column."
  },
  {
   "property": "C63",
   "status": "partial",
   "theorems": [
    "c63_roundtrip",
    "c63_space_refuted",
    "c63_high_refuted",
    "c63_empty_refuted",
    "c63_sorter_refuted",
    "c63_sorter_tab"
   ],
   "note": "Proved for ASCII delimiters other than the blank and non-empty headers; the other cases are refuted. The sorter reads headers as tab-delimited whatever the delimiter."
  },
  {
   "property": "C64",
   "status": "partial",
   "theorems": [
    "c64_fields",
    "c64_empty_refuted",
    "c64_clump_refuted",
    "c64_single_refuted"
   ],
   "note": "Proved for plain text output when each writer fits the line. Refuted for empty selections, clumps whose fields hold the delimiter, and single columns on short lines."
  },
  {
   "property": "C65",
   "status": "partial",
   "theorems": [
    "c65_row_partial",
    "c65_spec",
    "c65_lookup",
    "c65_general_refuted",
    "c65_repeat_refuted",
    "c65_name_refuted",
    "c65_second_refuted"
   ],
   "note": "Proved for headers of distinct proper names and lines at least as wide as the header. Refuted: repeated names show the first column's value twice, improper names panic, a second replacement and expressions as replacements are not shown, the general form of the request fails for prefix and append."
  },
  {
   "property": "C66",
   "status": "partial",
   "theorems": [
    "c66_max",
    "c66_min",
    "c66_avg_partial",
    "c66_if",
    "c66_factorial_partial",
    "c66_factorial_small",
    "c66_acos_is_abs",
    "c66_no_underscore",
    "c66_factorial_refuted",
    "c66_acos_refuted",
    "c66_constants_refuted"
   ],
   "note": "max and min for all numbers but NaN, avg for whole numbers, factorials to one part in 2^49. Refuted: acos is the absolute value, 0! is 0, 28! is not the nearest double, constants with an underscore cannot be written. Other functions are parameters."
  },
  {
   "property": "C67",
   "status": "partial",
   "theorems": [
    "c67_headerless_partial",
    "c67_headed_partial",
    "c67_empty",
    "c67_spec",
    "c67_header_only_refuted",
    "c67_mixed_refuted",
    "c67_delim_refuted",
    "c67_quote_refuted"
   ],
   "note": "Proved in plain quoting for every list of files with data lines, all headerless or all with the same names; removed and skipped lines are arbitrary predicates. Refuted: a file with header only ends the run, headerless files pass under another file's header, headerless files with another delimiter are refused, decoding modes write wrong text."
  },
  {
   "property": "C68",
   "status": "partial",
   "theorems": [
    "c68_files_partial",
    "c68_columns_partial",
    "c68_settings",
    "c68_agg_name",
    "c68_tri",
    "c68_no_row_refuted",
    "c68_format_refuted",
    "c68_delim_refuted",
    "c68_quote_refuted",
    "c68_columns_end_refuted",
    "c68_columns_wide_refuted",
    "c68_columns_label_refuted"
   ],
   "note": "Proved of the whole tool for all option lists without --agg and all files with data lines, totals below 2^53; the printing of numbers is a parameter. Refuted: no line for files without data, default count ignores the format, other delimiters give ragged output, decoding modes miscount, --columns stops at a header-only file, panics on wide lines and labels inconsistently."
  },
  {
   "property": "C69",
   "status": "partial",
   "theorems": [
    "c69_power_partial",
    "c69_special",
    "c69_tenth",
    "c69_letters",
    "c69_new",
    "c69_new_digits",
    "c69_new_only",
    "c69_digits_used",
    "c69_short",
    "c69_short_longer",
    "c69_short_refuted",
    "c69_zero_refuted",
    "c69_negative_zero_refuted"
   ],
   "note": "Proved for all finite doubles: the power formats are within a tenth, given that the library prints a nearest decimal; the names of the formats exactly. Refuted: short is not the shorter of the two (every whole number from 1000 on not ending in zero, and zero), a small negative number is printed as negative zero."
  },
  {
   "property": "C70",
   "status": "partial",
   "theorems": [
    "c70_even_partial",
    "c70_refuted"
   ],
   "note": "Proved for samples of 3 to 2^24 lines and every stream: no two neighbours are twice the average distance apart, unless adjacent. Refuted: an even spread; of 129 lines the sample of three is the first, the last but one and the last."
  },
  {
   "property": "C71",
   "status": "partial",
   "theorems": [
    "c71_headerless_partial",
    "c71_headed_partial",
    "c71_offset",
    "c71_options",
    "c71_all_options",
    "c71_only",
    "c71_success",
    "c71_skip_refuted",
    "c71_quote_refuted",
    "c71_delimiter_refuted"
   ],
   "note": "Proved of the whole tool in plain quoting for every list of files, all headerless or all with the same names, with arbitrary conditions. Refuted: offsets when headers are skipped, offsets and texts in quoted files, a tab after the places when the delimiter is another."
  },
  {
   "property": "C72",
   "status": "partial",
   "theorems": [
    "c72_parse",
    "c72_tables",
    "c72_tools",
    "c72_help",
    "c72_show",
    "c72_bad_format",
    "c72_handled",
    "c72_forgotten",
    "c72_values",
    "c72_dispatch",
    "c72_no_tool",
    "c72_exit",
    "c72_handled_refuted",
    "c72_known_refuted"
   ],
   "note": "Proved for every command line as clap reports it and for all tools. Refuted: four declared options (binsearch sub-delim, uniq agg-help, verify report and show-matchers) make their tool panic, and two names verify knows cannot be given. clap itself is outside the model."
  },
  {
   "property": "C73",
   "status": "partial",
   "theorems": [
    "c73_format",
    "c73_omitted",
    "c73_only",
    "c73_out",
    "c73_out_defaults_refuted",
    "c73_longer_refuted",
    "c73_char_refuted",
    "c73_required_refuted",
    "c73_forbidden_refuted",
    "c73_out_yes_refuted",
    "c73_out_no_refuted"
   ],
   "note": "Proved for all formats of byte characters and all defaults. Refuted: the output format does not default to the input format, longer texts are accepted, characters beyond 255 are cut, y and n neither require nor forbid a header, on output y writes one that is not a CDX header and n still writes the names."
  },
  {
   "property": "C74",
   "status": "partial",
   "theorems": [
    "c74_expr_files",
    "c74_compares",
    "c74_keys",
    "c74_whole",
    "c74_values",
    "c74_one_kind",
    "c74_unknown",
    "c74_unknown_values",
    "c74_bad_column",
    "c74_missing",
    "c74_expression",
    "c74_short_case_refuted",
    "c74_junk_refuted",
    "c74_from_end_refuted",
    "c74_suffix_refuted",
    "c74_wrap_refuted",
    "c74_unlooked_refuted",
    "c74_line_end_refuted"
   ],
   "note": "Proved from the text of the keys to the comparison of two lines, for any number of keys, columns and files. Refuted: short names in other cases, the junk words, columns counted from the end, letters after a number; a key that is not looked up compares the first column, whole lines are compared with their line ends. What an expression computes is C66."
  },
  {
   "property": "C75",
   "status": "partial",
   "theorems": [
    "c75_reports_asked",
    "c75_empty_file",
    "c75_named",
    "c75_sorts",
    "c75_plain",
    "c75_whole",
    "c75_check",
    "c75_check_sorted",
    "c75_reports",
    "c75_merge",
    "c75_passes",
    "c75_refuses",
    "c75_named_check_refuted",
    "c75_named_merge_refuted",
    "c75_reverse_refuted",
    "c75_count_refuted",
    "c75_mode_refuted"
   ],
   "note": "Proved from the options and the bytes of the files to the bytes written, for keys with proper orders (plain, lower, ip, equal, length), the first not reversed, and lines without null bytes shorter than the buffer. Refuted: --check and --merge with named keys, a reversed first key, the number of reports over several files, the text mode, which only --check obeys."
  },
  {
   "property": "C76",
   "status": "partial",
   "theorems": [
    "c76_join",
    "c76_headed",
    "c76_plain",
    "c76_needs",
    "c76_no_file",
    "c76_headerless_refuted",
    "c76_lost_header_refuted",
    "c76_labels_refuted",
    "c76_empty_part_refuted",
    "c76_truncate_refuted"
   ],
   "note": "Proved from the options and the bytes of two files to the bytes of every output, for keys by name or number with proper orders (plain, lower, ip, equal, length), for files sorted by the keys of which the second has no repeated keys. Refuted: the header of unmatched lines of a file without header, the header of the second file when the first has none, new names and transforms in --output, empty parts of --output (a panic), output files that exist. Repeated keys, unsorted files and a third file are refuted under C22."
  },
  {
   "property": "C77",
   "status": "partial",
   "theorems": [
    "c77_uniq",
    "c77_aggregates",
    "c77_again",
    "c77_empty",
    "c77_words",
    "c77_no_key_refuted",
    "c77_delimiters_refuted",
    "c77_columns_refuted",
    "c77_twice_refuted",
    "c77_help_refuted"
   ],
   "note": "Proved from the options and the bytes of the file to the bytes written, for plain text modes, keys by name or number or the whole line, selection by keys with proper orders (plain, lower, ip, equal, length), and with aggregates for files whose lines have at least as many columns as the header. Refuted: no key at all, different delimiters of input and output, columns with the whole line as key, two aggregates in place of one column, --agg-help."
  },
  {
   "property": "C78",
   "status": "partial",
   "theorems": [
    "c78_headed",
    "c78_headless",
    "c78_all",
    "c78_range",
    "c78_nothing",
    "c78_dups_refuted",
    "c78_stale_refuted",
    "c78_group_refuted"
   ],
   "note": "Proved from the options and the bytes of the files to the bytes written, for plain text modes, files all with a header (check mode match, the same new header for all) or all without, columns as in C27, composite text as in C49 and expressions as in C53 whose plain names are at the same place in every file. Not covered: quoted modes, --dups numeric with repeated names, a mixture of files with and without header. Refuted: a column written twice where no header is written, plain names in expressions at different places in the files, the output delimiter within groups."
  },
  {
   "property": "C79",
   "status": "partial",
   "theorems": [
    "c79_headed",
    "c79_headless",
    "c79_finds",
    "c79_refuses",
    "c79_one_filename",
    "c79_delim_refuted",
    "c79_whole_refuted",
    "c79_context_refuted",
    "c79_filename_refuted",
    "c79_parts_refuted",
    "c79_sub_delim_refuted"
   ],
   "note": "Proved from the options and the bytes of the files to the bytes written: with context for files that are in order for the values (c79_headed, c79_headless), and without context for files sorted by keys of the plain kinds (c79_finds), by reduction to the search of C21 and the keys of C74. Not covered: a mixture of files with and without header, files with a delimiter other than the tab. Refuted: the delimiter of the header, keys of whole lines, the header as a line of context, --filename with a name only or with a number only, --sub-delim."
  },
  {
   "property": "C80",
   "status": "partial",
   "theorems": [
    "c80_answers",
    "c80_plain",
    "c80_unmistaken",
    "c80_option",
    "c80_goes_on_partial",
    "c80_blank_refuted",
    "c80_status_refuted",
    "c80_name_refuted"
   ],
   "note": "Proved from the options and the bytes of the files to the bytes on standard output, for plain text modes and lines that are valid UTF-8, with expressions written as in C32 and formats as in C69. Refused lines are those with a character no expression has, or with a call that is unknown or has a wrong number of arguments; for all other lines c80_goes_on_partial says only that the tool reaches the end. Messages on standard error are not modelled. Refuted: an empty line panics, failed expressions do not show in the exit status, unknown names count as 0."
  },
  {
   "property": "C81",
   "status": "partial",
   "theorems": [
    "c81_verdict",
    "c81_clean",
    "c81_kept",
    "c81_counts_partial",
    "c81_kept_tool",
    "c81_format",
    "c81_unknown_line",
    "c81_bad_name",
    "c81_missing_refuted",
    "c81_unstarted_refuted",
    "c81_stale_refuted",
    "c81_empty_refuted",
    "c81_in_place_refuted",
    "c81_status_refuted",
    "c81_not_refuted",
    "c81_blanks_refuted",
    "c81_tmp_blank_refuted",
    "c81_hash_refuted",
    "c81_twice_refuted"
   ],
   "note": "Proved from the bytes of the test file, cut into reads in any way, to the verdict and the files left, for any behaviour of the program. Expected outputs given by a matcher instead of a text are modelled and shown by examples only. The counts are proved for tests whose files are all there in the end, with --bin and --verbose, and for a single test with --tmp; missing files are where independence of the tests is refuted. Messages on standard error are not modelled, directories made by the program neither."
  },
  {
   "property": "C82",
   "status": "partial",
   "theorems": [
    "c82_one",
    "c82_several",
    "c82_fits",
    "c82_share",
    "c82_crowded",
    "c82_wide",
    "c82_basic",
    "c82_many_refuted",
    "c82_title_refuted",
    "c82_empty_refuted",
    "c82_escape_refuted",
    "c82_no_size_refuted",
    "c82_no_columns_refuted"
   ],
   "note": "Proved from the bytes of the files to the bytes written, for plain text modes, files without a line of more fields than the header, and three lines of screen for each file (or two, if no file has a header). With fewer lines files with headers always panic (c82_crowded); a mixture of files with and without headers in between is not covered. Refuted: the number of files, long names, names of empty files, escapes, a terminal without size."
  },
  {
   "property": "C83",
   "status": "partial",
   "theorems": [
    "c83_again",
    "c83_uniq",
    "c83_search",
    "c83_join",
    "c83_split",
    "c83_number",
    "c83_grep",
    "c83_grep_twice",
    "c83_cat",
    "c83_unique",
    "c83_search_refuted"
   ],
   "note": "Composed from the theorems about the single tools, from the bytes of the input files to the bytes the last tool writes; the source that carries the bytes from one tool to the next may be cut into reads in any way. Files with headers, keys by name or number with the comparisons known to be orders, the first key not reversed (see c75_reverse_refuted), lines shorter than the buffer of sort. For uniq and join the first read must give four bytes, for binsearch the header must be below the values: otherwise the property fails, c83_search_refuted. c83_grep (cgrep and sort exchanged) and c83_cat (sort after cat) are without --unique; these and c83_unique (sort --unique as uniq after sort) are for input smaller than the buffer of sort, where ties are known to keep their order."
  },
  {
   "property": "C84",
   "status": "partial",
   "theorems": [
    "c84_order",
    "c84_order_case",
    "c84_fields",
    "c84_select",
    "c84_paths",
    "c84_matchers",
    "c84_matchers_case",
    "c84_lower_upper",
    "c84_words",
    "c84_words_refuted",
    "c84_slice_refuted",
    "c84_glob_refuted"
   ],
   "note": "Proved for all texts in UTF-8, with the coding table of the Unicode standard as specification. Refuted: normspace puts a space into a character when white space comes first, byte ranges cut characters, the question mark and the length of the matchers count bytes."
  },
  {
   "property": "C85",
   "status": "partial",
   "theorems": [
    "c85_plain",
    "c85_case_partial",
    "c85_exact_case",
    "c85_length",
    "c85_glob_partial",
    "c85_glob_exact",
    "c85_trim",
    "c85_file",
    "c85_not_text",
    "c85_compare_partial",
    "c85_ascii",
    "c85_sigma_refuted",
    "c85_exact_refuted",
    "c85_equal_refuted",
    "c85_circle_refuted",
    "c85_lossy_refuted"
   ],
   "note": "Proved for all texts, patterns and tables of small letters and white space (these tables are parameters). Without case: for patterns without capital sigma, and for the comparisons where small letters take as many bytes. The outcome of a pattern with stars is given exactly, for any number of stars; it is not always the meaning of the pattern, as in C10. Refuted: the capital sigma at the end of a pattern, capital letters with exact, the Kelvin sign in comparisons (equal to longer texts, and no order at all), bytes that are not text."
  },
  {
   "property": "C86",
   "status": "proved",
   "theorems": [
    "c86_order",
    "c86_equal",
    "c86_all_refuted"
   ],
   "note": "All decimals of up to fourteen digits; without that bound it is refuted by two numbers of seventeen digits."
  },
  {
   "property": "C87",
   "status": "proved",
   "theorems": [
    "c87_named",
    "c87_plain",
    "c87_merge",
    "c87_decimals",
    "c87_zero_refuted"
   ],
   "note": "Proved for key values that fit as the statement says; a reversed first key must compare numbers or lengths (otherwise C75 and C16 refute it). Refuted for minus zero: sorting keeps it beside zero under unique, merging does not."
  },
  {
   "property": "C88",
   "status": "partial",
   "theorems": [
    "c88_unsigned",
    "c88_signed",
    "c88_float",
    "c88_whole",
    "c88_whole_float",
    "c88_junk_unsigned",
    "c88_junk_signed",
    "c88_junk_float",
    "c88_no_digit_refuted",
    "c88_empty_refuted"
   ],
   "note": "Proved for every text. Refuted: text without any digit, such as k or a lone minus sign or point, counts as a float even when no junk is allowed, and the empty text passes where an option requires a number."
  },
  {
   "property": "C89",
   "status": "partial",
   "theorems": [
    "c89_join",
    "c89_join_numbers",
    "c89_pick",
    "c89_count",
    "c89_pairs",
    "c89_unit_refuted",
    "c89_same_refuted"
   ],
   "note": "Proved for keys whose float values are numbers and whose numeric values are whole numbers; against the exact value for decimals of up to fourteen digits without exponent or unit. Refuted: 1001 and 1.001k are different keys, and a value that overflows to not-a-number, such as 0e400, does not equal itself, so identical lines are counted apart and not joined."
  }
 ]
}