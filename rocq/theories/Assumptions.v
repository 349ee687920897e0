(** Assumptions of every claimed theorem, printed during the build. *)
From Verif Require TextProps.
From Verif Require ReadProps.
From Verif Require EofProps.
From Verif Require HeadProps.
From Verif Require HdrProps.
From Verif Require StrProps.
From Verif Require GlobProps.
From Verif Require CompProps.
From Verif Require SortProps.
From Verif Require BinProps.
From Verif Require JoinProps.
From Verif Require UniqProps.
From Verif Require MatchProps.
From Verif Require ColProps.
From Verif Require AggProps.
From Verif Require SumProps.
From Verif Require ExprProps.
From Verif Require TransProps.
From Verif Require SampProps.
From Verif Require TabsProps.
From Verif Require TurnProps.
From Verif Require PasteProps.
From Verif Require PickProps.
From Verif Require VerProps.
From Verif Require CatProps.
From Verif Require CatSortProps.
From Verif Require RegProps.
From Verif Require FloatProps.
From Verif Require CheckProps.
From Verif Require GenProps.
From Verif Require DecProps.
From Verif Require NumTextProps.
From Verif Require NumbProps.
From Verif Require WcProps.
From Verif Require FmtProps.
From Verif Require EvenProps.
From Verif Require LocProps.
From Verif Require CliProps.
From Verif Require TightProps.
From Verif Require KeyProps.
From Verif Require OrderProps.
From Verif Require JoinMainProps.
From Verif Require UniqMainProps.
From Verif Require CutMainProps.
From Verif Require CutPasteProps.
From Verif Require BinMainProps.
From Verif Require CalcMainProps.
From Verif Require TestProps.
From Verif Require TestTight.
From Verif Require TabsMainProps.
From Verif Require PipeProps.
From Verif Require NumbCutProps.
From Verif Require GrepSortProps.
From Verif Require SortUniqProps.
From Verif Require UtfProps.
From Verif Require UtfModeProps.
From Verif Require ValProps.
From Verif Require JunkProps.
From Verif Require NumKeyProps.
Print Assumptions Verif.TextProps.c01_plain_roundtrip.
Print Assumptions Verif.TextProps.c01_plain_roundtrip_exact.
Print Assumptions Verif.TextProps.c01_split_is_pieces.
Print Assumptions Verif.TextProps.c01_split_no_newline.
Print Assumptions Verif.TextProps.c01_plain_custom_line_break_refuted.
Print Assumptions Verif.TextProps.c02_backslash_roundtrip.
Print Assumptions Verif.TextProps.c02_backslash_empty_last_refuted.
Print Assumptions Verif.TextProps.c02_backslash_delim_refuted.
Print Assumptions Verif.TextProps.c03_quote_roundtrip_refuted.
Print Assumptions Verif.TextProps.c03_quote_only_quotes_refuted.
Print Assumptions Verif.TextProps.c03_quotes_never_protect.
Print Assumptions Verif.TextProps.c03_quote_roundtrip_partial.
Print Assumptions Verif.TextProps.c03_quote_written.
Print Assumptions Verif.ReadProps.c04_lines.
Print Assumptions Verif.ReadProps.c04_quoted_records.
Print Assumptions Verif.ReadProps.c04_chunk_independent.
Print Assumptions Verif.ReadProps.c04_lines_unique.
Print Assumptions Verif.EofProps.c04_end.
Print Assumptions Verif.ReadProps.c05_header_schedule_partial.
Print Assumptions Verif.ReadProps.c05_header_explicit_mode.
Print Assumptions Verif.ReadProps.c05_header_schedule_refuted.
Print Assumptions Verif.ReadProps.c06_lookback.
Print Assumptions Verif.ReadProps.c06_lookback_eof.
Print Assumptions Verif.ReadProps.c06_lookback_beyond_refuted.
Print Assumptions Verif.ReadProps.c06_unsplit_line_refuted.
Print Assumptions Verif.HeadProps.c07_match.
Print Assumptions Verif.HeadProps.c07_trust.
Print Assumptions Verif.HeadProps.c07_ignore.
Print Assumptions Verif.HeadProps.c07_require_partial.
Print Assumptions Verif.HeadProps.c07_require_refuted.
Print Assumptions Verif.HeadProps.c07_strip_partial.
Print Assumptions Verif.HeadProps.c07_strip_refuted.
Print Assumptions Verif.HeadProps.c07_none_partial.
Print Assumptions Verif.HeadProps.c07_none_refuted.
Print Assumptions Verif.HeadProps.c07_at_most_one_header.
Print Assumptions Verif.HeadProps.c07_check_file.
Print Assumptions Verif.HdrProps.c08_unique.
Print Assumptions Verif.HdrProps.c08_rejected.
Print Assumptions Verif.HdrProps.c08_accepts.
Print Assumptions Verif.HdrProps.c08_accepted_partial.
Print Assumptions Verif.HdrProps.c08_push_all.
Print Assumptions Verif.HdrProps.c08_rename_spec.
Print Assumptions Verif.HdrProps.c08_numeric_refuted.
Print Assumptions Verif.HdrProps.c08_unused_renames.
Print Assumptions Verif.HdrProps.c08_rename_target_refuted.
Print Assumptions Verif.StrProps.c09_range_parse.
Print Assumptions Verif.StrProps.c09_position_parse.
Print Assumptions Verif.StrProps.c09_get_safe.
Print Assumptions Verif.StrProps.c09_get.
Print Assumptions Verif.StrProps.c09_large_position_refuted.
Print Assumptions Verif.StrProps.c10_glob_terminates.
Print Assumptions Verif.StrProps.c10_glob_sound_partial.
Print Assumptions Verif.StrProps.c10_glob_no_star_partial.
Print Assumptions Verif.StrProps.c10_glob_final_star_partial.
Print Assumptions Verif.StrProps.c10_glob_one_star_partial.
Print Assumptions Verif.GlobProps.c10_glob_exact.
Print Assumptions Verif.GlobProps.c10_matcher.
Print Assumptions Verif.StrProps.c10_glob_refuted.
Print Assumptions Verif.GlobProps.c10_greedy_refuted.
Print Assumptions Verif.StrProps.c10_glob_panics.
Print Assumptions Verif.StrProps.c11_head.
Print Assumptions Verif.StrProps.c11_tail.
Print Assumptions Verif.StrProps.c11_reassemble.
Print Assumptions Verif.StrProps.c11_head_path_absolute.
Print Assumptions Verif.StrProps.c11_head_path_relative.
Print Assumptions Verif.StrProps.c11_tail_path_directory.
Print Assumptions Verif.StrProps.c11_tail_path_file.
Print Assumptions Verif.StrProps.c12_unsigned_roundtrip.
Print Assumptions Verif.StrProps.c12_unsigned_wraps.
Print Assumptions Verif.StrProps.c12_unsigned_whole.
Print Assumptions Verif.StrProps.c12_signed_roundtrip.
Print Assumptions Verif.StrProps.c13_kilo_partial.
Print Assumptions Verif.StrProps.c13_actual_table.
Print Assumptions Verif.StrProps.c13_magnitude_refuted.
Print Assumptions Verif.CompProps.c14_preorder.
Print Assumptions Verif.CompProps.c14_plain.
Print Assumptions Verif.CompProps.c14_lower.
Print Assumptions Verif.CompProps.c14_length.
Print Assumptions Verif.CompProps.c14_ip.
Print Assumptions Verif.CompProps.c14_equal_agrees.
Print Assumptions Verif.CompProps.c14_self_agrees.
Print Assumptions Verif.CompProps.c14_float_partial.
Print Assumptions Verif.CompProps.c14_antisymmetric.
Print Assumptions Verif.CompProps.c14_float_refuted.
Print Assumptions Verif.CompProps.c15_exact_partial.
Print Assumptions Verif.CompProps.c15_integers.
Print Assumptions Verif.CompProps.c15_transitive_refuted.
Print Assumptions Verif.CompProps.c15_value_refuted.
Print Assumptions Verif.CompProps.c15_minus_zero_refuted.
Print Assumptions Verif.CompProps.c16_text_key_partial.
Print Assumptions Verif.CompProps.c16_other_keys.
Print Assumptions Verif.CompProps.c16_float_key_partial.
Print Assumptions Verif.CompProps.c16_numeric_key_partial.
Print Assumptions Verif.CompProps.c16_list_partial.
Print Assumptions Verif.CompProps.c16_nul_refuted.
Print Assumptions Verif.CompProps.c16_numeric_comma_refuted.
Print Assumptions Verif.CompProps.c16_float_zero_refuted.
Print Assumptions Verif.CompProps.c16_reverse_refuted.
Print Assumptions Verif.CompProps.c16_whole_refuted.
Print Assumptions Verif.CompProps.c17_lines_first_key.
Print Assumptions Verif.CompProps.c17_cols_first_key.
Print Assumptions Verif.CompProps.c17_direction.
Print Assumptions Verif.CompProps.c17_preorder.
Print Assumptions Verif.CompProps.c17_preorder_cols.
Print Assumptions Verif.CompProps.c17_equal_agrees.
Print Assumptions Verif.CompProps.c17_remembered.
Print Assumptions Verif.CompProps.c17_column_text.
Print Assumptions Verif.CompProps.c17_raw_split_agree.
Print Assumptions Verif.SortProps.c18_stable.
Print Assumptions Verif.SortProps.c18_determined.
Print Assumptions Verif.SortProps.c18_unique.
Print Assumptions Verif.SortProps.c18_cached_partial.
Print Assumptions Verif.SortProps.c18_numeric_refuted.
Print Assumptions Verif.SortProps.c19_tree.
Print Assumptions Verif.SortProps.c19_tree_unique.
Print Assumptions Verif.SortProps.c19_heap_partial.
Print Assumptions Verif.SortProps.c19_heap_queue.
Print Assumptions Verif.SortProps.c19_agree.
Print Assumptions Verif.SortProps.c19_heap_stable_refuted.
Print Assumptions Verif.SortProps.c19_files.
Print Assumptions Verif.SortProps.c20_one_file.
Print Assumptions Verif.SortProps.c20_header_files.
Print Assumptions Verif.SortProps.c20_buffer_independent.
Print Assumptions Verif.SortProps.c20_empty_file.
Print Assumptions Verif.SortProps.c20_exact_fill_refuted.
Print Assumptions Verif.SortProps.c20_plain_files_refuted.
Print Assumptions Verif.SortProps.c20_long_line_refuted.
Print Assumptions Verif.SortProps.c20_header_line_refuted.
Print Assumptions Verif.SortProps.c20_stable_refuted.
Print Assumptions Verif.SortProps.c20_unique_refuted.
Print Assumptions Verif.BinProps.c21_lower.
Print Assumptions Verif.BinProps.c21_upper.
Print Assumptions Verif.BinProps.c21_equal_range.
Print Assumptions Verif.BinProps.c21_sorted.
Print Assumptions Verif.BinProps.c21_output_partial.
Print Assumptions Verif.BinProps.c21_blank_refuted.
Print Assumptions Verif.BinProps.c21_header_refuted.
Print Assumptions Verif.BinProps.c21_context_refuted.
Print Assumptions Verif.JoinProps.c22_quick_partial.
Print Assumptions Verif.JoinProps.c22_rows_partial.
Print Assumptions Verif.JoinProps.c22_any_order_partial.
Print Assumptions Verif.JoinProps.c22_conserve.
Print Assumptions Verif.JoinProps.c22_sound.
Print Assumptions Verif.JoinProps.c22_columns.
Print Assumptions Verif.JoinProps.c22_row_columns.
Print Assumptions Verif.JoinProps.c22_output_partial.
Print Assumptions Verif.JoinProps.c22_repeated_refuted.
Print Assumptions Verif.JoinProps.c22_unsorted_refuted.
Print Assumptions Verif.JoinProps.c22_third_file_refuted.
Print Assumptions Verif.JoinProps.c22_header_refuted.
Print Assumptions Verif.UniqProps.c23_uniq_partial.
Print Assumptions Verif.UniqProps.c23_runs_unique.
Print Assumptions Verif.UniqProps.c23_aggregates_partial.
Print Assumptions Verif.UniqProps.c23_no_key_refuted.
Print Assumptions Verif.UniqProps.c23_decoded_refuted.
Print Assumptions Verif.UniqProps.c23_delim_refuted.
Print Assumptions Verif.UniqProps.c23_unsplit_refuted.
Print Assumptions Verif.MatchProps.c24_early.
Print Assumptions Verif.MatchProps.c24_loop.
Print Assumptions Verif.MatchProps.c25_swapped.
Print Assumptions Verif.MatchProps.c25_exactly_partial.
Print Assumptions Verif.MatchProps.c25_at_most_refuted.
Print Assumptions Verif.MatchProps.c25_no_columns_refuted.
Print Assumptions Verif.MatchProps.c26_and.
Print Assumptions Verif.MatchProps.c26_or.
Print Assumptions Verif.MatchProps.c26_verdict.
Print Assumptions Verif.MatchProps.c26_texts.
Print Assumptions Verif.MatchProps.c26_not.
Print Assumptions Verif.MatchProps.c26_text_negation_refuted.
Print Assumptions Verif.MatchProps.c26_null_refuted.
Print Assumptions Verif.ColProps.c27_selected.
Print Assumptions Verif.ColProps.c27_in_file.
Print Assumptions Verif.ColProps.c27_rejected.
Print Assumptions Verif.ColProps.c27_number_refuted.
Print Assumptions Verif.ColProps.c27_end_zero_refuted.
Print Assumptions Verif.ColProps.c27_empty_refuted.
Print Assumptions Verif.ColProps.c27_group_list_refuted.
Print Assumptions Verif.ColProps.c27_group_excluded_refuted.
Print Assumptions Verif.ColProps.c27_label_refuted.
Print Assumptions Verif.ColProps.c27_group_colon_refuted.
Print Assumptions Verif.ColProps.c27_exclusion_trans_refuted.
Print Assumptions Verif.ColProps.c28_select.
Print Assumptions Verif.ColProps.c28_write.
Print Assumptions Verif.ColProps.c28_short_refuted.
Print Assumptions Verif.ColProps.c28_write2.
Print Assumptions Verif.ColProps.c28_fields.
Print Assumptions Verif.ColProps.c28_write3.
Print Assumptions Verif.ColProps.c28_trans_refuted.
Print Assumptions Verif.ColProps.c28_select_sloppy.
Print Assumptions Verif.ColProps.c28_sloppy_refuted.
Print Assumptions Verif.AggProps.c29_count.
Print Assumptions Verif.AggProps.c29_min_partial.
Print Assumptions Verif.AggProps.c29_max_partial.
Print Assumptions Verif.AggProps.c29_max_text.
Print Assumptions Verif.AggProps.c29_prefix.
Print Assumptions Verif.AggProps.c29_suffix.
Print Assumptions Verif.AggProps.c29_counters.
Print Assumptions Verif.AggProps.c29_counted.
Print Assumptions Verif.AggProps.c29_counter_names.
Print Assumptions Verif.AggProps.c29_alias.
Print Assumptions Verif.AggProps.c29_sum_mean_partial.
Print Assumptions Verif.SumProps.c29_sum_near.
Print Assumptions Verif.SumProps.c29_sum_decimals.
Print Assumptions Verif.AggProps.c29_reset.
Print Assumptions Verif.AggProps.c29_amean_refuted.
Print Assumptions Verif.AggProps.c29_reverse_refuted.
Print Assumptions Verif.AggProps.c29_max_refuted.
Print Assumptions Verif.SumProps.c29_sum_order_refuted.
Print Assumptions Verif.AggProps.c30_merge_partial.
Print Assumptions Verif.AggProps.c30_distinct.
Print Assumptions Verif.AggProps.c30_count_partial.
Print Assumptions Verif.AggProps.c30_values.
Print Assumptions Verif.AggProps.c30_options.
Print Assumptions Verif.AggProps.c30_options_delim.
Print Assumptions Verif.AggProps.c30_no_parts_refuted.
Print Assumptions Verif.AggProps.c30_count_refuted.
Print Assumptions Verif.AggProps.c30_delim_refuted.
Print Assumptions Verif.AggProps.c30_end_refuted.
Print Assumptions Verif.AggProps.c30_reverse_refuted.
Print Assumptions Verif.ExprProps.c31_accepted_partial.
Print Assumptions Verif.ExprProps.c31_no_panic_partial.
Print Assumptions Verif.ExprProps.c31_accepted_refuted.
Print Assumptions Verif.ExprProps.c31_wellformed_refuted.
Print Assumptions Verif.ExprProps.c32_order.
Print Assumptions Verif.ExprProps.c32_least_brackets.
Print Assumptions Verif.ExprProps.c32_value_partial.
Print Assumptions Verif.ExprProps.c32_text_refuted.
Print Assumptions Verif.ExprProps.c33_folding.
Print Assumptions Verif.ExprProps.c33_every_assignment.
Print Assumptions Verif.ExprProps.c34_no_equals.
Print Assumptions Verif.ExprProps.c34_usable_refuted.
Print Assumptions Verif.TransProps.c35_chain.
Print Assumptions Verif.TransProps.c35_named_partial.
Print Assumptions Verif.TransProps.c35_case.
Print Assumptions Verif.TransProps.c35_bytes.
Print Assumptions Verif.TransProps.c35_base64.
Print Assumptions Verif.TransProps.c35_empty_refuted.
Print Assumptions Verif.TransProps.c35_first_alias_refuted.
Print Assumptions Verif.TransProps.c36_words_partial.
Print Assumptions Verif.TransProps.c36_leading.
Print Assumptions Verif.TransProps.c36_leading_refuted.
Print Assumptions Verif.TransProps.c36_idempotent.
Print Assumptions Verif.SampProps.c37_sample_partial.
Print Assumptions Verif.SampProps.c37_two.
Print Assumptions Verif.SampProps.c37_refuted.
Print Assumptions Verif.SampProps.c37_one_refuted.
Print Assumptions Verif.TabsProps.c38_widths.
Print Assumptions Verif.TabsProps.c38_table_partial.
Print Assumptions Verif.TabsProps.c38_lines.
Print Assumptions Verif.TabsProps.c38_wide.
Print Assumptions Verif.TabsProps.c38_refuted.
Print Assumptions Verif.TabsProps.c38_narrow.
Print Assumptions Verif.TurnProps.c39_cell.
Print Assumptions Verif.TurnProps.c39_transpose_partial.
Print Assumptions Verif.TurnProps.c39_twice.
Print Assumptions Verif.TurnProps.c39_twice_head.
Print Assumptions Verif.TurnProps.c39_header_only_refuted.
Print Assumptions Verif.TurnProps.c39_delim_refuted.
Print Assumptions Verif.TurnProps.c39_wide_refuted.
Print Assumptions Verif.TurnProps.c39_quote_refuted.
Print Assumptions Verif.PasteProps.c40_paste_partial.
Print Assumptions Verif.PasteProps.c40_exact.
Print Assumptions Verif.PasteProps.c40_names.
Print Assumptions Verif.PasteProps.c40_last_refuted.
Print Assumptions Verif.PasteProps.c40_quote_refuted.
Print Assumptions Verif.PasteProps.c40_quote_panic_refuted.
Print Assumptions Verif.PasteProps.c40_empty_refuted.
Print Assumptions Verif.PasteProps.c40_delim_refuted.
Print Assumptions Verif.PickProps.c41_sample_partial.
Print Assumptions Verif.PickProps.c41_for_spec.
Print Assumptions Verif.PickProps.c41_for_long.
Print Assumptions Verif.PickProps.c41_empty.
Print Assumptions Verif.PickProps.c41_range_spec.
Print Assumptions Verif.PickProps.c41_default_drops_first.
Print Assumptions Verif.PickProps.c41_refuted.
Print Assumptions Verif.PickProps.c41_header_only_refuted.
Print Assumptions Verif.PickProps.c41_quote_refuted.
Print Assumptions Verif.VerProps.c42_verdict_partial.
Print Assumptions Verif.VerProps.c42_valid_accepted.
Print Assumptions Verif.VerProps.c42_count_partial.
Print Assumptions Verif.VerProps.c42_one_line.
Print Assumptions Verif.VerProps.c42_refuted.
Print Assumptions Verif.VerProps.c42_twice_refuted.
Print Assumptions Verif.CatProps.c43_cat_partial.
Print Assumptions Verif.CatProps.c43_padded.
Print Assumptions Verif.CatSortProps.c43_headed.
Print Assumptions Verif.CatProps.c43_refuted.
Print Assumptions Verif.CatProps.c43_end_refuted.
Print Assumptions Verif.RegProps.c44_unique.
Print Assumptions Verif.RegProps.c44_reserved.
Print Assumptions Verif.RegProps.c44_latest.
Print Assumptions Verif.RegProps.c44_made_partial.
Print Assumptions Verif.RegProps.c44_alias_hides_refuted.
Print Assumptions Verif.RegProps.c44_modifier_case_refuted.
Print Assumptions Verif.RegProps.c44_comp_case_refuted.
Print Assumptions Verif.RegProps.c44_counter_utf8_refuted.
Print Assumptions Verif.FloatProps.c45_monotone.
Print Assumptions Verif.FloatProps.c45_injective.
Print Assumptions Verif.FloatProps.c45_key_order.
Print Assumptions Verif.FloatProps.c45_fcmp_value.
Print Assumptions Verif.FloatProps.c45_zeros_refuted.
Print Assumptions Verif.StrProps.c46_find_close.
Print Assumptions Verif.StrProps.c46_find_close_sound.
Print Assumptions Verif.StrProps.c46_find_close_fails.
Print Assumptions Verif.StrProps.c47_unescape.
Print Assumptions Verif.StrProps.c47_unescape_covers.
Print Assumptions Verif.StrProps.c47_unescape_plain.
Print Assumptions Verif.StrProps.c47_unescape_shrinks.
Print Assumptions Verif.CheckProps.c48_operators.
Print Assumptions Verif.CheckProps.c48_words.
Print Assumptions Verif.CheckProps.c48_invert.
Print Assumptions Verif.CheckProps.c48_complement.
Print Assumptions Verif.CheckProps.c48_range_one.
Print Assumptions Verif.CheckProps.c48_range_two.
Print Assumptions Verif.CheckProps.c48_line_verbose_partial.
Print Assumptions Verif.CheckProps.c48_silent_mirrored.
Print Assumptions Verif.CheckProps.c48_silent_refuted.
Print Assumptions Verif.CheckProps.c48_second_bound_refuted.
Print Assumptions Verif.CheckProps.c48_symbol_cut_refuted.
Print Assumptions Verif.ColProps.c49_expand.
Print Assumptions Verif.ColProps.c49_write.
Print Assumptions Verif.ColProps.c49_quotes_refuted.
Print Assumptions Verif.ColProps.c49_missing_refuted.
Print Assumptions Verif.ColProps.c49_magnitude_refuted.
Print Assumptions Verif.ColProps.c49_end_refuted.
Print Assumptions Verif.GenProps.c50_shape.
Print Assumptions Verif.GenProps.c50_columns_partial.
Print Assumptions Verif.GenProps.c50_multi.
Print Assumptions Verif.GenProps.c50_decimal.
Print Assumptions Verif.GenProps.c50_unknown.
Print Assumptions Verif.GenProps.c50_refuted.
Print Assumptions Verif.ReadProps.c51_s3_stream.
Print Assumptions Verif.ReadProps.c51_s3_empty_chunk_refuted.
Print Assumptions Verif.ColProps.c52_last.
Print Assumptions Verif.ColProps.c52_spec.
Print Assumptions Verif.ColProps.c52_delimiter_refuted.
Print Assumptions Verif.ColProps.c52_beyond_refuted.
Print Assumptions Verif.ColProps.c52_default_refuted.
Print Assumptions Verif.ColProps.c52_numbers_refuted.
Print Assumptions Verif.ExprProps.c53_columns_partial.
Print Assumptions Verif.ExprProps.c53_line_partial.
Print Assumptions Verif.ExprProps.c53_again_refuted.
Print Assumptions Verif.ExprProps.c53_number_refuted.
Print Assumptions Verif.ExprProps.c53_names_refuted.
Print Assumptions Verif.CompProps.c54_check_exact.
Print Assumptions Verif.CompProps.c54_check_global.
Print Assumptions Verif.CompProps.c54_one_pair.
Print Assumptions Verif.ReadProps.c55_assign_partial.
Print Assumptions Verif.ReadProps.c55_assign_refuted.
Print Assumptions Verif.ReadProps.c56_location_partial.
Print Assumptions Verif.ReadProps.c56_location_decoded_refuted.
Print Assumptions Verif.ReadProps.c56_location_open_refuted.
Print Assumptions Verif.ReadProps.c57_write_curr_partial.
Print Assumptions Verif.ReadProps.c57_write_curr_refuted.
Print Assumptions Verif.DecProps.c58_decimal.
Print Assumptions Verif.NumTextProps.c58_whole_partial.
Print Assumptions Verif.NumTextProps.c58_small_exponent_partial.
Print Assumptions Verif.NumTextProps.c58_exponent_partial.
Print Assumptions Verif.NumTextProps.c58_magnitude_partial.
Print Assumptions Verif.NumTextProps.c58_nearest_refuted.
Print Assumptions Verif.MatchProps.c59_prefix.
Print Assumptions Verif.MatchProps.c59_suffix.
Print Assumptions Verif.MatchProps.c59_infix.
Print Assumptions Verif.MatchProps.c59_exact.
Print Assumptions Verif.MatchProps.c59_length.
Print Assumptions Verif.MatchProps.c59_empty_blank.
Print Assumptions Verif.MatchProps.c59_comment_partial.
Print Assumptions Verif.MatchProps.c59_file.
Print Assumptions Verif.MatchProps.c59_multi.
Print Assumptions Verif.MatchProps.c59_comment_refuted.
Print Assumptions Verif.MatchProps.c59_utf8_case_refuted.
Print Assumptions Verif.MatchProps.c59_empty_suffix_refuted.
Print Assumptions Verif.MatchProps.c59_file_empty_refuted.
Print Assumptions Verif.MatchProps.c59_multi_refuted.
Print Assumptions Verif.MatchProps.c60_grep.
Print Assumptions Verif.MatchProps.c61_plain.
Print Assumptions Verif.MatchProps.c61_group_refuted.
Print Assumptions Verif.MatchProps.c61_group_never_refuted.
Print Assumptions Verif.MatchProps.c61_end_refuted.
Print Assumptions Verif.MatchProps.c61_threshold_refuted.
Print Assumptions Verif.HdrProps.c62_tab.
Print Assumptions Verif.HdrProps.c62_sorter.
Print Assumptions Verif.HdrProps.c62_delim_refuted.
Print Assumptions Verif.HdrProps.c63_roundtrip.
Print Assumptions Verif.HdrProps.c63_space_refuted.
Print Assumptions Verif.HdrProps.c63_high_refuted.
Print Assumptions Verif.HdrProps.c63_empty_refuted.
Print Assumptions Verif.HdrProps.c63_sorter_refuted.
Print Assumptions Verif.HdrProps.c63_sorter_tab.
Print Assumptions Verif.ColProps.c64_fields.
Print Assumptions Verif.ColProps.c64_empty_refuted.
Print Assumptions Verif.ColProps.c64_clump_refuted.
Print Assumptions Verif.ColProps.c64_single_refuted.
Print Assumptions Verif.AggProps.c65_row_partial.
Print Assumptions Verif.AggProps.c65_spec.
Print Assumptions Verif.AggProps.c65_lookup.
Print Assumptions Verif.AggProps.c65_general_refuted.
Print Assumptions Verif.AggProps.c65_repeat_refuted.
Print Assumptions Verif.AggProps.c65_name_refuted.
Print Assumptions Verif.AggProps.c65_second_refuted.
Print Assumptions Verif.ExprProps.c66_max.
Print Assumptions Verif.ExprProps.c66_min.
Print Assumptions Verif.ExprProps.c66_avg_partial.
Print Assumptions Verif.ExprProps.c66_if.
Print Assumptions Verif.ExprProps.c66_factorial_partial.
Print Assumptions Verif.ExprProps.c66_factorial_small.
Print Assumptions Verif.ExprProps.c66_acos_is_abs.
Print Assumptions Verif.ExprProps.c66_no_underscore.
Print Assumptions Verif.ExprProps.c66_factorial_refuted.
Print Assumptions Verif.ExprProps.c66_acos_refuted.
Print Assumptions Verif.ExprProps.c66_constants_refuted.
Print Assumptions Verif.NumbProps.c67_headerless_partial.
Print Assumptions Verif.NumbProps.c67_headed_partial.
Print Assumptions Verif.NumbProps.c67_empty.
Print Assumptions Verif.NumbProps.c67_spec.
Print Assumptions Verif.NumbProps.c67_header_only_refuted.
Print Assumptions Verif.NumbProps.c67_mixed_refuted.
Print Assumptions Verif.NumbProps.c67_delim_refuted.
Print Assumptions Verif.NumbProps.c67_quote_refuted.
Print Assumptions Verif.WcProps.c68_files_partial.
Print Assumptions Verif.WcProps.c68_columns_partial.
Print Assumptions Verif.WcProps.c68_settings.
Print Assumptions Verif.WcProps.c68_agg_name.
Print Assumptions Verif.WcProps.c68_tri.
Print Assumptions Verif.WcProps.c68_no_row_refuted.
Print Assumptions Verif.WcProps.c68_format_refuted.
Print Assumptions Verif.WcProps.c68_delim_refuted.
Print Assumptions Verif.WcProps.c68_quote_refuted.
Print Assumptions Verif.WcProps.c68_columns_end_refuted.
Print Assumptions Verif.WcProps.c68_columns_wide_refuted.
Print Assumptions Verif.WcProps.c68_columns_label_refuted.
Print Assumptions Verif.FmtProps.c69_power_partial.
Print Assumptions Verif.FmtProps.c69_special.
Print Assumptions Verif.FmtProps.c69_tenth.
Print Assumptions Verif.FmtProps.c69_letters.
Print Assumptions Verif.FmtProps.c69_new.
Print Assumptions Verif.FmtProps.c69_new_digits.
Print Assumptions Verif.FmtProps.c69_new_only.
Print Assumptions Verif.FmtProps.c69_digits_used.
Print Assumptions Verif.FmtProps.c69_short.
Print Assumptions Verif.FmtProps.c69_short_longer.
Print Assumptions Verif.FmtProps.c69_short_refuted.
Print Assumptions Verif.FmtProps.c69_zero_refuted.
Print Assumptions Verif.FmtProps.c69_negative_zero_refuted.
Print Assumptions Verif.EvenProps.c70_even_partial.
Print Assumptions Verif.EvenProps.c70_refuted.
Print Assumptions Verif.LocProps.c71_headerless_partial.
Print Assumptions Verif.LocProps.c71_headed_partial.
Print Assumptions Verif.LocProps.c71_offset.
Print Assumptions Verif.LocProps.c71_options.
Print Assumptions Verif.LocProps.c71_all_options.
Print Assumptions Verif.LocProps.c71_only.
Print Assumptions Verif.LocProps.c71_success.
Print Assumptions Verif.LocProps.c71_skip_refuted.
Print Assumptions Verif.LocProps.c71_quote_refuted.
Print Assumptions Verif.LocProps.c71_delimiter_refuted.
Print Assumptions Verif.CliProps.c72_parse.
Print Assumptions Verif.CliProps.c72_tables.
Print Assumptions Verif.CliProps.c72_tools.
Print Assumptions Verif.CliProps.c72_help.
Print Assumptions Verif.CliProps.c72_show.
Print Assumptions Verif.CliProps.c72_bad_format.
Print Assumptions Verif.CliProps.c72_handled.
Print Assumptions Verif.CliProps.c72_forgotten.
Print Assumptions Verif.CliProps.c72_values.
Print Assumptions Verif.CliProps.c72_dispatch.
Print Assumptions Verif.CliProps.c72_no_tool.
Print Assumptions Verif.CliProps.c72_exit.
Print Assumptions Verif.CliProps.c72_handled_refuted.
Print Assumptions Verif.CliProps.c72_known_refuted.
Print Assumptions Verif.CliProps.c73_format.
Print Assumptions Verif.CliProps.c73_omitted.
Print Assumptions Verif.CliProps.c73_only.
Print Assumptions Verif.CliProps.c73_out.
Print Assumptions Verif.CliProps.c73_out_defaults_refuted.
Print Assumptions Verif.CliProps.c73_longer_refuted.
Print Assumptions Verif.CliProps.c73_char_refuted.
Print Assumptions Verif.CliProps.c73_required_refuted.
Print Assumptions Verif.CliProps.c73_forbidden_refuted.
Print Assumptions Verif.CliProps.c73_out_yes_refuted.
Print Assumptions Verif.CliProps.c73_out_no_refuted.
Print Assumptions Verif.TightProps.c74_expr_files.
Print Assumptions Verif.KeyProps.c74_compares.
Print Assumptions Verif.KeyProps.c74_keys.
Print Assumptions Verif.KeyProps.c74_whole.
Print Assumptions Verif.KeyProps.c74_values.
Print Assumptions Verif.KeyProps.c74_one_kind.
Print Assumptions Verif.KeyProps.c74_unknown.
Print Assumptions Verif.KeyProps.c74_unknown_values.
Print Assumptions Verif.KeyProps.c74_bad_column.
Print Assumptions Verif.KeyProps.c74_missing.
Print Assumptions Verif.KeyProps.c74_expression.
Print Assumptions Verif.KeyProps.c74_short_case_refuted.
Print Assumptions Verif.KeyProps.c74_junk_refuted.
Print Assumptions Verif.KeyProps.c74_from_end_refuted.
Print Assumptions Verif.KeyProps.c74_suffix_refuted.
Print Assumptions Verif.KeyProps.c74_wrap_refuted.
Print Assumptions Verif.KeyProps.c74_unlooked_refuted.
Print Assumptions Verif.KeyProps.c74_line_end_refuted.
Print Assumptions Verif.TightProps.c75_reports_asked.
Print Assumptions Verif.TightProps.c75_empty_file.
Print Assumptions Verif.OrderProps.c75_named.
Print Assumptions Verif.OrderProps.c75_sorts.
Print Assumptions Verif.OrderProps.c75_plain.
Print Assumptions Verif.OrderProps.c75_whole.
Print Assumptions Verif.OrderProps.c75_check.
Print Assumptions Verif.OrderProps.c75_check_sorted.
Print Assumptions Verif.OrderProps.c75_reports.
Print Assumptions Verif.OrderProps.c75_merge.
Print Assumptions Verif.OrderProps.c75_passes.
Print Assumptions Verif.OrderProps.c75_refuses.
Print Assumptions Verif.OrderProps.c75_named_check_refuted.
Print Assumptions Verif.OrderProps.c75_named_merge_refuted.
Print Assumptions Verif.OrderProps.c75_reverse_refuted.
Print Assumptions Verif.OrderProps.c75_count_refuted.
Print Assumptions Verif.OrderProps.c75_mode_refuted.
Print Assumptions Verif.JoinMainProps.c76_join.
Print Assumptions Verif.JoinMainProps.c76_headed.
Print Assumptions Verif.JoinMainProps.c76_plain.
Print Assumptions Verif.JoinMainProps.c76_needs.
Print Assumptions Verif.JoinMainProps.c76_no_file.
Print Assumptions Verif.JoinMainProps.c76_headerless_refuted.
Print Assumptions Verif.JoinMainProps.c76_lost_header_refuted.
Print Assumptions Verif.JoinMainProps.c76_labels_refuted.
Print Assumptions Verif.JoinMainProps.c76_empty_part_refuted.
Print Assumptions Verif.JoinMainProps.c76_truncate_refuted.
Print Assumptions Verif.UniqMainProps.c77_uniq.
Print Assumptions Verif.UniqMainProps.c77_aggregates.
Print Assumptions Verif.UniqMainProps.c77_again.
Print Assumptions Verif.UniqMainProps.c77_empty.
Print Assumptions Verif.UniqMainProps.c77_words.
Print Assumptions Verif.UniqMainProps.c77_no_key_refuted.
Print Assumptions Verif.UniqMainProps.c77_delimiters_refuted.
Print Assumptions Verif.UniqMainProps.c77_columns_refuted.
Print Assumptions Verif.UniqMainProps.c77_twice_refuted.
Print Assumptions Verif.UniqMainProps.c77_help_refuted.
Print Assumptions Verif.CutMainProps.c78_headed.
Print Assumptions Verif.CutMainProps.c78_headless.
Print Assumptions Verif.CutMainProps.c78_all.
Print Assumptions Verif.CutPasteProps.c78_range.
Print Assumptions Verif.CutMainProps.c78_nothing.
Print Assumptions Verif.CutMainProps.c78_dups_refuted.
Print Assumptions Verif.CutMainProps.c78_stale_refuted.
Print Assumptions Verif.CutMainProps.c78_group_refuted.
Print Assumptions Verif.BinMainProps.c79_headed.
Print Assumptions Verif.BinMainProps.c79_headless.
Print Assumptions Verif.BinMainProps.c79_finds.
Print Assumptions Verif.BinMainProps.c79_refuses.
Print Assumptions Verif.BinMainProps.c79_one_filename.
Print Assumptions Verif.BinMainProps.c79_delim_refuted.
Print Assumptions Verif.BinMainProps.c79_whole_refuted.
Print Assumptions Verif.BinMainProps.c79_context_refuted.
Print Assumptions Verif.BinMainProps.c79_filename_refuted.
Print Assumptions Verif.BinMainProps.c79_parts_refuted.
Print Assumptions Verif.BinMainProps.c79_sub_delim_refuted.
Print Assumptions Verif.CalcMainProps.c80_answers.
Print Assumptions Verif.CalcMainProps.c80_plain.
Print Assumptions Verif.CalcMainProps.c80_unmistaken.
Print Assumptions Verif.CalcMainProps.c80_option.
Print Assumptions Verif.CalcMainProps.c80_goes_on_partial.
Print Assumptions Verif.CalcMainProps.c80_blank_refuted.
Print Assumptions Verif.CalcMainProps.c80_status_refuted.
Print Assumptions Verif.CalcMainProps.c80_name_refuted.
Print Assumptions Verif.TestProps.c81_verdict.
Print Assumptions Verif.TestProps.c81_clean.
Print Assumptions Verif.TestProps.c81_kept.
Print Assumptions Verif.TestProps.c81_counts_partial.
Print Assumptions Verif.TestProps.c81_kept_tool.
Print Assumptions Verif.TestProps.c81_format.
Print Assumptions Verif.TestTight.c81_unknown_line.
Print Assumptions Verif.TestTight.c81_bad_name.
Print Assumptions Verif.TestProps.c81_missing_refuted.
Print Assumptions Verif.TestProps.c81_unstarted_refuted.
Print Assumptions Verif.TestProps.c81_stale_refuted.
Print Assumptions Verif.TestProps.c81_empty_refuted.
Print Assumptions Verif.TestProps.c81_in_place_refuted.
Print Assumptions Verif.TestProps.c81_status_refuted.
Print Assumptions Verif.TestProps.c81_not_refuted.
Print Assumptions Verif.TestProps.c81_blanks_refuted.
Print Assumptions Verif.TestProps.c81_tmp_blank_refuted.
Print Assumptions Verif.TestProps.c81_hash_refuted.
Print Assumptions Verif.TestProps.c81_twice_refuted.
Print Assumptions Verif.TabsMainProps.c82_one.
Print Assumptions Verif.TabsMainProps.c82_several.
Print Assumptions Verif.TabsMainProps.c82_fits.
Print Assumptions Verif.TabsMainProps.c82_share.
Print Assumptions Verif.TabsMainProps.c82_crowded.
Print Assumptions Verif.TabsMainProps.c82_wide.
Print Assumptions Verif.TabsMainProps.c82_basic.
Print Assumptions Verif.TabsMainProps.c82_many_refuted.
Print Assumptions Verif.TabsMainProps.c82_title_refuted.
Print Assumptions Verif.TabsMainProps.c82_empty_refuted.
Print Assumptions Verif.TabsMainProps.c82_escape_refuted.
Print Assumptions Verif.TabsMainProps.c82_no_size_refuted.
Print Assumptions Verif.TabsMainProps.c82_no_columns_refuted.
Print Assumptions Verif.PipeProps.c83_again.
Print Assumptions Verif.PipeProps.c83_uniq.
Print Assumptions Verif.PipeProps.c83_search.
Print Assumptions Verif.PipeProps.c83_join.
Print Assumptions Verif.CutPasteProps.c83_split.
Print Assumptions Verif.NumbCutProps.c83_number.
Print Assumptions Verif.GrepSortProps.c83_grep.
Print Assumptions Verif.GrepSortProps.c83_grep_twice.
Print Assumptions Verif.CatSortProps.c83_cat.
Print Assumptions Verif.SortUniqProps.c83_unique.
Print Assumptions Verif.PipeProps.c83_search_refuted.
Print Assumptions Verif.UtfProps.c84_order.
Print Assumptions Verif.UtfProps.c84_order_case.
Print Assumptions Verif.UtfProps.c84_fields.
Print Assumptions Verif.UtfProps.c84_select.
Print Assumptions Verif.UtfProps.c84_paths.
Print Assumptions Verif.UtfProps.c84_matchers.
Print Assumptions Verif.UtfProps.c84_matchers_case.
Print Assumptions Verif.UtfProps.c84_lower_upper.
Print Assumptions Verif.UtfProps.c84_words.
Print Assumptions Verif.UtfProps.c84_words_refuted.
Print Assumptions Verif.UtfProps.c84_slice_refuted.
Print Assumptions Verif.UtfProps.c84_glob_refuted.
Print Assumptions Verif.UtfModeProps.c85_plain.
Print Assumptions Verif.UtfModeProps.c85_case_partial.
Print Assumptions Verif.UtfModeProps.c85_exact_case.
Print Assumptions Verif.UtfModeProps.c85_length.
Print Assumptions Verif.UtfModeProps.c85_glob_partial.
Print Assumptions Verif.UtfModeProps.c85_glob_exact.
Print Assumptions Verif.UtfModeProps.c85_trim.
Print Assumptions Verif.UtfModeProps.c85_file.
Print Assumptions Verif.UtfModeProps.c85_not_text.
Print Assumptions Verif.UtfModeProps.c85_compare_partial.
Print Assumptions Verif.UtfModeProps.c85_ascii.
Print Assumptions Verif.UtfModeProps.c85_sigma_refuted.
Print Assumptions Verif.UtfModeProps.c85_exact_refuted.
Print Assumptions Verif.UtfModeProps.c85_equal_refuted.
Print Assumptions Verif.UtfModeProps.c85_circle_refuted.
Print Assumptions Verif.UtfModeProps.c85_lossy_refuted.
Print Assumptions Verif.DecProps.c86_order.
Print Assumptions Verif.DecProps.c86_equal.
Print Assumptions Verif.DecProps.c86_all_refuted.
Print Assumptions Verif.ValProps.c87_named.
Print Assumptions Verif.ValProps.c87_plain.
Print Assumptions Verif.ValProps.c87_merge.
Print Assumptions Verif.ValProps.c87_decimals.
Print Assumptions Verif.ValProps.c87_zero_refuted.
Print Assumptions Verif.JunkProps.c88_unsigned.
Print Assumptions Verif.JunkProps.c88_signed.
Print Assumptions Verif.JunkProps.c88_float.
Print Assumptions Verif.JunkProps.c88_whole.
Print Assumptions Verif.JunkProps.c88_whole_float.
Print Assumptions Verif.JunkProps.c88_junk_unsigned.
Print Assumptions Verif.JunkProps.c88_junk_signed.
Print Assumptions Verif.JunkProps.c88_junk_float.
Print Assumptions Verif.JunkProps.c88_no_digit_refuted.
Print Assumptions Verif.JunkProps.c88_empty_refuted.
Print Assumptions Verif.NumKeyProps.c89_join.
Print Assumptions Verif.NumKeyProps.c89_join_numbers.
Print Assumptions Verif.NumKeyProps.c89_pick.
Print Assumptions Verif.NumKeyProps.c89_count.
Print Assumptions Verif.NumKeyProps.c89_pairs.
Print Assumptions Verif.NumKeyProps.c89_unit_refuted.
Print Assumptions Verif.NumKeyProps.c89_same_refuted.
