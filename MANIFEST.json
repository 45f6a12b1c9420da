{
 "claims": [
  {
   "property": "C01",
   "status": "proved",
   "theorems": [
    "C01_gcd",
    "C01_doc_sign_when_b_smaller",
    "C01_doc_sign_refuted"
   ],
   "note": "gcd claim proved for all integers; the docstring sign claim is exactly delimited (holds when b <= a, refuted otherwise)."
  },
  {
   "property": "C02",
   "status": "proved",
   "theorems": [
    "C02_subs_in_polynom"
   ],
   "note": ""
  },
  {
   "property": "C03",
   "status": "proved",
   "theorems": [
    "C03_stopwatch_outputs",
    "C03_stopwatch_sum",
    "C03_total_before_start"
   ],
   "note": ""
  },
  {
   "property": "C04",
   "status": "proved",
   "theorems": [
    "C04_grouper",
    "C04_grouper_nonpositive"
   ],
   "note": ""
  },
  {
   "property": "C05",
   "status": "proved",
   "theorems": [
    "C05_dhms"
   ],
   "note": ""
  },
  {
   "property": "C06",
   "status": "proved",
   "theorems": [
    "C06_convergent"
   ],
   "note": ""
  },
  {
   "property": "C07",
   "status": "proved",
   "theorems": [
    "C07_split"
   ],
   "note": ""
  },
  {
   "property": "C08",
   "status": "proved",
   "theorems": [
    "C08_zero_b_exact",
    "C08_only_zero_b",
    "C08_atomic"
   ],
   "note": ""
  },
  {
   "property": "C09",
   "status": "proved",
   "theorems": [
    "C09_determinant",
    "C09_nan_iff"
   ],
   "note": ""
  },
  {
   "property": "C10",
   "status": "proved",
   "theorems": [
    "C10_get_p_q_is_previous",
    "C10_get_p_q_initial",
    "C10_docstring_refuted"
   ],
   "note": "The docstring (latest convergent) is REFUTED (C10_docstring_refuted)."
  },
  {
   "property": "C11",
   "status": "proved",
   "theorems": [
    "C11_logging_same",
    "C11_zero_iterations_differ"
   ],
   "note": ""
  },
  {
   "property": "C12",
   "status": "proved",
   "theorems": [
    "C12_counter_in_step",
    "C12_counter_in_step_after_exceptions",
    "C12_logging_exception_refuted",
    "C12_negative_count",
    "C12_default_estimate_out_of_step"
   ],
   "note": "That the two stay in step after an exception while logging is REFUTED (C12_logging_exception_refuted)."
  },
  {
   "property": "C13",
   "status": "proved",
   "theorems": [
    "C13_eval_sign",
    "C13_contfrac_sign"
   ],
   "note": ""
  },
  {
   "property": "C14",
   "status": "proved",
   "theorems": [
    "C14_eval_contfrac",
    "C14_default_numerators",
    "C14_length_error"
   ],
   "note": ""
  },
  {
   "property": "C15",
   "status": "proved",
   "theorems": [
    "C15_equal_lengths",
    "C15_documented_formula_refuted"
   ],
   "note": "The documented formula is REFUTED (C15_documented_formula_refuted)."
  },
  {
   "property": "C16",
   "status": "proved",
   "theorems": [
    "C16_eval_dec",
    "C16_engines_agree",
    "C16_depth_nonpositive"
   ],
   "note": ""
  },
  {
   "property": "C17",
   "status": "proved",
   "theorems": [
    "C17_squeeze_eval",
    "C17_squeeze_a",
    "C17_squeeze_b",
    "C17_squeeze_contfrac"
   ],
   "note": ""
  },
  {
   "property": "C18",
   "status": "proved",
   "theorems": [
    "C18_history_independent",
    "C18_resets"
   ],
   "note": ""
  },
  {
   "property": "C19",
   "status": "proved",
   "theorems": [
    "C19_compare",
    "C19_value_error"
   ],
   "note": ""
  },
  {
   "property": "C20",
   "status": "proved",
   "theorems": [
    "C20_at_most_n",
    "C20_exactly_n",
    "C20_pinned_backend"
   ],
   "note": ""
  },
  {
   "property": "C21",
   "status": "proved",
   "theorems": [
    "C21_enumeration"
   ],
   "note": ""
  },
  {
   "property": "C22",
   "status": "proved",
   "theorems": [
    "C22_no_repeats"
   ],
   "note": ""
  },
  {
   "property": "C23",
   "status": "proved",
   "theorems": [
    "C23_length_normal",
    "C23_length_indexed",
    "C23_length_sparse",
    "C23_exact_without_filters",
    "C23_interlaced_sparse_refuted"
   ],
   "note": "For interlaced sparse polynomials the claim is REFUTED (C23_interlaced_sparse_refuted)."
  },
  {
   "property": "C24",
   "status": "proved",
   "theorems": [
    "C24_indexed",
    "C24_enumeration"
   ],
   "note": ""
  },
  {
   "property": "C25",
   "status": "proved",
   "theorems": [
    "C25_sparse",
    "C25_count",
    "C25_enumeration"
   ],
   "note": ""
  },
  {
   "property": "C26",
   "status": "proved",
   "theorems": [
    "C26_degree"
   ],
   "note": ""
  },
  {
   "property": "C27",
   "status": "proved",
   "theorems": [
    "C27_factor_out",
    "C27_split_exists",
    "C27_documented",
    "C27_docstring_refuted"
   ],
   "note": "The docstring is REFUTED for polynomials with an inner zero coefficient (C27_docstring_refuted)."
  },
  {
   "property": "C28",
   "status": "proved",
   "theorems": [
    "C28_linear",
    "C28_large_refuted",
    "C28_constants"
   ],
   "note": "Beyond 2^53 the claim is REFUTED (C28_large_refuted)."
  },
  {
   "property": "C29",
   "status": "proved",
   "theorems": [
    "C29_quadratic",
    "C29_misses_refuted",
    "C29_rejects_refuted",
    "C29_inner_zero"
   ],
   "note": "That the test recognises quadratics with positive integer roots is REFUTED in both directions (C29_misses_refuted, C29_rejects_refuted)."
  },
  {
   "property": "C30",
   "status": "proved",
   "theorems": [
    "C30_fixed_accuracy_map"
   ],
   "note": ""
  },
  {
   "property": "C31",
   "status": "proved",
   "theorems": [
    "C31_set_get",
    "C31_set_fails_only_on_key",
    "C31_contains_iff_get",
    "C31_other_keys"
   ],
   "note": ""
  },
  {
   "property": "C32",
   "status": "proved",
   "theorems": [
    "C32_set_deletes_old_prefixes",
    "C32_earliest_prefix_wins",
    "C32_refinement_loses_entries"
   ],
   "note": ""
  },
  {
   "property": "C33",
   "status": "proved",
   "theorems": [
    "C33_del_exact",
    "C33_del_never_deletes",
    "C33_del_deletes_refuted"
   ],
   "note": "That del deletes is REFUTED (C33_del_deletes_refuted)."
  },
  {
   "property": "C34",
   "status": "proved",
   "theorems": [
    "C34_pickle_roundtrip"
   ],
   "note": ""
  },
  {
   "property": "C35",
   "status": "proved",
   "theorems": [
    "C35_append_refuses",
    "C35_append_union",
    "C35_join_concat",
    "C35_join_empty"
   ],
   "note": ""
  },
  {
   "property": "C36",
   "status": "proved",
   "theorems": [
    "C36_no_clicks",
    "C36_invisible",
    "C36_pinned"
   ],
   "note": ""
  },
  {
   "property": "C37",
   "status": "proved",
   "theorems": [
    "C37_key_is_comparison",
    "C37_plain_decimals_close",
    "C37_small_values_refuted",
    "C37_equal_values_refuted",
    "C37_pinned_backend_raises"
   ],
   "note": "Nearness of values below 10^-6 with equal keys, and that equal Decimals have equal keys, are REFUTED (C37_small_values_refuted, C37_equal_values_refuted)."
  },
  {
   "property": "C38",
   "status": "proved",
   "theorems": [
    "C38_value",
    "C38_value_mpf",
    "C38_exact",
    "C38_flip",
    "C38_add_int",
    "C38_after_exception_refuted"
   ],
   "note": "After a method that raised the claim is REFUTED (C38_after_exception_refuted)."
  },
  {
   "property": "C39",
   "status": "proved",
   "theorems": [
    "C39_ranges",
    "C39_enum",
    "C39_consumer",
    "C39_zero_constant"
   ],
   "note": ""
  },
  {
   "property": "C40",
   "status": "proved",
   "theorems": [
    "C40_representative",
    "C40_representative_enumerated"
   ],
   "note": ""
  },
  {
   "property": "C41",
   "status": "proved",
   "theorems": [
    "C41_sound",
    "C41_large_refuted"
   ],
   "note": "For large parameters soundness is REFUTED (C41_large_refuted)."
  },
  {
   "property": "C42",
   "status": "proved",
   "theorems": [
    "C42_snapshots"
   ],
   "note": ""
  },
  {
   "property": "C43",
   "status": "proved",
   "theorems": [
    "C43_value",
    "C43_exact",
    "C43_flip",
    "C43_add_int",
    "C43_canonicalize",
    "C43_canonicalize_nan_refuted",
    "C43_failed_call",
    "C43_after_exception_refuted"
   ],
   "note": "That canonalize_params never turns a value into NaN is REFUTED (C43_canonicalize_nan_refuted); C43_canonicalize says when it can."
  },
  {
   "property": "C44",
   "status": "proved",
   "theorems": [
    "C44_function",
    "C44_total",
    "C44_coprime",
    "C44_idempotent",
    "C44_zero_denominator"
   ],
   "note": ""
  },
  {
   "property": "C45",
   "status": "proved",
   "theorems": [
    "C45_degenerate_iff"
   ],
   "note": ""
  },
  {
   "property": "C46",
   "status": "proved",
   "theorems": [
    "C46_enum",
    "C46_value_exact"
   ],
   "note": ""
  },
  {
   "property": "C47",
   "status": "proved",
   "theorems": [
    "C47_sound_same_denominator",
    "C47_denominator_refuted",
    "C47_same_function_not_recognised_refuted",
    "C47_inverse_refuted"
   ],
   "note": "Soundness for different denominators or the inverse function, and recognition of equal functions, are REFUTED (C47_denominator_refuted, C47_inverse_refuted, C47_same_function_not_recognised_refuted)."
  },
  {
   "property": "C48",
   "status": "proved",
   "theorems": [
    "C48_tables",
    "C48_build",
    "C48_pairs",
    "C48_pairs_indexed",
    "C48_pairs_sparse",
    "C48_succeeds",
    "C48_key"
   ],
   "note": ""
  },
  {
   "property": "C49",
   "status": "proved",
   "theorems": [
    "C49_again",
    "C49_normal",
    "C49_validate"
   ],
   "note": ""
  },
  {
   "property": "C50",
   "status": "proved",
   "theorems": [
    "C50_clicks",
    "C50_exception",
    "C50_ulcd",
    "C50_ulcd_left_out",
    "C50_rational_left_out"
   ],
   "note": ""
  },
  {
   "property": "C51",
   "status": "proved",
   "theorems": [
    "C51_refine",
    "C51_exclusive",
    "C51_exception"
   ],
   "note": ""
  },
  {
   "property": "C52",
   "status": "proved",
   "theorems": [
    "C52_ulcd",
    "C52_rational",
    "C52_near",
    "C52_close_refuted",
    "C52_not_repaired"
   ],
   "note": "That the adjusted side is close whenever the fractional digits agree is REFUTED (C52_close_refuted)."
  },
  {
   "property": "C53",
   "status": "proved",
   "theorems": [
    "C53_ulcd",
    "C53_ulcd_represented",
    "C53_rational",
    "C53_exception"
   ],
   "note": ""
  },
  {
   "property": "C54",
   "status": "proved",
   "theorems": [
    "C54_filter",
    "C54_arguments",
    "C54_exception"
   ],
   "note": ""
  },
  {
   "property": "C55",
   "status": "proved",
   "theorems": [
    "C55_filter",
    "C55_which",
    "C55_integers",
    "C55_above_half",
    "C55_only_integers_refuted"
   ],
   "note": "That only numerators with integer roots are dropped is REFUTED (C55_only_integers_refuted)."
  },
  {
   "property": "C56",
   "status": "proved",
   "theorems": [
    "C56_split",
    "C56_nonempty",
    "C56_empty_interlace",
    "C56_large_refuted"
   ],
   "note": "Beyond 2^52 the claim is REFUTED (C56_large_refuted)."
  },
  {
   "property": "C57",
   "status": "proved",
   "theorems": [
    "C57_same_entries",
    "C57_same_lists",
    "C57_sparse_lists_refuted"
   ],
   "note": "That the lists of entries agree, and not only the sets, is REFUTED for the sparse enumerator: an entry can occur twice (C57_sparse_lists_refuted)."
  },
  {
   "property": "C58",
   "status": "proved",
   "theorems": [
    "C58_use",
    "C58_generate_new",
    "C58_generate_first",
    "C58_generate_overwrites_refuted",
    "C58_backup_used_refuted",
    "C58_dot_refuted"
   ],
   "note": "That generate never overwrites, that a backup is not taken for a version, and that a dot in the name is literal are REFUTED (C58_generate_overwrites_refuted, C58_backup_used_refuted, C58_dot_refuted)."
  },
  {
   "property": "C59",
   "status": "proved",
   "theorems": [
    "C59_indices_survive",
    "C59_bad_index"
   ],
   "note": ""
  },
  {
   "property": "C60",
   "status": "proved",
   "theorems": [
    "C60_pairs",
    "C60_inverse",
    "C60_values"
   ],
   "note": ""
  },
  {
   "property": "C61",
   "status": "proved",
   "theorems": [
    "C61_text",
    "C61_total",
    "C61_denotes",
    "C61_injective"
   ],
   "note": ""
  },
  {
   "property": "C62",
   "status": "proved",
   "theorems": [
    "C62_latex"
   ],
   "note": ""
  },
  {
   "property": "C63",
   "status": "proved",
   "theorems": [
    "C63_clean",
    "C63_input_kept",
    "C63_name",
    "C63_no_settings",
    "C63_numbers_refuted",
    "C63_clean_linear",
    "C63_quadratic_refuted",
    "C63_old_keys_refuted"
   ],
   "note": "For tables with numeric keys (mpf), for quadratics and for keys of an earlier accuracy the intended cleaning is REFUTED (C63_numbers_refuted, C63_quadratic_refuted, C63_old_keys_refuted)."
  },
  {
   "property": "C64",
   "status": "proved",
   "theorems": [
    "C64_index_taken_for_precision",
    "C64_needs_two",
    "C64_two_work",
    "C64_exceptions"
   ],
   "note": ""
  },
  {
   "property": "C65",
   "status": "proved",
   "theorems": [
    "C65_reinitialize_then_gen",
    "C65_add_continues_old",
    "C65_add_after_reinitialize_refuted"
   ],
   "note": "That add_iterations after reinitialize continues with the new fraction is REFUTED (C65_add_after_reinitialize_refuted)."
  },
  {
   "property": "C66",
   "status": "proved",
   "theorems": [
    "C66_estimate_terminates"
   ],
   "note": ""
  },
  {
   "property": "C67",
   "status": "proved",
   "theorems": [
    "C67_fractions",
    "C67_value"
   ],
   "note": ""
  },
  {
   "property": "C68",
   "status": "proved",
   "theorems": [
    "C68_multiple_first",
    "C68_symmetry_refuted"
   ],
   "note": "Symmetry is REFUTED (C68_symmetry_refuted)."
  },
  {
   "property": "C69",
   "status": "proved",
   "theorems": [
    "C69_never_constant",
    "C69_degenerate_iff",
    "C69_degenerate_refuted"
   ],
   "note": "That degenerate means constant is REFUTED (C69_degenerate_refuted)."
  },
  {
   "property": "C70",
   "status": "proved",
   "theorems": [
    "C70_fast_means_shrinking",
    "C70_small_step_accepted"
   ],
   "note": ""
  },
  {
   "property": "C71",
   "status": "proved",
   "theorems": [
    "C71_mpf_constant",
    "C71_mpf_enum"
   ],
   "note": ""
  },
  {
   "property": "C72",
   "status": "proved",
   "theorems": [
    "C72_copy",
    "C72_copy_after_reinit_refuted"
   ],
   "note": "After reinit_params the claim is REFUTED (C72_copy_after_reinit_refuted)."
  },
  {
   "property": "C73",
   "status": "proved",
   "theorems": [
    "C73_latex",
    "C73_degree10_refuted",
    "C73_index_error"
   ],
   "note": "From degree 10 on the claim is REFUTED (C73_degree10_refuted)."
  },
  {
   "property": "C74",
   "status": "proved",
   "theorems": [
    "C74_settings",
    "C74_enumerator_refuted",
    "C74_sizes_refuted"
   ],
   "note": "That the requested enumerator is used is REFUTED (C74_enumerator_refuted, C74_sizes_refuted)."
  },
  {
   "property": "C75",
   "status": "proved",
   "theorems": [
    "C75_masked",
    "C75_seen"
   ],
   "note": ""
  },
  {
   "property": "C76",
   "status": "proved",
   "theorems": [
    "C76_cut",
    "C76_whole"
   ],
   "note": ""
  },
  {
   "property": "C77",
   "status": "proved",
   "theorems": [
    "C77_sublist",
    "C77_values"
   ],
   "note": ""
  },
  {
   "property": "C78",
   "status": "proved",
   "theorems": [
    "C78_filter",
    "C78_meaning",
    "C78_exception",
    "C78_printing"
   ],
   "note": ""
  },
  {
   "property": "C79",
   "status": "proved",
   "theorems": [
    "C79_trig",
    "C79_mpf",
    "C79_build"
   ],
   "note": ""
  },
  {
   "property": "C80",
   "status": "proved",
   "theorems": [
    "C80_equations",
    "C80_functions",
    "C80_mpf",
    "C80_sqrt_aborts"
   ],
   "note": ""
  },
  {
   "property": "C81",
   "status": "proved",
   "theorems": [
    "C81_mpf_refuted",
    "C81_rows"
   ],
   "note": "That results with mpf values can be exported is REFUTED for all of them (C81_mpf_refuted)."
  },
  {
   "property": "C82",
   "status": "proved",
   "theorems": [
    "C82_saved_reloads_without_lhs",
    "C82_results_config_reloads_refuted",
    "C82_lhs_written",
    "C82_texts_in_lists_refuted"
   ],
   "note": "That the saved settings can be loaded again is REFUTED (C82_results_config_reloads_refuted)."
  },
  {
   "property": "C83",
   "status": "proved",
   "theorems": [
    "C83_required",
    "C83_defaults_refuted",
    "C83_functions",
    "C83_types"
   ],
   "note": "That the declared defaults are used is REFUTED (C83_defaults_refuted)."
  },
  {
   "property": "C84",
   "status": "proved",
   "theorems": [
    "C84_only_named_file",
    "C84_use_reads_only",
    "C84_generate",
    "C84_expand",
    "C84_normal_pairs"
   ],
   "note": ""
  },
  {
   "property": "C85",
   "status": "proved",
   "theorems": [
    "C85_expand_in_place",
    "C85_next_version_refuted",
    "C85_generate_new_file_refuted"
   ],
   "note": "The promised next version is REFUTED (C85_next_version_refuted), as is that generating never overwrites (C85_generate_new_file_refuted)."
  },
  {
   "property": "C86",
   "status": "proved",
   "theorems": [
    "C86_unknown",
    "C86_feig_percolation",
    "C86_zeta",
    "C86_name"
   ],
   "note": ""
  },
  {
   "property": "C87",
   "status": "proved",
   "theorems": [
    "C87_no_results",
    "C87_mpmath_search"
   ],
   "note": ""
  },
  {
   "property": "C88",
   "status": "proved",
   "theorems": [
    "C88_interrupt"
   ],
   "note": ""
  },
  {
   "property": "C89",
   "status": "proved",
   "theorems": [
    "C89_four_files",
    "C89_minute",
    "C89_results_kept_refuted"
   ],
   "note": "That results of other runs are kept is REFUTED (C89_results_kept_refuted: concrete clock readings)."
  },
  {
   "property": "C90",
   "status": "proved",
   "theorems": [
    "C90_rerun"
   ],
   "note": "Stated as it is: the saved settings never reload (composition of a finished search with C82)."
  },
  {
   "property": "C91",
   "status": "proved",
   "theorems": [
    "C91_table_only",
    "C91_setting",
    "C91_no_refuted"
   ],
   "note": "C91_no_refuted is the concrete run with the text \"No\"."
  },
  {
   "property": "C92",
   "status": "proved",
   "theorems": [
    "C92_unread",
    "C92_printing"
   ],
   "note": ""
  },
  {
   "property": "C93",
   "status": "proved",
   "theorems": [
    "C93_generate"
   ],
   "note": ""
  },
  {
   "property": "C94",
   "status": "proved",
   "theorems": [
    "C94_transparent",
    "C94_empty",
    "C94_start",
    "C94_no_length",
    "C94_length_zero"
   ],
   "note": "Transparent for non-empty iterables and non-zero lengths; for empty iterables, other starts and length 0 the claim is REFUTED in the exact form stated (C94_empty, C94_start, C94_no_length, C94_length_zero, each for all inputs)."
  },
  {
   "property": "C95",
   "status": "proved",
   "theorems": [
    "C95_display",
    "C95_rate"
   ],
   "note": ""
  },
  {
   "property": "C96",
   "status": "proved",
   "theorems": [
    "C96_geometric",
    "C96_threshold"
   ],
   "note": "Exact arithmetic and a square root that is exact on squares; C97 and C99 are with rounding."
  },
  {
   "property": "C97",
   "status": "proved",
   "theorems": [
    "C97_exp",
    "C97_large",
    "C97_exp_only",
    "C97_mixed",
    "C97_slow",
    "C97_poly_only"
   ],
   "note": ""
  },
  {
   "property": "C98",
   "status": "proved",
   "theorems": [
    "C98_fast_only",
    "C98_fast",
    "C98_few",
    "C98_no_odd"
   ],
   "note": "That an estimate always gives an answer is refuted in the form of C98_no_odd (ZeroDivisionError for all such sequences)."
  },
  {
   "property": "C99",
   "status": "proved",
   "theorems": [
    "C99_samples",
    "C99_convergent",
    "C99_exp",
    "C99_cutoff_zero"
   ],
   "note": ""
  },
  {
   "property": "C100",
   "status": "proved",
   "theorems": [
    "C100_job_files",
    "C100_too_many",
    "C100_not_power",
    "C100_started",
    "C100_jobs_run_refuted"
   ],
   "note": "For settings with a left-hand side the claim is REFUTED: C100_jobs_run_refuted, and for all such settings in C100_job_files."
  },
  {
   "property": "C101",
   "status": "proved",
   "theorems": [
    "C101_relative_fails",
    "C101_absolute"
   ],
   "note": "That the jobs directory gets the job files whatever path is given is REFUTED for all relative paths (C101_relative_fails) and all absolute ones (C101_absolute)."
  },
  {
   "property": "C102",
   "status": "proved",
   "theorems": [
    "C102_join",
    "C102_empty",
    "C102_precisions",
    "C102_twice",
    "C102_existing_kept_refuted"
   ],
   "note": "That an existing output is kept is REFUTED (C102_existing_kept_refuted)."
  },
  {
   "property": "C103",
   "status": "proved",
   "theorems": [
    "C103_split_run_join"
   ],
   "note": "For runs that only make the table (no left-hand side), which are the ones whose job files can be loaded (C100)."
  },
  {
   "property": "C104",
   "status": "proved",
   "theorems": [
    "C104_errors",
    "C104_zero_b"
   ],
   "note": ""
  },
  {
   "property": "C105",
   "status": "proved",
   "theorems": [
    "C105_super_exponential"
   ],
   "note": "Over the real numbers of the standard library: Print Assumptions lists its axioms."
  },
  {
   "property": "C106",
   "status": "proved",
   "theorems": [
    "C106_exponential"
   ],
   "note": "Over the real numbers of the standard library: Print Assumptions lists its axioms."
  },
  {
   "property": "C107",
   "status": "proved",
   "theorems": [
    "C107_exponential"
   ],
   "note": "Over the real numbers of the standard library: Print Assumptions lists its axioms."
  },
  {
   "property": "C108",
   "status": "proved",
   "theorems": [
    "C108_polynomial"
   ],
   "note": "Over the real numbers of the standard library: Print Assumptions lists its axioms."
  },
  {
   "property": "C109",
   "status": "proved",
   "theorems": [
    "C109_double_arithmetic",
    "C109_working_precision_refuted"
   ],
   "note": "That the result has the working precision is REFUTED (C109_working_precision_refuted)."
  },
  {
   "property": "C110",
   "status": "proved",
   "theorems": [
    "C110_pi",
    "C110_e",
    "C110_more_digits_refuted"
   ],
   "note": "Over the real numbers of the standard library. That a larger precision gives more digits (the literals have 100000 and 10000) is REFUTED for all precisions above 150 (C110_more_digits_refuted). Of the literals the first 200 digits are in the model; the theorems hold for all digits after them."
  },
  {
   "property": "C111",
   "status": "proved",
   "theorems": [
    "C111_golden",
    "C111_percolation",
    "C111_default_precision_refuted"
   ],
   "note": "Over the real numbers of the standard library. Accuracy at the 150 digits set at import is REFUTED (C111_default_precision_refuted)."
  },
  {
   "property": "C112",
   "status": "proved",
   "theorems": [
    "C112_zeta",
    "C112_apery",
    "C112_default_precision_refuted"
   ],
   "note": "Over the real numbers of the standard library. Accuracy at the 150 digits set at import is REFUTED for every n (C112_default_precision_refuted). No claim is made for the digits of the Feigenbaum constants."
  },
  {
   "property": "C113",
   "status": "proved",
   "theorems": [
    "C113_points",
    "C113_larger_window"
   ],
   "note": "Over the real numbers of the standard library. The regression and the drawing are not modelled; the claim is about the data handed to them."
  },
  {
   "property": "C114",
   "status": "proved",
   "theorems": [
    "C114_equations",
    "C114_other_function",
    "C114_powers",
    "C114_repository_refuted"
   ],
   "note": "That the results shipped with the functions of the repository header convert is REFUTED (C114_repository_refuted): a result with safe_inverse makes the conversion fail."
  },
  {
   "property": "C115",
   "status": "proved",
   "theorems": [
    "C115_name",
    "C115_right",
    "C115_collision_refuted",
    "C115_relative_refuted"
   ],
   "note": "That different csv files give different pdf files is REFUTED (C115_collision_refuted); that the pdf lies beside the csv file is REFUTED (C115_relative_refuted)."
  },
  {
   "property": "C116",
   "status": "proved",
   "theorems": [
    "C116_targets",
    "C116_index_refuted",
    "C116_unknown",
    "C116_three_columns",
    "C116_current_export_refuted"
   ],
   "note": "That the targets with an index can be converted is REFUTED (C116_index_refuted), as is the conversion of files exported by the current program (C116_current_export_refuted)."
  },
  {
   "property": "C117",
   "status": "proved",
   "theorems": [
    "C117_load",
    "C117_blank_line",
    "C117_printed",
    "C117_other_fraction_refuted",
    "C117_tuples_refuted"
   ],
   "note": "That every polynomial of a file is read is REFUTED (C117_other_fraction_refuted: only those with three coefficients), as is that tuples are read (C117_tuples_refuted)."
  },
  {
   "property": "C118",
   "status": "proved",
   "theorems": [
    "C118_evaluated",
    "C118_any_code_refuted"
   ],
   "note": "That only formulas are evaluated is REFUTED (C118_any_code_refuted): any text after one allowed character is."
  },
  {
   "property": "C119",
   "status": "proved",
   "theorems": [
    "C119_figures",
    "C119_filetype_refuted",
    "C119_row_refuted"
   ],
   "note": "That the number in the title is the row of the file is REFUTED (C119_row_refuted); the default file type cannot be analysed (C119_filetype_refuted)."
  },
  {
   "property": "C120",
   "status": "proved",
   "theorems": [
    "C120_points",
    "C120_few",
    "C120_decimal_refuted"
   ],
   "note": "That a file with a fraction can be analysed is REFUTED for a library in which mpf and Decimal do not compare (C120_decimal_refuted); the comparison is a parameter of the model."
  },
  {
   "property": "C121",
   "status": "proved",
   "theorems": [
    "C121_no_is_zero_refuted",
    "C121_geometric",
    "C121_fast",
    "C121_fast_iff",
    "C121_one_sided_refuted",
    "C121_no_factor",
    "C121_undefined",
    "C121_exp",
    "C121_mixed",
    "C121_poly"
   ],
   "note": "That the function returns is REFUTED for numbers without is_zero (C121_no_is_zero_refuted) and for one-sided information (C121_one_sided_refuted). The other theorems assume an is_zero and arithmetic that does not round."
  },
  {
   "property": "C122",
   "status": "proved",
   "theorems": [
    "C122_pipeline",
    "C122_run"
   ],
   "note": "C122_pipeline for the stages after find_clicks, C122_run for whole runs. In runs that only use tables the program itself has built nothing is found (C87); the claim speaks about any table file, for instance one with texts as keys."
  },
  {
   "property": "C123",
   "status": "proved",
   "theorems": [
    "C123_mpmath",
    "C123_missing",
    "C123_readme",
    "C123_extend",
    "C123_fresh"
   ],
   "note": "That a user gets a search, a table or a result out of a shipped file is REFUTED for mpmath numbers (C123_mpmath, C123_fresh); C123_missing, C123_readme and C123_extend hold for all numbers. The texts of the files are those of the repository as the ini reader of python hands them over."
  },
  {
   "property": "C124",
   "status": "proved",
   "theorems": [
    "C124_search_for_e_refuted"
   ],
   "note": "That these files search for e is REFUTED (C124_search_for_e_refuted)."
  },
  {
   "property": "C125",
   "status": "proved",
   "theorems": [
    "C125_brouncker",
    "C125_threshold"
   ],
   "note": ""
  },
  {
   "property": "C126",
   "status": "proved",
   "theorems": [
    "C126_factorial"
   ],
   "note": ""
  },
  {
   "property": "C127",
   "status": "proved",
   "theorems": [
    "C127_golden"
   ],
   "note": ""
  },
  {
   "property": "C128",
   "status": "proved",
   "theorems": [
    "C128_interlaced"
   ],
   "note": ""
  },
  {
   "property": "C129",
   "status": "proved",
   "theorems": [
    "C129_test_cases"
   ],
   "note": ""
  },
  {
   "property": "C130",
   "status": "proved",
   "theorems": [
    "C130_mpmath",
    "C130_sequences"
   ],
   "note": "That the sanity checks of the tests run through is REFUTED for mpmath numbers (C130_mpmath)."
  },
  {
   "property": "C131",
   "status": "proved",
   "theorems": [
    "C131_apery_limit",
    "C131_apery_rate",
    "C131_pi_listed",
    "C131_apery_listed"
   ],
   "note": ""
  },
  {
   "property": "C132",
   "status": "proved",
   "theorems": [
    "C132_undefined",
    "C132_mixed",
    "C132_exp",
    "C132_poly",
    "C132_poly_raises"
   ],
   "note": ""
  },
  {
   "property": "C133",
   "status": "proved",
   "theorems": [
    "C133_ends",
    "C133_cos",
    "C133_sin",
    "C133_small"
   ],
   "note": ""
  },
  {
   "property": "C134",
   "status": "proved",
   "theorems": [
    "C134_true",
    "C134_oldest_refuted",
    "C134_computes"
   ],
   "note": "That every stored result is true is REFUTED for the oldest file (C134_oldest_refuted): six of its twelve rows have the wrong sign."
  },
  {
   "property": "C135",
   "status": "proved",
   "theorems": [
    "C135_results_refuted",
    "C135_empty_files",
    "C135_oldest_refuted"
   ],
   "note": "That the stored results can be converted is REFUTED (C135_results_refuted, C135_oldest_refuted)."
  },
  {
   "property": "C136",
   "status": "proved",
   "theorems": [
    "C136_numerals",
    "C136_kept",
    "C136_reported",
    "C136_run",
    "C136_small_refuted",
    "C136_close_refuted"
   ],
   "note": "That agreement in more digits always means a smaller distance is REFUTED (C136_small_refuted), and that close numbers agree in their first digits is REFUTED (C136_close_refuted)."
  },
  {
   "property": "C137",
   "status": "proved",
   "theorems": [
    "C137_values",
    "C137_objects",
    "C137_same_equation",
    "C137_recognised_refuted"
   ],
   "note": "That such duplicates are recognised is REFUTED for all of them (C137_recognised_refuted)."
  },
  {
   "property": "C138",
   "status": "proved",
   "theorems": [
    "C138_enclosed",
    "C138_estimate",
    "C138_exponential",
    "C138_converges",
    "C138_any_degree_refuted"
   ],
   "note": "That fractions with positive coefficients always converge is REFUTED (C138_any_degree_refuted). Convergence is stated as the Cauchy property of the rational values."
  },
  {
   "property": "C139",
   "status": "proved",
   "theorems": [
    "C139_close",
    "C139_converges",
    "C139_results",
    "C139_equal_refuted"
   ],
   "note": "That it suffices that |a_i| is at least |b_i| is REFUTED (C139_equal_refuted). Convergence is stated as the Cauchy property of the rational values."
  },
  {
   "property": "C140",
   "status": "proved",
   "theorems": [
    "C140_dominant",
    "C140_positive",
    "C140_results",
    "C140_bounds_refuted"
   ],
   "note": "That weaker conditions suffice is REFUTED (C140_bounds_refuted). \"Not rational\" is stated as: the rational values keep a distance from every rational number."
  },
  {
   "property": "C141",
   "status": "proved",
   "theorems": [
    "C141_pipeline",
    "C141_confirmed_twice",
    "C141_run",
    "C141_results_right_refuted"
   ],
   "note": ""
  },
  {
   "property": "C142",
   "status": "proved",
   "theorems": [
    "C142_read_written",
    "C142_saved",
    "C142_jobs",
    "C142_lone_percent",
    "C142_percent_refuted"
   ],
   "note": "For texts with percent signs it is REFUTED (C142_lone_percent, C142_percent_refuted). C142_jobs assumes that the texts written are good."
  },
  {
   "property": "C143",
   "status": "proved",
   "theorems": [
    "C143_comments",
    "C143_given_twice",
    "C143_no_section",
    "C143_end_of_line_comment_refuted",
    "C143_indented_refuted"
   ],
   "note": "That comments may stand at the end of a line and that every line with a setting sets it are REFUTED (C143_end_of_line_comment_refuted, C143_indented_refuted)."
  },
  {
   "property": "C144",
   "status": "proved",
   "theorems": [
    "C144_shipped",
    "C144_fixtures"
   ],
   "note": ""
  },
  {
   "property": "C145",
   "status": "proved",
   "theorems": [
    "C145_read_written",
    "C145_line_ends",
    "C145_carriage_return_refuted",
    "C145_export",
    "C145_different"
   ],
   "note": "That texts with carriage returns come back unchanged is REFUTED (C145_carriage_return_refuted); C145_line_ends says what comes back."
  },
  {
   "property": "C146",
   "status": "proved",
   "theorems": [
    "C146_texts",
    "C146_all_files",
    "C146_conversion_refuted",
    "C146_oldest"
   ],
   "note": "That the stored files can be converted is REFUTED (C146_conversion_refuted, C146_oldest)."
  },
  {
   "property": "C147",
   "status": "proved",
   "theorems": [
    "C147_stored"
   ],
   "note": ""
  },
  {
   "property": "C148",
   "status": "proved",
   "theorems": [
    "C148_meaning",
    "C148_distinct",
    "C148_unique",
    "C148_says_nothing",
    "C148_circle",
    "C148_chain_refuted",
    "C148_missing",
    "C148_lone_percent"
   ],
   "note": "That every reference without a circle has a value is REFUTED (C148_chain_refuted)."
  },
  {
   "property": "C149",
   "status": "proved",
   "theorems": [
    "C149_loaded",
    "C149_results_refuted"
   ],
   "note": "That the results of a search can be analysed is REFUTED (C149_results_refuted, which uses that python prints functions as texts beginning with <)."
  },
  {
   "property": "C150",
   "status": "proved",
   "theorems": [
    "C150_read",
    "C150_one_meaning"
   ],
   "note": ""
  }
 ]
}