{
 "claims": [
  {
   "property": "C01",
   "status": "proved",
   "theorems": [
    "C01_run_from_dict",
    "C01_qrels_from_dict"
   ],
   "note": "Run for every Num instance with order laws (reals and binary64); Qrels order over exact reals (int64 judgments above 2^53 lose precision in float64)."
  },
  {
   "property": "C02",
   "status": "proved",
   "theorems": [
    "C02_run_history_is_a_map",
    "C02_qrels_history_is_a_map",
    "C02_calls_do_not_raise"
   ],
   "note": ""
  },
  {
   "property": "C03",
   "status": "proved",
   "theorems": [
    "C03_run_sorted_flag",
    "C03_qrels_sorted_flag",
    "C03_run_sorted_flag_from_dict",
    "C03_metrics_read_sorted_rankings",
    "C03_after_failed_add_multi_refuted"
   ],
   "note": "holds for histories of successful NaN-free calls; refuted after an add_multi that raises"
  },
  {
   "property": "C04",
   "status": "proved",
   "theorems": [
    "C04_run_sort_permutes",
    "C04_run_sort_idempotent",
    "C04_qrels_sort_permutes"
   ],
   "note": ""
  },
  {
   "property": "C05",
   "status": "proved",
   "theorems": [
    "C05_make_comparable"
   ],
   "note": ""
  },
  {
   "property": "C06",
   "status": "proved",
   "theorems": [
    "C06_set_relevance_level"
   ],
   "note": ""
  },
  {
   "property": "C07",
   "status": "proved",
   "theorems": [
    "C07_relevance_level",
    "C07_graded_refuted"
   ],
   "note": ""
  },
  {
   "property": "C08",
   "status": "proved",
   "theorems": [
    "C08_round_trip",
    "C08_text",
    "C08_no_judgment",
    "C08_any_id_refuted"
   ],
   "note": "queries without judgments are dropped, as stated; the hypothesis on ids is necessary (C08_any_id_refuted: an id with a line end is misread silently)"
  },
  {
   "property": "C09",
   "status": "proved",
   "theorems": [
    "C09_round_trip",
    "C09_text",
    "C09_no_result",
    "C09_no_name_refuted",
    "C09_name_with_blank_refuted"
   ],
   "note": "the decimal representation of floats is a parameter; the only hypothesis on it is that the scores of the run at hand are printed without blanks and read back"
  },
  {
   "property": "C10",
   "status": "proved",
   "theorems": [
    "C10_rejected",
    "C10_save",
    "C10_load",
    "C10_parquet_gz_never_read_back",
    "C10_extension"
   ],
   "note": "save(kind='gz') writes plain text and from_file has no parquet branch: these two kinds never can be read back"
  },
  {
   "property": "C11",
   "status": "proved",
   "theorems": [
    "C11_from_df",
    "C11_bad_columns",
    "C11_round_trip",
    "C11_no_document",
    "C11_parquet",
    "C11_pd_kwargs_refuted",
    "C11_empty_query_refuted"
   ],
   "note": ""
  },
  {
   "property": "C12",
   "status": "proved",
   "theorems": [
    "C12_from_dict_fails_iff_no_document"
   ],
   "note": ""
  },
  {
   "property": "C13",
   "status": "proved",
   "theorems": [
    "C13_metric_strings",
    "C13_rbp_strings",
    "C13_rbp_needs_persistence",
    "C13_every_number"
   ],
   "note": ""
  },
  {
   "property": "C14",
   "status": "proved",
   "theorems": [
    "C14_unknown_metric",
    "C14_unknown_name",
    "C14_known_names",
    "C14_r_precision_alias_refuted",
    "C14_negative_cutoff"
   ],
   "note": ""
  },
  {
   "property": "C15",
   "status": "proved",
   "theorems": [
    "C15_paired_by_position",
    "C15_own_judgments",
    "C15_dict_order_refuted"
   ],
   "note": "The property is true of objects and of dicts in the same order; the dict-order defect is proved as a refutation."
  },
  {
   "property": "C16",
   "status": "proved",
   "theorems": [
    "C16_mismatch_refused",
    "C16_match_accepted",
    "C16_make_comparable_accepted",
    "C16_unchecked_refuted"
   ],
   "note": ""
  },
  {
   "property": "C17",
   "status": "proved",
   "theorems": [
    "C17_schedule_independent"
   ],
   "note": ""
  },
  {
   "property": "C18",
   "status": "proved",
   "theorems": [
    "C18_evaluate"
   ],
   "note": ""
  },
  {
   "property": "C19",
   "status": "proved",
   "theorems": [
    "C19_array_when_saved",
    "C19_unsaved",
    "C19_array_refuted"
   ],
   "note": ""
  },
  {
   "property": "C20",
   "status": "proved",
   "theorems": [
    "C20_only_ranking_matters"
   ],
   "note": ""
  },
  {
   "property": "C21",
   "status": "proved",
   "theorems": [
    "C21_hits",
    "C21_hit_rate",
    "C21_precision",
    "C21_recall"
   ],
   "note": ""
  },
  {
   "property": "C22",
   "status": "proved",
   "theorems": [
    "C22_f1"
   ],
   "note": ""
  },
  {
   "property": "C23",
   "status": "proved",
   "theorems": [
    "C23_r_precision",
    "C23_r_precision_is_recall"
   ],
   "note": ""
  },
  {
   "property": "C24",
   "status": "proved",
   "theorems": [
    "C24_mrr"
   ],
   "note": ""
  },
  {
   "property": "C25",
   "status": "proved",
   "theorems": [
    "C25_map"
   ],
   "note": ""
  },
  {
   "property": "C26",
   "status": "proved",
   "theorems": [
    "C26_dcg",
    "C26_dcg_burges",
    "C26_ndcg",
    "C26_ndcg_burges"
   ],
   "note": ""
  },
  {
   "property": "C27",
   "status": "proved",
   "theorems": [
    "C27_bpref",
    "C27_bpref_no_relevant",
    "C27_bpref_defined_refuted"
   ],
   "note": "defined queries proved; the undefined cases are shown to raise / give NaN"
  },
  {
   "property": "C28",
   "status": "proved",
   "theorems": [
    "C28_rbp",
    "C28_rbp_binary",
    "C28_rbp_at_least_binary",
    "C28_rbp_graded_refuted"
   ],
   "note": ""
  },
  {
   "property": "C29",
   "status": "proved",
   "theorems": [
    "C29_interpolated",
    "C29_cutoff",
    "C29_monotone_bounded",
    "C29_float_cutoff_refuted"
   ],
   "note": ""
  },
  {
   "property": "C30",
   "status": "proved",
   "theorems": [
    "C30_bounded",
    "C30_bpref_bounded",
    "C30_rbp_bounded",
    "C30_mean_bounded"
   ],
   "note": ""
  },
  {
   "property": "C31",
   "status": "proved",
   "theorems": [
    "C31_ideal_is_one",
    "C31_no_relevant_is_zero"
   ],
   "note": ""
  },
  {
   "property": "C32",
   "status": "proved",
   "theorems": [
    "C32_only_top_matters",
    "C32_monotone_in_k",
    "C32_zero_is_full_length"
   ],
   "note": ""
  },
  {
   "property": "C33",
   "status": "proved",
   "theorems": [
    "C33_swap_up"
   ],
   "note": ""
  },
  {
   "property": "C34",
   "status": "proved",
   "theorems": [
    "C34_append_nonrelevant"
   ],
   "note": ""
  },
  {
   "property": "C35",
   "status": "proved",
   "theorems": [
    "C35_far_hashes",
    "C35_small_hashes",
    "C35_collision",
    "C35_hash_injective_refuted"
   ],
   "note": ""
  },
  {
   "property": "C36",
   "status": "proved",
   "theorems": [
    "C36_lists",
    "C36_partition"
   ],
   "note": ""
  },
  {
   "property": "C37",
   "status": "proved",
   "theorems": [
    "C37_norm_keeps",
    "C37_schedule_independent",
    "C37_sorted_flag"
   ],
   "note": ""
  },
  {
   "property": "C38",
   "status": "proved",
   "theorems": [
    "C38_min_max",
    "C38_min_max_inverted"
   ],
   "note": ""
  },
  {
   "property": "C39",
   "status": "proved",
   "theorems": [
    "C39_max",
    "C39_sum",
    "C39_zmuv",
    "C39_max_unbounded_below"
   ],
   "note": ""
  },
  {
   "property": "C40",
   "status": "proved",
   "theorems": [
    "C40_rank",
    "C40_unsorted_refuted"
   ],
   "note": "holds for ranked runs; the _refuted theorem shows the unconditional claim is false for unsorted runs"
  },
  {
   "property": "C41",
   "status": "proved",
   "theorems": [
    "C41_borda",
    "C41_borda_sorted",
    "C41_misaligned_refuted"
   ],
   "note": "needs the same query order; the _refuted theorem shows it is needed"
  },
  {
   "property": "C42",
   "status": "proved",
   "theorems": [
    "C42_fuse_union"
   ],
   "note": ""
  },
  {
   "property": "C43",
   "status": "proved",
   "theorems": [
    "C43_comb_sum",
    "C43_comb_max",
    "C43_comb_min",
    "C43_comb_med",
    "C43_comb_anz",
    "C43_comb_mnz",
    "C43_comb_gmnz",
    "C43_comb_max_sentinel",
    "C43_comb_min_sentinel"
   ],
   "note": "comb_max/comb_min start from -1e9/1e9; the sentinel theorems state exactly when the result is the sentinel"
  },
  {
   "property": "C44",
   "status": "proved",
   "theorems": [
    "C44_isr",
    "C44_log_isr",
    "C44_logn_isr",
    "C44_logn_isr_rejects",
    "C44_rrf",
    "C44_rbc"
   ],
   "note": ""
  },
  {
   "property": "C45",
   "status": "proved",
   "theorems": [
    "C45_wsum",
    "C45_wmnz",
    "C45_mixed",
    "C45_unit_weights",
    "C45_too_few_weights"
   ],
   "note": ""
  },
  {
   "property": "C46",
   "status": "proved",
   "theorems": [
    "C46_bordafuse",
    "C46_weighted_bordafuse",
    "C46_misaligned_refuted"
   ],
   "note": "proved for runs storing their queries in the same order; the refuted theorem shows the code mixes queries up otherwise"
  },
  {
   "property": "C47",
   "status": "proved",
   "theorems": [
    "C47_condorcet",
    "C47_weighted_condorcet",
    "C47_scores_irrelevant",
    "C47_unanimity_refuted"
   ],
   "note": "unanimity_refuted: with tied majorities the code may rank c before a although every run ranks a before c"
  },
  {
   "property": "C48",
   "status": "proved",
   "theorems": [
    "C48_run_order",
    "C48_weighted_run_order",
    "C48_normalised_order"
   ],
   "note": ""
  },
  {
   "property": "C49",
   "status": "proved",
   "theorems": [
    "C49_monotone"
   ],
   "note": ""
  },
  {
   "property": "C50",
   "status": "proved",
   "theorems": [
    "C50_fuse_sorted",
    "C50_sorted_flag"
   ],
   "note": ""
  },
  {
   "property": "C51",
   "status": "proved",
   "theorems": [
    "C51_few_runs",
    "C51_different_queries",
    "C51_unknown_norm",
    "C51_unknown_method",
    "C51_dispatch",
    "C51_unexpected_keyword",
    "C51_missing_keyword",
    "C51_name",
    "C51_integer_value"
   ],
   "note": ""
  },
  {
   "property": "C52",
   "status": "proved",
   "theorems": [
    "C52_ranked_by_score",
    "C52_sort_ranks_by_score",
    "C52_add_score_rank",
    "C52_unsorted_refuted"
   ],
   "note": ""
  },
  {
   "property": "C53",
   "status": "proved",
   "theorems": [
    "C53_posfuse_train",
    "C53_slidefuse_train",
    "C53_probfuse_train",
    "C53_segfuse_train",
    "C53_unchecked_refuted"
   ],
   "note": "Over reals, judgments and runs over the same queries (trainable). Finding: training does not check that, and pairs queries by position."
  },
  {
   "property": "C54",
   "status": "proved",
   "theorems": [
    "C54_posfuse",
    "C54_slidefuse",
    "C54_window_range",
    "C54_slidefuse_bounds",
    "C54_zero_window"
   ],
   "note": "Over reals; positions never seen in training count 0."
  },
  {
   "property": "C55",
   "status": "proved",
   "theorems": [
    "C55_probfuse_partition",
    "C55_segfuse_partition",
    "C55_probfuse",
    "C55_segfuse"
   ],
   "note": "SegFuse: up to the 5115 positions its segments cover."
  },
  {
   "property": "C56",
   "status": "proved",
   "theorems": [
    "C56_mapfuse_train",
    "C56_bayesfuse_train",
    "C56_mapfuse",
    "C56_bayesfuse",
    "C56_bayesfuse_out_of_range"
   ],
   "note": "Over reals."
  },
  {
   "property": "C57",
   "status": "proved",
   "theorems": [
    "C57_best_trial",
    "C57_slidefuse",
    "C57_probfuse",
    "C57_training_only",
    "C57_refused",
    "C57_unknown_method",
    "C57_float_grid",
    "C57_int_grid",
    "str_int_inj",
    "C57_report_refused",
    "C57_which_error"
   ],
   "note": "scores as returned by evaluate on the fused run; proved for every Num with the order laws, hence for reals and binary64; the grids over the reals / integers"
  },
  {
   "property": "C58",
   "status": "proved",
   "theorems": [
    "C58_exact",
    "C58_binary64_refuted",
    "C58_no_point_refuted"
   ],
   "note": "exact over the reals; refuted in binary64 and for a step printed without a decimal point (an int, 1e-05)"
  },
  {
   "property": "C59",
   "status": "proved",
   "theorems": [
    "C59_table",
    "C59_agrees",
    "C59_shown",
    "C59_labels_refuted",
    "C59_ties_refuted"
   ],
   "note": ""
  },
  {
   "property": "C60",
   "status": "proved",
   "theorems": [
    "C60_win_tie_loss",
    "C60_nan_refuted"
   ],
   "note": "C60_nan_refuted: a reachable comparison (bpref without judged non-relevant documents) whose counts do not add up to the number of queries."
  },
  {
   "property": "C61",
   "status": "proved",
   "theorems": [
    "C61_comparisons",
    "C61_tukey",
    "C61_other_tests",
    "C61_same_name_refuted",
    "C61_no_entry"
   ],
   "note": "The t-test and Tukey's HSD p-values of scipy are parameters of the model."
  },
  {
   "property": "C62",
   "status": "proved",
   "theorems": [
    "C62_frequency",
    "C62_lengths",
    "C62_equal_means",
    "C62_symmetric",
    "C62_threshold"
   ],
   "note": "Over the reals, for every random stream."
  },
  {
   "property": "C63",
   "status": "proved",
   "theorems": [
    "C63_superscripts",
    "C63_alphabets",
    "C63_total",
    "C63_too_many",
    "C63_table",
    "C63_tables_total",
    "C63_precision",
    "C63_same_name_refuted",
    "C63_same_metric_refuted"
   ],
   "note": "superscripts are exact; table letters match rows if names and metrics are distinct (refuted otherwise); tables cannot be made with more than 26 models or an invalid number of digits. tabulate's layout is not modelled."
  },
  {
   "property": "C64",
   "status": "proved",
   "theorems": [
    "C64_best",
    "C64_total",
    "C64_latex"
   ],
   "note": "round, %-formatting and str of floats are parameters; str.replace is modelled"
  },
  {
   "property": "C65",
   "status": "proved",
   "theorems": [
    "C65_to_dict",
    "C65_to_dataframe",
    "C65_names_refuted"
   ],
   "note": "the header keys are lost if a model has their name (refuted)"
  },
  {
   "property": "C66",
   "status": "proved",
   "theorems": [
    "C66_labels",
    "C66_distinct",
    "C66_no_label",
    "C66_rbp_refuted",
    "C66_hub",
    "C66_hub_refuted",
    "C66_table_refuted"
   ],
   "note": ""
  },
  {
   "property": "C67",
   "status": "proved",
   "theorems": [
    "C67_safe",
    "C67_atomic",
    "C67_retry_succeeds",
    "C67_truncated_refuted",
    "C67_error_page_refuted",
    "C67_no_size_refuted",
    "C67_changed_refuted",
    "C67_write"
   ],
   "note": "transition system with kills at any byte; the refuted theorems show that each hypothesis on the server is needed"
  },
  {
   "property": "C68",
   "status": "proved",
   "theorems": [
    "C68_results",
    "C68_compare"
   ],
   "note": "C68_results for every number system, C68_compare end to end over the reals."
  },
  {
   "property": "C69",
   "status": "proved",
   "theorems": [
    "C69_qrels_json",
    "C69_run_json",
    "C69_run_lz4",
    "C69_infinite_refuted"
   ],
   "note": "the file formats themselves (orjson, cbor2, lz4) are abstract"
  },
  {
   "property": "C70",
   "status": "proved",
   "theorems": [
    "C70_pd_kwargs"
   ],
   "note": ""
  },
  {
   "property": "C71",
   "status": "proved",
   "theorems": [
    "C71_cached",
    "C71_overlap_refuted"
   ],
   "note": ""
  },
  {
   "property": "C72",
   "status": "proved",
   "theorems": [
    "C72_save",
    "C72_save_fails",
    "C72_round_trip",
    "C72_any_metric_refuted",
    "C72_levels_refuted",
    "C72_empty_results_refuted"
   ],
   "note": ""
  },
  {
   "property": "C73",
   "status": "proved",
   "theorems": [
    "C73_curves",
    "C73_shape",
    "C73_no_runs",
    "C73_axis_binary64",
    "C73_other_queries_refuted"
   ],
   "note": ""
  },
  {
   "property": "C74",
   "status": "proved",
   "theorems": [
    "C74_inside",
    "C74_distinct_files",
    "C74_distinct_urls",
    "C74_any_id_refuted",
    "C74_escape_refuted",
    "C74_nested_refuted",
    "C74_relative",
    "C74_url"
   ],
   "note": ""
  },
  {
   "property": "C75",
   "status": "proved",
   "theorems": [
    "C75_qrels_agrees",
    "C75_run_agrees",
    "C75_saved_qrels",
    "C75_saved_run",
    "C75_any_text_refuted"
   ],
   "note": ""
  },
  {
   "property": "C76",
   "status": "proved",
   "theorems": [
    "C76_hits_exact",
    "C76_hit_rate_exact",
    "C76_precision_rounded",
    "C76_recall_rounded",
    "C76_r_precision_rounded",
    "C76_mrr_rounded"
   ],
   "note": "binary64 by the standard library's SpecFloat, related to reals through Flocq; query64 bounds judgments by 2^53 and lengths by 2^52"
  },
  {
   "property": "C77",
   "status": "proved",
   "theorems": [
    "C77_f1_accurate",
    "C77_map_accurate"
   ],
   "note": "fsum is the sequential sum numba performs"
  },
  {
   "property": "C78",
   "status": "proved",
   "theorems": [
    "C78_ndcg_accurate",
    "C78_ndcg_burges_accurate",
    "C78_ideal_is_exactly_one",
    "C78_ndcg_binary_01",
    "C78_graded_above_one_refuted"
   ],
   "note": "log2 and pow are library functions: hypotheses log2_accurate, log2_monotone, pow2_exact, shown satisfiable by the correctly rounded functions (log2_64_accurate, log2_64_monotone, pow_64_exact)"
  },
  {
   "property": "C79",
   "status": "proved",
   "theorems": [
    "C79_runs",
    "C79_qrels",
    "C79_evaluate"
   ],
   "note": ""
  },
  {
   "property": "C80",
   "status": "proved",
   "theorems": [
    "C80_mean_any_order",
    "C80_evaluate"
   ],
   "note": "The model of evaluate adds the scores from left to right; C80_mean_any_order covers every other order of summation, such as numpy's pairwise one. Bound of binary64 sums: at most 2^52 numbers."
  },
  {
   "property": "C81",
   "status": "proved",
   "theorems": [
    "C81_min_max",
    "C81_min_max_inverted",
    "C81_max",
    "C81_rank",
    "C81_ties_refuted",
    "C81_sum_refuted"
   ],
   "note": "zmuv is not covered in binary64. The refuted theorems are concrete runs on which scores collapse into ties and on which sum normalisation exceeds 10^9."
  },
  {
   "property": "C82",
   "status": "proved",
   "theorems": [
    "C82_perfect",
    "C82_zero"
   ],
   "note": "Over the reals, per query; ndcg for relevance levels >= 1 and judgments stored in descending order (as sorted qrels are)."
  },
  {
   "property": "C83",
   "status": "proved",
   "theorems": [
    "C83_same_runs",
    "C83_more_runs",
    "C83_ranks",
    "C83_strict_scores",
    "C83_strict_ranks",
    "C83_log_isr_single",
    "C83_extra_run_refuted"
   ],
   "note": "Over the reals; bordafuse for runs that store their queries in the same order (see C46). Condorcet does not have the property: C47_unanimity_refuted."
  },
  {
   "property": "C84",
   "status": "proved",
   "theorems": [
    "C84_sum",
    "C84_max_min",
    "C84_med_anz_mnz",
    "C84_wsum",
    "C84_rrf",
    "C84_isr",
    "C84_unanimity",
    "C84_rank_unanimity",
    "C84_order",
    "C84_order_refuted",
    "C84_strict_refuted",
    "C84_rank_order",
    "C84_rrf_order_refuted"
   ],
   "note": "The scores are Coq's SpecFloat binary64 numbers; their meaning as reals comes from Flocq. gmnz, log_isr, logn_isr and rbc need pow or ln, whose rounding the model leaves open. The two _refuted theorems show that the exact-arithmetic statements about the order of the runs (C48) and strictness (C83) do not carry over."
  },
  {
   "property": "C85",
   "status": "proved",
   "theorems": [
    "C85_own_query_only",
    "C85_ids_carry_no_meaning",
    "C85_mean_of_parts",
    "C85_ties_refuted"
   ],
   "note": "Two-run (relational) theorems over the reals about evaluate as modelled for C18. _refuted: in binary64, two runs with the same tied results added in different order have mrr 1 and 0.5."
  },
  {
   "property": "C86",
   "status": "proved",
   "theorems": [
    "C86_nonrelevant_judgments",
    "C86_bpref_ignores_unjudged",
    "C86_bpref_refuted"
   ],
   "note": "The bpref theorem assumes no tied scores (removing results may reorder ties). _refuted: bpref falls from 1 to 0.5 when an unjudged document is judged non-relevant."
  },
  {
   "property": "C87",
   "status": "proved",
   "theorems": [
    "C87_best_results_suffice",
    "C87_cutoff_ignored_refuted"
   ],
   "note": "_refuted: r-precision@1 and bpref@1 change from 1 to 0.5 when the second result is dropped."
  },
  {
   "property": "C88",
   "status": "proved",
   "theorems": [
    "C88_normalize_own_results",
    "C88_fuse_own_results",
    "C88_query_order_refuted"
   ],
   "note": "Two-run theorems for any Num, no axioms. The two processes must break sorting ties and iterate sets alike (same_orders). _refuted: in binary64, storing the queries of one run in the other order changes the bordafuse ranking of q2 from a,c to c,a,b."
  },
  {
   "property": "C89",
   "status": "proved",
   "theorems": [
    "C89_normalize",
    "C89_fuse",
    "C89_twice",
    "C89_close_scores_refuted",
    "C89_max_shift_refuted"
   ],
   "note": "Over the reals. _refuted: scores 10^-10 and 0 are min-max normalised to 0.1 and 0, their multiples 1 and 0 to 1 and 0; max normalisation does not undo a shift."
  },
  {
   "property": "C90",
   "status": "proved",
   "theorems": [
    "C90_lists",
    "C90_objects_as_lists",
    "C90_unsorted_list_refuted",
    "C90_longer_run_refuted"
   ],
   "note": "For a single metric C90_lists requires return_mean=True (see C19 for the other case). Found by a surviving mutation: no earlier theorem spoke about typed lists."
  },
  {
   "property": "C91",
   "status": "proved",
   "theorems": [
    "C91_same_contents",
    "C91_saved_and_loaded"
   ],
   "note": "Over the reals (as C85). The formats of orjson, cbor/lz4 and parquet are abstract values that their library reads back (see C69, C11); TREC text is modelled character by character."
  },
  {
   "property": "C92",
   "status": "proved",
   "theorems": [
    "C92_step",
    "C92_no_sharing",
    "C92_write_run",
    "C92_write_qrels",
    "C92_view_live",
    "C92_view_owner",
    "C92_view_detached",
    "C92_order_refuted"
   ],
   "note": "A memory model (M_Heap) beside the value model: theorem C92_step shows that the value model used by all other theorems is what the program with references observes. The outer dictionary (attributes run.run, qrels.qrels) is not handed to the caller in this model; normalisation and fusion are modelled as allocating all inner dictionaries anew (as the code does)."
  },
  {
   "property": "C93",
   "status": "proved",
   "theorems": [
    "C93_run_reads",
    "C93_qrels_reads",
    "C93_from_ir_datasets"
   ],
   "note": "ir_datasets itself is a parameter (what load(id).qrels_dict() returns or raises). __repr__/__str__ are numba's and not modelled. There is no __iter__ or __contains__: `q in run` and `for q in run` go through __getitem__ with integers, which is outside the model."
  },
  {
   "property": "C94",
   "status": "proved",
   "theorems": [
    "C94_relevance_only",
    "C94_truncation",
    "C94_add_score",
    "C94_graded_refuted",
    "C94_negative_level_refuted",
    "C94_failed_add_score_refuted",
    "C94_add_multi"
   ],
   "note": "C94_relevance_only holds for every number type, so for binary64 and NaN judgments too. The query order of a plain dict must be the one the other argument is walked in (see C15). OverflowError for infinities is reported as ValueError, judgments beyond int64 are not modelled."
  },
  {
   "property": "C95",
   "status": "proved",
   "theorems": [
    "C95_evaluate",
    "C95_normalize",
    "C95_fuse",
    "C95_optimize",
    "C95_compare",
    "C95_plot",
    "C95_set_relevance_level",
    "C95_program"
   ],
   "note": "An iteration is one atomic step: the loops modelled write one slot, or the entries of one query, each. Which of several exceptions is raised may depend on the schedule. compare: for the same outcomes of the random draws of Fisher's test. C95_set_relevance_level needs dictionaries without duplicate keys, as every constructor makes them."
  },
  {
   "property": "C96",
   "status": "proved",
   "theorems": [
    "C96_lines",
    "C96_qrels_file",
    "C96_run_file",
    "C96_number_spelling",
    "C96_number_refused",
    "C96_second_cutoff_refuted"
   ],
   "note": "White space and digits are the ASCII ones, float() of a text is a parameter that may only raise ValueError. C96_number_refused is about pieces without '@', '-l' and 'rbp', which have another meaning."
  },
  {
   "property": "C97",
   "status": "proved",
   "theorems": [
    "C97_any_history",
    "C97_any_pool_history",
    "C97_several_metrics",
    "C97_several_raise",
    "C97_saved_together",
    "C97_comparable_refuted"
   ],
   "note": "Dictionaries have distinct keys (qarg_ok, rarg_ok). C97_several_* are for return_mean=True and save_results_in_run=False (with return_mean=False a single metric with a cut-off raises KeyError, see C19). C97_saved_together lists each metric once. C97_comparable_refuted uses an environment whose argsort places later ties first, which the unstable sort of numpy permits."
  },
  {
   "property": "C98",
   "status": "proved",
   "theorems": [
    "C98_dcg",
    "C98_dcg_burges",
    "C98_bpref",
    "C98_interpolated",
    "C98_interpolated_refuted"
   ],
   "note": "log2 and pow are parameters with stated accuracy (log2_accurate, pow2_exact), met by the correctly rounded functions (T_Float2.v). bpref is for queries with relevant and judged non-relevant documents (otherwise the code divides by zero, see C27). dcg needs a relevance level >= 1. rank-biased precision is left out: the accuracy of p**n is not specified by IEEE and the model computes it by repeated multiplication."
  },
  {
   "property": "C99",
   "status": "proved",
   "theorems": [
    "C99_fuse",
    "C99_evaluate",
    "C99_borda_ranks_refuted"
   ],
   "note": "over the reals; runs of at most 1000000 results per query, the index Condorcet uses for missing documents (short_results). Trained methods and majority methods on score ranges are left out (C83 covers pairs of documents)."
  },
  {
   "property": "C100",
   "status": "proved",
   "theorems": [
    "C100_reproduces",
    "C100_found",
    "C100_unsorted_refuted"
   ],
   "note": "for every Num with the order laws; the texts of the trials (str of floats and tuples, a parameter of the model) are assumed to differ, otherwise the report's dictionary overwrites entries; for integer grids this is proved"
  },
  {
   "property": "C101",
   "status": "proved",
   "theorems": [
    "C101_scaled",
    "C101_condorcet",
    "C101_equal",
    "C101_equal_condorcet",
    "C101_evaluate",
    "C101_binary64_refuted"
   ],
   "note": "over the reals, through fuse with any normalisation; the refutation evaluates the model in binary64"
  },
  {
   "property": "C102",
   "status": "proved",
   "theorems": [
    "C102_ranks_like",
    "C102_evaluate",
    "C102_inverted_twice",
    "C102_exceptions_refuted"
   ],
   "note": "over the reals (in binary64 division can merge close scores: C81); zmuv for runs without empty queries"
  },
  {
   "property": "C103",
   "status": "proved",
   "theorems": [
    "C103_bordafuse",
    "C103_weighted",
    "C103_order",
    "C103_unanimity"
   ],
   "note": "binary64 additions, divisions and roundings as in C84; the points of C46 restated for runs with binary64 scores"
  },
  {
   "property": "C104",
   "status": "proved",
   "theorems": [
    "C104_condorcet",
    "C104_weighted",
    "C104_majority",
    "C104_weights_refuted"
   ],
   "note": "a run with binary64 scores is read as the run with the real scores they denote; the real run is the one of C47"
  }
 ]
}