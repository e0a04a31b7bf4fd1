{
 "claims": [
  {
   "property": "C01",
   "status": "proved",
   "theorems": [
    "C01_occurrences_conserved"
   ],
   "note": "float64; serial and every parallel outcome; all shapes"
  },
  {
   "property": "C02",
   "status": "proved",
   "theorems": [
    "C02_serial_neighbours_are_nearest",
    "C02_parallel_neighbours_are_nearest"
   ],
   "note": "float64"
  },
  {
   "property": "C03",
   "status": "proved",
   "theorems": [
    "C03_never_own_neighbour"
   ],
   "note": "float64"
  },
  {
   "property": "C04",
   "status": "proved",
   "theorems": [
    "C04_parallel_equals_serial"
   ],
   "note": "every distribution of rows to workers and every interleaving of cell writes"
  },
  {
   "property": "C05",
   "status": "proved",
   "theorems": [
    "C05_tall_similarity_raises",
    "C05_wide_similarity_wrong_ranks",
    "C04_parallel_equals_serial"
   ],
   "note": "defect, characterised for every shape"
  },
  {
   "property": "C06",
   "status": "proved",
   "theorems": [
    "C06_shuffle_irrelevant_without_ties",
    "C06_result_determined_by_order"
   ],
   "note": ""
  },
  {
   "property": "C07",
   "status": "proved",
   "theorems": [
    "C07_mp_distance_formula",
    "C07_mp_similarity_formula"
   ],
   "note": "float64, n up to 2^53"
  },
  {
   "property": "C08",
   "status": "proved",
   "theorems": [
    "C08_mp_range"
   ],
   "note": "float64 including rounding"
  },
  {
   "property": "C09",
   "status": "proved",
   "theorems": [
    "C09_mp_distance_order_invariant",
    "C09_mp_similarity_order_invariant"
   ],
   "note": "bit-for-bit"
  },
  {
   "property": "C10",
   "status": "proved",
   "theorems": [
    "C10_mp_duality",
    "C10_ties_break_duality"
   ],
   "note": "equality without ties, inequality always, witness with ties"
  },
  {
   "property": "C11",
   "status": "proved",
   "theorems": [
    "C11_sample_all_equals_full",
    "C11_sample_formula"
   ],
   "note": ""
  },
  {
   "property": "C12",
   "status": "proved",
   "theorems": [
    "C12_sparse_equals_dense_exact",
    "C12_sparse_close_to_dense_float64",
    "C12_sparse_schedule_independent",
    "C12_float64_not_bit_identical",
    "C12_self_tie_witness"
   ],
   "note": ""
  },
  {
   "property": "C13",
   "status": "proved",
   "theorems": [
    "C13_test_ind_ignored"
   ],
   "note": "defect, characterised for all index arrays and masks"
  },
  {
   "property": "C14",
   "status": "proved",
   "theorems": [
    "C14_snn_formula",
    "C14_k_out_of_range_raises"
   ],
   "note": "float64, every legal k, every contract-abiding argpartition"
  },
  {
   "property": "C15",
   "status": "proved",
   "theorems": [
    "C15_snn_parallel_equals_serial"
   ],
   "note": "both pool phases, every distribution and interleaving"
  },
  {
   "property": "C17",
   "status": "proved",
   "theorems": [
    "C17_index_is_gamma",
    "C17_fast_equals_naive",
    "C17_no_comparable_pair_is_zero"
   ],
   "note": "float64; at most 2^53 comparable quadruples (beyond that the float accumulators round)"
  },
  {
   "property": "C18",
   "status": "proved",
   "theorems": [
    "C18_range",
    "C18_metric_switch_negates",
    "C18_monotone_invariance",
    "C18_relabelling_invariance"
   ],
   "note": "float64; same bound"
  },
  {
   "property": "C19",
   "status": "proved",
   "theorems": [
    "C19_sparse_equals_dense",
    "C19_negative_values_differ"
   ],
   "note": "float64; same bound"
  },
  {
   "property": "C49",
   "status": "proved",
   "theorems": [
    "C49_zero_as_missing_value",
    "C49_heuristic_exact_without_ties",
    "C49_heuristic_wrong_with_ties"
   ],
   "note": "float64; same bound"
  },
  {
   "property": "C20",
   "status": "proved",
   "theorems": [
    "C20_leave_one_out",
    "C20_sample",
    "C20_test_set"
   ],
   "note": "float64; all three modes"
  },
  {
   "property": "C21",
   "status": "proved",
   "theorems": [
    "C21_exact_accuracy",
    "C21_float_accuracy_above_one"
   ],
   "note": "defect: every 9-point problem with a single class"
  },
  {
   "property": "C22",
   "status": "proved",
   "theorems": [
    "C22_score_no_leak",
    "C22_predict_no_leak"
   ],
   "note": "float64"
  },
  {
   "property": "C23",
   "status": "proved",
   "theorems": [
    "C23_majority",
    "C23_majority_sample",
    "C23_tie_outsider",
    "C23_tie_witness",
    "C50_predict_returns_ranks"
   ],
   "note": "float64; predict covered by C50"
  },
  {
   "property": "C24",
   "status": "proved",
   "theorems": [
    "C24_wrong_training_set",
    "C24_leading_test_set"
   ],
   "note": "defect, characterised for every matrix and test set"
  },
  {
   "property": "C25",
   "status": "proved",
   "theorems": [
    "C25_f1_exact",
    "C25_f1_range",
    "C25_micro",
    "C25_macro_exact",
    "C25_weighted_exact",
    "C25_macro_range",
    "C25_weighted_range",
    "C25_weighted_error"
   ],
   "note": "formulas in exact arithmetic, ranges in float64 (counts up to 2^53), for every association of the sums"
  },
  {
   "property": "C26",
   "status": "proved",
   "theorems": [
    "C26_predict_test_ind_fails",
    "C26_predict_without_test_ind"
   ],
   "note": "defect"
  },
  {
   "property": "C50",
   "status": "proved",
   "theorems": [
    "C50_predict_returns_ranks",
    "C50_witness",
    "C50_zero_k_raises"
   ],
   "note": "defect"
  },
  {
   "property": "C51",
   "status": "proved",
   "theorems": [
    "C51_few_neighbours"
   ],
   "note": "float64"
  },
  {
   "property": "C16",
   "status": "proved",
   "theorems": [
    "C16_snn_sample_self_cells",
    "C16_snn_sample_witness",
    "C16_ls_sample_self_cells",
    "C16_nicdm_sample_self_cells"
   ],
   "note": "defect; snn in float64, local scaling and nicdm in exact arithmetic"
  },
  {
   "property": "C27",
   "status": "proved",
   "theorems": [
    "C27_ls_formula",
    "C27_ls_float64_symmetric"
   ],
   "note": "formula in exact arithmetic, shape and symmetry in float64"
  },
  {
   "property": "C28",
   "status": "proved",
   "theorems": [
    "C28_ls_scale_free",
    "C28_nicdm_scales_linearly"
   ],
   "note": "exact arithmetic"
  },
  {
   "property": "C29",
   "status": "proved",
   "theorems": [
    "C29_some_outcome",
    "C29_ls_schedule_independent",
    "C29_nicdm_some_outcome",
    "C29_nicdm_schedule_independent"
   ],
   "note": "float64, any exp/log/sum"
  },
  {
   "property": "C30",
   "status": "proved",
   "theorems": [
    "C30_similarity_order_reversed"
   ],
   "note": "defect; exact arithmetic"
  },
  {
   "property": "C31",
   "status": "proved",
   "theorems": [
    "C31_duplicates_give_nan"
   ],
   "note": "defect"
  },
  {
   "property": "C32",
   "status": "proved",
   "theorems": [
    "C32_nicdm_formula",
    "C32_nicdm_float64_symmetric"
   ],
   "note": "formula in exact arithmetic, shape and symmetry in float64"
  },
  {
   "property": "C52",
   "status": "proved",
   "theorems": [
    "C52_ls_k_unchecked",
    "C52_nicdm_k_equals_n"
   ],
   "note": "defect; exact arithmetic"
  },
  {
   "property": "C53",
   "status": "proved",
   "theorems": [
    "C53_similarity_test_ind_rank"
   ],
   "note": "defect; float64"
  },
  {
   "property": "C54",
   "status": "proved",
   "theorems": [
    "C54_nonpositive_n_jobs"
   ],
   "note": "defect; float64"
  },
  {
   "property": "C33",
   "status": "proved",
   "theorems": [
    "C33_vector_formula",
    "C33_zero_mean",
    "C33_idempotent",
    "C33_translation_invariant",
    "C33_kernel_formula",
    "C33_kernel_is_gram_of_centred",
    "C33_errors"
   ],
   "note": "exact arithmetic"
  },
  {
   "property": "C34",
   "status": "proved",
   "theorems": [
    "C34_gamma_zero",
    "C34_mask_ignored",
    "C34_euclidean_is_plain"
   ],
   "note": "exact arithmetic; the masked case is a defect"
  },
  {
   "property": "C35",
   "status": "proved",
   "theorems": [
    "C35_dis_sim_global",
    "C35_translation_invariant",
    "C35_dimension_mismatch"
   ],
   "note": "exact arithmetic"
  },
  {
   "property": "C36",
   "status": "proved",
   "theorems": [
    "C36_kappa_n_is_centering",
    "C36_same_ranking"
   ],
   "note": "exact arithmetic"
  },
  {
   "property": "C37",
   "status": "proved",
   "theorems": [
    "C37_cosine_distance"
   ],
   "note": "exact arithmetic"
  },
  {
   "property": "C55",
   "status": "proved",
   "theorems": [
    "C55_weights_favour_dissimilar"
   ],
   "note": "defect; exact arithmetic"
  },
  {
   "property": "C56",
   "status": "proved",
   "theorems": [
    "C56_dis_sim_local",
    "C56_dis_sim_local_two",
    "C56_translation_invariant",
    "C56_k_too_large",
    "C56_some_outcome",
    "C56_schedule_independent"
   ],
   "note": "formula in exact arithmetic, schedule independence in float64"
  },
  {
   "property": "C57",
   "status": "proved",
   "theorems": [
    "C57_lp_norm",
    "C57_dissimilarity",
    "C57_p_required"
   ],
   "note": "exact arithmetic"
  },
  {
   "property": "C58",
   "status": "proved",
   "theorems": [
    "C58_localized_centering",
    "C58_scale_free",
    "C58_kappa_too_large",
    "C58_some_outcome",
    "C58_schedule_independent"
   ],
   "note": "formula in exact arithmetic, schedule independence in float64"
  },
  {
   "property": "C59",
   "status": "proved",
   "theorems": [
    "C59_training_points_are_own_neighbours",
    "C59_k1_returns_plain_distances"
   ],
   "note": "defect; exact arithmetic"
  },
  {
   "property": "C38",
   "status": "proved",
   "theorems": [
    "C38_linearizable",
    "C38_distinct_values",
    "C38_final_value",
    "C38_no_deadlock",
    "C38_death_inside_a_call_blocks"
   ],
   "note": ""
  },
  {
   "property": "C39",
   "status": "proved",
   "theorems": [
    "C39_nd_array",
    "C39_distance_matrix",
    "C39_fits_vectors",
    "C39_fits_labels",
    "C39_sample",
    "C39_metric"
   ],
   "note": ""
  },
  {
   "property": "C40",
   "status": "proved",
   "theorems": [
    "C40_round_trip",
    "C40_name_without_npz"
   ],
   "note": "second part is a defect"
  },
  {
   "property": "C60",
   "status": "proved",
   "theorems": [
    "C60_batches_cover_and_fit",
    "C60_too_little_memory"
   ],
   "note": "quotients computed exactly"
  },
  {
   "property": "C61",
   "status": "proved",
   "theorems": [
    "C61_valid_similarity"
   ],
   "note": "exact arithmetic"
  },
  {
   "property": "C41",
   "status": "proved",
   "theorems": [
    "C41_names_split",
    "C41_history",
    "C41_unknown_name",
    "C41_every_call_ends",
    "C41_experiment_contents"
   ],
   "note": "float64; intrinsic dimension and the Gaussian and Gamma variants are arbitrary functions; printing not modelled"
  },
  {
   "property": "C62",
   "status": "proved",
   "theorems": [
    "C62_vector_methods_without_vectors",
    "C62_default_analysis_raises"
   ],
   "note": "defect"
  },
  {
   "property": "C63",
   "status": "proved",
   "theorems": [
    "C63_similarity_analysis_inverts_vector_methods"
   ],
   "note": "defect"
  },
  {
   "property": "C42",
   "status": "proved",
   "theorems": [
    "C42_gini_algorithms_agree",
    "C42_gini_range"
   ],
   "note": "exact sums; float range for 2*n*sum <= 2^53"
  },
  {
   "property": "C43",
   "status": "proved",
   "theorems": [
    "C43_measures",
    "C43_hood_exact",
    "C43_atkinson_exact"
   ],
   "note": "counts and rates in float64 below 2^53; Robin-Hood and Atkinson indices over exact arithmetic; skewness measures: C159"
  },
  {
   "property": "C44",
   "status": "proved",
   "theorems": [
    "C44_constructor"
   ],
   "note": ""
  },
  {
   "property": "C45",
   "status": "proved",
   "theorems": [
    "C45_batching_irrelevant",
    "C45_runs_exist",
    "C45_nearest_training_vectors",
    "C45_batch_size_zero"
   ],
   "note": "the distance of two rows is any function of the two rows"
  },
  {
   "property": "C46",
   "status": "proved",
   "theorems": [
    "C46_self_dropped_precomputed",
    "C46_self_dropped_vectors",
    "C46_duplicate_keeps_self"
   ],
   "note": "second part is a defect"
  },
  {
   "property": "C64",
   "status": "proved",
   "theorems": [
    "C64_cosine_never_works"
   ],
   "note": "defect"
  },
  {
   "property": "C65",
   "status": "proved",
   "theorems": [
    "C65_negative_batch_size"
   ],
   "note": "defect"
  },
  {
   "property": "C66",
   "status": "proved",
   "theorems": [
    "C66_sparse_neighbours",
    "C66_self_entries_are_neighbours"
   ],
   "note": "last part is a defect"
  },
  {
   "property": "C47",
   "status": "proved",
   "theorems": [
    "C47_exact",
    "C47_float",
    "C47_overflow"
   ],
   "note": "C47_exact over exact arithmetic, C47_float and C47_overflow (defect) over float64"
  },
  {
   "property": "C48",
   "status": "proved",
   "theorems": [
    "C48_distinct",
    "C48_error",
    "C48_duplicates_summed",
    "C48_padding"
   ],
   "note": "defect"
  },
  {
   "property": "C67",
   "status": "proved",
   "theorems": [
    "C67_greedy",
    "C67_distinct",
    "C67_zero_draw",
    "C67_zero_draw_repeats",
    "C67_too_many",
    "C67_errors"
   ],
   "note": "exact arithmetic"
  },
  {
   "property": "C68",
   "status": "proved",
   "theorems": [
    "C68_value",
    "C68_total",
    "C68_outcome",
    "C68_jobs",
    "C68_range",
    "C68_equals_exact_mp"
   ],
   "note": "float32 data, counts divided in float64 and stored as float32; the distance of two rows is any function; range below 2^53 vantage points"
  },
  {
   "property": "C69",
   "status": "proved",
   "theorems": [
    "C69_value",
    "C69_bias",
    "C69_bias_witness",
    "C69_range",
    "C69_nan"
   ],
   "note": "exact arithmetic; the survival function is any function with values in [0,1] for positive deviation and NaN for deviation 0"
  },
  {
   "property": "C70",
   "status": "proved",
   "theorems": [
    "C70_ls_value",
    "C70_unknown_metric",
    "C70_ls_range",
    "C70_nicdm_value",
    "C70_nicdm_depends_on_partition"
   ],
   "note": "C70_ls_value and C70_unknown_metric over float32, the others over exact arithmetic; last part is a defect"
  },
  {
   "property": "C71",
   "status": "proved",
   "theorems": [
    "C71_value",
    "C71_errors",
    "C71_depends_on_argpartition",
    "C71_self_neighbour_k1"
   ],
   "note": "exact arithmetic (C71_errors over float32); cosine only for objects and local centroids that are not the zero vector; last two theorems are a defect"
  },
  {
   "property": "C74",
   "status": "proved",
   "theorems": [
    "C74_accepts",
    "C74_errors",
    "C74_precomputed"
   ],
   "note": "integer n_neighbors and n_samples (None is not modelled); last theorem is a defect"
  },
  {
   "property": "C72",
   "status": "proved",
   "theorems": [
    "C72_hnsw_fit",
    "C72_hnsw_transform",
    "C72_only_self",
    "C72_cosine",
    "C72_lsh_fit_pool",
    "C72_lsh_fit_pool_runs",
    "C72_lsh_transform_pool",
    "C72_lsh_serial_padding",
    "C72_lsh_serial_precomputed",
    "C72_lsh_serial_queries_unknown_metric",
    "C72_lsh_serial_queries",
    "C72_lsh_serial_queries_too_many"
   ],
   "note": "the index is any list of answers; float32, C72_cosine over exact arithmetic; defects as named"
  },
  {
   "property": "C73",
   "status": "proved",
   "theorems": [
    "C73_hnsw_value",
    "C73_hnsw_schedules",
    "C73_hnsw_range",
    "C73_hnsw_exact",
    "C73_lsh_value",
    "C73_lsh_cosine"
   ],
   "note": "float32; searchsorted by contract; fewer than 2^53 objects for range; last theorem is a defect"
  },
  {
   "property": "C75",
   "status": "proved",
   "theorems": [
    "C75_fixed",
    "C75_index",
    "C75_index_ignores_keyword",
    "C75_padding_wins",
    "C75_deterministic"
   ],
   "note": "exact arithmetic; uniform weights, one label per object; third and fourth theorem are defects"
  },
  {
   "property": "C76",
   "status": "proved",
   "theorems": [
    "C76_ls",
    "C76_nicdm",
    "C76_few_samples",
    "C76_mpg",
    "C76_mpg_bias",
    "C76_dsl"
   ],
   "note": "C76_ls and C76_few_samples over float32, the others over exact arithmetic; cosine only for objects and centroids that are not zero; few_samples and mpg_bias are defects"
  },
  {
   "property": "C77",
   "status": "proved",
   "theorems": [
    "C77_simhubIN_values",
    "C77_different_objects_apart"
   ],
   "note": "exact arithmetic"
  },
  {
   "property": "C78",
   "status": "proved",
   "theorems": [
    "C78_simhubIN_any_schedule"
   ],
   "note": "any arithmetic"
  },
  {
   "property": "C79",
   "status": "proved",
   "theorems": [
    "C79_unsupervised_simhub_is_simhubIN",
    "C79_s_out_of_range",
    "C79_vect_usage_irrelevant"
   ],
   "note": "first theorem over exact arithmetic; np.sum of a row of a 2-D array is the same function as np.sum of that row; NaN part is a defect"
  },
  {
   "property": "C80",
   "status": "proved",
   "theorems": [
    "C80_leading_sample_correct",
    "C80_any_sample_characterised",
    "C80_wrong_occurrence_counts",
    "C80_simhub_sample_broken"
   ],
   "note": "exact arithmetic; last three are a defect"
  },
  {
   "property": "C81",
   "status": "proved",
   "theorems": [
    "C81_supervised_values",
    "C81_three_classes_out_of_range",
    "C81_single_class_nan",
    "C81_assertion_never_fails"
   ],
   "note": "exact arithmetic; integer labels"
  },
  {
   "property": "C82",
   "status": "proved",
   "theorems": [
    "C82_gaussian_mutual_proximity"
   ],
   "note": "exact arithmetic; the distribution functions are any functions meeting the stated contract"
  },
  {
   "property": "C83",
   "status": "proved",
   "theorems": [
    "C83_affine_invariance"
   ],
   "note": "exact arithmetic; the distribution functions are any functions meeting the stated contract"
  },
  {
   "property": "C84",
   "status": "proved",
   "theorems": [
    "C84_hubs_are_pushed_away"
   ],
   "note": "exact arithmetic; the distribution functions are any functions meeting the stated contract"
  },
  {
   "property": "C85",
   "status": "proved",
   "theorems": [
    "C85_held_out_objects",
    "C85_held_out_pairs"
   ],
   "note": "any arithmetic and any distribution functions"
  },
  {
   "property": "C86",
   "status": "proved",
   "theorems": [
    "C86_sampled_columns",
    "C86_test_rows"
   ],
   "note": "exact arithmetic; the distribution functions are any functions meeting the stated contract"
  },
  {
   "property": "C87",
   "status": "proved",
   "theorems": [
    "C87_sampling_everything_is_no_sampling"
   ],
   "note": "exact arithmetic; the distribution functions are any functions meeting the stated contract"
  },
  {
   "property": "C88",
   "status": "proved",
   "theorems": [
    "C88_sample_size_is_unusable"
   ],
   "note": "defect; any arithmetic"
  },
  {
   "property": "C89",
   "status": "proved",
   "theorems": [
    "C89_gamma_mutual_proximity",
    "C89_scale_invariance"
   ],
   "note": "exact arithmetic; the distribution functions are any functions meeting the stated contract"
  },
  {
   "property": "C90",
   "status": "proved",
   "theorems": [
    "C90_sparse_gaussian",
    "C90_missing_stay_missing"
   ],
   "note": "exact arithmetic; the distribution functions are any functions meeting the stated contract"
  },
  {
   "property": "C91",
   "status": "proved",
   "theorems": [
    "C91_sparse_equals_dense"
   ],
   "note": "exact arithmetic; the distribution functions are any functions meeting the stated contract"
  },
  {
   "property": "C92",
   "status": "proved",
   "theorems": [
    "C92_sparse_ignores_metric_and_min_nnz",
    "C92_distances_rescaled_as_similarities"
   ],
   "note": "defect; first theorem for any arithmetic"
  },
  {
   "property": "C93",
   "status": "proved",
   "theorems": [
    "C93_held_out_sparse_is_nan"
   ],
   "note": "defect"
  },
  {
   "property": "C94",
   "status": "proved",
   "theorems": [
    "C94_sparse_gamma_depends_on_order",
    "C94_sparse_gamma_values"
   ],
   "note": "first theorem for any arithmetic (defect), second without the float32 rounding of the stored result"
  },
  {
   "property": "C95",
   "status": "proved",
   "theorems": [
    "C95_maximum_likelihood_estimate",
    "C95_zero_distances"
   ],
   "note": "exact arithmetic; the order produced by lexsort is any permutation"
  },
  {
   "property": "C96",
   "status": "proved",
   "theorems": [
    "C96_order_and_memory",
    "C96_isometric_data",
    "C96_translation",
    "C96_scaling"
   ],
   "note": "exact arithmetic"
  },
  {
   "property": "C97",
   "status": "proved",
   "theorems": [
    "C97_first_neighbour_gives_infinity",
    "C97_second_neighbour_counts_as_zero",
    "C97_ties"
   ],
   "note": "defect; exact arithmetic"
  },
  {
   "property": "C98",
   "status": "proved",
   "theorems": [
    "C98_duplicates_give_negative_dimension"
   ],
   "note": "defect; exact arithmetic"
  },
  {
   "property": "C99",
   "status": "proved",
   "theorems": [
    "C99_accepted_calls"
   ],
   "note": "any arithmetic; last part is a defect"
  },
  {
   "property": "C100",
   "status": "proved",
   "theorems": [
    "C100_value_per_object",
    "C100_values_in_unit_interval"
   ],
   "note": "double precision; every association of the sums"
  },
  {
   "property": "C101",
   "status": "proved",
   "theorems": [
    "C101_deterministic_without_ties"
   ],
   "note": "double precision"
  },
  {
   "property": "C102",
   "status": "proved",
   "theorems": [
    "C102_averages_exact"
   ],
   "note": "exact arithmetic"
  },
  {
   "property": "C103",
   "status": "proved",
   "theorems": [
    "C103_only_sparse_similarities",
    "C103_all_labels_different",
    "C103_empty_row_raises",
    "C103_stored_zero_raises"
   ],
   "note": "double precision"
  },
  {
   "property": "C104",
   "status": "proved",
   "theorems": [
    "C104_counts_itself",
    "C104_perfect_score_without_neighbour"
   ],
   "note": "defect; double precision"
  },
  {
   "property": "C105",
   "status": "proved",
   "theorems": [
    "C105_neighbour_labels",
    "C105_order_not_guaranteed"
   ],
   "note": "double precision"
  },
  {
   "property": "C106",
   "status": "proved",
   "theorems": [
    "C106_leave_one_out"
   ],
   "note": "double precision"
  },
  {
   "property": "C107",
   "status": "proved",
   "theorems": [
    "C107_sparse_agrees_with_dense"
   ],
   "note": "double precision"
  },
  {
   "property": "C108",
   "status": "proved",
   "theorems": [
    "C108_metric_ignored",
    "C108_farthest_objects_vote",
    "C108_witness"
   ],
   "note": "defect; first theorem for any arithmetic"
  },
  {
   "property": "C109",
   "status": "proved",
   "theorems": [
    "C109_test_set_is_leave_one_out",
    "C109_perfect_without_training"
   ],
   "note": "defect; double precision"
  },
  {
   "property": "C110",
   "status": "proved",
   "theorems": [
    "C110_sample_refused",
    "C110_empty_row_raises",
    "C110_stored_zero_raises"
   ],
   "note": "double precision"
  },
  {
   "property": "C111",
   "status": "proved",
   "theorems": [
    "C111_secondary_distances",
    "C111_measures",
    "C111_matrix_methods_no_type_error",
    "C111_few_vectors_never_analysed"
   ],
   "note": "any arithmetic; last theorem is a defect"
  },
  {
   "property": "C112",
   "status": "proved",
   "theorems": [
    "C112_range_value",
    "C112_mass_value",
    "C112_default_Y"
   ],
   "note": "exact arithmetic"
  },
  {
   "property": "C113",
   "status": "proved",
   "theorems": [
    "C113_bounds",
    "C113_between",
    "C113_symmetric",
    "C113_self"
   ],
   "note": "exact arithmetic; symmetry in any arithmetic"
  },
  {
   "property": "C114",
   "status": "proved",
   "theorems": [
    "C114_deterministic",
    "C114_terminates"
   ],
   "note": "any arithmetic"
  },
  {
   "property": "C115",
   "status": "proved",
   "theorems": [
    "C115_default_bins_fail",
    "C115_too_many_bins_fail",
    "C115_mass_accepted",
    "C115_mass_one_object_per_bin",
    "C115_bin_names"
   ],
   "note": "any arithmetic; defect"
  },
  {
   "property": "C116",
   "status": "proved",
   "theorems": [
    "C116_mass_depends_on_order",
    "C116_range_affine"
   ],
   "note": "first theorem for any arithmetic with ordinary comparisons"
  },
  {
   "property": "C117",
   "status": "proved",
   "theorems": [
    "C117_depends_on_number_of_queries"
   ],
   "note": "defect; exact arithmetic"
  },
  {
   "property": "C118",
   "status": "proved",
   "theorems": [
    "C118_sample_distances",
    "C118_strategies",
    "C118_numpy_integer_sizes_fail"
   ],
   "note": "any arithmetic; sklearn's split by its contract"
  },
  {
   "property": "C119",
   "status": "proved",
   "theorems": [
    "C119_snn_sample_any_jobs_same_result"
   ],
   "note": "double precision"
  },
  {
   "property": "C120",
   "status": "proved",
   "theorems": [
    "C120_snn_sample_unit_and_rows",
    "C120_full_sample_equals_shared_nearest_neighbors"
   ],
   "note": "double precision"
  },
  {
   "property": "C121",
   "status": "proved",
   "theorems": [
    "C121_sparse_never_accepted",
    "C121_sparse_exceptions",
    "C121_train_ind_cannot_be_omitted"
   ],
   "note": "any arithmetic; defect"
  },
  {
   "property": "C122",
   "status": "proved",
   "theorems": [
    "C122_confusion_matrix_counts",
    "C122_confusion_matrix_sums",
    "C122_predict_agrees_with_score"
   ],
   "note": "double precision"
  },
  {
   "property": "C123",
   "status": "proved",
   "theorems": [
    "C123_sparse_is_densified",
    "C123_missing_distances_win"
   ],
   "note": "double precision; defect"
  },
  {
   "property": "C124",
   "status": "proved",
   "theorems": [
    "C124_gumbel_values",
    "C124_gumbel_increasing",
    "C124_gumbel_no_spread_is_nan",
    "C124_gumbel_few_neighbours"
   ],
   "note": "exact arithmetic"
  },
  {
   "property": "C125",
   "status": "proved",
   "theorems": [
    "C125_gamma_negative_mean_is_nan"
   ],
   "note": "defect; exact arithmetic"
  },
  {
   "property": "C126",
   "status": "proved",
   "theorems": [
    "C126_line_ends",
    "C126_dexter_vectors",
    "C126_dexter_accepted",
    "C126_feature_zero_is_misplaced",
    "C126_featureless_object_is_nan"
   ],
   "note": "any arithmetic; the last theorem exact"
  },
  {
   "property": "C127",
   "status": "proved",
   "theorems": [
    "C127_values_by_position",
    "C127_raises",
    "C127_available_counted_as_buffers"
   ],
   "note": "values in exact arithmetic; defect"
  },
  {
   "property": "C128",
   "status": "proved",
   "theorems": [
    "C128_matrix_split_float",
    "C128_batches_exceed_memory"
   ],
   "note": "double precision"
  },
  {
   "property": "C129",
   "status": "proved",
   "theorems": [
    "C129_hubness_bounded",
    "C129_bound_attained",
    "C129_complete_neighbourhoods"
   ],
   "note": "neighbours in double precision, skewness over the reals"
  },
  {
   "property": "C130",
   "status": "proved",
   "theorems": [
    "C130_truncnorm_blind_to_direction",
    "C130_truncnorm_always_positive"
   ],
   "note": "defect; exact arithmetic"
  },
  {
   "property": "C131",
   "status": "proved",
   "theorems": [
    "C131_renaming_objects"
   ],
   "note": "double precision"
  },
  {
   "property": "C132",
   "status": "proved",
   "theorems": [
    "C132_mutual_proximity_renamed",
    "C132_local_scaling_renamed",
    "C132_nicdm_renamed",
    "C132_shared_neighbours_renamed",
    "C132_goodman_kruskal_renamed",
    "C132_symmetry_is_needed"
   ],
   "note": "Mutual Proximity, shared neighbours and Goodman-Kruskal in double precision, local scaling and NICDM in exact arithmetic"
  },
  {
   "property": "C133",
   "status": "proved",
   "theorems": [
    "C133_round_nearest_even",
    "C133_titles",
    "C133_report_contents",
    "C133_printed_parameters",
    "C133_printing_changes_nothing",
    "C133_whole_report"
   ],
   "note": "double precision; lines are modelled by the values they show"
  },
  {
   "property": "C134",
   "status": "proved",
   "theorems": [
    "C134_report_aborts_analysis",
    "C134_report_raises",
    "C134_nan_coordinate",
    "C134_infinite_estimate"
   ],
   "note": "defect; double precision"
  },
  {
   "property": "C135",
   "status": "proved",
   "theorems": [
    "C135_integer_vectors",
    "C135_two_sets",
    "C135_same_if_centroids_integral",
    "C135_binary_vectors",
    "C135_witness",
    "C135_some_outcome"
   ],
   "note": "defect; exact arithmetic, integers unbounded"
  },
  {
   "property": "C136",
   "status": "proved",
   "theorems": [
    "C136_hubness",
    "C136_shared_neighbours",
    "C136_score",
    "C136_negated",
    "C136_monotone"
   ],
   "note": "double precision"
  },
  {
   "property": "C137",
   "status": "proved",
   "theorems": [
    "C137_unfitted",
    "C137_transform",
    "C137_fresh",
    "C137_attributes",
    "C137_predict",
    "C137_plain_distances"
   ],
   "note": "any arithmetic; labels have one entry per object"
  },
  {
   "property": "C138",
   "status": "proved",
   "theorems": [
    "C138_sampled",
    "C138_not_sampled",
    "C138_random"
   ],
   "note": "defect; any arithmetic"
  },
  {
   "property": "C139",
   "status": "proved",
   "theorems": [
    "C139_attributes",
    "C139_disagree",
    "C139_witness"
   ],
   "note": "defect; attributes in any arithmetic, the equivalence in exact arithmetic, the witness in double precision"
  },
  {
   "property": "C140",
   "status": "proved",
   "theorems": [
    "C140_range",
    "C140_no_nan",
    "C140_nan",
    "C140_witness"
   ],
   "note": "double precision; np.exp is any function meeting exp_ok; last two are a defect"
  },
  {
   "property": "C141",
   "status": "proved",
   "theorems": [
    "C141_power_of_two_units"
   ],
   "note": "double precision; np.exp is any function"
  },
  {
   "property": "C142",
   "status": "proved",
   "theorems": [
    "C142_dense",
    "C142_sample",
    "C142_sparse"
   ],
   "note": "double precision; distribution functions with values in [0,1] or NaN"
  },
  {
   "property": "C143",
   "status": "proved",
   "theorems": [
    "C143_cosine_float64"
   ],
   "note": "double precision; any summation"
  },
  {
   "property": "C144",
   "status": "proved",
   "theorems": [
    "C144_nicdm_float64"
   ],
   "note": "double precision; any summation that keeps signs"
  },
  {
   "property": "C145",
   "status": "proved",
   "theorems": [
    "C145_no_call_changes_an_array_of_the_caller"
   ],
   "note": "dense input, n_jobs = 1; any Num instance in which NaN is not less than 0"
  },
  {
   "property": "C146",
   "status": "proved",
   "theorems": [
    "C146_dis_sim_local_changes_no_vectors"
   ],
   "note": "n_jobs = 1"
  },
  {
   "property": "C147",
   "status": "proved",
   "theorems": [
    "C147_calls_do_not_influence_each_other"
   ],
   "note": "sequences of the calls of C145"
  },
  {
   "property": "C148",
   "status": "proved",
   "theorems": [
    "C148_function_reproducible",
    "C148_class_sparse_reproducible",
    "C148_class_dense_ignores_random_state",
    "C148_class_dense_not_reproducible",
    "C148_unseeded_ignores_global",
    "C148_unseeded_not_reproducible"
   ],
   "note": "generators are any state machines; the two theorems on dense distances are a defect"
  },
  {
   "property": "C149",
   "status": "proved",
   "theorems": [
    "C149_equal_distances_become_hubs",
    "C149_hubs_as_large_as_the_pool",
    "C149_repeated_calls_shuffle_alike"
   ],
   "note": "defect; worker processes started by fork; first two theorems for the stable argpartition"
  },
  {
   "property": "C150",
   "status": "proved",
   "theorems": [
    "C150_local_scaling_accuracy"
   ],
   "note": "float64 throughout; np.exp is any function with absolute error eps on non-positive numbers"
  },
  {
   "property": "C151",
   "status": "proved",
   "theorems": [
    "C151_float32_depends_on_n_jobs",
    "C151_float64_copy_is_accurate"
   ],
   "note": "first theorem is a defect; numpy type promotion as described in M_LS32.v"
  },
  {
   "property": "C152",
   "status": "proved",
   "theorems": [
    "C152_integer_matrices_are_refused",
    "C152_which_exception",
    "C152_float_copy_has_the_right_neighbours",
    "C152_float_copy_large_integers"
   ],
   "note": "numpy converts a scalar before it stores it (trusted); what follows the first store is arbitrary in the model"
  },
  {
   "property": "C153",
   "status": "proved",
   "theorems": [
    "C153_fixed",
    "C153_index",
    "C153_other_queries_do_not_matter",
    "C153_other_queries_do_not_matter_fixed",
    "C153_smallest_distance_decides_alone",
    "C153_depends_on_other_queries",
    "C153_infinite_distance_ties"
   ],
   "note": "exact arithmetic; the last three theorems are a defect; sklearn voting is modelled in M_ApproxWeights.v"
  },
  {
   "property": "C154",
   "status": "proved",
   "theorems": [
    "C154_rebuild",
    "C154_copy_predicts_otherwise",
    "C154_fit_changes_n_samples",
    "C154_switch_to_sampling_fails",
    "C154_set_params_is_unchecked",
    "C154_other_keywords",
    "C154_witness"
   ],
   "note": "get_params and set_params of scikit-learn are modelled by their documented behaviour (trusted); all but the first theorem describe defects"
  },
  {
   "property": "C155",
   "status": "proved",
   "theorems": [
    "C155_copied",
    "C155_shared",
    "C155_mixed",
    "C155_labels",
    "C155_witness",
    "C155_witness_mixed",
    "C155_as_without_sharing",
    "C155_history_without_sharing"
   ],
   "note": "check_array returns its argument when the dtype matches (trusted, documented); defect except for the first theorem"
  },
  {
   "property": "C156",
   "status": "proved",
   "theorems": [
    "C156_measures",
    "C156_neighbours",
    "C156_empty_matrix",
    "C156_generator_goes_on",
    "C156_stale_witness",
    "C156_same_matrix_twice",
    "C156_global_generator",
    "C156_dense_twice"
   ],
   "note": "k >= 1; scipy skew and truncnorm are any functions of the occurrences; neighbours and stale_witness describe a defect"
  },
  {
   "property": "C157",
   "status": "proved",
   "theorems": [
    "C157_fork_hubness",
    "C157_fork_local_scaling",
    "C157_fork_nicdm",
    "C157_fork_snn",
    "C157_fork_simhub",
    "C157_fork_localized_centering",
    "C157_fork_dis_sim_local",
    "C157_fork_class",
    "C157_fork_approximate_mp",
    "C157_sparse_mp_any_start_method",
    "C157_spawn_hubness",
    "C157_spawn_class",
    "C157_spawn_local_scaling",
    "C157_spawn_nicdm",
    "C157_spawn_approximate_mp",
    "C157_spawn_snn",
    "C157_spawn_simhub",
    "C157_spawn_localized_centering",
    "C157_spawn_dis_sim_local",
    "C157_outcome_exists",
    "C157_pool_ends",
    "C157_witness"
   ],
   "note": "the spawn theorems describe a defect; trusted: multiprocessing pickles the arguments of spawned workers, numpy pickles contents, a multiprocessing Array passed on creation stays shared; dis_sim_local without Y; mp_dissim: C172"
  },
  {
   "property": "C158",
   "status": "proved",
   "theorems": [
    "C158_nicdm_accuracy",
    "C158_error_in_n",
    "C158_left_to_right",
    "C158_ln_rounded",
    "C158_exp_rounded"
   ],
   "note": "np.sum, np.log and np.exp are any functions within the stated error bounds; the last three theorems show functions that meet them"
  },
  {
   "property": "C159",
   "status": "proved",
   "theorems": [
    "C159_any_order",
    "C159_hubness_accuracy",
    "C159_sign",
    "C159_class_accuracy",
    "C159_pow15",
    "C159_summation_orders"
   ],
   "note": "scipy.stats.skew is modelled as mean, deviations, second and third moment and m3 / m2**1.5 with its threshold for m2; the power has any relative error eps; the last two theorems show functions that meet the hypotheses"
  },
  {
   "property": "C160",
   "status": "proved",
   "theorems": [
    "C160_cosine_accuracy",
    "C160_order",
    "C160_error_in_m",
    "C160_small_angle_witness"
   ],
   "note": "the inner product is the rounded sum of rounded products (no fused multiply-add); the last theorem is a concrete pair of vectors"
  },
  {
   "property": "C161",
   "status": "proved",
   "theorems": [
    "C161_hubness",
    "C161_local_scaling",
    "C161_nicdm",
    "C161_snn",
    "C161_simhub",
    "C161_localized_centering",
    "C161_dis_sim_local",
    "C161_class",
    "C161_approximate_mp",
    "C161_sparse_mp",
    "C161_lost_task_never_returns",
    "C161_otherwise_returns",
    "C161_witness",
    "C161_lost_lock_never_returns"
   ],
   "note": "multiprocessing.Pool is modelled by the behaviour of CPython: a dead worker is replaced, its task is not repeated; workers are forked"
  },
  {
   "property": "C162",
   "status": "proved",
   "theorems": [
    "C162_masks",
    "C162_positions",
    "C162_uniform_masks",
    "C162_indices",
    "C162_mask_wrong",
    "C162_negative_wrong"
   ],
   "note": "defect; np.setdiff1d compares values, True equals 1 (trusted); the last two theorems are about centering in exact arithmetic"
  },
  {
   "property": "C163",
   "status": "proved",
   "theorems": [
    "C163_chain",
    "C163_chain_of_distances",
    "C163_zero_radii",
    "C163_snn_then_local_scaling",
    "C163_witness",
    "C163_case"
   ],
   "note": "induction over the calls; the invariant bounds the off-diagonal entries by powers of two after every call, using the rounding error of nicdm (C158); the contracts of np.exp, np.log and sums are those of C140 and C158; C163_case has no open hypothesis"
  },
  {
   "property": "C164",
   "status": "proved",
   "theorems": [
    "C164_robin_hood_exact",
    "C164_robin_hood_accuracy",
    "C164_atkinson_accuracy",
    "C164_class",
    "C164_pow",
    "C164_case"
   ],
   "note": "np.sum is any function with the stated error (or any order of additions), the power any function with relative error eps; C164_pow and C158_left_to_right show functions that meet the contracts"
  },
  {
   "property": "C165",
   "status": "proved",
   "theorems": [
    "C165_snn_triangle",
    "C165_snn_rounding",
    "C165_mp_ultrametric",
    "C165_mp_not_metric",
    "C165_ls_not_metric",
    "C165_nicdm_not_metric",
    "C165_cosine_not_metric"
   ],
   "note": "shared neighbours and mutual proximity in float64; the counterexamples of local scaling, NICDM and cosine over exact arithmetic"
  },
  {
   "property": "C166",
   "status": "proved",
   "theorems": [
    "C166_accuracy",
    "C166_twice"
   ],
   "note": "metric='vector'; np.sum is any function with the stated error (C158_left_to_right shows one)"
  },
  {
   "property": "C167",
   "status": "proved",
   "theorems": [
    "C167_function_and_class",
    "C167_vectors",
    "C167_large_k",
    "C167_self_listed_first",
    "C167_queries",
    "C167_zero_distance"
   ],
   "note": "dense input; any two argpartitions within numpy's contract"
  },
  {
   "property": "C168",
   "status": "proved",
   "theorems": [
    "C168_total",
    "C168_ascending_columns",
    "C168_callers_matrix",
    "C168_matrix_is_corrupted",
    "C168_retained_rows",
    "C168_similarity_lost"
   ],
   "note": "raw csr arrays; scipy contracts: csr_matrix((data, indices, indptr)) shares the index arrays, tolil() sorts them in place"
  },
  {
   "property": "C169",
   "status": "proved",
   "theorems": [
    "C169_gaussian",
    "C169_gamma",
    "C169_pairs",
    "C169_copy_matters"
   ],
   "note": "sparse matrices as objects in memory, over any values; scipy contract: slices, getrow and copy() make new matrices"
  },
  {
   "property": "C170",
   "status": "proved",
   "theorems": [
    "C170_one_at_a_time",
    "C170_every_outcome",
    "C170_same_bins",
    "C170_any_schedule",
    "C170_other_data",
    "C170_wrong_result",
    "C170_append_twice"
   ],
   "note": "several calls in one process as interleaved steps over the global names kth and histograms; every forked worker keeps the values at its own fork; start method fork"
  },
  {
   "property": "C171",
   "status": "proved",
   "theorems": [
    "C171_nan_everywhere",
    "C171_nan_exactly",
    "C171_unweighted_graph"
   ],
   "note": "exact arithmetic; the regularised incomplete gamma function and the float32 rounding are parameters; similarities of mean exactly 0 left out of C171_nan_exactly (in float64, rounding may give equal similarities a tiny variance)"
  },
  {
   "property": "C172",
   "status": "proved",
   "theorems": [
    "C172_fork",
    "C172_never_returns"
   ],
   "note": "workers that are not forked import the module anew, so the global names kth and histograms are missing there"
  },
  {
   "property": "C173",
   "status": "proved",
   "theorems": [
    "C173_seeded",
    "C173_turns",
    "C173_same_neighbours",
    "C173_concentrated",
    "C173_schedule_matters",
    "C173_refines"
   ],
   "note": "the generator is any function that returns a permutation and the next state; trusted: a forked process starts with a copy of the state of np.random; rows are handed out one by one in order (imap with chunk size 1); start method fork"
  },
  {
   "property": "C174",
   "status": "proved",
   "theorems": [
    "C174_score_refines",
    "C174_r_precision_refines",
    "C174_one_chunk",
    "C174_turns",
    "C174_alike",
    "C174_schedule_matters"
   ],
   "note": "the generator is any function that returns a permutation and the next state; trusted: a forked process starts with a copy of the state of np.random, np.random.permutation of a list depends on its length only; chunks are handed out in order (imap with chunk size 100); start method fork"
  },
  {
   "property": "C175",
   "status": "proved",
   "theorems": [
    "C175_index_error",
    "C175_neighbours",
    "C175_no_zeros",
    "C175_wrong_object",
    "C175_one_nan"
   ],
   "note": "np.argpartition by its contract (NaN last); C175_one_nan shows a result it may give, not what one version of numpy gives"
  },
  {
   "property": "C176",
   "status": "proved",
   "theorems": [
    "C176_votes",
    "C176_index_error",
    "C176_wrong_object",
    "C176_one_nan"
   ],
   "note": "np.argpartition by its contract (NaN last); C176_one_nan shows a result it may give, not what one version of numpy gives; test_set_ind=None"
  },
  {
   "property": "C177",
   "status": "proved",
   "theorems": [
    "C177_leave_one_out",
    "C177_sample",
    "C177_test_set",
    "C177_sparse",
    "C177_order"
   ],
   "note": "round to nearest even (Flocq); sparse: no empty rows and no IndexError (C176)"
  },
  {
   "property": "C178",
   "status": "proved",
   "theorems": [
    "C178_local_scaling_sample",
    "C178_nicdm_sample"
   ],
   "note": "np.exp, np.log and np.sum by error bounds (S_LSAcc.v, S_NicdmAcc.v); metric='distance'"
  },
  {
   "property": "C179",
   "status": "proved",
   "theorems": [
    "C179_mp_distance",
    "C179_mp_similarity",
    "C179_mp_sample",
    "C179_shared_neighbours",
    "C179_shared_neighbours_sample"
   ],
   "note": "round to nearest even (Flocq); np.argpartition by its contract; sample variant for distances"
  },
  {
   "property": "C180",
   "status": "proved",
   "theorems": [
    "C180_accuracy",
    "C180_sparse_identical"
   ],
   "note": "round to nearest even (Flocq); np.argsort and np.sort by contract; counters below 2^63 do not wrap"
  },
  {
   "property": "C181",
   "status": "proved",
   "theorems": [
    "C181_result",
    "C181_can_end",
    "C181_ends",
    "C181_lost_chunk"
   ],
   "note": "multiprocessing.Pool.imap modelled from its documentation; results are messages, the initialiser's arguments arrive as copies; the lock of the counter is not modelled"
  },
  {
   "property": "C182",
   "status": "proved",
   "theorems": [
    "C182_map",
    "C182_map_lost",
    "C182_mp_dissim",
    "C182_same_result",
    "C182_can_end"
   ],
   "note": "multiprocessing.Pool.map modelled from its documentation; forked workers; X and Y have at least one row and one column (as in C112)"
  },
  {
   "property": "C183",
   "status": "proved",
   "theorems": [
    "C183_hubs",
    "C183_decimal_ties_missed"
   ],
   "note": "round to nearest even (Flocq); np.argpartition by contract"
  },
  {
   "property": "C184",
   "status": "proved",
   "theorems": [
    "C184_same_order",
    "C184_any_names",
    "C184_test_set_depends_on_names"
   ],
   "note": "np.argsort by contract; the random permutations are arbitrary, the same in both calls"
  },
  {
   "property": "C185",
   "status": "proved",
   "theorems": [
    "C185_whole_numbers",
    "C185_fractions_are_lost",
    "C185_gk_sees_fractions",
    "C185_measures_disagree"
   ],
   "note": "np.argsort, np.sort by contract; astype(int) of finite numbers below 2^63 rounds towards zero (NaN and infinite labels not modelled)"
  },
  {
   "property": "C186",
   "status": "proved",
   "theorems": [
    "C186_one_k_at_a_time",
    "C186_zero_disturbs",
    "C186_own_label_votes",
    "C186_own_label_wins"
   ],
   "note": "np.argsort by contract; random permutations are arbitrary functions"
  },
  {
   "property": "C187",
   "status": "proved",
   "theorems": [
    "C187_f1_error",
    "C187_one",
    "C187_order",
    "C187_ties_break",
    "C187_macro_error",
    "C187_weighted_error"
   ],
   "note": "float64 by Flocq; counts converted exactly (up to 2^53); the association of np.sum is arbitrary"
  },
  {
   "property": "C188",
   "status": "proved",
   "theorems": [
    "C188_outputs_independent",
    "C188_numbers_shift"
   ],
   "note": "np.argsort by contract; random permutations are arbitrary functions, the same in both calls; dense matrix, no sample_idx"
  },
  {
   "property": "C189",
   "status": "proved",
   "theorems": [
    "C189_nonnegative",
    "C189_out_of_range",
    "C189_training_set",
    "C189_all_negative",
    "C189_all_nonnegative"
   ],
   "note": "np.argsort by contract; random permutations are arbitrary functions of the object; at most n test numbers in C189_out_of_range and C189_training_set"
  },
  {
   "property": "C190",
   "status": "proved",
   "theorems": [
    "C190_accuracy"
   ],
   "note": "float64 by Flocq; counts converted exactly (up to 2^53); argpartition by contract; the association of np.sum is arbitrary"
  },
  {
   "property": "C191",
   "status": "proved",
   "theorems": [
    "C191_gini_error",
    "C191_hub_occurrence_error",
    "C191_hub_occurrence_order",
    "C191_equal_shares_differ"
   ],
   "note": "float64 by Flocq; integer sums are unbounded in the model and assumed below 2^63; argpartition by contract"
  },
  {
   "property": "C192",
   "status": "proved",
   "theorems": [
    "C192_hubness",
    "C192_mutual_proximity",
    "C192_local_scaling",
    "C192_shared_neighbours"
   ],
   "note": "float64 by Flocq for hubness, MP and shared neighbours; local scaling with real exp; argpartition and partition by contract"
  },
  {
   "property": "C193",
   "status": "proved",
   "theorems": [
    "C193_hubness",
    "C193_mutual_proximity",
    "C193_shared_neighbours",
    "C193_farthest_objects_are_nearest"
   ],
   "note": "float64 by Flocq; argpartition by contract; the witness uses the reference argpartition"
  },
  {
   "property": "C194",
   "status": "proved",
   "theorems": [
    "C194_hubness",
    "C194_shared_neighbours",
    "C194_classification",
    "C194_goodman_kruskal",
    "C194_mutual_proximity",
    "C194_nicdm_breaks_separation",
    "C194_local_scaling_breaks_separation"
   ],
   "note": "float64 by Flocq, except the two counterexamples, which use exact real arithmetic; argpartition, argsort, sort and partition by contract"
  },
  {
   "property": "C195",
   "status": "proved",
   "theorems": [
    "C195_hubness",
    "C195_mutual_proximity",
    "C195_local_scaling",
    "C195_shared_neighbours_part"
   ],
   "note": "float64 by Flocq for hubness, MP and shared neighbours; local scaling with real exp; argpartition and partition by contract"
  },
  {
   "property": "C196",
   "status": "proved",
   "theorems": [
    "C196_hubness",
    "C196_shared_neighbours",
    "C196_local_scaling",
    "C196_classification"
   ],
   "note": "float64 by Flocq for hubness, shared neighbours and classification; local scaling with real exp; argpartition, argsort and partition by contract"
  },
  {
   "property": "C197",
   "status": "proved",
   "theorems": [
    "C197_hubness",
    "C197_shared_neighbours",
    "C197_local_scaling"
   ],
   "note": "float64 by Flocq for hubness and shared neighbours; local scaling with real exp; argpartition and partition by contract"
  },
  {
   "property": "C198",
   "status": "proved",
   "theorems": [
    "C198_hubness",
    "C198_shared_neighbours",
    "C198_local_scaling",
    "C198_classification"
   ],
   "note": "float64 by Flocq for hubness, shared neighbours and classification; local scaling with real exp; argpartition, argsort and partition by contract"
  },
  {
   "property": "C199",
   "status": "proved",
   "theorems": [
    "C199_empiric_positions",
    "C199_gaussian_positions",
    "C199_gaussian_idx_positions",
    "C199_outside",
    "C199_gaussian_idx_outside",
    "C199_sparse_refused"
   ],
   "note": "float64 by Flocq; summation and the normal distribution functions are parameters"
  },
  {
   "property": "C200",
   "status": "proved",
   "theorems": [
    "C200_local_scaling_positions",
    "C200_nicdm_positions",
    "C200_shared_neighbours_positions",
    "C200_train_outside",
    "C200_shared_neighbours_outside",
    "C200_test_outside"
   ],
   "note": "float64 by Flocq; exp, log, summation, partition and argsort are parameters; snn_sample with one job"
  },
  {
   "property": "C201",
   "status": "proved",
   "theorems": [
    "C201_extremes"
   ],
   "note": "float64 by Flocq; argpartition by contract, any random permutations"
  },
  {
   "property": "C202",
   "status": "proved",
   "theorems": [
    "C202_history",
    "C202_errors",
    "C202_values"
   ],
   "note": "float64 by Flocq; the readings of os.times() are inputs, the work of the methods is given by the exception it raises, if any"
  },
  {
   "property": "C203",
   "status": "proved",
   "theorems": [
    "C203_occurrences",
    "C203_group_total",
    "C203_parallel"
   ],
   "note": "float64 by Flocq; argpartition by contract, any random permutations; serial path and every outcome of the worker pool"
  },
  {
   "property": "C204",
   "status": "proved",
   "theorems": [
    "C204_fixed",
    "C204_index",
    "C204_error",
    "C204_constant",
    "C204_no_positive_weight",
    "C204_ratios",
    "C204_inverse"
   ],
   "note": "exact reals; sklearn's classifier as modelled in M_ApproxWeights.v; argpartition and argsort by contract; functions without state that treat each distance separately"
  }
 ]
}