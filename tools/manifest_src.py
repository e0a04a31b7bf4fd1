c('C01', 'proved', ['C01_occurrences_conserved'], 'float64; serial and every parallel outcome; all shapes')
c('C02', 'proved', ['C02_serial_neighbours_are_nearest', 'C02_parallel_neighbours_are_nearest'], 'float64')
c('C03', 'proved', ['C03_never_own_neighbour'], 'float64')
c('C04', 'proved', ['C04_parallel_equals_serial'], 'every distribution of rows to workers and every interleaving of cell writes')
c('C05', 'proved', ['C05_tall_similarity_raises', 'C05_wide_similarity_wrong_ranks', 'C04_parallel_equals_serial'], 'defect, characterised for every shape')
c('C06', 'proved', ['C06_shuffle_irrelevant_without_ties', 'C06_result_determined_by_order'])

c('C07', 'proved', ['C07_mp_distance_formula', 'C07_mp_similarity_formula'], 'float64, n up to 2^53')
c('C08', 'proved', ['C08_mp_range'], 'float64 including rounding')
c('C09', 'proved', ['C09_mp_distance_order_invariant', 'C09_mp_similarity_order_invariant'], 'bit-for-bit')
c('C10', 'proved', ['C10_mp_duality', 'C10_ties_break_duality'], 'equality without ties, inequality always, witness with ties')
c('C11', 'proved', ['C11_sample_all_equals_full', 'C11_sample_formula'])
c('C12', 'proved', ['C12_sparse_equals_dense_exact', 'C12_sparse_close_to_dense_float64', 'C12_sparse_schedule_independent', 'C12_float64_not_bit_identical', 'C12_self_tie_witness'])
c('C13', 'proved', ['C13_test_ind_ignored'], 'defect, characterised for all index arrays and masks')
c('C14', 'proved', ['C14_snn_formula', 'C14_k_out_of_range_raises'], 'float64, every legal k, every contract-abiding argpartition')
c('C15', 'proved', ['C15_snn_parallel_equals_serial'], 'both pool phases, every distribution and interleaving')
c('C17', 'proved', ['C17_index_is_gamma', 'C17_fast_equals_naive', 'C17_no_comparable_pair_is_zero'], 'float64; at most 2^53 comparable quadruples (beyond that the float accumulators round)')
c('C18', 'proved', ['C18_range', 'C18_metric_switch_negates', 'C18_monotone_invariance', 'C18_relabelling_invariance'], 'float64; same bound')
c('C19', 'proved', ['C19_sparse_equals_dense', 'C19_negative_values_differ'], 'float64; same bound')
c('C49', 'proved', ['C49_zero_as_missing_value', 'C49_heuristic_exact_without_ties', 'C49_heuristic_wrong_with_ties'], 'float64; same bound')
c('C20', 'proved', ['C20_leave_one_out', 'C20_sample', 'C20_test_set'], 'float64; all three modes')
c('C21', 'proved', ['C21_exact_accuracy', 'C21_float_accuracy_above_one'], 'defect: every 9-point problem with a single class')
c('C22', 'proved', ['C22_score_no_leak', 'C22_predict_no_leak'], 'float64')
c('C23', 'proved', ['C23_majority', 'C23_majority_sample', 'C23_tie_outsider', 'C23_tie_witness', 'C50_predict_returns_ranks'], 'float64; predict covered by C50')
c('C24', 'proved', ['C24_wrong_training_set', 'C24_leading_test_set'], 'defect, characterised for every matrix and test set')
c('C25', 'proved', ['C25_f1_exact', 'C25_f1_range', 'C25_micro', 'C25_macro_exact', 'C25_weighted_exact', 'C25_macro_range', 'C25_weighted_range', 'C25_weighted_error'], 'formulas in exact arithmetic, ranges in float64 (counts up to 2^53), for every association of the sums')
c('C26', 'proved', ['C26_predict_test_ind_fails', 'C26_predict_without_test_ind'], 'defect')
c('C50', 'proved', ['C50_predict_returns_ranks', 'C50_witness', 'C50_zero_k_raises'], 'defect')
c('C51', 'proved', ['C51_few_neighbours'], 'float64')

c('C16', 'proved', ['C16_snn_sample_self_cells', 'C16_snn_sample_witness', 'C16_ls_sample_self_cells', 'C16_nicdm_sample_self_cells'], 'defect; snn in float64, local scaling and nicdm in exact arithmetic')
c('C27', 'proved', ['C27_ls_formula', 'C27_ls_float64_symmetric'], 'formula in exact arithmetic, shape and symmetry in float64')
c('C28', 'proved', ['C28_ls_scale_free', 'C28_nicdm_scales_linearly'], 'exact arithmetic')
c('C29', 'proved', ['C29_some_outcome', 'C29_ls_schedule_independent', 'C29_nicdm_some_outcome', 'C29_nicdm_schedule_independent'], 'float64, any exp/log/sum')
c('C30', 'proved', ['C30_similarity_order_reversed'], 'defect; exact arithmetic')
c('C31', 'proved', ['C31_duplicates_give_nan'], 'defect')
c('C32', 'proved', ['C32_nicdm_formula', 'C32_nicdm_float64_symmetric'], 'formula in exact arithmetic, shape and symmetry in float64')
c('C52', 'proved', ['C52_ls_k_unchecked', 'C52_nicdm_k_equals_n'], 'defect; exact arithmetic')
c('C53', 'proved', ['C53_similarity_test_ind_rank'], 'defect; float64')
c('C54', 'proved', ['C54_nonpositive_n_jobs'], 'defect; float64')

c('C33', 'proved', ['C33_vector_formula', 'C33_zero_mean', 'C33_idempotent', 'C33_translation_invariant', 'C33_kernel_formula', 'C33_kernel_is_gram_of_centred', 'C33_errors'], 'exact arithmetic')
c('C34', 'proved', ['C34_gamma_zero', 'C34_mask_ignored', 'C34_euclidean_is_plain'], 'exact arithmetic; the masked case is a defect')
c('C35', 'proved', ['C35_dis_sim_global', 'C35_translation_invariant', 'C35_dimension_mismatch'], 'exact arithmetic')
c('C36', 'proved', ['C36_kappa_n_is_centering', 'C36_same_ranking'], 'exact arithmetic')
c('C37', 'proved', ['C37_cosine_distance'], 'exact arithmetic')
c('C55', 'proved', ['C55_weights_favour_dissimilar'], 'defect; exact arithmetic')
c('C56', 'proved', ['C56_dis_sim_local', 'C56_dis_sim_local_two', 'C56_translation_invariant', 'C56_k_too_large', 'C56_some_outcome', 'C56_schedule_independent'], 'formula in exact arithmetic, schedule independence in float64')
c('C57', 'proved', ['C57_lp_norm', 'C57_dissimilarity', 'C57_p_required'], 'exact arithmetic')
c('C58', 'proved', ['C58_localized_centering', 'C58_scale_free', 'C58_kappa_too_large', 'C58_some_outcome', 'C58_schedule_independent'], 'formula in exact arithmetic, schedule independence in float64')
c('C59', 'proved', ['C59_training_points_are_own_neighbours', 'C59_k1_returns_plain_distances'], 'defect; exact arithmetic')

c('C38', 'proved', ['C38_linearizable', 'C38_distinct_values', 'C38_final_value', 'C38_no_deadlock', 'C38_death_inside_a_call_blocks'], '')
c('C39', 'proved', ['C39_nd_array', 'C39_distance_matrix', 'C39_fits_vectors', 'C39_fits_labels', 'C39_sample', 'C39_metric'], '')
c('C40', 'proved', ['C40_round_trip', 'C40_name_without_npz'], 'second part is a defect')
c('C60', 'proved', ['C60_batches_cover_and_fit', 'C60_too_little_memory'], 'quotients computed exactly')
c('C61', 'proved', ['C61_valid_similarity'], 'exact arithmetic')

c('C41', 'proved', ['C41_names_split', 'C41_history', 'C41_unknown_name', 'C41_every_call_ends', 'C41_experiment_contents'], 'float64; intrinsic dimension and the Gaussian and Gamma variants are arbitrary functions; printing not modelled')
c('C62', 'proved', ['C62_vector_methods_without_vectors', 'C62_default_analysis_raises'], 'defect')
c('C63', 'proved', ['C63_similarity_analysis_inverts_vector_methods'], 'defect')

c('C42', 'proved', ['C42_gini_algorithms_agree', 'C42_gini_range'], 'exact sums; float range for 2*n*sum <= 2^53')
c('C43', 'proved', ['C43_measures', 'C43_hood_exact', 'C43_atkinson_exact'], 'counts and rates in float64 below 2^53; Robin-Hood and Atkinson indices over exact arithmetic; skewness measures: C159')
c('C44', 'proved', ['C44_constructor'], '')
c('C45', 'proved', ['C45_batching_irrelevant', 'C45_runs_exist', 'C45_nearest_training_vectors', 'C45_batch_size_zero'], 'the distance of two rows is any function of the two rows')
c('C46', 'proved', ['C46_self_dropped_precomputed', 'C46_self_dropped_vectors', 'C46_duplicate_keeps_self'], 'second part is a defect')
c('C64', 'proved', ['C64_cosine_never_works'], 'defect')
c('C65', 'proved', ['C65_negative_batch_size'], 'defect')
c('C66', 'proved', ['C66_sparse_neighbours', 'C66_self_entries_are_neighbours'], 'last part is a defect')
c('C47', 'proved', ['C47_exact', 'C47_float', 'C47_overflow'], 'C47_exact over exact arithmetic, C47_float and C47_overflow (defect) over float64')
c('C48', 'proved', ['C48_distinct', 'C48_error', 'C48_duplicates_summed', 'C48_padding'], 'defect')
c('C67', 'proved', ['C67_greedy', 'C67_distinct', 'C67_zero_draw', 'C67_zero_draw_repeats', 'C67_too_many', 'C67_errors'], 'exact arithmetic')
c('C68', 'proved', ['C68_value', 'C68_total', 'C68_outcome', 'C68_jobs', 'C68_range', 'C68_equals_exact_mp'], 'float32 data, counts divided in float64 and stored as float32; the distance of two rows is any function; range below 2^53 vantage points')
c('C69', 'proved', ['C69_value', 'C69_bias', 'C69_bias_witness', 'C69_range', 'C69_nan'], 'exact arithmetic; the survival function is any function with values in [0,1] for positive deviation and NaN for deviation 0')
c('C70', 'proved', ['C70_ls_value', 'C70_unknown_metric', 'C70_ls_range', 'C70_nicdm_value', 'C70_nicdm_depends_on_partition'], 'C70_ls_value and C70_unknown_metric over float32, the others over exact arithmetic; last part is a defect')
c('C71', 'proved', ['C71_value', 'C71_errors', 'C71_depends_on_argpartition', 'C71_self_neighbour_k1'], 'exact arithmetic (C71_errors over float32); cosine only for objects and local centroids that are not the zero vector; last two theorems are a defect')
c('C74', 'proved', ['C74_accepts', 'C74_errors', 'C74_precomputed'], 'integer n_neighbors and n_samples (None is not modelled); last theorem is a defect')
c('C72', 'proved', ['C72_hnsw_fit', 'C72_hnsw_transform', 'C72_only_self', 'C72_cosine', 'C72_lsh_fit_pool', 'C72_lsh_fit_pool_runs', 'C72_lsh_transform_pool', 'C72_lsh_serial_padding', 'C72_lsh_serial_precomputed', 'C72_lsh_serial_queries_unknown_metric', 'C72_lsh_serial_queries', 'C72_lsh_serial_queries_too_many'], 'the index is any list of answers; float32, C72_cosine over exact arithmetic; defects as named')
c('C73', 'proved', ['C73_hnsw_value', 'C73_hnsw_schedules', 'C73_hnsw_range', 'C73_hnsw_exact', 'C73_lsh_value', 'C73_lsh_cosine'], 'float32; searchsorted by contract; fewer than 2^53 objects for range; last theorem is a defect')
c('C75', 'proved', ['C75_fixed', 'C75_index', 'C75_index_ignores_keyword', 'C75_padding_wins', 'C75_deterministic'], 'exact arithmetic; uniform weights, one label per object; third and fourth theorem are defects')
c('C76', 'proved', ['C76_ls', 'C76_nicdm', 'C76_few_samples', 'C76_mpg', 'C76_mpg_bias', 'C76_dsl'], 'C76_ls and C76_few_samples over float32, the others over exact arithmetic; cosine only for objects and centroids that are not zero; few_samples and mpg_bias are defects')
c('C77', 'proved', ['C77_simhubIN_values', 'C77_different_objects_apart'], 'exact arithmetic')
c('C78', 'proved', ['C78_simhubIN_any_schedule'], 'any arithmetic')
c('C79', 'proved', ['C79_unsupervised_simhub_is_simhubIN', 'C79_s_out_of_range', 'C79_vect_usage_irrelevant'], 'first theorem over exact arithmetic; np.sum of a row of a 2-D array is the same function as np.sum of that row; NaN part is a defect')
c('C80', 'proved', ['C80_leading_sample_correct', 'C80_any_sample_characterised', 'C80_wrong_occurrence_counts', 'C80_simhub_sample_broken'], 'exact arithmetic; last three are a defect')
c('C81', 'proved', ['C81_supervised_values', 'C81_three_classes_out_of_range', 'C81_single_class_nan', 'C81_assertion_never_fails'], 'exact arithmetic; integer labels')
NF = 'exact arithmetic; the distribution functions are any functions meeting the stated contract'
c('C82', 'proved', ['C82_gaussian_mutual_proximity'], NF)
c('C83', 'proved', ['C83_affine_invariance'], NF)
c('C84', 'proved', ['C84_hubs_are_pushed_away'], NF)
c('C85', 'proved', ['C85_held_out_objects', 'C85_held_out_pairs'], 'any arithmetic and any distribution functions')
c('C86', 'proved', ['C86_sampled_columns', 'C86_test_rows'], NF)
c('C87', 'proved', ['C87_sampling_everything_is_no_sampling'], NF)
c('C88', 'proved', ['C88_sample_size_is_unusable'], 'defect; any arithmetic')
c('C89', 'proved', ['C89_gamma_mutual_proximity', 'C89_scale_invariance'], NF)
c('C90', 'proved', ['C90_sparse_gaussian', 'C90_missing_stay_missing'], NF)
c('C91', 'proved', ['C91_sparse_equals_dense'], NF)
c('C92', 'proved', ['C92_sparse_ignores_metric_and_min_nnz', 'C92_distances_rescaled_as_similarities'], 'defect; first theorem for any arithmetic')
c('C93', 'proved', ['C93_held_out_sparse_is_nan'], 'defect')
c('C94', 'proved', ['C94_sparse_gamma_depends_on_order', 'C94_sparse_gamma_values'], 'first theorem for any arithmetic (defect), second without the float32 rounding of the stored result')
c('C95', 'proved', ['C95_maximum_likelihood_estimate', 'C95_zero_distances'], 'exact arithmetic; the order produced by lexsort is any permutation')
c('C96', 'proved', ['C96_order_and_memory', 'C96_isometric_data', 'C96_translation', 'C96_scaling'], 'exact arithmetic')
c('C97', 'proved', ['C97_first_neighbour_gives_infinity', 'C97_second_neighbour_counts_as_zero', 'C97_ties'], 'defect; exact arithmetic')
c('C98', 'proved', ['C98_duplicates_give_negative_dimension'], 'defect; exact arithmetic')
c('C99', 'proved', ['C99_accepted_calls'], 'any arithmetic; last part is a defect')
c('C100', 'proved', ['C100_value_per_object', 'C100_values_in_unit_interval'], 'double precision; every association of the sums')
c('C101', 'proved', ['C101_deterministic_without_ties'], 'double precision')
c('C102', 'proved', ['C102_averages_exact'], 'exact arithmetic')
c('C103', 'proved', ['C103_only_sparse_similarities', 'C103_all_labels_different', 'C103_empty_row_raises', 'C103_stored_zero_raises'], 'double precision')
c('C104', 'proved', ['C104_counts_itself', 'C104_perfect_score_without_neighbour'], 'defect; double precision')
c('C105', 'proved', ['C105_neighbour_labels', 'C105_order_not_guaranteed'], 'double precision')
c('C106', 'proved', ['C106_leave_one_out'], 'double precision')
c('C107', 'proved', ['C107_sparse_agrees_with_dense'], 'double precision')
c('C108', 'proved', ['C108_metric_ignored', 'C108_farthest_objects_vote', 'C108_witness'], 'defect; first theorem for any arithmetic')
c('C109', 'proved', ['C109_test_set_is_leave_one_out', 'C109_perfect_without_training'], 'defect; double precision')
c('C110', 'proved', ['C110_sample_refused', 'C110_empty_row_raises', 'C110_stored_zero_raises'], 'double precision')
c('C111', 'proved', ['C111_secondary_distances', 'C111_measures', 'C111_matrix_methods_no_type_error', 'C111_few_vectors_never_analysed'], 'any arithmetic; last theorem is a defect')
c('C112', 'proved', ['C112_range_value', 'C112_mass_value', 'C112_default_Y'], 'exact arithmetic')
c('C113', 'proved', ['C113_bounds', 'C113_between', 'C113_symmetric', 'C113_self'], 'exact arithmetic; symmetry in any arithmetic')
c('C114', 'proved', ['C114_deterministic', 'C114_terminates'], 'any arithmetic')
c('C115', 'proved', ['C115_default_bins_fail', 'C115_too_many_bins_fail', 'C115_mass_accepted', 'C115_mass_one_object_per_bin', 'C115_bin_names'], 'any arithmetic; defect')
c('C116', 'proved', ['C116_mass_depends_on_order', 'C116_range_affine'], 'first theorem for any arithmetic with ordinary comparisons')
c('C117', 'proved', ['C117_depends_on_number_of_queries'], 'defect; exact arithmetic')
c('C118', 'proved', ['C118_sample_distances', 'C118_strategies', 'C118_numpy_integer_sizes_fail'], 'any arithmetic; sklearn\'s split by its contract')
c('C119', 'proved', ['C119_snn_sample_any_jobs_same_result'], 'double precision')
c('C120', 'proved', ['C120_snn_sample_unit_and_rows', 'C120_full_sample_equals_shared_nearest_neighbors'], 'double precision')
c('C121', 'proved', ['C121_sparse_never_accepted', 'C121_sparse_exceptions', 'C121_train_ind_cannot_be_omitted'], 'any arithmetic; defect')
c('C122', 'proved', ['C122_confusion_matrix_counts', 'C122_confusion_matrix_sums', 'C122_predict_agrees_with_score'], 'double precision')
c('C123', 'proved', ['C123_sparse_is_densified', 'C123_missing_distances_win'], 'double precision; defect')
c('C124', 'proved', ['C124_gumbel_values', 'C124_gumbel_increasing', 'C124_gumbel_no_spread_is_nan', 'C124_gumbel_few_neighbours'], 'exact arithmetic')
c('C125', 'proved', ['C125_gamma_negative_mean_is_nan'], 'defect; exact arithmetic')
c('C126', 'proved', ['C126_line_ends', 'C126_dexter_vectors', 'C126_dexter_accepted', 'C126_feature_zero_is_misplaced', 'C126_featureless_object_is_nan'], 'any arithmetic; the last theorem exact')
c('C127', 'proved', ['C127_values_by_position', 'C127_raises', 'C127_available_counted_as_buffers'], 'values in exact arithmetic; defect')
c('C128', 'proved', ['C128_matrix_split_float', 'C128_batches_exceed_memory'], 'double precision')
c('C129', 'proved', ['C129_hubness_bounded', 'C129_bound_attained', 'C129_complete_neighbourhoods'], 'neighbours in double precision, skewness over the reals')
c('C130', 'proved', ['C130_truncnorm_blind_to_direction', 'C130_truncnorm_always_positive'], 'defect; exact arithmetic')
c('C131', 'proved', ['C131_renaming_objects'], 'double precision')
c('C132', 'proved', ['C132_mutual_proximity_renamed', 'C132_local_scaling_renamed', 'C132_nicdm_renamed', 'C132_shared_neighbours_renamed', 'C132_goodman_kruskal_renamed', 'C132_symmetry_is_needed'], 'Mutual Proximity, shared neighbours and Goodman-Kruskal in double precision, local scaling and NICDM in exact arithmetic')
c('C133', 'proved', ['C133_round_nearest_even', 'C133_titles', 'C133_report_contents', 'C133_printed_parameters', 'C133_printing_changes_nothing', 'C133_whole_report'], 'double precision; lines are modelled by the values they show')
c('C134', 'proved', ['C134_report_aborts_analysis', 'C134_report_raises', 'C134_nan_coordinate', 'C134_infinite_estimate'], 'defect; double precision')
c('C135', 'proved', ['C135_integer_vectors', 'C135_two_sets', 'C135_same_if_centroids_integral', 'C135_binary_vectors', 'C135_witness', 'C135_some_outcome'], 'defect; exact arithmetic, integers unbounded')
c('C136', 'proved', ['C136_hubness', 'C136_shared_neighbours', 'C136_score', 'C136_negated', 'C136_monotone'], 'double precision')
c('C137', 'proved', ['C137_unfitted', 'C137_transform', 'C137_fresh', 'C137_attributes', 'C137_predict', 'C137_plain_distances'], 'any arithmetic; labels have one entry per object')
c('C138', 'proved', ['C138_sampled', 'C138_not_sampled', 'C138_random'], 'defect; any arithmetic')
c('C139', 'proved', ['C139_attributes', 'C139_disagree', 'C139_witness'], 'defect; attributes in any arithmetic, the equivalence in exact arithmetic, the witness in double precision')
c('C140', 'proved', ['C140_range', 'C140_no_nan', 'C140_nan', 'C140_witness'], 'double precision; np.exp is any function meeting exp_ok; last two are a defect')
c('C141', 'proved', ['C141_power_of_two_units'], 'double precision; np.exp is any function')
c('C142', 'proved', ['C142_dense', 'C142_sample', 'C142_sparse'], 'double precision; distribution functions with values in [0,1] or NaN')
c('C143', 'proved', ['C143_cosine_float64'], 'double precision; any summation')
c('C144', 'proved', ['C144_nicdm_float64'], 'double precision; any summation that keeps signs')
c('C145', 'proved', ['C145_no_call_changes_an_array_of_the_caller'], 'dense input, n_jobs = 1; any Num instance in which NaN is not less than 0')
c('C146', 'proved', ['C146_dis_sim_local_changes_no_vectors'], 'n_jobs = 1')
c('C147', 'proved', ['C147_calls_do_not_influence_each_other'], 'sequences of the calls of C145')
c('C148', 'proved', ['C148_function_reproducible', 'C148_class_sparse_reproducible', 'C148_class_dense_ignores_random_state', 'C148_class_dense_not_reproducible', 'C148_unseeded_ignores_global', 'C148_unseeded_not_reproducible'], 'generators are any state machines; the two theorems on dense distances are a defect')
c('C149', 'proved', ['C149_equal_distances_become_hubs', 'C149_hubs_as_large_as_the_pool', 'C149_repeated_calls_shuffle_alike'], 'defect; worker processes started by fork; first two theorems for the stable argpartition')
c('C150', 'proved', ['C150_local_scaling_accuracy'], 'float64 throughout; np.exp is any function with absolute error eps on non-positive numbers')
c('C151', 'proved', ['C151_float32_depends_on_n_jobs', 'C151_float64_copy_is_accurate'], 'first theorem is a defect; numpy type promotion as described in M_LS32.v')
c('C152', 'proved', ['C152_integer_matrices_are_refused', 'C152_which_exception', 'C152_float_copy_has_the_right_neighbours', 'C152_float_copy_large_integers'], 'numpy converts a scalar before it stores it (trusted); what follows the first store is arbitrary in the model')
c('C153', 'proved', ['C153_fixed', 'C153_index', 'C153_other_queries_do_not_matter', 'C153_other_queries_do_not_matter_fixed', 'C153_smallest_distance_decides_alone', 'C153_depends_on_other_queries', 'C153_infinite_distance_ties'], 'exact arithmetic; the last three theorems are a defect; sklearn voting is modelled in M_ApproxWeights.v')
c('C154', 'proved', ['C154_rebuild', 'C154_copy_predicts_otherwise', 'C154_fit_changes_n_samples', 'C154_switch_to_sampling_fails', 'C154_set_params_is_unchecked', 'C154_other_keywords', 'C154_witness'], 'get_params and set_params of scikit-learn are modelled by their documented behaviour (trusted); all but the first theorem describe defects')
c('C155', 'proved', ['C155_copied', 'C155_shared', 'C155_mixed', 'C155_labels', 'C155_witness', 'C155_witness_mixed', 'C155_as_without_sharing', 'C155_history_without_sharing'], 'check_array returns its argument when the dtype matches (trusted, documented); defect except for the first theorem')
c('C156', 'proved', ['C156_measures', 'C156_neighbours', 'C156_empty_matrix', 'C156_generator_goes_on', 'C156_stale_witness', 'C156_same_matrix_twice', 'C156_global_generator', 'C156_dense_twice'], 'k >= 1; scipy skew and truncnorm are any functions of the occurrences; neighbours and stale_witness describe a defect')
c('C157', 'proved', ['C157_fork_hubness', 'C157_fork_local_scaling', 'C157_fork_nicdm', 'C157_fork_snn', 'C157_fork_simhub', 'C157_fork_localized_centering', 'C157_fork_dis_sim_local', 'C157_fork_class', 'C157_fork_approximate_mp', 'C157_sparse_mp_any_start_method', 'C157_spawn_hubness', 'C157_spawn_class', 'C157_spawn_local_scaling', 'C157_spawn_nicdm', 'C157_spawn_approximate_mp', 'C157_spawn_snn', 'C157_spawn_simhub', 'C157_spawn_localized_centering', 'C157_spawn_dis_sim_local', 'C157_outcome_exists', 'C157_pool_ends', 'C157_witness'], 'the spawn theorems describe a defect; trusted: multiprocessing pickles the arguments of spawned workers, numpy pickles contents, a multiprocessing Array passed on creation stays shared; dis_sim_local without Y; mp_dissim: C172')
c('C158', 'proved', ['C158_nicdm_accuracy', 'C158_error_in_n', 'C158_left_to_right', 'C158_ln_rounded', 'C158_exp_rounded'], 'np.sum, np.log and np.exp are any functions within the stated error bounds; the last three theorems show functions that meet them')
c('C159', 'proved', ['C159_any_order', 'C159_hubness_accuracy', 'C159_sign', 'C159_class_accuracy', 'C159_pow15', 'C159_summation_orders'], 'scipy.stats.skew is modelled as mean, deviations, second and third moment and m3 / m2**1.5 with its threshold for m2; the power has any relative error eps; the last two theorems show functions that meet the hypotheses')
c('C160', 'proved', ['C160_cosine_accuracy', 'C160_order', 'C160_error_in_m', 'C160_small_angle_witness'], 'the inner product is the rounded sum of rounded products (no fused multiply-add); the last theorem is a concrete pair of vectors')
c('C161', 'proved', ['C161_hubness', 'C161_local_scaling', 'C161_nicdm', 'C161_snn', 'C161_simhub', 'C161_localized_centering', 'C161_dis_sim_local', 'C161_class', 'C161_approximate_mp', 'C161_sparse_mp', 'C161_lost_task_never_returns', 'C161_otherwise_returns', 'C161_witness', 'C161_lost_lock_never_returns'], 'multiprocessing.Pool is modelled by the behaviour of CPython: a dead worker is replaced, its task is not repeated; workers are forked')
c('C162', 'proved', ['C162_masks', 'C162_positions', 'C162_uniform_masks', 'C162_indices', 'C162_mask_wrong', 'C162_negative_wrong'], 'defect; np.setdiff1d compares values, True equals 1 (trusted); the last two theorems are about centering in exact arithmetic')
c("C163", "proved", ["C163_chain", "C163_chain_of_distances", "C163_zero_radii", "C163_snn_then_local_scaling", "C163_witness", "C163_case"],
  "induction over the calls; the invariant bounds the off-diagonal entries by powers of two after every call, using the rounding error of nicdm (C158); the contracts of np.exp, np.log and sums are those of C140 and C158; C163_case has no open hypothesis")
c("C164", "proved", ["C164_robin_hood_exact", "C164_robin_hood_accuracy", "C164_atkinson_accuracy", "C164_class", "C164_pow", "C164_case"],
  "np.sum is any function with the stated error (or any order of additions), the power any function with relative error eps; C164_pow and C158_left_to_right show functions that meet the contracts")
c("C165", "proved", ["C165_snn_triangle", "C165_snn_rounding", "C165_mp_ultrametric", "C165_mp_not_metric", "C165_ls_not_metric", "C165_nicdm_not_metric", "C165_cosine_not_metric"],
  "shared neighbours and mutual proximity in float64; the counterexamples of local scaling, NICDM and cosine over exact arithmetic")
c("C166", "proved", ["C166_accuracy", "C166_twice"],
  "metric='vector'; np.sum is any function with the stated error (C158_left_to_right shows one)")
c("C167", "proved", ["C167_function_and_class", "C167_vectors", "C167_large_k", "C167_self_listed_first", "C167_queries", "C167_zero_distance"],
  "dense input; any two argpartitions within numpy's contract")
c("C168", "proved", ["C168_total", "C168_ascending_columns", "C168_callers_matrix", "C168_matrix_is_corrupted", "C168_retained_rows", "C168_similarity_lost"],
  "raw csr arrays; scipy contracts: csr_matrix((data, indices, indptr)) shares the index arrays, tolil() sorts them in place")
c("C169", "proved", ["C169_gaussian", "C169_gamma", "C169_pairs", "C169_copy_matters"],
  "sparse matrices as objects in memory, over any values; scipy contract: slices, getrow and copy() make new matrices")
c("C170", "proved", ["C170_one_at_a_time", "C170_every_outcome", "C170_same_bins", "C170_any_schedule", "C170_other_data", "C170_wrong_result", "C170_append_twice"],
  "several calls in one process as interleaved steps over the global names kth and histograms; every forked worker keeps the values at its own fork; start method fork")
c("C171", "proved", ["C171_nan_everywhere", "C171_nan_exactly", "C171_unweighted_graph"],
  "exact arithmetic; the regularised incomplete gamma function and the float32 rounding are parameters; similarities of mean exactly 0 left out of C171_nan_exactly (in float64, rounding may give equal similarities a tiny variance)")
c("C172", "proved", ["C172_fork", "C172_never_returns"],
  "workers that are not forked import the module anew, so the global names kth and histograms are missing there")
c("C173", "proved", ["C173_seeded", "C173_turns", "C173_same_neighbours", "C173_concentrated", "C173_schedule_matters", "C173_refines"],
  "the generator is any function that returns a permutation and the next state; trusted: a forked process starts with a copy of the state of np.random; rows are handed out one by one in order (imap with chunk size 1); start method fork")
c("C174", "proved", ["C174_score_refines", "C174_r_precision_refines", "C174_one_chunk", "C174_turns", "C174_alike", "C174_schedule_matters"],
  "the generator is any function that returns a permutation and the next state; trusted: a forked process starts with a copy of the state of np.random, np.random.permutation of a list depends on its length only; chunks are handed out in order (imap with chunk size 100); start method fork")
c("C175", "proved", ["C175_index_error", "C175_neighbours", "C175_no_zeros", "C175_wrong_object", "C175_one_nan"],
  "np.argpartition by its contract (NaN last); C175_one_nan shows a result it may give, not what one version of numpy gives")
c("C176", "proved", ["C176_votes", "C176_index_error", "C176_wrong_object", "C176_one_nan"],
  "np.argpartition by its contract (NaN last); C176_one_nan shows a result it may give, not what one version of numpy gives; test_set_ind=None")
c("C177", "proved", ["C177_leave_one_out", "C177_sample", "C177_test_set", "C177_sparse", "C177_order"],
  "round to nearest even (Flocq); sparse: no empty rows and no IndexError (C176)")
c("C178", "proved", ["C178_local_scaling_sample", "C178_nicdm_sample"],
  "np.exp, np.log and np.sum by error bounds (S_LSAcc.v, S_NicdmAcc.v); metric='distance'")
c("C179", "proved", ["C179_mp_distance", "C179_mp_similarity", "C179_mp_sample", "C179_shared_neighbours", "C179_shared_neighbours_sample"],
  "round to nearest even (Flocq); np.argpartition by its contract; sample variant for distances")
c("C180", "proved", ["C180_accuracy", "C180_sparse_identical"],
  "round to nearest even (Flocq); np.argsort and np.sort by contract; counters below 2^63 do not wrap")
c("C181", "proved", ["C181_result", "C181_can_end", "C181_ends", "C181_lost_chunk"],
  "multiprocessing.Pool.imap modelled from its documentation; results are messages, the initialiser's arguments arrive as copies; the lock of the counter is not modelled")
c("C182", "proved", ["C182_map", "C182_map_lost", "C182_mp_dissim", "C182_same_result", "C182_can_end"],
  "multiprocessing.Pool.map modelled from its documentation; forked workers; X and Y have at least one row and one column (as in C112)")
c("C183", "proved", ["C183_hubs", "C183_decimal_ties_missed"],
  "round to nearest even (Flocq); np.argpartition by contract")
c("C184", "proved", ["C184_same_order", "C184_any_names", "C184_test_set_depends_on_names"],
  "np.argsort by contract; the random permutations are arbitrary, the same in both calls")
c("C185", "proved", ["C185_whole_numbers", "C185_fractions_are_lost", "C185_gk_sees_fractions", "C185_measures_disagree"],
  "np.argsort, np.sort by contract; astype(int) of finite numbers below 2^63 rounds towards zero (NaN and infinite labels not modelled)")
c("C186", "proved", ["C186_one_k_at_a_time", "C186_zero_disturbs", "C186_own_label_votes", "C186_own_label_wins"],
  "np.argsort by contract; random permutations are arbitrary functions")
c("C187", "proved", ["C187_f1_error", "C187_one", "C187_order", "C187_ties_break", "C187_macro_error", "C187_weighted_error"],
  "float64 by Flocq; counts converted exactly (up to 2^53); the association of np.sum is arbitrary")
c("C188", "proved", ["C188_outputs_independent", "C188_numbers_shift"],
  "np.argsort by contract; random permutations are arbitrary functions, the same in both calls; dense matrix, no sample_idx")
c("C189", "proved", ["C189_nonnegative", "C189_out_of_range", "C189_training_set", "C189_all_negative", "C189_all_nonnegative"],
  "np.argsort by contract; random permutations are arbitrary functions of the object; at most n test numbers in C189_out_of_range and C189_training_set")
c("C190", "proved", ["C190_accuracy"],
  "float64 by Flocq; counts converted exactly (up to 2^53); argpartition by contract; the association of np.sum is arbitrary")
c("C191", "proved", ["C191_gini_error", "C191_hub_occurrence_error", "C191_hub_occurrence_order", "C191_equal_shares_differ"],
  "float64 by Flocq; integer sums are unbounded in the model and assumed below 2^63; argpartition by contract")
c("C192", "proved", ["C192_hubness", "C192_mutual_proximity", "C192_local_scaling", "C192_shared_neighbours"],
  "float64 by Flocq for hubness, MP and shared neighbours; local scaling with real exp; argpartition and partition by contract")
c("C193", "proved", ["C193_hubness", "C193_mutual_proximity", "C193_shared_neighbours", "C193_farthest_objects_are_nearest"],
  "float64 by Flocq; argpartition by contract; the witness uses the reference argpartition")
c("C194", "proved", ["C194_hubness", "C194_shared_neighbours", "C194_classification", "C194_goodman_kruskal", "C194_mutual_proximity", "C194_nicdm_breaks_separation", "C194_local_scaling_breaks_separation"],
  "float64 by Flocq, except the two counterexamples, which use exact real arithmetic; argpartition, argsort, sort and partition by contract")
c("C195", "proved", ["C195_hubness", "C195_mutual_proximity", "C195_local_scaling", "C195_shared_neighbours_part"],
  "float64 by Flocq for hubness, MP and shared neighbours; local scaling with real exp; argpartition and partition by contract")
c("C196", "proved", ["C196_hubness", "C196_shared_neighbours", "C196_local_scaling", "C196_classification"],
  "float64 by Flocq for hubness, shared neighbours and classification; local scaling with real exp; argpartition, argsort and partition by contract")
c("C197", "proved", ["C197_hubness", "C197_shared_neighbours", "C197_local_scaling"],
  "float64 by Flocq for hubness and shared neighbours; local scaling with real exp; argpartition and partition by contract")
c("C198", "proved", ["C198_hubness", "C198_shared_neighbours", "C198_local_scaling", "C198_classification"],
  "float64 by Flocq for hubness, shared neighbours and classification; local scaling with real exp; argpartition, argsort and partition by contract")
c("C199", "proved", ["C199_empiric_positions", "C199_gaussian_positions", "C199_gaussian_idx_positions", "C199_outside", "C199_gaussian_idx_outside", "C199_sparse_refused"],
  "float64 by Flocq; summation and the normal distribution functions are parameters")
c("C200", "proved", ["C200_local_scaling_positions", "C200_nicdm_positions", "C200_shared_neighbours_positions", "C200_train_outside", "C200_shared_neighbours_outside", "C200_test_outside"],
  "float64 by Flocq; exp, log, summation, partition and argsort are parameters; snn_sample with one job")
c("C201", "proved", ["C201_extremes"],
  "float64 by Flocq; argpartition by contract, any random permutations")
c("C202", "proved", ["C202_history", "C202_errors", "C202_values"],
  "float64 by Flocq; the readings of os.times() are inputs, the work of the methods is given by the exception it raises, if any")
c("C203", "proved", ["C203_occurrences", "C203_group_total", "C203_parallel"],
  "float64 by Flocq; argpartition by contract, any random permutations; serial path and every outcome of the worker pool")
c("C204", "proved", ["C204_fixed", "C204_index", "C204_error", "C204_constant", "C204_no_positive_weight", "C204_ratios", "C204_inverse"],
  "exact reals; sklearn's classifier as modelled in M_ApproxWeights.v; argpartition and argsort by contract; functions without state that treat each distance separately")
