{
 "claims": [
  {
   "property": "C01",
   "status": "proved",
   "theorems": [
    "C01_holdout_partition",
    "C01_holdout_failures"
   ],
   "note": "Fractions are IEEE binary64; sizes are stated through exact rational rounding."
  },
  {
   "property": "C02",
   "status": "proved",
   "theorems": [
    "C02_stratified_proportions"
   ],
   "note": "Order of the internal argsort is any valid sorted order."
  },
  {
   "property": "C03",
   "status": "proved",
   "theorems": [
    "C03_kfold_rejects",
    "C03_kfold_one_fold",
    "C03_kfold_all_folds",
    "C03_stratified_fold_sizes_refuted"
   ],
   "note": "The refuted theorem records that stratified folds need not be balanced in total size (not claimed by the property)."
  },
  {
   "property": "C04",
   "status": "proved",
   "theorems": [
    "C04_select_labeled_subset",
    "C04_fixed_indices"
   ],
   "note": ""
  },
  {
   "property": "C05",
   "status": "proved",
   "theorems": [
    "C05_select_labeled_size",
    "C05_zero_labels_refuted"
   ],
   "note": "A count of 0 still labels one sample per class under the default min_per_class."
  },
  {
   "property": "C06",
   "status": "partial",
   "theorems": [
    "C06_per_class_exact_partial",
    "C06_per_class_refuted"
   ],
   "note": "The general claim is false of the code (witness in C06_per_class_refuted); proved when every class has at least v samples."
  },
  {
   "property": "C07",
   "status": "proved",
   "theorems": [
    "C07_imbalance_subset",
    "C07_imbalance_none",
    "C07_imbalance_subsample",
    "C07_imbalance_long_tail",
    "C07_imbalance_rejects"
   ],
   "note": "alpha**rank and its rounding are an arbitrary non-negative function."
  },
  {
   "property": "C08",
   "status": "proved",
   "theorems": [
    "C08_sample_never_fails_validation",
    "C08_sample_contents",
    "C08_validation_exact"
   ],
   "note": ""
  },
  {
   "property": "C09",
   "status": "proved",
   "theorems": [
    "C09_graph_masks_sound",
    "C09_validation_exact",
    "C09_graph_masks_origin"
   ],
   "note": ""
  },
  {
   "property": "C10",
   "status": "partial",
   "theorems": [
    "C10_imbalance_inductive",
    "C10_graph_imbalance_labeled_partial",
    "C10_graph_train_imbalance_ignored",
    "C10_graph_train_imbalance_refuted"
   ],
   "note": "False of the code: graph sampling ignores train imbalance. Proved for labelled imbalance."
  },
  {
   "property": "C11",
   "status": "proved",
   "theorems": [
    "C11_plan_round_trip",
    "C11_dictionary_canonical",
    "C11_unknown_keys_rejected",
    "C11_unknown_section_rejected",
    "C11_key_order_irrelevant"
   ],
   "note": "String-to-number parsing and printing of non-strings are arbitrary oracles."
  },
  {
   "property": "C12",
   "status": "proved",
   "theorems": [
    "C12_sampling_streams",
    "C12_preprocess_streams",
    "C12_augmentation_streams",
    "C12_seed_ranges"
   ],
   "note": "The hashes are arbitrary functions."
  },
  {
   "property": "C13",
   "status": "partial",
   "theorems": [
    "C13_save_load_round_trip",
    "C13_save_refused_iff",
    "C13_first_save_crash_safe",
    "C13_overwrite_crash_same_arrays_partial",
    "C13_overwrite_crash_outcomes",
    "C13_overwrite_crash_refuted",
    "C13_interrupted_save_blocks_retry"
   ],
   "note": "The crash claim is false for overwriting with different arrays (new metadata, old arrays)."
  },
  {
   "property": "C14",
   "status": "partial",
   "theorems": [
    "C14_lock_mutex_partial",
    "C14_lock_mutex_refuted",
    "C14_lock_always_released"
   ],
   "note": "The full claim is false: a refused attempt deletes the holder's lock file. Proved for schedules without such a cleanup."
  },
  {
   "property": "C15",
   "status": "partial",
   "theorems": [
    "C15_first_download_crash_safe",
    "C15_retry_recovers",
    "C15_immediate_retry_refuted"
   ],
   "note": "Never a partial dataset, proved. The first retry after a hard crash may fail once with FileExistsError because of the stale lock file; the one after succeeds."
  },
  {
   "property": "C16",
   "status": "partial",
   "theorems": [
    "C16_no_mixture_partial",
    "C16_force_recovers",
    "C16_forced_redownload_refuted"
   ],
   "note": "The full claim is false: a crash in the middle leaves an entry that ordinary loads reject for ever. Proved: never a mixture, and force=True repairs."
  },
  {
   "property": "C17",
   "status": "proved",
   "theorems": [
    "C17_gc_keeps_newest",
    "C17_index_is_keyed",
    "C17_purge_removes_exactly_the_dataset"
   ],
   "note": "The order of equal rows in a SELECT is arbitrary."
  },
  {
   "property": "C18",
   "status": "proved",
   "theorems": [
    "C18_report_accounts_for_every_key",
    "C18_selection",
    "C18_abort_leaves_the_rest_untouched"
   ],
   "note": "What happens to one key (resolve, look up, download) is an arbitrary outcome."
  },
  {
   "property": "C19",
   "status": "proved",
   "theorems": [
    "C19_symmetrize_exact",
    "C19_symmetrize_edges",
    "C19_symmetrize_symmetric",
    "C19_symmetrize_idempotent",
    "C19_none_unchanged",
    "C19_out_of_range_refuted"
   ],
   "note": "For node ids in range and any weight type. Out-of-range ids are silently moved onto the last node (C19_out_of_range_refuted)."
  },
  {
   "property": "C20",
   "status": "proved",
   "theorems": [
    "C20_add_self_loops",
    "C20_idempotent"
   ],
   "note": "For self-loops in range."
  },
  {
   "property": "C21",
   "status": "proved",
   "theorems": [
    "C21_rw_row_sums",
    "C21_rw_pointwise",
    "C21_sym_keeps_symmetry",
    "C21_none_unchanged"
   ],
   "note": "Exact rational weights; float32 rounding is not modelled. Totals below eps (1e-12) are divided by eps."
  },
  {
   "property": "C22",
   "status": "proved",
   "theorems": [
    "C22_masks_exact",
    "C22_masks_accept_iff_in_range",
    "C22_masks_error_kind",
    "C22_unlabeled_without_list",
    "C22_overlap_refuted"
   ],
   "note": "Overlapping splits and labelled nodes outside train are accepted (C22_overlap_refuted)."
  },
  {
   "property": "C23",
   "status": "proved",
   "theorems": [
    "C23_knn_exact",
    "C23_knn_any_distances",
    "C23_chunk_independent",
    "C23_negative_chunk_refuted"
   ],
   "note": "Distances are an arbitrary table; argpartition and argsort are arbitrary functions meeting numpy's contracts. Chunk size must be positive: a negative one silently gives no edges (C23_negative_chunk_refuted)."
  },
  {
   "property": "C24",
   "status": "proved",
   "theorems": [
    "C24_resume_same_edges",
    "C24_stale_directory_refuted"
   ],
   "note": "Any number of killed attempts with the same data, k and metric, any chunk sizes. The chunk files do not record k or the data, so resuming with another k returns stale edges (C24_stale_directory_refuted)."
  },
  {
   "property": "C25",
   "status": "partial",
   "theorems": [
    "C25_numpy_degree",
    "C25_faiss_degree",
    "C25_faiss_degree_with_self",
    "C25_sklearn_degree_partial",
    "C25_sklearn_refuted"
   ],
   "note": "True for numpy and faiss. The sklearn backend gives k+1 out-neighbours when points coincide (C25_sklearn_refuted); C25_sklearn_degree_partial proves exactly min(k, n-1) when no two points coincide."
  },
  {
   "property": "C26",
   "status": "proved",
   "theorems": [
    "C26_round_trip",
    "C26_round_trip_no_overwrite",
    "C26_shard_size_irrelevant",
    "C26_negative_shard_refuted",
    "C26_stale_weights_refuted"
   ],
   "note": "Positive shard sizes and unsharded. Negative shard sizes lose all edges silently (C26_negative_shard_refuted); overwrite=False keeps a stale weight file (C26_stale_weights_refuted)."
  },
  {
   "property": "C27",
   "status": "partial",
   "theorems": [
    "C27_first_save",
    "C27_overwrite_crash_partial",
    "C27_overwrite_crash_without_weight_file",
    "C27_overwrite_loses_weights_refuted",
    "C27_unreadable_entry_refuted"
   ],
   "note": "True for a first save. Overwriting clears the directory file by file: a crash can leave the old graph without its weights (C27_overwrite_loses_weights_refuted) or an entry that exists and cannot be loaded (C27_unreadable_entry_refuted). C27_overwrite_crash_partial shows nothing worse can happen."
  },
  {
   "property": "C28",
   "status": "partial",
   "theorems": [
    "C28_shared_cache_is_transparent_partial",
    "C28_undeclared_read_refuted",
    "C28_shape_fingerprint_refuted",
    "C28_interrupted_random_step_refuted"
   ],
   "note": "Preprocessing step cache: any sequence of calls sharing a cache returns the uncached results, for steps that read and write what they declare and draw nothing in transform, given a fingerprint that identifies the dataset. Refuted for core.ensure_2d (reads features.X, declares raw.X), for datasets without a stored fingerprint (shape only), and after an interruption for steps that draw in transform."
  },
  {
   "property": "C29",
   "status": "partial",
   "theorems": [
    "C29_purged_result_is_the_same_partial",
    "C29_purged_run_succeeds_iff",
    "C29_purging_a_produced_output_refuted",
    "C29_default_plan_refuted",
    "C29_undeclared_read_refuted"
   ],
   "note": "A purged run that returns gives the unpurged result; but every plan that produces the artifact it returns (output key other than raw.X) fails with KeyError when purging, because the default of store.get is evaluated eagerly. Exact condition proved."
  },
  {
   "property": "C30",
   "status": "proved",
   "theorems": [
    "C30_space_accepted_iff",
    "C30_grid_runs_iff",
    "C30_grid_is_product"
   ],
   "note": "sorted() is any permutation of the keys. Path disjointness of the leaves is derived, not assumed."
  },
  {
   "property": "C31",
   "status": "partial",
   "theorems": [
    "C31_merge_scalars",
    "C31_merge_mappings",
    "C31_idempotent",
    "C31_identity",
    "C31_flatten_exact",
    "C31_names_distinct",
    "C31_associativity_refuted",
    "C31_flatten_dots_refuted"
   ],
   "note": "deep_merge in full. flatten_patch is exact when no key contains a dot (C31_flatten_exact); with a dotted key two leaves can share a name and one is lost (C31_flatten_dots_refuted). Merging is not associative (C31_associativity_refuted)."
  },
  {
   "property": "C32",
   "status": "proved",
   "theorems": [
    "C32_plan_accepted_iff",
    "C32_views",
    "C32_complement_partitions",
    "C32_two_view_runs_iff"
   ],
   "note": "Preprocessing is any function, random column draws are any distinct in-range columns. The ready-made two-view plan accepts fraction 1, and any fraction on a one-column dataset, and then fails when the views are made (C32_two_view_runs_iff)."
  },
  {
   "property": "C33",
   "status": "proved",
   "theorems": [
    "C33_textbook",
    "C33_in_unit_interval",
    "C33_one_iff_perfect",
    "C33_order_irrelevant",
    "C33_class_ids_irrelevant",
    "C33_evaluate",
    "C33_evaluate_runs_iff"
   ],
   "note": "Integer labels, exact rationals instead of floats; the NaN filter and the fallback for labels that are not numbers are not modelled. macro_f1 averages over the classes of the true labels only."
  },
  {
   "property": "C34",
   "status": "proved",
   "theorems": [
    "C34_word_dropout",
    "C34_random_swap",
    "C34_words_unique",
    "C34_token_swap",
    "C34_token_mask",
    "C34_feature_dropout",
    "C34_gaussian_noise",
    "C34_gaussian_noise_negative",
    "C34_swap_noise",
    "C34_edge_dropout",
    "C34_edge_dropout_zero",
    "C34_edge_rows_refuted",
    "C34_time_shift",
    "C34_flip",
    "C34_flip_twice",
    "C34_cutout",
    "C34_cutout_fraction",
    "C34_crop_pad",
    "C34_fold_inside",
    "C34_layouts_agree_partial",
    "C34_layouts_agree_refuted"
   ],
   "note": "For every numpy generator whose draws are in range. Exact rationals, no integer dtypes. Two edges written one per row are misread as columns (C34_edge_rows_refuted); numpy and torch arrays may be flipped along different axes (C34_layouts_agree_refuted)."
  },
  {
   "property": "C35",
   "status": "partial",
   "theorems": [
    "C35_deterministic_partial",
    "C35_strategy_partial",
    "C35_swap_noise_torch_refuted"
   ],
   "note": "Full statement false: swap noise on a torch tensor draws from torch's process-wide generator (C35_swap_noise_torch_refuted). Proved for every pipeline without swap noise and for every numpy, text and graph sample. torch.Generator seeded per call is a function of its seed."
  },
  {
   "property": "C36",
   "status": "proved",
   "theorems": [
    "C36_scores_clamped_and_normalised",
    "C36_stopping_rule"
   ],
   "note": "Exact rational arithmetic. Row sums 0 or 1 hold when row normalisation is on (the default); without it they stay at most 1 under random-walk normalisation. The square root of the symmetric normalisation is any function that is positive on positive numbers."
  },
  {
   "property": "C37",
   "status": "partial",
   "theorems": [
    "C37_returns_iff_every_class_is_labelled",
    "C37_hidden_labels_ignored_partial",
    "C37_hidden_label_raises_refuted"
   ],
   "note": "The claim is false: the number of classes is counted on the labelled nodes but the one-hot encoding looks at all labels, so a validated dataset with a class that is only on unlabelled nodes raises ValueError. Proved: it returns exactly when every class is labelled, and two runs that return and differ in hidden labels give the same result."
  },
  {
   "property": "C38",
   "status": "partial",
   "theorems": [
    "C38_torch_harmonic",
    "C38_numpy_equation",
    "C38_numpy_harmonic_partial",
    "C38_rows_are_distributions",
    "C38_numpy_self_loop_refuted"
   ],
   "note": "The torch backend is harmonic everywhere. The numpy backend overwrites the diagonal, so a self-loop on an unlabelled node is counted twice (C38_numpy_self_loop_refuted); without one it is harmonic. np.linalg.solve is any function that returns the unique solution. Also proved: rows are probability distributions on symmetric graphs."
  },
  {
   "property": "C39",
   "status": "partial",
   "theorems": [
    "C39_respects_labels_and_is_optimal",
    "C39_returns_unless_the_solver_raises",
    "C39_search_finds_the_reachable_nodes",
    "C39_columns_are_not_classes_refuted"
   ],
   "note": "Label constraints and optimality are proved for every integer-capacity graph and every maximum flow (scipy's solver is any function whose results are maximum flows; weights are rationals scaled and rounded as the code does; min_capacity >= 0). The residual search is proved to find exactly the reachable nodes. Partial because the score columns stand for the lower and higher labelled class, not for class ids: with labelled classes 1 and 2 of a valid dataset the arg-max of a node labelled 1 is 0 (C39_columns_are_not_classes_refuted)."
  },
  {
   "property": "C40",
   "status": "proved",
   "theorems": [
    "C40_reported_residual_is_true",
    "C40_converges_in_dimension_rounds"
   ],
   "note": "Exact rational arithmetic, the residual norm squared. Also proved: for a symmetric positive definite operator it converges within as many rounds as the dimension."
  },
  {
   "property": "C41",
   "status": "proved",
   "theorems": [
    "C41_self_training_history",
    "C41_self_training_returns",
    "C41_rows_conserved"
   ],
   "note": "Classifiers are arbitrary functions; exceptions raised inside them are not modelled. The history also fixes which rows each round may label (directly or by the vote of their group), with which label and confidence. max_new_labels >= 0 is assumed (the code does not check it). The torch branch, which mirrors it, is not modelled."
  },
  {
   "property": "C42",
   "status": "proved",
   "theorems": [
    "C42_select_confident",
    "C42_select_confident_torch",
    "C42_select_confident_returns",
    "C42_select_top_per_class",
    "C42_select_top_per_class_torch",
    "C42_negative_max_new_refuted"
   ],
   "note": "For non-negative bounds. A negative max_new is not refused by the numpy version, which then returns len + max_new rows (C42_negative_max_new_refuted)."
  },
  {
   "property": "C43",
   "status": "proved",
   "theorems": [
    "C43_knn_proba",
    "C43_knn_predict",
    "C43_weight_positive",
    "C43_batches_irrelevant",
    "C43_fit_refuses",
    "C43_negative_batch_refuted"
   ],
   "note": "For positive batch_size and eps, any score function and any argpartition/topk that returns k positions with none outside larger. Exact rationals. A negative batch_size is accepted and gives all-zero rows (C43_negative_batch_refuted); 0 raises ValueError."
  },
  {
   "property": "C44",
   "status": "proved",
   "theorems": [
    "C44_labelling_does_not_move_the_split"
   ],
   "note": ""
  },
  {
   "property": "C45",
   "status": "proved",
   "theorems": [
    "C45_ascii_injective",
    "C45_unicode_injective",
    "C45_ascii_output",
    "C45_lone_surrogates_refuted"
   ],
   "note": "Both settings of ensure_ascii. repr(float) is any injective printing that does not look like an integer. Strings may contain lone surrogates as long as no two of them form a pair; a string of two that do has the encoding of the character they stand for (C45_lone_surrogates_refuted)."
  },
  {
   "property": "C46",
   "status": "partial",
   "theorems": [
    "C46_mixed_seed_range",
    "C46_mixed_seeds_distinct_refuted"
   ],
   "note": "Distinctness is false: only seed + salt matters. Only the range part holds."
  },
  {
   "property": "C47",
   "status": "partial",
   "theorems": [
    "C47_cached_load_same",
    "C47_long_metadata_refuted"
   ],
   "note": "Arrays always agree; metadata agrees when no list in it has more than 50 items, and the unconditional claim is refuted."
  },
  {
   "property": "C48",
   "status": "proved",
   "theorems": [
    "C48_graph_row_stochastic",
    "C48_artifact_accepted_iff",
    "C48_rw_undirected_flag_refuted"
   ],
   "note": "Exact rational weights. With rw the artifact still says directed=False although the two directions differ (C48_rw_undirected_flag_refuted)."
  },
  {
   "property": "C49",
   "status": "proved",
   "theorems": [
    "C49_epsilon_exact",
    "C49_chunk_independent",
    "C49_epsilon_symmetric"
   ],
   "note": "numpy backend. The work-directory variant is the same loop as C24 and is not modelled separately."
  },
  {
   "property": "C50",
   "status": "proved",
   "theorems": [
    "C50_anchor_edges",
    "C50_missing_anchor_refuted"
   ],
   "note": "For backends that return real anchors. A missing anchor (-1 from faiss) silently means the last anchor (C50_missing_anchor_refuted)."
  },
  {
   "property": "C51",
   "status": "proved",
   "theorems": [
    "C51_cached_build_equals_uncached",
    "C51_entry_saved",
    "C51_uncached_touches_nothing"
   ],
   "note": "knn scheme with the numpy backend; post-processing is an arbitrary function. One process at a time."
  },
  {
   "property": "C52",
   "status": "proved",
   "theorems": [
    "C52_random_trials",
    "C52_draws_in_sequence",
    "C52_prefix_stable",
    "C52_runs"
   ],
   "note": "The generator is any function whose integer and uniform draws respect their bounds. For loguniform only that a float is produced: exp(log x) is not modelled."
  },
  {
   "property": "C53",
   "status": "proved",
   "theorems": [
    "C53_best_trial"
   ],
   "note": "Aggregated scores are abstracted to an ordered set with NaN and infinities."
  },
  {
   "property": "C54",
   "status": "partial",
   "theorems": [
    "C54_metadata_partial",
    "C54_metadata_refuted"
   ],
   "note": "True of datasets without a views entry (C54_metadata_partial). Views of a dataset that is itself a view are written into that dataset's own nested dictionary (C54_metadata_refuted)."
  },
  {
   "property": "C55",
   "status": "proved",
   "theorems": [
    "C55_resolved_plan",
    "C55_resolution_fails_iff_unknown"
   ],
   "note": ""
  },
  {
   "property": "C56",
   "status": "proved",
   "theorems": [
    "C56_spreading_stopping_rule",
    "C56_spreading_scores"
   ],
   "note": "Exact rational arithmetic."
  },
  {
   "property": "C57",
   "status": "proved",
   "theorems": [
    "C57_pseudo_label_history",
    "C57_pseudo_label_returns",
    "C57_rows_conserved"
   ],
   "note": "numpy branch; max_new_labels >= 0."
  },
  {
   "property": "C58",
   "status": "proved",
   "theorems": [
    "C58_co_training_history",
    "C58_rows_kept"
   ],
   "note": "numpy branch; k_per_class >= 0."
  },
  {
   "property": "C59",
   "status": "partial",
   "theorems": [
    "C59_tri_training_partial",
    "C59_pseudo_labels_refuted"
   ],
   "note": "The whole history is proved for arbitrary learners, but the label given to a row is the column index the two other learners agree on, not the class: with labels {3, 5} learners are retrained on labels 0 and 1 (C59_pseudo_labels_refuted). It is the class exactly when the classes are 0..K-1. numpy branch; max_new_labels >= 0."
  },
  {
   "property": "C60",
   "status": "partial",
   "theorems": [
    "C60_single_proba_partial",
    "C60_tri_proba_partial",
    "C60_tri_predict_partial",
    "C60_co_predict_partial",
    "C60_negative_sum_reverses",
    "C60_signed_scores_refuted",
    "C60_binary_decision_refuted",
    "C60_tri_predict_refuted"
   ],
   "note": "Proved for non-negative scores with a positive entry in each row, and for predict when all learners know the same classes. False in general: decision scores are divided by a negative row sum, which reverses the ranking (C60_signed_scores_refuted, C60_negative_sum_reverses), binary decision scores are returned unchanged (C60_binary_decision_refuted), and tri-training's predict looks the union's column up in the first learner's classes (C60_tri_predict_refuted)."
  },
  {
   "property": "C61",
   "status": "partial",
   "theorems": [
    "C61_setred_history",
    "C61_setred_filter",
    "C61_edge_weights",
    "C61_rng_graph",
    "C61_knn_graph_partial",
    "C61_knn_graph_refuted"
   ],
   "note": "History, proposals, shares, relative-neighbourhood graph and cut-edge test are proved. The k-nearest-neighbour graph is as claimed for pairwise distinct points; with identical points a row can be its own neighbour (C61_knn_graph_refuted). Distances are given as a matrix; the normal quantile z is any rational; numpy branch."
  },
  {
   "property": "C62",
   "status": "partial",
   "theorems": [
    "C62_democratic_history",
    "C62_combined_prediction",
    "C62_unanimous_prediction_partial",
    "C62_unanimous_prediction_refuted"
   ],
   "note": "The history and the combined prediction are proved. The learners' common prediction is returned when a considered learner has positive weight; when all weights are 0 the first class is returned whatever they predict (C62_unanimous_prediction_refuted). Learners predict labels they were trained on and report the sorted labels as classes_. numpy branch."
  },
  {
   "property": "C63",
   "status": "proved",
   "theorems": [
    "C63_s4vm_safe",
    "C63_s4vm_two_classes"
   ],
   "note": "numpy branch, exact rationals for flip_rate; accuracies compared as counts. flip_rate >= 0."
  },
  {
   "property": "C64",
   "status": "proved",
   "theorems": [
    "C64_encoding_round_trip",
    "C64_encoding_keeps_order",
    "C64_scores_decode_to_predictions",
    "C64_binary_decision"
   ],
   "note": "Integer labels."
  },
  {
   "property": "C65",
   "status": "proved",
   "theorems": [
    "C65_auto_takes_first_available",
    "C65_auto_fails_only_if_none",
    "C65_missing_dependency_reported",
    "C65_named_backend"
   ],
   "note": "The lstm parameter aliases and the import of the factory are not modelled; parameters are integers; no backend is named by the empty string."
  },
  {
   "property": "C66",
   "status": "proved",
   "theorems": [
    "C66_build_pipeline"
   ],
   "note": "The registry and constructors are an arbitrary function."
  },
  {
   "property": "C67",
   "status": "proved",
   "theorems": [
    "C67_within_the_limit",
    "C67_only_lowered",
    "C67_absent_settings_are_set",
    "C67_everything_else_is_kept",
    "C67_options_become_a_mapping",
    "C67_report_is_exact",
    "C67_idempotent",
    "C67_limits_in_force",
    "C67_auto_refused_in_benchmark_mode",
    "C67_no_limits_no_change",
    "C67_null_is_not_limited_refuted",
    "C67_default_batch_size_is_not_limited_refuted"
   ],
   "note": "int() and str() of other values are arbitrary functions. A setting written as null, and a batch size left to its default, are not limited (the two refuted theorems)."
  },
  {
   "property": "C68",
   "status": "proved",
   "theorems": [
    "C68_seed_is_everywhere",
    "C68_everything_else_is_kept",
    "C68_names_are_distinct",
    "C68_runs_differ_only_in_seed"
   ],
   "note": "A run section that is not a mapping is replaced by one."
  },
  {
   "property": "C69",
   "status": "proved",
   "theorems": [
    "C69_selects_exactly",
    "C69_success_iff_in_range",
    "C69_negative_refused",
    "C69_too_large_refused",
    "C69_graph_rows",
    "C69_graph_other",
    "C69_graph_edges_follow_rows",
    "C69_graph_edge_count",
    "C69_edge_weight_refuted"
   ],
   "note": "torch_geometric's subgraph is any function meeting its documented contract. Arrays with one entry per edge are cut with node numbers (C69_edge_weight_refuted)."
  },
  {
   "property": "C70",
   "status": "proved",
   "theorems": [
    "C70_method_data",
    "C70_no_held_out_row",
    "C70_report",
    "C70_report_exists",
    "C70_splits_independent",
    "C70_scores_by_class_partial",
    "C70_labels_must_be_column_numbers_refuted"
   ],
   "note": "Methods without views. If labels are not column numbers 0..k-1 a perfect classifier may score 0 (C70_labels_must_be_column_numbers_refuted)."
  },
  {
   "property": "C71",
   "status": "partial",
   "theorems": [
    "C71_numbering",
    "C71_masks",
    "C71_training_labels_partial",
    "C71_one_entry_per_node",
    "C71_labelled_count_checked",
    "C71_report",
    "C71_report_of_the_rows",
    "C71_held_out_labels_visible_refuted"
   ],
   "note": "Everything but one clause: the labels of validation and test nodes are not hidden from the method (C71_held_out_labels_visible_refuted)."
  },
  {
   "property": "C72",
   "status": "proved",
   "theorems": [
    "C72_fit_rows",
    "C72_never_the_test_set",
    "C72_test_refused",
    "C72_conversion_is_sound"
   ],
   "note": ""
  },
  {
   "property": "C73",
   "status": "proved",
   "theorems": [
    "C73_text_expanded",
    "C73_text_refused",
    "C73_one_reading",
    "C73_plain_text_is_kept",
    "C73_every_place",
    "C73_fails_iff_unresolved",
    "C73_root_must_be_a_mapping"
   ],
   "note": "The environment and the defaults are arbitrary functions; texts are bytes, so characters outside ASCII never belong to a name. YAML parsing is not modelled; tuples, which YAML does not produce, are lists."
  },
  {
   "property": "C74",
   "status": "partial",
   "theorems": [
    "C74_first_free_name",
    "C74_alone",
    "C74_no_sharing_partial",
    "C74_concurrent_start_refuted",
    "C74_rename_shares_refuted"
   ],
   "note": "No two runs share a directory under every schedule, if none of them changes its name after a search. Two clauses are false: of two runs that look at the same time one fails although the next name is free (C74_concurrent_start_refuted), and the renaming after a search can take over the directory another run has just made (C74_rename_shares_refuted)."
  },
  {
   "property": "C75",
   "status": "proved",
   "theorems": [
    "C75_auto_places_found",
    "C75_refused_iff"
   ],
   "note": "Blanks and capitals of ASCII only."
  },
  {
   "property": "C76",
   "status": "proved",
   "theorems": [
    "C76_seed_and_label",
    "C76_trials_apart",
    "C76_labels_apart",
    "C76_range",
    "C76_explicit_seed_wins"
   ],
   "note": "SHA-256 is an arbitrary function to byte strings: texts, not digests, are proved different."
  },
  {
   "property": "C77",
   "status": "partial",
   "theorems": [
    "C77_targets_iff",
    "C77_trial_config",
    "C77_best_trial",
    "C77_search_returns",
    "C77_limits_after_search_refuted",
    "C77_mapping_candidate_refuted"
   ],
   "note": "Targets, frame, chosen values and the choice of the best trial are proved. Two clauses are false: resource limits are applied only after the search, so the final run may use settings no trial used (C77_limits_after_search_refuted), and a candidate that is a mapping is merged into the base's mapping instead of replacing it (C77_mapping_candidate_refuted). The objective is an arbitrary function of the trial's number and configuration."
  },
  {
   "property": "C78",
   "status": "proved",
   "theorems": [
    "C78_all_seeds_run",
    "C78_stops_at_the_first_failure",
    "C78_seeds"
   ],
   "note": "One run is an arbitrary function of its seed; the configuration given to it is C68's."
  },
  {
   "property": "C79",
   "status": "partial",
   "theorems": [
    "C79_summary",
    "C79_counts_partial",
    "C79_raised_run_is_missing_refuted"
   ],
   "note": "Statistics proved for reports with unique keys in which no measured place lies below another. Counts and status are proved over the reports; a run that raised leaves no report, so the status can be 'success' with 0 failed runs although the exit code is 1 (C79_raised_run_is_missing_refuted). fmean and pstdev are arbitrary functions."
  },
  {
   "property": "C80",
   "status": "proved",
   "theorems": [
    "C80_even_use",
    "C80_fit_uses_every_row",
    "C80_rows_keep_their_labels"
   ],
   "note": "The generator is an arbitrary state machine whose randperm returns permutations; the fit loop is the one shared by the FixMatch family."
  },
  {
   "property": "C81",
   "status": "partial",
   "theorems": [
    "C81_batch_size_is_immaterial_partial",
    "C81_never_starts_training",
    "C81_mode_restored_refuted"
   ],
   "note": "Proved for predictions that succeed. When the model raises or its output is not two-dimensional the model stays in evaluation mode (C81_mode_restored_refuted)."
  },
  {
   "property": "C82",
   "status": "partial",
   "theorems": [
    "C82_slice_is_induced_partial",
    "C82_slice_keeps_weights_refuted",
    "C82_concat_is_disjoint_union_partial",
    "C82_concat_mixed_refuted",
    "C82_predict_whole_graph_partial",
    "C82_predict_batch_size_refuted"
   ],
   "note": "Proved for graphs without edge weights (slicing), for lists that are all weighted or all unweighted (joining) and for graphs that fit in one batch (prediction). In general false: slicing passes the whole graph's weights on, joining drops the missing weights so that the rest moves up, and prediction cuts the graph at batch boundaries."
  },
  {
   "property": "C83",
   "status": "partial",
   "theorems": [
    "C83_fixmatch_hard",
    "C83_fixmatch_soft",
    "C83_refuses",
    "C83_unconfident_rows_are_ignored",
    "C83_sharpening_partial",
    "C83_sharpening_refuted",
    "C83_defixmatch_hard",
    "C83_uda",
    "C83_uda_schedule",
    "C83_schedule",
    "C83_noisy_student",
    "C83_use_cat"
   ],
   "note": "Proved over exact rationals with softmax, log, pow, exp and the losses as arbitrary functions. Sharpened targets are distributions only when the sum of the powers is at least 1e-12; at a low temperature they are not (C83_sharpening_refuted). DeFixMatch is stated for hard labels."
  },
  {
   "property": "C84",
   "status": "partial",
   "theorems": [
    "C84_pool_partial",
    "C84_pool_refuted",
    "C84_threshold_follows_history",
    "C84_threshold_range",
    "C84_second_fit_refuted"
   ],
   "note": "The threshold is proved for every history of batches with distinct indices inside the pool. Without a pool size the indices are checked to number the pool (C84_pool_partial); with one, repeated and negative indices are accepted (C84_pool_refuted). A second fit of the same object inherits the first one's statistics (C84_second_fit_refuted)."
  },
  {
   "property": "C85",
   "status": "proved",
   "theorems": [
    "C85_threshold_follows_history",
    "C85_threshold_range",
    "C85_second_fit_refuted"
   ],
   "note": "The property speaks of the first fit: a second fit of the same object starts from the first one's averages (C85_second_fit_refuted). quantile is any function that lies between two of the values."
  },
  {
   "property": "C86",
   "status": "partial",
   "theorems": [
    "C86_alignment",
    "C86_aligned_rows_partial",
    "C86_dead_target_refuted",
    "C86_adamatch_mask",
    "C86_soft_weight",
    "C86_running_mean",
    "C86_rare_class_refuted",
    "C86_weight_class_refuted"
   ],
   "note": "Aligned rows sum to one only if no class's target is below 1e-12 (C86_dead_target_refuted). With per_class the running mean of a class with at most one row per batch decays to 0 (C86_rare_class_refuted), and SoftMatch's weight comes from the aligned row while the pseudo-label comes from the raw one (C86_weight_class_refuted)."
  },
  {
   "property": "C87",
   "status": "proved",
   "theorems": [
    "C87_scores",
    "C87_score_matches_share",
    "C87_rows",
    "C87_no_confident_majority_refuted"
   ],
   "note": "Proved over exact rationals for any descending sort and argmax. When no majority row is confident rho is 1 and every row predicted as another class is used (C87_no_confident_majority_refuted)."
  },
  {
   "property": "C88",
   "status": "partial",
   "theorems": [
    "C88_objective_partial",
    "C88_target_total",
    "C88_targets_are_distributions_refuted",
    "C88_first_epoch_targets_refuted"
   ],
   "note": "The objective and the target's formula are proved for every fit. The target is not a distribution: the bias correction is one epoch ahead of the average, so targets sum to (1-alpha^e)/(1-alpha^(e+1)) and are all 0 in the first epoch (C88_target_total and the refuted theorems)."
  },
  {
   "property": "C89",
   "status": "proved",
   "theorems": [
    "C89_ramp",
    "C89_full_ramp_never_ends",
    "C89_unlabelled_rows_count_refuted"
   ],
   "note": "Also shown: a fit of one step gives the unlabelled data no weight at any positive fraction (C89_unlabelled_rows_count_refuted)."
  },
  {
   "property": "C90",
   "status": "proved",
   "theorems": [
    "C90_objective",
    "C90_teacher_range",
    "C90_views_must_match_refuted"
   ],
   "note": "Views of different sizes are not refused: a longer strong view is used in part, a shorter one ends the fit with IndexError (C90_views_must_match_refuted); the property does not claim otherwise."
  },
  {
   "property": "C91",
   "status": "partial",
   "theorems": [
    "C91_step",
    "C91_targets_partial",
    "C91_seed_determines_mixing_refuted"
   ],
   "note": "Missing: targets are distributions only if the sharpened powers do not sum below 1e-12 (hypothesis of C91_targets_partial). One step is modelled, not the batch order of a fit, because the generator is shared between batching and mixing. The mixing weights are not determined by the seed (C91_seed_determines_mixing_refuted)."
  },
  {
   "property": "C92",
   "status": "partial",
   "theorems": [
    "C92_memory",
    "C92_newest_rows_refuted",
    "C92_small_memory",
    "C92_pseudo_labels_partial"
   ],
   "note": "False when a step adds more rows than the memory holds: the first rows of the batch are kept, not the last (C92_newest_rows_refuted), so a memory no larger than the unlabelled batch never receives a labelled row (C92_small_memory). Otherwise the memory claim is C92_memory. Missing for the pseudo-labels: alignment to the labelled mean (false when a class is absent, see C86) and similarities below 1e-12."
  },
  {
   "property": "C93",
   "status": "proved",
   "theorems": [
    "C93_graph",
    "C93_objective",
    "C93_bad_label"
   ],
   "note": "The memory and alignment inside the objective are those of C92; memory_at in the statement is the memory as C92_memory describes it."
  },
  {
   "property": "C94",
   "status": "partial",
   "theorems": [
    "C94_fit",
    "C94_examples",
    "C94_smeared_labels",
    "C94_missing_last_class_refuted",
    "C94_targets_fit_heads_refuted"
   ],
   "note": "False in one corner: the number of classes is the greatest labelled class plus one, so heads with the right number of outputs fail in training when no labelled row has the last class (C94_missing_last_class_refuted), and when only class 0 is labelled the one-entry targets are broadcast over all outputs without an error (C94_targets_fit_heads_refuted). Everything else of the claim is C94_fit and C94_examples."
  },
  {
   "property": "C95",
   "status": "proved",
   "theorems": [
    "C94_fit",
    "C95_thresholds"
   ],
   "note": "C94_fit states kind, pool and threshold of every round (scheduled in TriNetSpec); C95_thresholds draws the bounds from it."
  },
  {
   "property": "C96",
   "status": "proved",
   "theorems": [
    "C96_predict",
    "C96_unequal_heads"
   ],
   "note": ""
  },
  {
   "property": "C97",
   "status": "partial",
   "theorems": [
    "C97_fit",
    "C97_feedback",
    "C97_bad_label",
    "C97_no_feedback",
    "C97_student_matters_refuted"
   ],
   "note": "C97_fit is the full claim for a running average that includes the present step, as the code computes it. Read as 'above the average so far' it is false: C97_feedback shows that the weight is mpl_ema times the distance to the earlier average, so with the accepted mpl_ema = 0 the feedback is always 0 (C97_no_feedback, C97_student_matters_refuted)."
  },
  {
   "property": "C98",
   "status": "proved",
   "theorems": [
    "C98_fit",
    "C98_attack_is_small",
    "C98_disagreement",
    "C98_predict",
    "C98_unequal_networks"
   ],
   "note": ""
  },
  {
   "property": "C99",
   "status": "partial",
   "theorems": [
    "C99_pi_fit",
    "C99_vat_fit",
    "C99_bad_label",
    "C99_length_refuted"
   ],
   "note": "False in one corner: a direction shorter than 1e-12, such as a zero gradient, is not stretched to length eps (C99_length_refuted); C99_vat_fit states the length for all other directions."
  },
  {
   "property": "C100",
   "status": "partial",
   "theorems": [
    "C100_prediction",
    "C100_returns",
    "C100_separate_part",
    "C100_columns_are_classes_refuted",
    "C100_hidden_labels_refuted"
   ],
   "note": "Everything but the last sentence holds. Columns are the two classes in increasing order, not the class numbers (C100_columns_are_classes_refuted), and when fewer than two classes are shown the hidden labels decide what the classes are (C100_hidden_labels_refuted). C100_separate_part also shows that a node joined to no label always gets the second class."
  },
  {
   "property": "C101",
   "status": "partial",
   "theorems": [
    "C101_rounds",
    "C101_returns",
    "C101_scores",
    "C101_hidden_labels",
    "C101_rows_are_distributions_refuted",
    "C101_negative_lambda_refuted"
   ],
   "note": "Everything but the last sentence holds: rows of scores need not sum to 1 (C101_rows_are_distributions_refuted), and a negative lambda is accepted and gives negative scores (C101_negative_lambda_refuted)."
  },
  {
   "property": "C102",
   "status": "partial",
   "theorems": [
    "C102_equations",
    "C102_converges",
    "C102_returns",
    "C102_hidden_labels",
    "C102_rows_sum_to_zero",
    "C102_rows_are_distributions_refuted",
    "C102_hidden_class_refuted",
    "C102_random_walk_refuted"
   ],
   "note": "Everything but the last sentence holds: with laplacian_kind rw the solver need not converge in n rounds (C102_random_walk_refuted), rows of scores sum to 0 (C102_rows_sum_to_zero, C102_rows_are_distributions_refuted), and a class that only hidden nodes have makes the fit fail (C102_hidden_class_refuted)."
  },
  {
   "property": "C103",
   "status": "partial",
   "theorems": [
    "C103_rounds",
    "C103_returns",
    "C103_one_class",
    "C103_balanced",
    "C103_hidden_labels",
    "C103_hidden_labels_refuted",
    "C103_hidden_class_refuted",
    "C103_keeps_labels_refuted"
   ],
   "note": "Everything but the last sentence holds: with b_strategy true a hidden label decides the prediction of its own node (C103_hidden_labels_refuted), a class that only hidden nodes have makes the fit fail (C103_hidden_class_refuted), and labelled nodes can end in another class (C103_keeps_labels_refuted)."
  },
  {
   "property": "C104",
   "status": "partial",
   "theorems": [
    "C104_returns",
    "C104_parts",
    "C104_operator",
    "C104_rows",
    "C104_symmetric",
    "C104_edges",
    "C104_negative_weights_refuted"
   ],
   "note": "Everything but the last sentence holds: negative weights are accepted, and a total of 0 clamped to 1e-12 gives entries beyond 1e11 and a row sum of 0 (C104_negative_weights_refuted)."
  },
  {
   "property": "C105",
   "status": "partial",
   "theorems": [
    "C105_reach",
    "C105_bounds",
    "C105_appnp",
    "C105_attention",
    "C105_symmetric_range_refuted"
   ],
   "note": "Everything but the last sentence holds: with sym a node can leave the range of the features (C105_symmetric_range_refuted)."
  },
  {
   "property": "C106",
   "status": "partial",
   "theorems": [
    "C106_training",
    "C106_best",
    "C106_grand",
    "C106_returns",
    "C106_hidden_labels",
    "C106_no_epochs_refuted",
    "C106_nan_refuted",
    "C106_empty_training_refuted",
    "C106_hidden_class_refuted"
   ],
   "note": "Everything but the last sentence holds: max_epochs 0 fails with UnboundLocalError, a NaN at the first epoch keeps those weights, an empty train mask is accepted, and a hidden label that is the largest changes the number of outputs."
  },
  {
   "property": "C107",
   "status": "partial",
   "theorems": [
    "C107_generator",
    "C107_sgc",
    "C107_cache",
    "C107_seed_refuted",
    "C107_cache_refuted",
    "C107_sgc_features_refuted"
   ],
   "note": "Everything but the last sentence holds: the layers are built before the generator is seeded, a mask replaced inside the masks dictionary is not seen, and SGC answers with the features it was fitted on."
  },
  {
   "property": "C108",
   "status": "proved",
   "theorems": [
    "C108_returns",
    "C108_table",
    "C108_identifiers",
    "C108_default_special",
    "C108_range",
    "C108_fit_texts_only",
    "C108_row_by_row"
   ],
   "note": "default special words are shown never to occur in lower-cased ASCII texts; without that hypothesis identifiers collide (C108_special_words_refuted) or reach the reported size (C108_same_special_refuted)"
  },
  {
   "property": "C109",
   "status": "proved",
   "theorems": [
    "C109_table",
    "C109_same_word",
    "C109_collisions"
   ],
   "note": "vocab_size below 3 gives identifiers outside the vocabulary (C109_small_vocabulary_refuted)"
  },
  {
   "property": "C110",
   "status": "proved",
   "theorems": [
    "C110_onehot",
    "C110_same_row"
   ],
   "note": "columns are not class numbers (C110_column_number_refuted); labels already one-hot are flattened (C110_already_onehot_refuted)"
  },
  {
   "property": "C111",
   "status": "proved",
   "theorems": [
    "C111_fit_returns",
    "C111_layout",
    "C111_indicator",
    "C111_transform_returns",
    "C111_fit_rows_return",
    "C111_fit_rows_only"
   ],
   "note": "a table can be refused after fitting on a part of it (C111_other_rows_refuted); the word __missing__ is a missing value (C111_missing_word_refuted)"
  },
  {
   "property": "C112",
   "status": "proved",
   "theorems": [
    "C112_fraction",
    "C112_kept",
    "C112_attach"
   ],
   "note": "two edges stored as rows are misread (C112_two_rows_refuted); undirected graphs become directed (C112_undirected_refuted)"
  },
  {
   "property": "C113",
   "status": "proved",
   "theorems": [
    "C113_same_pixels",
    "C113_untouched",
    "C113_round_trip"
   ],
   "note": "outside the stated sizes the layout is misread: C113_narrow_refuted, C113_grey_count_refuted"
  },
  {
   "property": "C114",
   "status": "proved",
   "theorems": [
    "C114_channels"
   ],
   "note": "four grey images lose one: C114_grey_count_refuted"
  },
  {
   "property": "C115",
   "status": "proved",
   "theorems": [
    "C115_resize"
   ],
   "note": "images with values in [0, 1) become black: C115_fractions_refuted"
  },
  {
   "property": "C116",
   "status": "proved",
   "theorems": [
    "C116_normalize",
    "C116_returns"
   ],
   "note": "a grey image with three means gets three channels: C116_grey_refuted"
  },
  {
   "property": "C117",
   "status": "proved",
   "theorems": [
    "C117_squeeze",
    "C117_squeeze_range",
    "C117_squeeze_other",
    "C117_flatten",
    "C117_refusals"
   ],
   "note": "an empty batch and a store without raw.X: C117_empty_refuted"
  },
  {
   "property": "C118",
   "status": "proved",
   "theorems": [
    "C118_fit_returns",
    "C118_fit_rows_only",
    "C118_row_by_row",
    "C118_distances",
    "C118_fit_geometry",
    "C118_unknown_row"
   ],
   "note": "a step fitted on raw.X cannot transform without features.X: C118_raw_refuted"
  },
  {
   "property": "C119",
   "status": "proved",
   "theorems": [
    "C119_returns",
    "C119_whitening",
    "C119_row_by_row"
   ],
   "note": "the output has the shape of the fit images: C119_shape_refuted"
  },
  {
   "property": "C120",
   "status": "proved",
   "theorems": [
    "C120_fit",
    "C120_linear"
   ],
   "note": ""
  },
  {
   "property": "C121",
   "status": "proved",
   "theorems": [
    "C121_dense",
    "C121_groups",
    "C121_coarse",
    "C121_features",
    "C121_levels"
   ],
   "note": "isolated nodes are merged with each other: C121_unrelated_refuted; a negative weight in one direction is lost by symmetrizing: C121_negative_refuted; predict_proba ignores the graph it is given: C121_graph_ignored_refuted"
  },
  {
   "property": "C122",
   "status": "proved",
   "theorems": [
    "C122_rows",
    "C122_scores",
    "C122_exact",
    "C122_unreached",
    "C122_returns",
    "C122_hidden_labels"
   ],
   "note": "a hidden label of a class that no labelled node has makes the fit fail: C122_hidden_class_refuted; a labelled node with a negative label is accepted and has a zero row: C122_labelled_row_refuted"
  },
  {
   "property": "C123",
   "status": "proved",
   "theorems": [
    "C123_returns",
    "C123_recurrence",
    "C123_bounds",
    "C123_converges",
    "C123_local",
    "C123_unchanged",
    "C123_sink",
    "C123_dense_same"
   ],
   "note": "the transition matrix is not row-stochastic at a node without outgoing edges, as documented: C123_isolated_refuted; parallel edges count once without scipy: C123_dense_refuted"
  },
  {
   "property": "C124",
   "status": "proved",
   "theorems": [
    "C124_returns",
    "C124_embedding",
    "C124_moves"
   ],
   "note": "the truncated decomposition used for large graphs is an arbitrary function of the same table"
  },
  {
   "property": "C125",
   "status": "proved",
   "theorems": [
    "C125_round_trip",
    "C125_distinct",
    "C125_validate",
    "C125_known_keys",
    "C125_defaults",
    "C125_edge_weights"
   ],
   "note": "the dictionary without keys gives a builder that validate refuses: C125_builder_defaults_refuted; NaN passes: C125_nan_refuted; cosine weights can be negative: C125_negative_refuted"
  },
  {
   "property": "C126",
   "status": "proved",
   "theorems": [
    "C126_returns",
    "C126_run",
    "C126_subgradient",
    "C126_bounded",
    "C126_hidden",
    "C126_both_signs",
    "C126_probabilities"
   ],
   "note": "findings: C126_leak_refuted, C126_balance_refuted, C126_columns_refuted, C126_cap_refuted, C126_batch_refuted"
  },
  {
   "property": "C127",
   "status": "proved",
   "theorems": [
    "C127_register",
    "C127_path_kept",
    "C127_listing",
    "C127_answers",
    "C127_idempotent",
    "C127_get",
    "C127_shipped"
   ],
   "note": "findings: C127_override_refuted, C127_status_refuted, C127_colons_refuted"
  },
  {
   "property": "C128",
   "status": "proved",
   "theorems": [
    "C128_kept",
    "C128_listing",
    "C128_bootstrap",
    "C128_shipped"
   ],
   "note": "finding: C128_locked_refuted"
  },
  {
   "property": "C129",
   "status": "proved",
   "theorems": [
    "C129_register",
    "C129_stable",
    "C129_listing",
    "C129_get",
    "C129_lazy",
    "C129_shipped"
   ],
   "note": "findings: C129_shadow_refuted, C129_broken_refuted, C129_name_refuted"
  },
  {
   "property": "C130",
   "status": "proved",
   "theorems": [
    "C130_is_uri",
    "C130_parts",
    "C130_round_trip",
    "C130_distinct"
   ],
   "note": ""
  },
  {
   "property": "C131",
   "status": "proved",
   "theorems": [
    "C131_adjacency",
    "C131_drawn",
    "C131_walks",
    "C131_full_length",
    "C131_transition",
    "C131_pairs",
    "C131_symmetric",
    "C131_isolated"
   ],
   "note": ""
  },
  {
   "property": "C132",
   "status": "proved",
   "theorems": [
    "C132_returns",
    "C132_fit",
    "C132_hidden",
    "C132_isolated",
    "C132_predict"
   ],
   "note": "findings: C132_negative_batch_refuted, C132_torch_refuted, C132_negatives_refuted"
  },
  {
   "property": "C133",
   "status": "proved",
   "theorems": [
    "C133_edges",
    "C133_returns",
    "C133_fit"
   ],
   "note": "findings: C133_two_edges_refuted, C133_outside_refuted"
  },
  {
   "property": "C134",
   "status": "proved",
   "theorems": [
    "C134_run",
    "C134_exact",
    "C134_graph",
    "C134_other",
    "C134_empty"
   ],
   "note": "findings: C134_unchecked_refuted, C134_ragged_refuted, C134_dtype_refuted, C134_same_plan_refuted, C134_next_seed_refuted"
  },
  {
   "property": "C135",
   "status": "proved",
   "theorems": [
    "C135_plan",
    "C135_errors",
    "C135_unique",
    "C135_written"
   ],
   "note": "finding: C135_modality_refuted"
  },
  {
   "property": "C136",
   "status": "proved",
   "theorems": [
    "C136_hops",
    "C136_once",
    "C136_apart",
    "C136_average",
    "C136_inputs"
   ],
   "note": "finding: C136_direction_refuted"
  },
  {
   "property": "C137",
   "status": "proved",
   "theorems": [
    "C137_returns",
    "C137_fit",
    "C137_hidden",
    "C137_rows",
    "C137_predict",
    "C137_unfitted"
   ],
   "note": "findings: C137_unseen_class_refuted, C137_hidden_label_refuted, C137_best_refuted, C137_nan_refuted, C137_weights_refuted"
  },
  {
   "property": "C138",
   "status": "proved",
   "theorems": [
    "C138_queue",
    "C138_prototype",
    "C138_weights"
   ],
   "note": "findings: C138_unseen_refuted, C138_ema_refuted"
  },
  {
   "property": "C139",
   "status": "proved",
   "theorems": [
    "C139_objective",
    "C139_targets",
    "C139_trust"
   ],
   "note": "finding: C139_sharp_refuted"
  },
  {
   "property": "C140",
   "status": "proved",
   "theorems": [
    "C140_stages",
    "C140_rejects",
    "C140_predictor",
    "C140_second_refuted"
   ],
   "note": "findings: C140_dropped_refuted, C140_second_refuted, C140_teacher_refuted"
  },
  {
   "property": "C141",
   "status": "proved",
   "theorems": [
    "C141_contrast",
    "C141_symmetric",
    "C141_objective",
    "C141_predict"
   ],
   "note": ""
  },
  {
   "property": "C142",
   "status": "proved",
   "theorems": [
    "C142_returns",
    "C142_rejects",
    "C142_training",
    "C142_powers",
    "C142_symmetric",
    "C142_same_ties",
    "C142_graph",
    "C142_single_power",
    "C142_predict_returns",
    "C142_predict",
    "C142_predict_graph",
    "C142_local",
    "C142_mentions_refuted",
    "C142_direction_refuted"
   ],
   "note": "findings: C142_mentions_refuted, C142_direction_refuted, C142_single_power, C142_predict_graph"
  },
  {
   "property": "C143",
   "status": "proved",
   "theorems": [
    "C143_support",
    "C143_support_returns",
    "C143_views",
    "C143_neighbours",
    "C143_targets",
    "C143_loss",
    "C143_epoch",
    "C143_epoch_loss",
    "C143_all_edges_refuted",
    "C143_target_sum_refuted"
   ],
   "note": "findings: C143_all_edges_refuted, C143_target_sum_refuted"
  },
  {
   "property": "C144",
   "status": "proved",
   "theorems": [
    "C144_returns",
    "C144_training",
    "C144_accuracy",
    "C144_labels",
    "C144_failed",
    "C144_predict_returns",
    "C144_predict",
    "C144_failed_refuted"
   ],
   "note": "finding: C144_failed_refuted"
  },
  {
   "property": "C145",
   "status": "proved",
   "theorems": [
    "C145_logreg_returns",
    "C145_mlp_returns",
    "C145_mlp_training",
    "C145_logreg_training",
    "C145_seed",
    "C145_relabel",
    "C145_predict_returns",
    "C145_predict",
    "C145_rows",
    "C145_rows_of_data",
    "C145_failed",
    "C145_logreg_seed_refuted",
    "C145_failed_refuted"
   ],
   "note": "findings: C145_logreg_seed_refuted, C145_failed_refuted"
  },
  {
   "property": "C146",
   "status": "proved",
   "theorems": [
    "C146_text_returns",
    "C146_text_training",
    "C146_text_predict_returns",
    "C146_image_returns",
    "C146_image_training",
    "C146_image_predict_returns",
    "C146_predict",
    "C145_seed",
    "C145_relabel",
    "C146_refit_refuted",
    "C146_stale_shape_refuted"
   ],
   "note": "findings: C146_refit_refuted, C146_stale_shape_refuted"
  },
  {
   "property": "C147",
   "status": "proved",
   "theorems": [
    "C147_samples",
    "C147_rows",
    "C147_table",
    "C147_returns",
    "C147_wave",
    "C147_mean",
    "C147_mono",
    "C147_batch",
    "C147_range",
    "C147_bytes_refuted",
    "C147_channels_refuted",
    "C147_vector_refuted"
   ],
   "note": "findings: C147_bytes_refuted, C147_channels_refuted, C147_vector_refuted"
  },
  {
   "property": "C148",
   "status": "proved",
   "theorems": [
    "C148_numpy",
    "C148_numpy_errors",
    "C148_torch",
    "C148_torch_returns",
    "C148_meta",
    "C148_named_device",
    "C148_accelerator_refuted",
    "C148_trailing_refuted",
    "C148_opaque_refuted",
    "C148_extra_refuted",
    "C148_meta_refuted"
   ],
   "note": "findings: C148_accelerator_refuted, C148_trailing_refuted, C148_opaque_refuted, C148_extra_refuted, C148_meta_refuted"
  },
  {
   "property": "C149",
   "status": "proved",
   "theorems": [
    "C149_transparent",
    "C149_uncached",
    "C149_labels",
    "C149_key",
    "C149_save_crash",
    "C149_round_trip",
    "C149_features_refuted",
    "C149_edges_refuted",
    "C149_weights_refuted",
    "C149_none_refuted",
    "C149_stuck_refuted",
    "C149_mixed_refuted"
   ],
   "note": "findings: C149_features_refuted, C149_edges_refuted, C149_weights_refuted, C149_none_refuted, C149_stuck_refuted, C149_mixed_refuted"
  },
  {
   "property": "C150",
   "status": "proved",
   "theorems": [
    "C150_fingerprint",
    "C150_identifies",
    "C150_transparent",
    "C150_middle_refuted",
    "C150_given_refuted",
    "C150_bench_refuted"
   ],
   "note": "findings: C150_middle_refuted, C150_given_refuted, C150_bench_refuted"
  },
  {
   "property": "C151",
   "status": "proved",
   "theorems": [
    "C151_reads",
    "C151_mapping",
    "C151_factory",
    "C151_search",
    "C151_errors",
    "C151_sweep",
    "C151_seed_refuted",
    "C151_bool_refuted",
    "C151_output_refuted"
   ],
   "note": "findings: C151_seed_refuted, C151_bool_refuted, C151_output_refuted"
  },
  {
   "property": "C152",
   "status": "proved",
   "theorems": [
    "C152_start",
    "C152_before_loading",
    "C152_graph_refuted",
    "C152_metric_refuted"
   ],
   "note": "findings: C152_graph_refuted, C152_metric_refuted"
  },
  {
   "property": "C153",
   "status": "proved",
   "theorems": [
    "C153_fit",
    "C153_failed_fit",
    "C153_numpy_errors",
    "C153_labelled_only",
    "C153_history",
    "C153_unfitted",
    "C153_predict",
    "C153_mismatch",
    "C153_proba_returns",
    "C153_proba",
    "C153_sums",
    "C153_unknown_class",
    "C153_auto_refuted",
    "C153_unlabeled_refuted"
   ],
   "note": "findings: C153_auto_refuted, C153_unlabeled_refuted"
  },
  {
   "property": "C154",
   "status": "proved",
   "theorems": [
    "C154_refused",
    "C154_seeded",
    "C154_mlp",
    "C154_mlp_forward",
    "C154_mlp_rank_refuted",
    "C154_image",
    "C154_image_forward",
    "C154_image_channels_refuted",
    "C154_audio",
    "C154_audio_forward",
    "C154_audio_channels_refuted",
    "C154_text",
    "C154_text_forward",
    "C154_text_layout_refuted",
    "C154_text_flat_refuted",
    "C154_lstm",
    "C154_lstm_forward",
    "C154_lstm_vocabulary",
    "C154_sage",
    "C154_sage_forward"
   ],
   "note": "findings: the six _refuted theorems and C154_lstm_vocabulary; the property names those corners"
  },
  {
   "property": "C155",
   "status": "proved",
   "theorems": [
    "C155_container",
    "C155_to_torch",
    "C155_uint8_refuted",
    "C155_strict",
    "C155_auto",
    "C155_when_auto",
    "C155_views",
    "C155_views_entry",
    "C155_classes",
    "C155_missing_class_refuted",
    "C155_seeds",
    "C155_factory_refuted",
    "C155_refused",
    "C155_bundles",
    "C155_trinet",
    "C155_trinet_images_refuted",
    "C155_trinet_words_refuted"
   ],
   "note": "findings: the five _refuted theorems; the property names those corners"
  },
  {
   "property": "C156",
   "status": "proved",
   "theorems": [
    "C156_limits",
    "C156_splits",
    "C156_unaligned_refuted"
   ],
   "note": "finding: C156_unaligned_refuted; the property names that corner"
  },
  {
   "property": "C157",
   "status": "proved",
   "theorems": [
    "C157_subset",
    "C157_layout",
    "C157_nothing_kept_refuted",
    "C157_mask_columns_refuted",
    "C157_many_labels_refuted",
    "C157_negative_limit_refuted",
    "C157_no_edges_refuted",
    "C157_negative_nodes_refuted"
   ],
   "note": "findings: the six _refuted theorems; the property names those corners"
  },
  {
   "property": "C158",
   "status": "proved",
   "theorems": [
    "C158_make",
    "C158_fit",
    "C158_reproducible",
    "C158_ignored_refuted",
    "C158_local",
    "C158_unchanged",
    "C158_scores_unchanged",
    "C158_failed_fit_refuted",
    "C158_predict",
    "C158_unseen_label_refuted"
   ],
   "note": "findings: the three _refuted theorems; the property names those corners"
  },
  {
   "property": "C159",
   "status": "proved",
   "theorems": [
    "C159_reference_id",
    "C159_reference",
    "C159_request",
    "C159_target_refuted",
    "C159_bare_name_refuted",
    "C159_flag_refuted"
   ],
   "note": "findings: the three _refuted theorems; the property names those corners"
  },
  {
   "property": "C160",
   "status": "proved",
   "theorems": [
    "C160_paths",
    "C160_waveforms",
    "C160_splits",
    "C160_dotted_refuted",
    "C160_flat_refuted",
    "C160_relative_refuted"
   ],
   "note": "findings: the three _refuted theorems; the property names those corners"
  },
  {
   "property": "C161",
   "status": "proved",
   "theorems": [
    "C161_checks",
    "C161_embedding",
    "C161_isolated",
    "C161_global_refuted",
    "C161_seed_refuted"
   ],
   "note": "findings: the two _refuted theorems; the property names those corners"
  },
  {
   "property": "C162",
   "status": "proved",
   "theorems": [
    "C162_rows",
    "C162_seen",
    "C162_position_refuted",
    "C162_head_refuted"
   ],
   "note": "findings: the two _refuted theorems; the property names those corners"
  },
  {
   "property": "C163",
   "status": "proved",
   "theorems": [
    "C163_choice",
    "C163_numbers",
    "C163_loads",
    "C163_rows_refuted",
    "C163_first_refuted",
    "C163_empty_refuted",
    "C163_tensor_refuted"
   ],
   "note": "findings: the four _refuted theorems; the property names those corners"
  },
  {
   "property": "C164",
   "status": "proved",
   "theorems": [
    "C164_reference",
    "C164_uri",
    "C164_splits",
    "C164_missing",
    "C164_owner_refuted",
    "C164_empty_config_refuted"
   ],
   "note": "findings: the two _refuted theorems; the property names those corners"
  },
  {
   "property": "C165",
   "status": "proved",
   "theorems": [
    "C165_images",
    "C165_rows",
    "C165_refused",
    "C165_stacks",
    "C165_stack_refuted",
    "C165_narrow_refuted",
    "C165_batch_size"
   ],
   "note": "findings: the two _refuted theorems; the property names those corners"
  },
  {
   "property": "C166",
   "status": "proved",
   "theorems": [
    "C166_inductive",
    "C166_always",
    "C166_policy",
    "C166_ignored_refuted",
    "C166_graph",
    "C166_graph_always"
   ],
   "note": "finding: C166_ignored_refuted; the property names it"
  },
  {
   "property": "C167",
   "status": "proved",
   "theorems": [
    "C167_written",
    "C167_round_trip",
    "C167_agree",
    "C167_refused",
    "C167_library_refused",
    "C167_library_empty",
    "C167_modalities",
    "C167_letters_refuted",
    "C167_switch_refuted",
    "C167_library_refuted"
   ],
   "note": "findings: the three _refuted theorems; the property names them"
  },
  {
   "property": "C168",
   "status": "proved",
   "theorems": [
    "C168_written",
    "C168_accepted",
    "C168_refused",
    "C168_null_name_refuted",
    "C168_fraction_refuted"
   ],
   "note": "findings: the two _refuted theorems; the property names them"
  },
  {
   "property": "C169",
   "status": "proved",
   "theorems": [
    "C169_product",
    "C169_torch_answers",
    "C169_torch_refuses",
    "C169_numpy_refuses",
    "C169_weights",
    "C169_torch_weights",
    "C169_mode",
    "C169_random_walk",
    "C169_laplacian",
    "C169_constant",
    "C169_negative_refuted",
    "C169_integer_refuted",
    "C169_no_edges_refuted"
   ],
   "note": "findings: the three _refuted theorems; the property names them"
  },
  {
   "property": "C170",
   "status": "proved",
   "theorems": [
    "C170_head",
    "C170_head_choice",
    "C170_head_refused",
    "C170_pictures",
    "C170_fitted_shape",
    "C170_training",
    "C170_report",
    "C170_frozen",
    "C170_seed",
    "C170_refused",
    "C170_predict",
    "C170_refit_refuted",
    "C170_failed_fit_refuted"
   ],
   "note": "findings: the two _refuted theorems; the property names them"
  },
  {
   "property": "C171",
   "status": "proved",
   "theorems": [
    "C171_rows",
    "C171_values",
    "C171_network",
    "C171_refused",
    "C171_fit_iff",
    "C171_training",
    "C171_seed",
    "C171_kernel_refuted",
    "C171_scores",
    "C171_predict",
    "C171_unfitted",
    "C171_failed_fit_refuted",
    "C171_no_epochs_refuted",
    "C171_labels_refuted"
   ],
   "note": "findings: the four _refuted theorems; the property names them"
  },
  {
   "property": "C172",
   "status": "proved",
   "theorems": [
    "C172_reference",
    "C172_parts",
    "C172_samples",
    "C172_load",
    "C172_refused",
    "C172_silent_end_refuted",
    "C172_hidden_error_refuted",
    "C172_both_keywords_refuted"
   ],
   "note": "findings: the three _refuted theorems; the property names them"
  },
  {
   "property": "C173",
   "status": "proved",
   "theorems": [
    "C173_waves",
    "C173_features",
    "C173_load",
    "C173_refused",
    "C173_needs",
    "C173_training",
    "C173_frozen",
    "C173_seed",
    "C173_scores",
    "C173_scores_refused",
    "C173_predict",
    "C173_load_refuted",
    "C173_failed_fit_refuted"
   ],
   "note": "findings: the two _refuted theorems; the property names them"
  },
  {
   "property": "C174",
   "status": "proved",
   "theorems": [
    "C174_reference",
    "C174_uri",
    "C174_load",
    "C174_refused",
    "C174_test_lost_refuted",
    "C174_keys_refuted",
    "C174_limits_refuted",
    "C174_config_refuted"
   ],
   "note": "findings: the four _refuted theorems; the property names them"
  },
  {
   "property": "C175",
   "status": "proved",
   "theorems": [
    "C175_one",
    "C175_folders",
    "C175_flag",
    "C175_offline",
    "C175_announce",
    "C175_again",
    "C175_downloads",
    "C175_empty_home_refuted",
    "C175_named",
    "C175_auto",
    "C175_first",
    "C175_steady",
    "C175_stale_refuted",
    "C175_cuda_error_refuted"
   ],
   "note": "findings: the three _refuted theorems; the property names them"
  },
  {
   "property": "C176",
   "status": "proved",
   "theorems": [
    "C176_read_back",
    "C176_read",
    "C176_refused",
    "C176_summary",
    "C176_absent",
    "C176_build",
    "C176_unchecked_refuted"
   ],
   "note": "finding: the _refuted theorem; the property names it"
  },
  {
   "property": "C177",
   "status": "proved",
   "theorems": [
    "C177_list",
    "C177_all",
    "C177_all_code",
    "C177_one",
    "C177_nothing",
    "C177_cache",
    "C177_skipped_refuted",
    "C177_options_refuted",
    "C177_purge_refuted"
   ],
   "note": "findings: the three _refuted theorems; the property names them"
  },
  {
   "property": "C178",
   "status": "proved",
   "theorems": [
    "C178_start",
    "C178_fails",
    "C178_missing",
    "C178_doctor",
    "C178_advice_refuted",
    "C178_module_first_refuted",
    "C178_outside_refuted"
   ],
   "note": "findings: the three _refuted theorems; the property names them"
  }
 ]
}