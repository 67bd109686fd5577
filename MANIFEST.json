{
 "claims": [
  {
   "property": "C01",
   "status": "proved",
   "theorems": [
    "C01_accepted_inverse",
    "C01_accepts_iff"
   ],
   "note": ""
  },
  {
   "property": "C02",
   "status": "partial",
   "theorems": [
    "C02_reachable_consistent_partial",
    "C02_refuted"
   ],
   "note": "Full claim refuted (C02_refuted): the constructor accepts a caller-supplied row2id with negative ids (Python list indexing), after which vstack produces an inconsistent space. Proved for every history whose supplied row dictionaries have no negative ids; the condition is only on caller-supplied dictionaries, not on those the library builds."
  },
  {
   "property": "C03",
   "status": "proved",
   "theorems": [
    "C03_get_row",
    "C03_get_row_missing",
    "C03_get_rows",
    "C03_get_rows_missing",
    "C03_get_rows_empty"
   ],
   "note": ""
  },
  {
   "property": "C04",
   "status": "partial",
   "theorems": [
    "C04_vstack",
    "C04_vstack_vectors",
    "C04_negative_id_refuted"
   ],
   "note": "C04_vstack and C04_vstack_vectors give the exact success condition and result for spaces with the usual ids 0..n-1; C04_negative_id_refuted shows the success condition fails for a consistent space built with a negative row id. Missing: nothing else."
  },
  {
   "property": "C05",
   "status": "partial",
   "theorems": [
    "C05_refuted",
    "C05_vstack_refuted",
    "C05_vector_spaces_partial"
   ],
   "note": "Full claim refuted for spaces whose elements are matrices/tensors: scaling (C05_refuted) and vstack (C05_vstack_refuted) flatten the element shape. C05_vector_spaces_partial: it is kept for ordinary vector spaces."
  },
  {
   "property": "C06",
   "status": "partial",
   "theorems": [
    "C06_refuted",
    "C06_set_matrix_partial"
   ],
   "note": "Full claim refuted (C06_refuted): the setter passes rows and columns to the shape check in the wrong order. C06_set_matrix_partial gives the exact acceptance condition of the code (only square matrices, and only in spaces with column labels) and shows consistency is never lost."
  },
  {
   "property": "C07",
   "status": "proved",
   "theorems": [
    "C07_conversion"
   ],
   "note": ""
  },
  {
   "property": "C08",
   "status": "proved",
   "theorems": [
    "C08_apply_history"
   ],
   "note": ""
  },
  {
   "property": "C09",
   "status": "proved",
   "theorems": [
    "C09_neighbours",
    "C09_missing"
   ],
   "note": ""
  },
  {
   "property": "C10",
   "status": "proved",
   "theorems": [
    "C10_get_sim_missing",
    "C10_get_sim_present",
    "C10_get_sim_mismatch",
    "C10_get_sims",
    "C10_get_sims_total"
   ],
   "note": ""
  },
  {
   "property": "C11",
   "status": "proved",
   "theorems": [
    "C11_cosine",
    "C11_cosine_symmetric",
    "C11_cosine_self",
    "C11_cosine_scale"
   ],
   "note": ""
  },
  {
   "property": "C12",
   "status": "proved",
   "theorems": [
    "C12_euclidean"
   ],
   "note": ""
  },
  {
   "property": "C13",
   "status": "partial",
   "theorems": [
    "C13_lin_nonneg_partial",
    "C13_lin_symmetric_partial",
    "C13_lin_refuted"
   ],
   "note": "Full claim refuted for vectors with negative entries (C13_lin_refuted). Value, range [0,1] and symmetry proved for non-negative vectors, symmetry for all."
  },
  {
   "property": "C14",
   "status": "proved",
   "theorems": [
    "C14_sims_to_matrix"
   ],
   "note": ""
  },
  {
   "property": "C15",
   "status": "proved",
   "theorems": [
    "C15_epmi",
    "C15_negative_rejected"
   ],
   "note": ""
  },
  {
   "property": "C16",
   "status": "proved",
   "theorems": [
    "C16_ppmi",
    "C16_plmi"
   ],
   "note": ""
  },
  {
   "property": "C17",
   "status": "proved",
   "theorems": [
    "C17_plog"
   ],
   "note": ""
  },
  {
   "property": "C18",
   "status": "proved",
   "theorems": [
    "C18_row_normalization",
    "C18_idempotent",
    "C18_preserves_cosine"
   ],
   "note": ""
  },
  {
   "property": "C19",
   "status": "proved",
   "theorems": [
    "C19_normalization"
   ],
   "note": ""
  },
  {
   "property": "C20",
   "status": "proved",
   "theorems": [
    "C20_selection",
    "C20_labels"
   ],
   "note": ""
  },
  {
   "property": "C21",
   "status": "proved",
   "theorems": [
    "C21_apply_dense",
    "C21_apply_sparse",
    "C21_dot_products",
    "C21_geometry",
    "C21_dot_products_sparse"
   ],
   "note": ""
  },
  {
   "property": "C22",
   "status": "proved",
   "theorems": [
    "C22_nmf",
    "C22_apply",
    "C22_project",
    "C22_total"
   ],
   "note": ""
  },
  {
   "property": "C23",
   "status": "proved",
   "theorems": [
    "C23_error"
   ],
   "note": ""
  },
  {
   "property": "C24",
   "status": "partial",
   "theorems": [
    "C24_unary",
    "C24_access",
    "C24_binary",
    "C24_add_sub_partial",
    "C24_reductions"
   ],
   "note": "All listed operations are proved alike; + and - only for equal shapes (C24_add_sub_partial), because dense matrices broadcast (C60_refuted)."
  },
  {
   "property": "C25",
   "status": "partial",
   "theorems": [
    "C25_mostly_positive_dense",
    "C25_mostly_positive_partial",
    "C25_refuted",
    "C25_all_close_dense",
    "C25_all_close_sparse",
    "C25_all_close_partial",
    "C25_all_close_refuted"
   ],
   "note": "Full claim refuted: the dense test compares the number of positive cells with half of all cells, not of the non-zero ones (C25_refuted), and all_close has a relative tolerance for dense matrices but only the absolute one for sparse matrices (C25_all_close_refuted). The exact meaning of each function is proved (C25_mostly_positive_dense, C25_all_close_dense, C25_all_close_sparse), with the cases in which the claim holds (C25_mostly_positive_partial) and one implication between the two all_close (C25_all_close_partial)."
  },
  {
   "property": "C26",
   "status": "proved",
   "theorems": [
    "C26_core_data"
   ],
   "note": ""
  },
  {
   "property": "C27",
   "status": "proved",
   "theorems": [
    "C27_columns",
    "C27_add_rows"
   ],
   "note": ""
  },
  {
   "property": "C28",
   "status": "proved",
   "theorems": [
    "C28_batches"
   ],
   "note": ""
  },
  {
   "property": "C29",
   "status": "partial",
   "theorems": [
    "C29_refuted",
    "C29_failed_add_rows_partial"
   ],
   "note": "Full claim refuted (C29_refuted): a failing add_rows leaves dictionary, row list or columns already changed. C29_failed_add_rows_partial: matrix, operations, element shape and the vector of every old word survive."
  },
  {
   "property": "C30",
   "status": "partial",
   "theorems": [
    "C30_frame_partial",
    "C30_separate_partial",
    "C30_refuted"
   ],
   "note": "Full claim refuted (C30_refuted): PeripheralSpace keeps the caller's dictionary object. C30_frame_partial: in every history a call changes no other space, except the row dictionary of spaces holding the very same dictionary object; C30_separate_partial: full non-interference when no caller passes a dictionary that already belongs to a space."
  },
  {
   "property": "C31",
   "status": "partial",
   "theorems": [
    "C31_learning_operations_partial",
    "C31_selection_partial",
    "C31_refuted"
   ],
   "note": "Full claim refuted (C31_refuted): operations without statistics (Plog, the normalisations) can be projected before and applied after application, and projecting an unapplied feature selection raises AttributeError. Proved for every call history of the operations that learn something (C31_learning_operations_partial) and, for feature selection, the double application (C31_selection_partial)."
  },
  {
   "property": "C32",
   "status": "partial",
   "theorems": [
    "C32_refuted",
    "C32_width_refuted",
    "C32_width_partial"
   ],
   "note": "Full claim refuted: column labels are never compared (C32_refuted) and even the number of columns may differ (C32_width_refuted). C32_width_partial: a wrong number of columns is rejected when the first non-neutral transformation is a PMI weighting or a reduction."
  },
  {
   "property": "C33",
   "status": "partial",
   "theorems": [
    "C33_compose_partial",
    "C33_train_partial",
    "C33_refuted"
   ],
   "note": "Full claim refuted only for an empty data list, which raises UnboundLocalError instead of ValueError (C33_refuted). Proved for every non-empty list, for compose and train."
  },
  {
   "property": "C34",
   "status": "proved",
   "theorems": [
    "C34_rows",
    "C34_total"
   ],
   "note": ""
  },
  {
   "property": "C35",
   "status": "proved",
   "theorems": [
    "C35_weighted_additive",
    "C35_multiplicative",
    "C35_dilation",
    "C35_full_additive",
    "C35_full_additive_given",
    "C35_weighted_additive_given"
   ],
   "note": ""
  },
  {
   "property": "C36",
   "status": "partial",
   "theorems": [
    "C36_covered_partial",
    "C36_whole_partial",
    "C36_total",
    "C36_nothing_learnt_refuted",
    "C36_refuted"
   ],
   "note": "Full claim refuted: training visits only full chunks (C36_refuted) and learns alpha = beta = 0 when there are fewer tuples than one chunk (C36_nothing_learnt_refuted). Proved: optimal on the tuples of the full chunks (C36_covered_partial), hence on all of them when none is left over (C36_whole_partial), and training always succeeds (C36_total)."
  },
  {
   "property": "C37",
   "status": "proved",
   "theorems": [
    "C37_optimal",
    "C37_total"
   ],
   "note": ""
  },
  {
   "property": "C38",
   "status": "proved",
   "theorems": [
    "C38_ridge_optimal",
    "C38_ridge_total",
    "C38_ridge_rejects"
   ],
   "note": ""
  },
  {
   "property": "C39",
   "status": "proved",
   "theorems": [
    "C39_optimal",
    "C39_composes_fitted_values",
    "C39_total"
   ],
   "note": ""
  },
  {
   "property": "C40",
   "status": "proved",
   "theorems": [
    "C40_train",
    "C40_optimal",
    "C40_too_few",
    "C40_total"
   ],
   "note": ""
  },
  {
   "property": "C41",
   "status": "proved",
   "theorems": [
    "C41_compose",
    "C41_total",
    "C41_dimension_mismatch"
   ],
   "note": ""
  },
  {
   "property": "C42",
   "status": "partial",
   "theorems": [
    "C42_first_partial",
    "C42_sticky_partial",
    "C42_trained_partial",
    "C42_given_full_additive_partial",
    "C42_refuted"
   ],
   "note": "Full claim refuted (C42_refuted): the model object remembers the columns of its first use. C42_first_partial: holds for the first compose; C42_trained_partial: a trained model gives the columns of the phrase space; C42_given_full_additive_partial: a full additive model given by matrices gives none; C42_sticky_partial: exact behaviour afterwards."
  },
  {
   "property": "C43",
   "status": "proved",
   "theorems": [
    "C43_cv_picks_best",
    "C43_fixed_param",
    "C43_constructor",
    "C43_score"
   ],
   "note": ""
  },
  {
   "property": "C44",
   "status": "proved",
   "theorems": [
    "C44_distinct",
    "C44_indexing",
    "C44_no_field"
   ],
   "note": ""
  },
  {
   "property": "C45",
   "status": "proved",
   "theorems": [
    "C45_build",
    "C45_invalid",
    "C45_needs_columns"
   ],
   "note": ""
  },
  {
   "property": "C46",
   "status": "proved",
   "theorems": [
    "C46_build",
    "C46_invalid",
    "C46_empty_file",
    "C46_arguments"
   ],
   "note": ""
  },
  {
   "property": "C47",
   "status": "proved",
   "theorems": [
    "C47_roundtrip"
   ],
   "note": ""
  },
  {
   "property": "C48",
   "status": "proved",
   "theorems": [
    "C48_roundtrip",
    "C48_no_columns"
   ],
   "note": ""
  },
  {
   "property": "C49",
   "status": "partial",
   "theorems": [
    "C49_default_format_refuted",
    "C49_bare_prefix_refuted",
    "C49_export_partial",
    "C49_directory"
   ],
   "note": "Full claim refuted: no matrix is written without the keyword format (C49_default_format_refuted, for every space and prefix) and a prefix without a slash is refused (C49_bare_prefix_refuted). C49_export_partial: with a format the three files have exactly the right bytes and nothing else changes."
  },
  {
   "property": "C50",
   "status": "proved",
   "theorems": [
    "C50_runs",
    "C50_low_threshold",
    "C50_sorted"
   ],
   "note": ""
  },
  {
   "property": "C51",
   "status": "proved",
   "theorems": [
    "C51_folds"
   ],
   "note": ""
  },
  {
   "property": "C52",
   "status": "partial",
   "theorems": [
    "C52_auc_value",
    "C52_auc_no_ties_partial",
    "C52_auc_tie_excess",
    "C52_order_irrelevant",
    "C52_errors",
    "C52_ties_refuted"
   ],
   "note": "Full claim refuted for ties between a positive and a negative, which count as won (C52_ties_refuted). C52_auc_value gives the exact value on all inputs, C52_auc_tie_excess the exact excess over the area under the curve, C52_auc_no_ties_partial the claim without ties."
  },
  {
   "property": "C53",
   "status": "proved",
   "theorems": [
    "C53_reshape",
    "C53_like_dense"
   ],
   "note": ""
  },
  {
   "property": "C54",
   "status": "proved",
   "theorems": [
    "C54_saved",
    "C54_distinct",
    "C54_unambiguous",
    "C54_total"
   ],
   "note": ""
  },
  {
   "property": "C55",
   "status": "partial",
   "theorems": [
    "C55_core",
    "C55_peripheral",
    "C55_similarities",
    "C55_evaluate",
    "C55_apply",
    "C55_train",
    "C55_neighbours_partial",
    "C55_sim_measure_refuted",
    "C55_commas"
   ],
   "note": "Proved for six of the seven programs. compute_neighbours: the documented --sim_measure can never be given (C55_sim_measure_refuted); with the remaining options the claim holds (C55_neighbours_partial)."
  },
  {
   "property": "C56",
   "status": "partial",
   "theorems": [
    "C56_lambda_range_refuted",
    "C56_full_add_partial",
    "C56_lexical_func_partial"
   ],
   "note": "Full claim refuted when --lambda_range is also given: the list comprehension overwrites the parameter and the run fails (C56_lambda_range_refuted). Without it the trained model is optimal for exactly that lambda (C56_full_add_partial, C56_lexical_func_partial)."
  },
  {
   "property": "C57",
   "status": "proved",
   "theorems": [
    "C57_batch",
    "C57_lines",
    "C57_missing_column",
    "C57_not_a_space",
    "C57_total",
    "C57_values"
   ],
   "note": ""
  },
  {
   "property": "C58",
   "status": "proved",
   "theorems": [
    "C58_tuples_all",
    "C58_tuples",
    "C58_list_lines",
    "C58_list_field",
    "C58_lines",
    "C58_fields",
    "C58_strip",
    "C58_records",
    "C58_text_lines"
   ],
   "note": ""
  },
  {
   "property": "C59",
   "status": "partial",
   "theorems": [
    "C59_always_fails_partial",
    "C59_refuted"
   ],
   "note": "Reducing a space of matrices always fails and changes nothing, but with TypeError instead of IllegalOperationError: the error message itself cannot be formatted (C59_refuted, C59_always_fails_partial)."
  },
  {
   "property": "C60",
   "status": "partial",
   "theorems": [
    "C60_add_sub_partial",
    "C60_refuted"
   ],
   "note": "Full claim refuted for dense matrices, which broadcast (C60_refuted). Proved for equal shapes, for all sparse matrices, and for dense shapes that numpy cannot broadcast."
  },
  {
   "property": "C61",
   "status": "proved",
   "theorems": [
    "C61_built",
    "C61_total",
    "C61_batch"
   ],
   "note": ""
  },
  {
   "property": "C62",
   "status": "proved",
   "theorems": [
    "C62_trained",
    "C62_total",
    "C62_params"
   ],
   "note": ""
  },
  {
   "property": "C63",
   "status": "proved",
   "theorems": [
    "C63_composed",
    "C63_total",
    "C63_short_line"
   ],
   "note": ""
  },
  {
   "property": "C64",
   "status": "proved",
   "theorems": [
    "C64_neighbours",
    "C64_unknown_measure",
    "C64_total",
    "C64_fails",
    "C64_values",
    "C64_missing_word"
   ],
   "note": ""
  },
  {
   "property": "C65",
   "status": "proved",
   "theorems": [
    "C65_batch",
    "C65_evaluate"
   ],
   "note": ""
  },
  {
   "property": "C66",
   "status": "partial",
   "theorems": [
    "C66_failed_train_partial",
    "C66_same_learner_partial",
    "C66_lexfun_partial",
    "C66_refuted"
   ],
   "note": "Full claim refuted (C66_refuted): FullAdditive and LexicalFunction overwrite their intercept flag with that of the learner before the training can fail, after which compose may fail. Everything else is unchanged by a failed train (C66_failed_train_partial, C66_lexfun_partial), and the claim holds when learner and flag agree (C66_same_learner_partial)."
  },
  {
   "property": "C67",
   "status": "proved",
   "theorems": [
    "C67_compose_repeatable",
    "C67_last_training",
    "C67_training_forgets",
    "C67_lexfun"
   ],
   "note": ""
  },
  {
   "property": "C68",
   "status": "partial",
   "theorems": [
    "C68_partial",
    "C68_elsewhere",
    "C68_receiver",
    "C68_refuted_dense",
    "C68_refuted_sparse"
   ],
   "note": "Full claim refuted: DenseMatrix(x), SparseMatrix(x), to_dense_matrix and to_sparse_matrix of a matrix of the same class (and Normalization with total 0) share storage with x, and an in-place method called through one shows, or half shows, in the other (C68_refuted_dense, C68_refuted_sparse). Proved: the full claim for histories in which in-place methods are called on unshared matrices only (C68_partial), for all histories that matrices sharing no storage with the receiver keep their values (C68_elsewhere), and that the receiver gets the right value (C68_receiver)."
  },
  {
   "property": "C69",
   "status": "proved",
   "theorems": [
    "C69_scaling",
    "C69_apply",
    "C69_project",
    "C69_similarity",
    "C69_lexical_function",
    "C69_function_row"
   ],
   "note": ""
  },
  {
   "property": "C70",
   "status": "proved",
   "theorems": [
    "C70_steps",
    "C70_core",
    "C70_peripheral",
    "C70_peripheral_batch",
    "C70_train",
    "C70_apply",
    "C70_similarities",
    "C70_similarities_batch",
    "C70_neighbours",
    "C70_log",
    "C70_after_log",
    "C70_evaluate",
    "C70_evaluate_steps",
    "C70_pickle_first_peripheral",
    "C70_pickle_first_apply",
    "C70_pickle_first_train",
    "C70_run_core",
    "C70_run_peripheral",
    "C70_run_similarities",
    "C70_run_apply",
    "C70_run_train",
    "C70_run_neighbours"
   ],
   "note": ""
  },
  {
   "property": "C71",
   "status": "proved",
   "theorems": [
    "C71_core",
    "C71_peripheral",
    "C71_train",
    "C71_apply",
    "C71_similarities",
    "C71_neighbours"
   ],
   "note": ""
  },
  {
   "property": "C72",
   "status": "proved",
   "theorems": [
    "C72_apply",
    "C72_apply_all",
    "C72_get_sim",
    "C72_get_sims",
    "C72_neighbours",
    "C72_neighbours_missing",
    "C72_peripheral",
    "C72_vstack",
    "C72_conversion"
   ],
   "note": ""
  },
  {
   "property": "C73",
   "status": "proved",
   "theorems": [
    "C73_scaling",
    "C73_selection",
    "C73_apply",
    "C73_apply_all",
    "C73_exact",
    "C73_get_sim",
    "C73_neighbours",
    "C73_pipeline",
    "C73_plog_excluded"
   ],
   "note": ""
  },
  {
   "property": "C74",
   "status": "proved",
   "theorems": [
    "C74_prefix",
    "C74_self"
   ],
   "note": ""
  },
  {
   "property": "C75",
   "status": "proved",
   "theorems": [
    "C75_sparse",
    "C75_dense",
    "C75_similarities"
   ],
   "note": ""
  },
  {
   "property": "C76",
   "status": "proved",
   "theorems": [
    "C76_dilation",
    "C76_weighted_additive",
    "C76_full_additive",
    "C76_lexical_function",
    "C76_full_additive_lstsq",
    "C76_lexical_function_lstsq",
    "C76_weighted_additive_order_matters"
   ],
   "note": ""
  },
  {
   "property": "C77",
   "status": "proved",
   "theorems": [
    "C77_nndsvd",
    "C77_triples_dense",
    "C77_triples_sparse",
    "C77_sections",
    "C77_random",
    "C77_v_col",
    "C77_factorise"
   ],
   "note": ""
  },
  {
   "property": "C78",
   "status": "proved",
   "theorems": [
    "C78_monotone",
    "C78_shrinks",
    "C78_unique",
    "C78_smallest",
    "C78_library_independent"
   ],
   "note": ""
  },
  {
   "property": "C79",
   "status": "proved",
   "theorems": [
    "C79_scaling",
    "C79_chain",
    "C79_rejects",
    "C79_peripheral",
    "C79_logarithm",
    "C79_plmi"
   ],
   "note": ""
  },
  {
   "property": "C80",
   "status": "proved",
   "theorems": [
    "C80_above_one",
    "C80_double_error",
    "C80_get_sim",
    "C80_dot",
    "C80_cosine",
    "C80_cosine_range",
    "C80_euclid",
    "C80_lin"
   ],
   "note": ""
  },
  {
   "property": "C81",
   "status": "proved",
   "theorems": [
    "C81_neighbours",
    "C81_order"
   ],
   "note": ""
  },
  {
   "property": "C82",
   "status": "proved",
   "theorems": [
    "C82_weighted_additive",
    "C82_dilation",
    "C82_dilation_determined",
    "C82_full_additive",
    "C82_lexical_function"
   ],
   "note": ""
  },
  {
   "property": "C83",
   "status": "proved",
   "theorems": [
    "C83_best_dense",
    "C83_best_sparse",
    "C83_error",
    "C83_dot_products"
   ],
   "note": ""
  },
  {
   "property": "C84",
   "status": "proved",
   "theorems": [
    "C84_multiplicative_commutes",
    "C84_weighted_additive_swaps",
    "C84_full_additive_scalar",
    "C84_dilation_stretches"
   ],
   "note": ""
  },
  {
   "property": "C85",
   "status": "proved",
   "theorems": [
    "C85_scaling",
    "C85_similarity",
    "C85_neighbours",
    "C85_auc",
    "C85_stacking",
    "C85_compose",
    "C85_compose_lexical",
    "C85_transformation",
    "C85_peripheral",
    "C85_peripheral_rows",
    "C85_train",
    "C85_train_lexical",
    "C85_nndsvd",
    "C85_similarity_defined",
    "C85_neighbours_defined",
    "C85_auc_defined",
    "C85_transformation_defined",
    "C85_peripheral_defined",
    "C85_peripheral_rows_defined",
    "C85_compose_defined",
    "C85_train_defined",
    "C85_lexical_defined"
   ],
   "note": ""
  },
  {
   "property": "C86",
   "status": "proved",
   "theorems": [
    "C86_vectors",
    "C86_words",
    "C86_same_space",
    "C86_self",
    "C86_double"
   ],
   "note": ""
  },
  {
   "property": "C87",
   "status": "proved",
   "theorems": [
    "C87_similarity",
    "C87_euclid",
    "C87_neighbours",
    "C87_neighbours_euclid"
   ],
   "note": ""
  },
  {
   "property": "C88",
   "status": "proved",
   "theorems": [
    "C88_compose",
    "C88_lexical"
   ],
   "note": ""
  },
  {
   "property": "C89",
   "status": "proved",
   "theorems": [
    "C89_stacking",
    "C89_stackable"
   ],
   "note": ""
  },
  {
   "property": "C90",
   "status": "proved",
   "theorems": [
    "C90_train_compose",
    "C90_experiment",
    "C90_core_peripheral"
   ],
   "note": ""
  },
  {
   "property": "C91",
   "status": "proved",
   "theorems": [
    "C91_search",
    "C91_within",
    "C91_words",
    "C91_self",
    "C91_parts"
   ],
   "note": ""
  },
  {
   "property": "C92",
   "status": "proved",
   "theorems": [
    "C92_grouping",
    "C92_possible",
    "C92_vectors"
   ],
   "note": ""
  },
  {
   "property": "C93",
   "status": "proved",
   "theorems": [
    "C93_two_steps",
    "C93_again",
    "C93_peripheral"
   ],
   "note": ""
  },
  {
   "property": "C94",
   "status": "proved",
   "theorems": [
    "C94_values",
    "C94_order",
    "C94_last_wins"
   ],
   "note": ""
  },
  {
   "property": "C95",
   "status": "proved",
   "theorems": [
    "C95_euclidean",
    "C95_same_vector",
    "C95_angles",
    "C95_cosine_between",
    "C95_parallel"
   ],
   "note": ""
  },
  {
   "property": "C96",
   "status": "proved",
   "theorems": [
    "C96_transposed",
    "C96_involution"
   ],
   "note": ""
  },
  {
   "property": "C97",
   "status": "proved",
   "theorems": [
    "C97_any_moment",
    "C97_result",
    "C97_ends",
    "C97_serial"
   ],
   "note": ""
  },
  {
   "property": "C98",
   "status": "partial",
   "theorems": [
    "C98_partial",
    "C98_ends",
    "C98_one_wins",
    "C98_refuted",
    "C98_repair"
   ],
   "note": "Full claim refuted: create_parent_directories looks for the directory and makes it in two steps, and a tool overtaken between them ends with OSError (C98_refuted, C98_example). Proved: every other outcome is the one of a tool that is alone, the overtaken tool has written nothing and succeeds when run again (C98_partial), all tools end (C98_ends), one succeeds (C98_one_wins), and running the failed ones once more leaves the files of a serial run (C98_repair)."
  },
  {
   "property": "C99",
   "status": "proved",
   "theorems": [
    "C99_entrywise",
    "C99_pairs",
    "C99_classes",
    "C99_broadcast",
    "C99_access",
    "C99_shapes",
    "C99_sums",
    "C99_ranking",
    "C99_nary_vstack",
    "C99_nary_hstack",
    "C99_largest",
    "C99_conflict"
   ],
   "note": ""
  },
  {
   "property": "C100",
   "status": "proved",
   "theorems": [
    "C100_addition",
    "C100_product",
    "C100_distributes",
    "C100_blocks",
    "C100_scaling",
    "C100_reductions",
    "C100_reshape"
   ],
   "note": ""
  },
  {
   "property": "C101",
   "status": "proved",
   "theorems": [
    "C101_compose",
    "C101_wrong_intercept",
    "C101_total",
    "C101_learn",
    "C101_sentences"
   ],
   "note": ""
  },
  {
   "property": "C102",
   "status": "proved",
   "theorems": [
    "C102_multiplicative",
    "C102_weighted_additive",
    "C102_dilation",
    "C102_full_additive",
    "C102_lexical_function",
    "C102_double"
   ],
   "note": ""
  },
  {
   "property": "C103",
   "status": "proved",
   "theorems": [
    "C103_get_sim",
    "C103_neighbours",
    "C103_compose",
    "C103_train",
    "C103_svd",
    "C103_svd_peripheral",
    "C103_svd_dot",
    "C103_svd_neighbours"
   ],
   "note": ""
  },
  {
   "property": "C104",
   "status": "proved",
   "theorems": [
    "C104_scale",
    "C104_select",
    "C104_chain",
    "C104_get_sim",
    "C104_neighbours",
    "C104_build",
    "C104_compose",
    "C104_tie",
    "C104_peripheral"
   ],
   "note": ""
  },
  {
   "property": "C105",
   "status": "proved",
   "theorems": [
    "C105_peripheral",
    "C105_add_rows",
    "C105_peripheral_ops",
    "C105_chain",
    "C105_get_sim",
    "C105_pipeline",
    "C105_neighbours",
    "C105_tie",
    "C105_selection",
    "C105_same"
   ],
   "note": ""
  },
  {
   "property": "C106",
   "status": "proved",
   "theorems": [
    "C106_compose",
    "C106_peripheral",
    "C106_train",
    "C106_unseen_phrases",
    "C106_scale",
    "C106_select",
    "C106_chain",
    "C106_get_sim",
    "C106_neighbours",
    "C106_build",
    "C106_euclid",
    "C106_negative"
   ],
   "note": ""
  },
  {
   "property": "C107",
   "status": "proved",
   "theorems": [
    "C107_peripheral",
    "C107_similarities",
    "C107_own_directory"
   ],
   "note": ""
  },
  {
   "property": "C108",
   "status": "proved",
   "theorems": [
    "C108_results",
    "C108_ends",
    "C108_files",
    "C108_finished"
   ],
   "note": ""
  },
  {
   "property": "C109",
   "status": "proved",
   "theorems": [
    "C109_compose",
    "C109_end_to_end"
   ],
   "note": ""
  },
  {
   "property": "C110",
   "status": "proved",
   "theorems": [
    "C110_unique",
    "C110_plain",
    "C110_same",
    "C110_refused",
    "C110_help",
    "C110_boolean"
   ],
   "note": ""
  },
  {
   "property": "C111",
   "status": "proved",
   "theorems": [
    "C111_linear",
    "C111_epmi",
    "C111_composed"
   ],
   "note": ""
  },
  {
   "property": "C112",
   "status": "proved",
   "theorems": [
    "C112_constructor",
    "C112_last_training",
    "C112_settings",
    "C112_failed",
    "C112_untrained",
    "C112_given",
    "C112_learnt_words"
   ],
   "note": ""
  }
 ]
}