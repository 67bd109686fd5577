{
 "C02": {
  "note": "Full claim refuted (C02_refuted): the constructor accepts a caller-supplied row2id with negative ids (Python list indexing), after which vstack produces an inconsistent space. Proved for every history whose supplied row dictionaries have no negative ids; the condition is only on caller-supplied dictionaries, not on those the library builds."
 },
 "C04": {
  "note": "C04_vstack and C04_vstack_vectors give the exact success condition and result for spaces with the usual ids 0..n-1; C04_negative_id_refuted shows the success condition fails for a consistent space built with a negative row id. Missing: nothing else."
 },
 "C05": {
  "note": "Full claim refuted for spaces whose elements are matrices/tensors: scaling (C05_refuted) and vstack (C05_vstack_refuted) flatten the element shape. C05_vector_spaces_partial: it is kept for ordinary vector spaces."
 },
 "C06": {
  "note": "Full claim refuted (C06_refuted): the setter passes rows and columns to the shape check in the wrong order. C06_set_matrix_partial gives the exact acceptance condition of the code (only square matrices, and only in spaces with column labels) and shows consistency is never lost."
 },
 "C13": {
  "note": "Full claim refuted for vectors with negative entries (C13_lin_refuted). Value, range [0,1] and symmetry proved for non-negative vectors, symmetry for all."
 },
 "C24": {
  "note": "All listed operations are proved alike; + and - only for equal shapes (C24_add_sub_partial), because dense matrices broadcast (C60_refuted)."
 },
 "C25": {
  "note": "Full claim refuted: the dense test compares the number of positive cells with half of all cells, not of the non-zero ones (C25_refuted), and all_close has a relative tolerance for dense matrices but only the absolute one for sparse matrices (C25_all_close_refuted). The exact meaning of each function is proved (C25_mostly_positive_dense, C25_all_close_dense, C25_all_close_sparse), with the cases in which the claim holds (C25_mostly_positive_partial) and one implication between the two all_close (C25_all_close_partial)."
 },
 "C29": {
  "note": "Full claim refuted (C29_refuted): a failing add_rows leaves dictionary, row list or columns already changed. C29_failed_add_rows_partial: matrix, operations, element shape and the vector of every old word survive."
 },
 "C30": {
  "note": "Full claim refuted (C30_refuted): PeripheralSpace keeps the caller's dictionary object. C30_frame_partial: in every history a call changes no other space, except the row dictionary of spaces holding the very same dictionary object; C30_separate_partial: full non-interference when no caller passes a dictionary that already belongs to a space."
 },
 "C31": {
  "note": "Full claim refuted (C31_refuted): operations without statistics (Plog, the normalisations) can be projected before and applied after application, and projecting an unapplied feature selection raises AttributeError. Proved for every call history of the operations that learn something (C31_learning_operations_partial) and, for feature selection, the double application (C31_selection_partial)."
 },
 "C32": {
  "note": "Full claim refuted: column labels are never compared (C32_refuted) and even the number of columns may differ (C32_width_refuted). C32_width_partial: a wrong number of columns is rejected when the first non-neutral transformation is a PMI weighting or a reduction."
 },
 "C33": {
  "note": "Full claim refuted only for an empty data list, which raises UnboundLocalError instead of ValueError (C33_refuted). Proved for every non-empty list, for compose and train."
 },
 "C36": {
  "note": "Full claim refuted: training visits only full chunks (C36_refuted) and learns alpha = beta = 0 when there are fewer tuples than one chunk (C36_nothing_learnt_refuted). Proved: optimal on the tuples of the full chunks (C36_covered_partial), hence on all of them when none is left over (C36_whole_partial), and training always succeeds (C36_total)."
 },
 "C42": {
  "note": "Full claim refuted (C42_refuted): the model object remembers the columns of its first use. C42_first_partial: holds for the first compose; C42_trained_partial: a trained model gives the columns of the phrase space; C42_given_full_additive_partial: a full additive model given by matrices gives none; C42_sticky_partial: exact behaviour afterwards."
 },
 "C49": {
  "note": "Full claim refuted: no matrix is written without the keyword format (C49_default_format_refuted, for every space and prefix) and a prefix without a slash is refused (C49_bare_prefix_refuted). C49_export_partial: with a format the three files have exactly the right bytes and nothing else changes."
 },
 "C52": {
  "note": "Full claim refuted for ties between a positive and a negative, which count as won (C52_ties_refuted). C52_auc_value gives the exact value on all inputs, C52_auc_tie_excess the exact excess over the area under the curve, C52_auc_no_ties_partial the claim without ties."
 },
 "C55": {
  "note": "Proved for six of the seven programs. compute_neighbours: the documented --sim_measure can never be given (C55_sim_measure_refuted); with the remaining options the claim holds (C55_neighbours_partial)."
 },
 "C56": {
  "note": "Full claim refuted when --lambda_range is also given: the list comprehension overwrites the parameter and the run fails (C56_lambda_range_refuted). Without it the trained model is optimal for exactly that lambda (C56_full_add_partial, C56_lexical_func_partial)."
 },
 "C59": {
  "note": "Reducing a space of matrices always fails and changes nothing, but with TypeError instead of IllegalOperationError: the error message itself cannot be formatted (C59_refuted, C59_always_fails_partial)."
 },
 "C60": {
  "note": "Full claim refuted for dense matrices, which broadcast (C60_refuted). Proved for equal shapes, for all sparse matrices, and for dense shapes that numpy cannot broadcast."
 },
 "C66": {
  "note": "Full claim refuted (C66_refuted): FullAdditive and LexicalFunction overwrite their intercept flag with that of the learner before the training can fail, after which compose may fail. Everything else is unchanged by a failed train (C66_failed_train_partial, C66_lexfun_partial), and the claim holds when learner and flag agree (C66_same_learner_partial)."
 },
 "C68": {
  "note": "Full claim refuted: DenseMatrix(x), SparseMatrix(x), to_dense_matrix and to_sparse_matrix of a matrix of the same class (and Normalization with total 0) share storage with x, and an in-place method called through one shows, or half shows, in the other (C68_refuted_dense, C68_refuted_sparse). Proved: the full claim for histories in which in-place methods are called on unshared matrices only (C68_partial), for all histories that matrices sharing no storage with the receiver keep their values (C68_elsewhere), and that the receiver gets the right value (C68_receiver)."
 },
 "C98": {
  "note": "Full claim refuted: create_parent_directories looks for the directory and makes it in two steps, and a tool overtaken between them ends with OSError (C98_refuted, C98_example). Proved: every other outcome is the one of a tool that is alone, the overtaken tool has written nothing and succeeds when run again (C98_partial), all tools end (C98_ends), one succeeds (C98_one_wins), and running the failed ones once more leaves the files of a serial run (C98_repair)."
 }
}