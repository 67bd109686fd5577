{"id": "C01", "title": "Accepted indexing structures are mutually inverse", "statement": "If Space(matrix, id2row, id2column, row2id, column2id) returns a space, then id2row has no duplicates, has one entry per matrix row, row2id has exactly the words of id2row as keys and maps every word to a position holding that word (and likewise for the columns, which may also both be empty); otherwise the constructor raises. If the dictionaries are not supplied they map each word to its list position.", "quantifier": "every matrix, every pair of word lists, every optional pair of dictionaries", "why_tests_cant": "tests enumerate a handful of inconsistent arguments; the claim is about every dictionary/list combination, including duplicated words and negative ids", "anchors": ["src/composes/semantic_space/space.py:Space.__init__", "src/composes/utils/space_utils.py:list2dict", "src/composes/utils/space_utils.py:assert_dict_match_list", "src/composes/utils/space_utils.py:assert_shape_consistent"]}
{"id": "C02", "title": "Every reachable space stays consistent", "statement": "Every space obtained from accepted constructor calls by any sequence of apply, vstack, to_dense, to_sparse, set_cooccurrence_matrix, peripheral construction and successful add_rows has a matrix whose shape agrees with its row and column indexing structures and its element_shape, and indexing structures that are mutually inverse.", "quantifier": "every finite history of operations and every interleaving of them", "why_tests_cant": "it is an inductive invariant over unbounded histories", "anchors": ["src/composes/semantic_space/space.py:Space", "src/composes/semantic_space/peripheral_space.py:PeripheralSpace"]}
{"id": "C03", "title": "Row lookup returns the right vector", "statement": "get_row(w) returns the 1 x n row of the matrix stored at the index of w in id2row (dense and sparse alike) and raises KeyError iff w is not a row word; get_rows(ws) returns the rows of the words in the order given, repetitions included, and raises KeyError if any word is missing.", "quantifier": "every consistent space, every word or list of words", "why_tests_cant": "finite tests cannot cover all CSR layouts (empty rows, explicit zeros) and word lists", "anchors": ["src/composes/semantic_space/space.py:Space.get_row", "src/composes/semantic_space/space.py:Space.get_rows", "src/composes/matrix/sparse_matrix.py:SparseMatrix.__getitem__", "src/composes/matrix/dense_matrix.py:DenseMatrix.__getitem__"]}
{"id": "C04", "title": "vstack keeps every vector under its word", "statement": "Space.vstack(s1, s2) succeeds exactly when the two spaces have the same column count and labels and no common row word; then the result lists s1's words followed by s2's, every word of s1 or s2 keeps its vector, columns are s1's and the operation list is empty. It raises ValueError otherwise.", "quantifier": "every pair of consistent spaces, dense or sparse, of any size", "why_tests_cant": "needs all sizes and type combinations", "anchors": ["src/composes/semantic_space/space.py:Space.vstack", "src/composes/utils/space_utils.py:add_items_to_dict", "src/composes/utils/matrix_utils.py:resolve_type_conflict", "src/composes/utils/matrix_utils.py:get_type_of_largest"]}
{"id": "C05", "title": "apply and vstack keep the element shape", "statement": "A scaling transformation or a vstack does not change the way row vectors are interpreted: element_shape of the result equals that of the input.", "quantifier": "every space, every scaling", "why_tests_cant": "only multi-dimensional element shapes show the difference; it must hold for all of them", "anchors": ["src/composes/semantic_space/space.py:Space.apply", "src/composes/semantic_space/space.py:Space.vstack"]}
{"id": "C06", "title": "set_cooccurrence_matrix accepts exactly consistent matrices", "statement": "set_cooccurrence_matrix(m) succeeds for every matrix m that has the shape of the current matrix, and never leaves the space inconsistent.", "quantifier": "every consistent space and every matrix", "why_tests_cant": "the defect depends on the relation between the number of rows and columns", "anchors": ["src/composes/semantic_space/space.py:Space.set_cooccurrence_matrix", "src/composes/utils/space_utils.py:assert_shape_consistent"]}
{"id": "C07", "title": "Dense/sparse conversion preserves the space", "statement": "to_dense and to_sparse change no matrix entry, no shape and no indexing structure; converting back and forth gives the same entries.", "quantifier": "every space (dense or sparse, with explicit zeros)", "why_tests_cant": "all CSR layouts must be covered", "anchors": ["src/composes/semantic_space/space.py:Space.to_dense", "src/composes/semantic_space/space.py:Space.to_sparse", "src/composes/matrix/dense_matrix.py:DenseMatrix.__init__", "src/composes/matrix/sparse_matrix.py:SparseMatrix.__init__"]}
{"id": "C08", "title": "apply records the history and preserves the rows", "statement": "space.apply(t) returns a space with the same row words and row ids, whose operations list is the old list followed by exactly one new operation, already applied; scaling keeps the columns, dimensionality reduction empties them, and feature selection keeps the labels of the selected columns.", "quantifier": "every space and every transformation", "why_tests_cant": "histories of unbounded length", "anchors": ["src/composes/semantic_space/space.py:Space.apply", "src/composes/semantic_space/operation.py:Operation"]}
{"id": "C09", "title": "Nearest neighbours are the true top-k", "statement": "get_neighbours(w, k, sim[, space2]) returns min(k, number of rows of the searched space) pairs with distinct words, every pair carries the similarity get_sim gives for that word, the similarities are non-increasing, no omitted row has a similarity above a returned one, and equal similarities appear in row order; a missing w raises KeyError.", "quantifier": "every space (pair), word, k and the four similarity measures", "why_tests_cant": "correct ranking for all inputs, ties included, is a for-all statement", "anchors": ["src/composes/semantic_space/space.py:Space.get_neighbours", "src/composes/matrix/matrix.py:Matrix.sorted_permutation", "src/composes/similarity/similarity.py:Similarity.get_sims_to_matrix"]}
{"id": "C10", "title": "get_sim is total on words", "statement": "get_sim(w1, w2, sim[, space2]) returns 0.0 if either word is missing, and otherwise the similarity of the two row vectors, whatever mixture of dense and sparse spaces is used; get_sims is the list of the pairwise results.", "quantifier": "every space pair and word pair", "why_tests_cant": "all dense/sparse mixtures and all words", "anchors": ["src/composes/semantic_space/space.py:Space.get_sim", "src/composes/semantic_space/space.py:Space.get_sims", "src/composes/utils/matrix_utils.py:resolve_type_conflict"]}
{"id": "C11", "title": "Cosine similarity is a normalised inner product", "statement": "The cosine of two equally long vectors is <u,v>/(|u||v|) when both are non-zero and 0 otherwise; it is symmetric, lies in [-1,1], is 1 for a non-zero vector with itself and is unchanged by positive rescaling of an argument.", "quantifier": "all real vectors of all lengths", "why_tests_cant": "needs the Cauchy-Schwarz inequality for every dimension", "anchors": ["src/composes/similarity/cos.py:CosSimilarity", "src/composes/similarity/dot_prod.py:DotProdSimilarity"]}
{"id": "C12", "title": "Euclidean similarity is a bounded, exact distance score", "statement": "Euclidean similarity equals 1/(1+|u-v|), is symmetric, lies in (0,1] and equals 1 exactly when the vectors are equal.", "quantifier": "all real vectors of all lengths", "why_tests_cant": "for-all over vectors", "anchors": ["src/composes/similarity/euclidean.py:EuclideanSimilarity"]}
{"id": "C13", "title": "Lin similarity follows its definition", "statement": "Lin similarity is sum over components where both vectors are strictly positive of (u_i+v_i), divided by sum(u)+sum(v) (0 if that is 0); it is symmetric and lies in [0,1] for non-negative vectors.", "quantifier": "all real vectors of all lengths", "why_tests_cant": "vectors with negative components are never tested", "anchors": ["src/composes/similarity/lin.py:LinSimilarity", "src/composes/matrix/dense_matrix.py:DenseMatrix.to_ones", "src/composes/matrix/sparse_matrix.py:SparseMatrix.to_ones"]}
{"id": "C14", "title": "Row-wise similarities agree with pairwise ones", "statement": "get_sims_to_matrix(v, M) is a column whose i-th entry equals get_sim(v, row i of M), for cosine, dot product, euclidean and Lin alike.", "quantifier": "all vectors and matrices (zero rows included)", "why_tests_cant": "the two code paths are different algorithms that must agree everywhere", "anchors": ["src/composes/similarity/similarity.py:Similarity", "src/composes/similarity/cos.py:CosSimilarity._sims_to_matrix", "src/composes/utils/py_matrix_utils.py:nonzero_invert"]}
{"id": "C15", "title": "EPMI is P(r,c)/(P(r)P(c))", "statement": "EPMI weighting of a non-negative matrix has entry x_rc * T / (R_r * C_c) when row sum R_r and column sum C_c are non-zero and 0 otherwise; a matrix with a negative entry is rejected with ValueError; the input is not modified.", "quantifier": "all matrices of all shapes, dense and sparse", "why_tests_cant": "zero rows/columns and all shapes", "anchors": ["src/composes/transformation/scaling/epmi_weighting.py:EpmiWeighting.apply"]}
{"id": "C16", "title": "PPMI and PLMI are clipped at zero", "statement": "PPMI has entry max(0, ln epmi) (0 where epmi is 0) and PLMI is PPMI times the count; both are non-negative for every non-negative input.", "quantifier": "all matrices of all shapes", "why_tests_cant": "for-all over real matrices", "anchors": ["src/composes/transformation/scaling/ppmi_weighting.py:PpmiWeighting.apply", "src/composes/transformation/scaling/plmi_weighting.py:PlmiWeighting.apply", "src/composes/matrix/dense_matrix.py:DenseMatrix.plog", "src/composes/matrix/sparse_matrix.py:SparseMatrix.plog"]}
{"id": "C17", "title": "PLOG is the positive part of the logarithm", "statement": "PLOG weighting maps every entry x to ln x if x >= 1 and to 0 otherwise (negative entries and zeros included), leaves the input space unchanged, and never produces a negative entry.", "quantifier": "all matrices", "why_tests_cant": "for-all; dense and sparse use different thresholds", "anchors": ["src/composes/transformation/scaling/plog_weighting.py:PlogWeighting.apply", "src/composes/matrix/dense_matrix.py:DenseMatrix.plog", "src/composes/matrix/sparse_matrix.py:SparseMatrix.plog"]}
{"id": "C18", "title": "Row normalisation normalises every row it can", "statement": "After RowNormalization every row whose norm (length or sum) was non-zero has that norm equal to 1 and is a multiple of the original row; every all-zero row stays zero; with the length criterion the operation is idempotent and preserves cosine similarities.", "quantifier": "all matrices, both criteria", "why_tests_cant": "for-all over rows", "anchors": ["src/composes/transformation/scaling/row_normalization.py:RowNormalization.apply", "src/composes/utils/py_matrix_utils.py:nonzero_invert"]}
{"id": "C19", "title": "Normalisation makes the whole matrix sum (or have length) 1", "statement": "After Normalization the sum (or Frobenius length) of the entries is 1 whenever it was non-zero, and the matrix is unchanged when it was zero.", "quantifier": "all matrices, both criteria", "why_tests_cant": "for-all", "anchors": ["src/composes/transformation/scaling/normalization.py:Normalization.apply"]}
{"id": "C20", "title": "Feature selection keeps the top columns, with their labels", "statement": "TopFeatureSelection(k) keeps min(k, n) distinct columns; no dropped column scores higher than a kept one; kept columns are in non-increasing score order, equal scores in column order; and in the resulting space the entry of every word under every kept label equals its entry under that label before.", "quantifier": "all spaces, both criteria, every k >= 1", "why_tests_cant": "ranking and label alignment for every input", "anchors": ["src/composes/transformation/feature_selection/top_feature_selection.py:TopFeatureSelection.apply", "src/composes/semantic_space/space.py:Space.apply", "src/composes/semantic_space/operation.py:FeatureSelectionOperation"]}
{"id": "C21", "title": "SVD reduction and its projection agree", "statement": "If the external SVD routine returns a valid decomposition, Svd(k).apply yields U S truncated to min(k, rank) columns, projecting the same matrix with the stored transformation gives the same result, and for k >= rank all dot products, cosines and distances between rows are preserved.", "quantifier": "all real matrices, all k, both signs chosen by the sign normalisation", "why_tests_cant": "linear algebra over all dimensions", "anchors": ["src/composes/matrix/linalg.py:Linalg._dense_svd", "src/composes/matrix/linalg.py:Linalg._sparse_svd", "src/composes/transformation/dim_reduction/svd.py:Svd.apply", "src/composes/semantic_space/operation.py:DimensionalityReductionOperation"]}
{"id": "C22", "title": "NMF factors are non-negative", "statement": "Whatever the random initialisation and whenever the time limit strikes, nmf on a non-negative matrix returns two non-negative factors of shapes m x k and k x n, and projecting peripheral rows gives non-negative coordinates.", "quantifier": "all matrices, all initialisations, every stopping time", "why_tests_cant": "random initialisation and wall-clock stopping are nondeterministic", "anchors": ["src/composes/matrix/linalg.py:Linalg.nmf", "src/composes/matrix/linalg.py:Linalg._nmf_nlssubprob", "src/composes/transformation/dim_reduction/nmf.py:Nmf", "src/composes/semantic_space/operation.py:DimensionalityReductionOperation.project"]}
{"id": "C23", "title": "NMF never increases the reconstruction error", "statement": "For every non-negative initialisation (w0,h0) and every stopping time, the factors returned satisfy ||V - WH|| <= ||V - w0 h0||.", "quantifier": "all matrices, initialisations, stopping times", "why_tests_cant": "monotonicity over all iterations", "anchors": ["src/composes/matrix/linalg.py:Linalg.nmf", "src/composes/matrix/linalg.py:Linalg._nmf_nlssubprob"]}
{"id": "C24", "title": "Dense and sparse matrices behave alike", "statement": "Element-wise operations, row access, scaling, reshaping, norms, plog, clipping, thresholding and the positivity test give the same entries and the same accept/reject decision on a SparseMatrix and on the DenseMatrix with the same entries.", "quantifier": "all CSR layouts and shapes", "why_tests_cant": "two independent implementations must agree on every input", "anchors": ["src/composes/matrix/sparse_matrix.py:SparseMatrix", "src/composes/matrix/dense_matrix.py:DenseMatrix"]}
{"id": "C25", "title": "is_mostly_positive and all_close mean the same for both representations", "statement": "is_mostly_positive tells whether more than half of the non-zero entries are positive, and all_close gives the same answer for a dense and a sparse matrix with the same entries.", "quantifier": "all matrices", "why_tests_cant": "depends on sparsity pattern", "anchors": ["src/composes/matrix/dense_matrix.py:DenseMatrix.is_mostly_positive", "src/composes/matrix/sparse_matrix.py:SparseMatrix.is_mostly_positive", "src/composes/matrix/dense_matrix.py:DenseMatrix.all_close", "src/composes/matrix/sparse_matrix.py:SparseMatrix.all_close"]}
{"id": "C26", "title": "Projecting the core data reproduces the core space", "statement": "For a core space obtained from a raw space by any sequence of scalings, feature selections and SVD reductions, PeripheralSpace(core, raw matrix, raw rows) has exactly the core space's matrix entries.", "quantifier": "every history of transformations, every matrix", "why_tests_cant": "unbounded histories", "anchors": ["src/composes/semantic_space/peripheral_space.py:PeripheralSpace.__init__", "src/composes/semantic_space/peripheral_space.py:PeripheralSpace._project_core_operations", "src/composes/semantic_space/operation.py:ScalingOperation.project"]}
{"id": "C27", "title": "Peripheral columns follow the core space", "statement": "A peripheral space has the same column labels and column ids as its core space, for every history of transformations of the core, and its operation list equals the core's.", "quantifier": "every history of transformations", "why_tests_cant": "unbounded histories", "anchors": ["src/composes/semantic_space/peripheral_space.py:PeripheralSpace.__init__", "src/composes/semantic_space/peripheral_space.py:PeripheralSpace._project_core_operations"]}
{"id": "C28", "title": "add_rows is the same as building all rows at once", "statement": "Projection works row by row: adding rows M2 to a peripheral space built from M1 gives the same space as building it from M1 stacked over M2.", "quantifier": "every core history, every pair of matrices, every number of add_rows calls", "why_tests_cant": "must hold for all operations and histories", "anchors": ["src/composes/semantic_space/peripheral_space.py:PeripheralSpace.add_rows", "src/composes/semantic_space/operation.py:Operation"]}
{"id": "C29", "title": "A failed add_rows leaves the space usable", "statement": "If add_rows raises (duplicate word, wrong number of rows, incompatible matrix), the peripheral space is unchanged and still consistent.", "quantifier": "every failing call at every point of every history", "why_tests_cant": "exception-safety at every failure point", "anchors": ["src/composes/semantic_space/peripheral_space.py:PeripheralSpace.add_rows", "src/composes/utils/space_utils.py:add_items_to_dict"]}
{"id": "C30", "title": "Spaces do not interfere", "statement": "Adding rows to one peripheral space does not change any other space, in particular not the raw space or dictionary it was built from nor other peripheral spaces built from it.", "quantifier": "every heap, every pair of spaces", "why_tests_cant": "aliasing shows only in particular object graphs", "anchors": ["src/composes/semantic_space/peripheral_space.py:PeripheralSpace.__init__", "src/composes/semantic_space/peripheral_space.py:PeripheralSpace.add_rows", "src/pipelines/build_peripheral_space.py:build_space_batch"]}
{"id": "C31", "title": "Operations are applied once and projected only afterwards", "statement": "Projecting an operation that has not been applied raises IllegalStateError; applying an operation twice raises IllegalStateError; projecting never changes the operation.", "quantifier": "every sequence of apply/project calls on every operation", "why_tests_cant": "state machine over all call sequences", "anchors": ["src/composes/semantic_space/operation.py:ScalingOperation", "src/composes/semantic_space/operation.py:DimensionalityReductionOperation", "src/composes/semantic_space/operation.py:FeatureSelectionOperation"]}
{"id": "C32", "title": "Peripheral data is column-compatible with the core", "statement": "PeripheralSpace / PeripheralSpace.build reject data whose columns are not those the core space's operations were learnt on.", "quantifier": "every core and peripheral data", "why_tests_cant": "silent misalignment is only visible for particular column orders", "anchors": ["src/composes/semantic_space/peripheral_space.py:PeripheralSpace.build", "src/composes/semantic_space/peripheral_space.py:PeripheralSpace.__init__"]}
{"id": "C33", "title": "Invalid composition tuples are skipped, valid ones kept in order", "statement": "train/compose use exactly the tuples whose words are all present in their spaces, in input order, raise ValueError if none is valid, and handle an empty data list the same way.", "quantifier": "all data lists and all spaces", "why_tests_cant": "all interleavings of valid and invalid tuples", "anchors": ["src/composes/composition/composition_model.py:CompositionModel.valid_data_to_lists"]}
{"id": "C34", "title": "Composed spaces contain one correctly labelled row per valid tuple", "statement": "compose returns a space whose rows are the phrase strings of the valid tuples in order, the row of each phrase is the model's composition of its own two argument vectors, and duplicated phrase strings are rejected with ValueError.", "quantifier": "all models, data and spaces", "why_tests_cant": "alignment over lists of any length", "anchors": ["src/composes/composition/composition_model.py:CompositionModel.compose"]}
{"id": "C35", "title": "Each composition model computes its formula", "statement": "Row by row, WeightedAdditive gives alpha u + beta v, Multiplicative gives the component-wise product, Dilation gives (u.u)v + (lambda-1)(u.v)u, and FullAdditive gives A u + B v (plus the intercept row).", "quantifier": "all matrices and parameters", "why_tests_cant": "for-all over reals and sizes", "anchors": ["src/composes/composition/weighted_additive.py:WeightedAdditive._compose", "src/composes/composition/multiplicative.py:Multiplicative._compose", "src/composes/composition/dilation.py:Dilation._compose", "src/composes/composition/full_additive.py:FullAdditive._compose"]}
{"id": "C36", "title": "WeightedAdditive training is least-squares optimal on all training tuples", "statement": "The alpha, beta learnt by train minimise the total squared error of alpha u + beta v against the phrase vectors over all valid training tuples.", "quantifier": "all training sets and spaces", "why_tests_cant": "depends on the ratio of training size to phrase-space size", "anchors": ["src/composes/composition/weighted_additive.py:WeightedAdditive.xxx", "src/composes/composition/weighted_additive.py:WeightedAdditive._train1", "src/composes/composition/weighted_additive.py:WeightedAdditive._train2"]}
{"id": "C37", "title": "Dilation training is least-squares optimal", "statement": "The lambda learnt by train minimises the total squared error of the dilation model over all valid training tuples (and any lambda does when the denominator vanishes).", "quantifier": "all training sets", "why_tests_cant": "optimality over all lambda", "anchors": ["src/composes/composition/dilation.py:Dilation._train"]}
{"id": "C38", "title": "Ridge regression solves its optimisation problem", "statement": "If the pseudo-inverse routine returns a Moore-Penrose inverse, ridge_regression(A,B,lambda,intercept) with lambda >= 0 returns an X minimising ||AX-B||^2 + lambda||X||^2, with an unpenalised intercept row when requested.", "quantifier": "all A, B, lambda >= 0", "why_tests_cant": "optimality over all X", "anchors": ["src/composes/matrix/linalg.py:Linalg.ridge_regression", "src/composes/matrix/linalg.py:Linalg.pinv", "src/composes/utils/matrix_utils.py:padd_matrix"]}
{"id": "C39", "title": "FullAdditive training is optimal", "statement": "The matrices learnt by FullAdditive.train with least squares or ridge minimise the (regularised) squared error of compose over all valid training tuples: composing the training tuples gives exactly the regression's fitted values.", "quantifier": "all training sets", "why_tests_cant": "optimality and split/pad alignment for all sizes", "anchors": ["src/composes/composition/full_additive.py:FullAdditive._train", "src/composes/composition/full_additive.py:FullAdditive._compose"]}
{"id": "C40", "title": "Lexical functions are trained per word on exactly their samples", "statement": "LexicalFunction.train learns one function for every function word with at least MIN_SAMPLES valid tuples, each from exactly the (argument, phrase) pairs of its own tuples, and none for other words.", "quantifier": "all training lists in any order", "why_tests_cant": "grouping of unbounded lists", "anchors": ["src/composes/composition/lexical_function.py:LexicalFunction.train", "src/composes/utils/gen_utils.py:get_partitions"]}
{"id": "C41", "title": "Lexical function composition applies the learnt matrix", "statement": "compose applies to each argument vector the matrix learnt (or given) for its function word: result = U v, or U [v;1] with intercept; the element shape of the result drops the last dimension.", "quantifier": "all function spaces, shapes and data", "why_tests_cant": "flatten/reshape round trip for every shape", "anchors": ["src/composes/composition/lexical_function.py:LexicalFunction.compose", "src/composes/composition/lexical_function.py:LexicalFunction._compose", "src/composes/matrix/dense_matrix.py:DenseMatrix.reshape", "src/composes/matrix/sparse_matrix.py:SparseMatrix.reshape"]}
{"id": "C42", "title": "Composed column labels come from the current argument space", "statement": "For an untrained model, the composed space's columns are those of the argument space given to this compose call, whatever was composed before with the same model object.", "quantifier": "all sequences of compose calls", "why_tests_cant": "history dependence", "anchors": ["src/composes/composition/composition_model.py:CompositionModel.compose", "src/composes/composition/composition_model.py:CompositionModel._build_id2column"]}
{"id": "C43", "title": "Generalised cross-validation picks the best parameter", "statement": "RidgeRegressionLearner with cross-validation uses a parameter of param_range whose GCV error is minimal among those for which it is defined (the first such), and with a fixed param uses that param.", "quantifier": "all data and parameter ranges", "why_tests_cant": "minimality over arbitrary ranges", "anchors": ["src/composes/utils/regression_learner.py:RidgeRegressionLearner"]}
{"id": "C44", "title": "Indexing files are read as the list of distinct first-occurring words", "statement": "extract_indexing_structs returns, for each requested field, the distinct values of that field in order of first occurrence and the inverse dictionary, skips blank and too-short lines, and raises ValueError iff no valid line exists.", "quantifier": "all file contents", "why_tests_cant": "arbitrary text", "anchors": ["src/composes/utils/io_utils.py:extract_indexing_structs"]}
{"id": "C45", "title": "Sparse data files are summed into the right cells", "statement": "Building from an sm file gives a matrix whose (i,j) entry is the sum of the counts of all lines whose first two fields are row word i and column word j; lines with unknown words are ignored and a line with fewer than three fields raises ValueError.", "quantifier": "all file contents and vocabularies", "why_tests_cant": "arbitrary text with duplicates", "anchors": ["src/composes/utils/io_utils.py:read_sparse_space_data", "src/composes/semantic_space/space.py:Space.build"]}
{"id": "C46", "title": "Dense data files fill the right rows", "statement": "Building from a dm file puts the values of the first line of each known word in that word's row, leaves rows of words without a line zero, ignores later duplicates and unknown words, and raises ValueError on a line with the wrong number of fields.", "quantifier": "all file contents and vocabularies", "why_tests_cant": "arbitrary text with duplicates", "anchors": ["src/composes/utils/io_utils.py:read_dense_space_data", "src/composes/semantic_space/space.py:Space.build"]}
{"id": "C47", "title": "Dense export/import round trip", "statement": "Exporting a space in dm format and building it back from the exported files gives a dense space with the same words, columns, indices and matrix entries, for words and labels that are non-empty and contain no white space.", "quantifier": "all spaces, dense or sparse", "why_tests_cant": "byte-level round trip for all names and values", "anchors": ["src/composes/semantic_space/space.py:Space.export", "src/composes/utils/io_utils.py:print_cooc_mat_dense_format", "src/composes/utils/io_utils.py:print_list", "src/composes/utils/io_utils.py:read_dense_space_data"]}
{"id": "C48", "title": "Sparse export/import round trip", "statement": "Exporting a space in sm format and building it back with its rows and cols files gives the same words and columns, and each entry is what reading back its %f rendering gives.", "quantifier": "all spaces, dense or sparse, empty rows included", "why_tests_cant": "the CSR walk must be right for every layout", "anchors": ["src/composes/semantic_space/space.py:Space.export", "src/composes/utils/io_utils.py:print_cooc_mat_sparse_format", "src/composes/utils/io_utils.py:read_sparse_space_data"]}
{"id": "C49", "title": "export writes the matrix", "statement": "space.export(prefix) writes the matrix (dm by default) and the row and column lists, for any writable prefix.", "quantifier": "all spaces, prefixes and format arguments", "why_tests_cant": "all argument combinations", "anchors": ["src/composes/semantic_space/space.py:Space.export", "src/composes/utils/io_utils.py:create_parent_directories"]}
{"id": "C50", "title": "Partitioning finds exactly the large runs", "statement": "get_partitions(l, k) returns, in order, exactly the maximal runs of equal elements of length >= k, as half-open ranges with their key; for sorted input each range holds all occurrences of its key and keys are distinct.", "quantifier": "all lists and thresholds k >= 1", "why_tests_cant": "all lists", "anchors": ["src/composes/utils/gen_utils.py:get_partitions"]}
{"id": "C51", "title": "Cross-validation folds partition the data evenly", "statement": "get_split_indices(n, f) returns min(n, f) disjoint folds covering 0..n-1 exactly, with sizes differing by at most one, whatever the shuffle; it raises ValueError iff f <= 0 or n = 0.", "quantifier": "all n, f and all shuffles", "why_tests_cant": "random shuffle", "anchors": ["src/composes/utils/crossvalidation_utils.py:get_split_indices"]}
{"id": "C52", "title": "AUC is the probability of ranking a positive above a negative", "statement": "score(gold, prediction, 'auc') with 0/1 gold scores equals the fraction of (positive, negative) pairs in which the positive is scored higher, ties counting one half; it does not depend on the order of the data; other gold values raise ValueError.", "quantifier": "all gold/prediction lists", "why_tests_cant": "ties and all orders", "anchors": ["src/composes/utils/scoring_utils.py:auc", "src/composes/utils/scoring_utils.py:score"]}
{"id": "C53", "title": "Sparse reshape preserves row-major order without overflow", "statement": "SparseMatrix.reshape rejects exactly the shapes with a different total size and otherwise moves the entry at linear position p to linear position p, like dense reshape, also when positions do not fit into 32 bits.", "quantifier": "all CSR layouts and shapes, including more than 2^31 cells", "why_tests_cant": "32-bit overflow needs matrices too large to test", "anchors": ["src/composes/matrix/sparse_matrix.py:SparseMatrix.reshape"]}
{"id": "C54", "title": "Core-space pipeline writes one correct space per combination", "statement": "build_core_space writes, for each combination of the weightings, selections, reductions and normalisations given, the space obtained by applying those operations to the input space in that order, in a file named after the input and the operations; unknown names leave the space unchanged; distinct combinations of defined operations go to distinct files, so nothing is overwritten; no other file changes.", "quantifier": "all option lists", "why_tests_cant": "combinatorial", "anchors": ["src/pipelines/build_core_space.py:build_spaces", "src/pipelines/build_core_space.py:print_space"]}
{"id": "C55", "title": "Command-line options override the configuration file", "statement": "In every pipeline an option given on the command line takes precedence over the configuration file, which takes precedence over the default, and the last occurrence on the command line wins.", "quantifier": "all option sequences and config files", "why_tests_cant": "all sequences", "anchors": ["src/pipelines/train_composition.py:main", "src/pipelines/pipeline_utils.py:config_get"]}
{"id": "C56", "title": "The lambda given on the command line is the lambda used", "statement": "train_composition with -r ridge, cross-validation off and --lambda x trains with lambda = x, whatever other options are given.", "quantifier": "all option combinations", "why_tests_cant": "only a particular combination of options shows the defect", "anchors": ["src/pipelines/train_composition.py:main", "src/composes/utils/regression_learner.py:RidgeRegressionLearner.__init__"]}
{"id": "C57", "title": "Similarity pipeline output is line aligned", "statement": "compute_sim writes, for each defined measure, one line per non-blank input line in order: the stripped input line followed by the similarity of the words in the requested (1-based) columns (0.0 for missing words); unknown measures write nothing, a pickle that is not a space is skipped without writing anything, and a line without a requested column makes the tool fail.", "quantifier": "all input files and spaces", "why_tests_cant": "arbitrary text", "anchors": ["src/pipelines/compute_similarities.py:compute_sim"]}
{"id": "C58", "title": "Tuple and list readers keep every non-blank line", "statement": "read_tuple_list and read_list return one item per non-blank line in order, with exactly the requested fields, and raise IndexError iff some non-blank line lacks a requested field.", "quantifier": "all file contents and field lists", "why_tests_cant": "arbitrary text", "anchors": ["src/composes/utils/io_utils.py:read_tuple_list", "src/composes/utils/io_utils.py:read_list"]}
{"id": "C59", "title": "Illegal use of multi-dimensional spaces is reported as such", "statement": "Applying a dimensionality reduction or a feature selection to a space with multi-dimensional elements raises IllegalOperationError and changes nothing.", "quantifier": "all spaces and transformations", "why_tests_cant": "for-all shapes", "anchors": ["src/composes/semantic_space/space.py:Space.assert_1dim_element", "src/composes/semantic_space/space.py:Space.apply"]}
{"id": "C60", "title": "Matrix addition and subtraction require equal shapes", "statement": "m1 + m2 and m1 - m2 return the entry-wise sum or difference when the shapes are equal and raise otherwise, for dense and sparse matrices alike.", "quantifier": "all shape pairs", "why_tests_cant": "all shape pairs", "anchors": ["src/composes/matrix/matrix.py:Matrix.__add__", "src/composes/matrix/matrix.py:Matrix.__sub__"]}
{"id": "C61", "title": "Peripheral-space pipeline repeats the operations of the core space", "statement": "build_peripheral_space writes the peripheral space of the input data with respect to the given core space, in a file named after the input and the core file; with a core directory it does so for every .pkl file whose name contains the filter, one output per core file, and changes no other file.", "quantifier": "all inputs, core spaces and directories", "why_tests_cant": "any number of core files", "anchors": ["src/pipelines/build_peripheral_space.py:transform_raw_per_space", "src/pipelines/build_peripheral_space.py:build_space_batch"]}
{"id": "C62", "title": "Training pipeline saves the model trained on the given data", "statement": "train_composition saves the composition model named on the command line, trained on the first three fields of every non-blank line of the input file with the given argument and phrase spaces and with the learner described by the options; without --export_params it changes no other file.", "quantifier": "all option combinations, spaces and data files", "why_tests_cant": "combinatorial", "anchors": ["src/pipelines/train_composition.py:train_model"]}
{"id": "C63", "title": "Composition pipeline saves the composed space", "statement": "apply_composition loads or creates the model named by the options, composes the triples of the input file with the given argument spaces and saves exactly the space the API composes from them, in a file named after the model class and the input.", "quantifier": "all models, spaces and data files", "why_tests_cant": "combinatorial", "anchors": ["src/pipelines/apply_composition.py:apply_model", "src/pipelines/apply_composition.py:create_model"]}
{"id": "C64", "title": "Neighbour pipeline lists the neighbours of every word", "statement": "compute_neighbours writes, for each non-blank line of the input in order, the word followed by its neighbours as computed by get_neighbours, one per line; it fails, for a word that is not in the space, with KeyError, and for an unknown measure with ValueError.", "quantifier": "all inputs, spaces and numbers of neighbours", "why_tests_cant": "arbitrary text", "anchors": ["src/pipelines/compute_neighbours.py:compute_neighbours"]}
{"id": "C65", "title": "Evaluation pipeline correlates the right columns", "statement": "evaluate_similarities prints, for each correlation measure, the correlation between the numbers in the two requested columns of all non-blank lines, taken in line order; a missing column, a non-numeric field or an unknown measure makes it fail.", "quantifier": "all inputs", "why_tests_cant": "arbitrary text", "anchors": ["src/pipelines/evaluate_similarities.py:evaluate_sim", "src/pipelines/evaluate_similarities.py:evaluate_sim_batch"]}
{"id": "C66", "title": "A failed training leaves the model as it was", "statement": "If train raises an exception, the model composes afterwards exactly what it composed before.", "quantifier": "all models, training data and spaces, whatever the numerical routines do", "why_tests_cant": "failures may come from any point of the training", "anchors": ["src/composes/composition/full_additive.py:FullAdditive._train", "src/composes/composition/lexical_function.py:LexicalFunction.train", "src/composes/composition/weighted_additive.py:WeightedAdditive._train1", "src/composes/composition/dilation.py:Dilation._train", "src/composes/composition/composition_model.py:CompositionModel.train"]}
{"id": "C67", "title": "What a model composes depends only on its last successful training", "statement": "In any history of train, compose and learner-setting calls on one model, the parameters used by compose are those of the last successful train (or of the constructor when there was none); compose itself changes no parameter and repeating it repeats the result; training twice forgets the first training.", "quantifier": "every finite history of calls", "why_tests_cant": "unbounded histories", "anchors": ["src/composes/composition/composition_model.py:CompositionModel.train", "src/composes/composition/composition_model.py:CompositionModel.compose", "src/composes/composition/lexical_function.py:LexicalFunction.train"]}
{"id": "C68", "title": "In-place matrix methods change only the matrix they are called on", "statement": "After any sequence of matrix calls (constructors, conversions, copies, arithmetic, transformations, similarities, and the in-place methods plog, to_non_negative, to_ones and reshape), every matrix the caller holds has the value it would have if matrices were values: an in-place method gives the matrix it is called on its documented new value and changes no other matrix, and every other call changes nothing.", "quantifier": "every finite history of matrix calls, on dense and sparse matrices of any size", "why_tests_cant": "unbounded histories and sharing of storage", "anchors": ["src/composes/matrix/dense_matrix.py:DenseMatrix.plog", "src/composes/matrix/dense_matrix.py:DenseMatrix.__init__", "src/composes/matrix/sparse_matrix.py:SparseMatrix.plog", "src/composes/matrix/sparse_matrix.py:SparseMatrix.__init__", "src/composes/matrix/matrix.py:Matrix.copy"]}
{"id": "C69", "title": "The toolkit never changes the matrices it is given", "statement": "Applying or projecting a transformation, computing a similarity, and composing with a lexical function leave every existing matrix, array and column statistic unchanged, although they use in-place methods; they return what the corresponding functions on values return, or raise the same exception; the result is a matrix of its own, except that Normalization returns its argument itself when the total is 0.", "quantifier": "all transformations, similarities, matrices, memories with any sharing", "why_tests_cant": "unbounded sizes and arbitrary sharing", "anchors": ["src/composes/transformation/scaling/scaling.py:Scaling", "src/composes/semantic_space/operation.py:Operation", "src/composes/similarity/lin.py:LinSimilarity._sim", "src/composes/composition/lexical_function.py:LexicalFunction._compose", "src/composes/utils/py_matrix_utils.py:nonzero_invert"]}
{"id": "C70", "title": "A tool that is killed or fails leaves only its own output files, complete or cut short", "statement": "At whatever point a run of a command line tool is killed, raises or ends: every file that is not one of its documented outputs is as before, no directory is removed and new directories are parents of its outputs; each output file is as before, or complete, or a beginning of exactly what the finished run would put there; a pickle is complete before the exports or parameters beside it are touched; evaluate_similarities writes nothing; the log file is created if missing and never truncated.", "quantifier": "every tool, option combination, file system and every point at which the run stops", "why_tests_cant": "crash points: every character written is one", "anchors": ["src/pipelines/build_core_space.py:main", "src/pipelines/build_peripheral_space.py:main", "src/pipelines/train_composition.py:main", "src/pipelines/apply_composition.py:main", "src/pipelines/compute_similarities.py:compute_sim", "src/pipelines/compute_neighbours.py:compute_neighbours", "src/composes/utils/io_utils.py:save", "src/composes/utils/io_utils.py:create_parent_directories", "src/composes/utils/io_utils.py:print_list"]}
{"id": "C71", "title": "An interrupted tool can simply be run again", "statement": "If a tool would end normally on a disk, and runs of it with the same arguments are killed there any number of times at any points, then the next run that is left alone ends normally with exactly the disk of the uninterrupted run, provided the output files are not among the input files.", "quantifier": "every tool with one input space, all arguments and file systems, any number of interruptions at any points", "why_tests_cant": "unbounded numbers of interruptions at all crash points", "anchors": ["src/pipelines/build_core_space.py:build_spaces", "src/pipelines/build_peripheral_space.py:build_space", "src/pipelines/build_peripheral_space.py:build_space_batch", "src/pipelines/train_composition.py:train_model", "src/pipelines/apply_composition.py:apply_model", "src/pipelines/compute_similarities.py:compute_sim", "src/pipelines/compute_similarities.py:compute_sim_batch", "src/pipelines/compute_neighbours.py:compute_neighbours"]}
{"id": "C72", "title": "The order of the rows and the matrix class do not matter", "statement": "Two spaces that hold the same vectors under the same words, with the same columns and history, are interchangeable even if their rows are in different orders or one matrix is dense and the other sparse: any chain of scalings and feature selections raises the same exception or gives spaces with the same vectors; every similarity is the same number; neighbour lists have the same similarities in the same positions, and are the same lists when the rows are in the same order or no two words tie; peripheral spaces and stacked spaces agree likewise; converting between dense and sparse gives such an interchangeable space.", "quantifier": "all pairs of spaces, chains of transformations, words and data", "why_tests_cant": "all permutations and chains", "anchors": ["src/composes/semantic_space/space.py:Space.apply", "src/composes/semantic_space/space.py:Space.get_sim", "src/composes/semantic_space/space.py:Space.get_neighbours", "src/composes/semantic_space/space.py:Space.vstack", "src/composes/semantic_space/peripheral_space.py:PeripheralSpace.__init__"]}
{"id": "C73", "title": "Multiplying all counts by a constant changes no cosine", "statement": "If every count of a space is multiplied by the same positive number, then any chain of scalings other than plog and of feature selections raises the same exception or keeps the same columns and gives vectors that differ by one positive factor (the very same vectors right after epmi, ppmi and row normalization); cosine similarities and cosine neighbour lists are the same. This fails for plog.", "quantifier": "all spaces, positive constants and chains of transformations", "why_tests_cant": "all real data and constants", "anchors": ["src/composes/semantic_space/space.py:Space.apply", "src/composes/transformation/scaling/", "src/composes/transformation/feature_selection/top_feature_selection.py", "src/composes/similarity/cos.py:CosSimilarity"]}
{"id": "C74", "title": "Asking for more neighbours extends the list", "statement": "The list of the k nearest neighbours of a word is an initial segment of the list for every larger k. The first cosine neighbour of a word with a non-null vector in its own space has similarity 1, and all listed cosines lie between -1 and 1.", "quantifier": "all spaces, words, measures and numbers of neighbours", "why_tests_cant": "all k, including ties", "anchors": ["src/composes/semantic_space/space.py:Space.get_neighbours"]}
{"id": "C75", "title": "The order of the lines of a data file does not matter", "statement": "Building a space from sparse data whose non-blank lines, and the lines of the row file, come in another order raises the same exception or gives a space with the same vectors under the same words; likewise for dense data when no word has two lines. After any chain of scalings and selections every similarity is the same number.", "quantifier": "all data and row files, all orders of their lines", "why_tests_cant": "all permutations of unbounded files", "anchors": ["src/composes/semantic_space/space.py:Space.build", "src/composes/semantic_space/space.py:Space"]}
{"id": "C76", "title": "The order of the training examples does not matter", "statement": "Training Dilation, FullAdditive or LexicalFunction on the same examples in another order gives the same model, or raises the same exception (the regression being ridge, with or without generalised cross-validation, or least squares on sparse data); with numpy's least squares on dense data the two models map every training example to the same vector. For WeightedAdditive this holds when the chunk size divides the number of usable examples, always so with fewer than 15 phrases, and fails otherwise: the last, incomplete chunk is ignored.", "quantifier": "all training sets, their permutations, and spaces", "why_tests_cant": "all permutations of unbounded training sets, over exact arithmetic", "anchors": ["src/composes/composition/composition_model.py:CompositionModel.train", "src/composes/composition/dilation.py:Dilation._train", "src/composes/composition/full_additive.py:FullAdditive._train", "src/composes/composition/weighted_additive.py:WeightedAdditive._train1", "src/composes/composition/lexical_function.py:LexicalFunction.train"]}
{"id": "C77", "title": "The starting points of the non-negative factorisation are admissible", "statement": "For a non-negative matrix and a correct singular value decomposition, nndsvd_init never divides by zero and returns two non-negative factors of the class of the matrix and of the requested inner dimension: the first pair is the absolute leading singular pair scaled by the root of its singular value, each further pair is the larger of the positive and negative sections of its singular pair, and missing pairs are zero columns and rows. random_init returns columns and rows of the matrix itself, v_col_init means of randomly chosen columns and rows. Factorising from any of them keeps the factors non-negative and never ends with a larger error than the starting point.", "quantifier": "all non-negative matrices, dense or sparse, all reduced dimensions, all outcomes of the random draws", "why_tests_cant": "all real matrices and all random draws", "anchors": ["src/composes/transformation/dim_reduction/nmf.py:Nmf.nndsvd_init", "src/composes/transformation/dim_reduction/nmf.py:Nmf.random_init", "src/composes/transformation/dim_reduction/nmf.py:Nmf.v_col_init", "src/composes/matrix/linalg.py:Linalg.nmf"]}
{"id": "C78", "title": "A larger ridge parameter gives a smaller solution and a larger training error", "statement": "With the intercept not penalised: a larger lambda never gives a larger sum of squared weights nor a smaller reported distance, and the sum of squared weights is at most the sum of squared targets divided by lambda. With lambda > 0 the solution is the only minimiser of the penalised error, so it does not depend on the numerical library nor on whether the matrices are dense or sparse; with lambda = 0 it is the smallest of the minimisers.", "quantifier": "all data matrices, parameters, with and without intercept", "why_tests_cant": "all real matrices and parameters", "anchors": ["src/composes/matrix/linalg.py:Linalg.ridge_regression", "src/composes/matrix/linalg.py:Linalg.pinv"]}
{"id": "C79", "title": "Rounding errors of the scalings are small and relative", "statement": "Computing in floating point instead of exactly, on a matrix of non-negative numbers (no overflow or underflow): epmi (also with the marginals of a core space), row normalisation and whole-matrix normalisation, and every chain of them, succeed and return the exact entries up to a number of rounding errors (factors between 1/(1+2^-53) and 1+2^-53 in double precision) that grows linearly with the numbers of rows and columns; zero entries stay exactly zero. plog and ppmi are right up to an absolute error proportional to that number, plmi up to the entry times it. A negative entry is refused exactly when the exact computation refuses it.", "quantifier": "all non-negative matrices, dense or sparse, of any size, all chains of scalings, all machine arithmetics that round each operation with a bounded relative error", "why_tests_cant": "all real inputs and all rounding behaviours", "anchors": ["src/composes/transformation/scaling/epmi_weighting.py:EpmiWeighting.apply", "src/composes/transformation/scaling/ppmi_weighting.py:PpmiWeighting.apply", "src/composes/transformation/scaling/plmi_weighting.py:PlmiWeighting.apply", "src/composes/transformation/scaling/plog_weighting.py:PlogWeighting.apply", "src/composes/transformation/scaling/row_normalization.py:RowNormalization.apply", "src/composes/transformation/scaling/normalization.py:Normalization.apply"]}
{"id": "C80", "title": "Rounding errors of the similarities are small", "statement": "Computing in floating point (no overflow or underflow), the inner product of two vectors of length n is right up to n+2 rounding errors relative to the sum of the absolute products, the cosine up to 2n+9 rounding errors in absolute terms, the Euclidean score up to 4+(n+3)/2 relative errors, Lin's measure of non-negative vectors up to 2n+6 relative errors; the same holds for the similarities asked of a space. A cosine may therefore exceed 1, by at most 2n+9 rounding errors, and does: that of (1,1,1) with itself is 1+2^-52 in double precision.", "quantifier": "all vectors, dense or sparse, of any length, all spaces and words, all machine arithmetics that round each operation with a bounded relative error", "why_tests_cant": "all real inputs and all rounding behaviours", "anchors": ["src/composes/similarity/cos.py:CosSimilarity", "src/composes/similarity/dot_prod.py:DotProdSimilarity", "src/composes/similarity/euclidean.py:EuclideanSimilarity", "src/composes/similarity/lin.py:LinSimilarity", "src/composes/semantic_space/space.py:Space.get_sim"]}
{"id": "C81", "title": "Rounding only reorders neighbours whose true scores are almost equal", "statement": "Computed in floating point (no overflow or underflow), the list of the k nearest neighbours of a word has min(k, number of words) distinct words, each reported score is the true one up to the rounding errors of the measure, and a word whose true score exceeds that of another word by more than the two errors is listed before it (and listed whenever the other is).", "quantifier": "all spaces, words, measures, numbers of neighbours, all machine arithmetics that round each operation with a bounded relative error", "why_tests_cant": "all real inputs and all rounding behaviours", "anchors": ["src/composes/semantic_space/space.py:Space.get_neighbours", "src/composes/similarity/similarity.py:Similarity.get_sims_to_matrix"]}
{"id": "C82", "title": "Training on phrases the model can express reproduces them and recovers the parameters", "statement": "If the phrase vectors of the training examples are exactly what some parameters of the model give, then after training (FullAdditive and LexicalFunction with an unregularised learner) composing the training pairs returns their phrase vectors; and if no other parameters give those vectors, the learnt parameters are the true ones, so every other pair is composed as by the true model too. One pair of non-orthogonal words determines a dilation. For WeightedAdditive the examples are those of whole chunks, which are the only ones training looks at.", "quantifier": "all spaces, training sets and parameters, over exact arithmetic", "why_tests_cant": "all real parameters and vectors, all training sets", "anchors": ["src/composes/composition/composition_model.py:CompositionModel.train", "src/composes/composition/composition_model.py:CompositionModel.compose", "src/composes/composition/weighted_additive.py:WeightedAdditive._train1", "src/composes/composition/dilation.py:Dilation._train", "src/composes/composition/full_additive.py:FullAdditive._train", "src/composes/composition/lexical_function.py:LexicalFunction.train"]}
{"id": "C83", "title": "The SVD reduction is the best representation of its size", "statement": "Applying Svd(k) to a space gives each row at most k coordinates from which a linear decoder rebuilds the matrix with a total squared error that no other k coordinates per row and no other linear decoder can improve on (up to 10^-24 times the smaller dimension for dense matrices, because singular values of at most 10^-12 are dropped; exactly for sparse ones). The error is the sum of the squares of the discarded singular values, dot products of rows change by at most the square of the first discarded one, and the coordinates given to a peripheral vector are those of the nearest vector the decoder can reach.", "quantifier": "all matrices, dense or sparse, all k, all competing representations, over exact arithmetic and a correct singular value decomposition", "why_tests_cant": "an optimum over all real matrices", "anchors": ["src/composes/transformation/dim_reduction/svd.py:Svd.apply", "src/composes/matrix/linalg.py:Linalg.svd", "src/composes/semantic_space/operation.py:DimensionalityReductionOperation.project", "src/composes/semantic_space/space.py:Space.apply"]}
{"id": "C84", "title": "Composed vectors of the models are related as their formulas say", "statement": "Exchanging the two words leaves Multiplicative compositions as they are and exchanges the weights of WeightedAdditive; FullAdditive with the matrices aI and bI composes the same vectors under the same phrases as WeightedAdditive(a, b); Dilation multiplies the component of the second vector along the first by lambda and leaves the components orthogonal to it alone, up to the common factor of the squared length of the first.", "quantifier": "all spaces, lists of pairs and parameters, over exact arithmetic", "why_tests_cant": "all real vectors and parameters", "anchors": ["src/composes/composition/composition_model.py:CompositionModel.compose", "src/composes/composition/multiplicative.py:Multiplicative._compose", "src/composes/composition/weighted_additive.py:WeightedAdditive._compose", "src/composes/composition/full_additive.py:FullAdditive._compose", "src/composes/composition/dilation.py:Dilation._compose"]}
{"id": "C85", "title": "No operation ever computes an undefined number", "statement": "Given defined numbers, the scalings, similarities, neighbour lists, AUC, stacking, transformations, peripheral projections, composition, training and non-negative initialisation never divide by zero, take the square root of a negative number or the logarithm of a number that is not positive: no undefined number (NaN) is in any result, stored parameter or recorded operation, also for zero rows and columns, empty matrices and constant data; and no result or error depends on what such an operation would return. (The linear algebra libraries are assumed to return defined numbers when given defined ones; overflow to infinity is not covered.)", "quantifier": "all matrices, dense or sparse, spaces, words, measures, models, training sets and parameters; all number systems that extend the reals", "why_tests_cant": "all real inputs, zero vectors and degenerate data included", "anchors": ["src/composes/transformation/scaling/epmi_weighting.py:EpmiWeighting.apply", "src/composes/transformation/scaling/row_normalization.py:RowNormalization.apply", "src/composes/transformation/scaling/normalization.py:Normalization.apply", "src/composes/similarity/cos.py:CosSimilarity", "src/composes/similarity/lin.py:LinSimilarity", "src/composes/composition/dilation.py:Dilation._train", "src/composes/composition/weighted_additive.py:WeightedAdditive._train1", "src/composes/transformation/dim_reduction/nmf.py:Nmf.nndsvd_init", "src/composes/semantic_space/space.py:Space.apply"]}
{"id": "C86", "title": "The similarity of two words is exactly the same in both directions, also in floating point", "statement": "Asking a space, or two spaces, for the similarity of two words gives the same number, or the same error, when the two words (and spaces) are exchanged, for all four measures and also for words that are missing; and the Euclidean score of a word with itself is exactly 1. Both hold not only for exact arithmetic but for every arithmetic with commutative addition and multiplication and sign-symmetric subtraction (and, for the second, exact zero and one), double precision included.", "quantifier": "all spaces, dense or sparse, all words and measures, all such arithmetics", "why_tests_cant": "all inputs and all rounding behaviours", "anchors": ["src/composes/similarity/similarity.py:Similarity.get_sim", "src/composes/similarity/cos.py:CosSimilarity", "src/composes/similarity/dot_prod.py:DotProdSimilarity", "src/composes/similarity/euclidean.py:EuclideanSimilarity", "src/composes/similarity/lin.py:LinSimilarity", "src/composes/semantic_space/space.py:Space.get_sim"]}
{"id": "C87", "title": "On length-normalised spaces cosine, dot product and Euclidean score give the same neighbours", "statement": "After row normalisation by length, the dot product and the cosine of two words are both the cosine in the original space, and (unless a vector is null) the Euclidean score is 1/(1+sqrt(2-2cos)); so the neighbour lists by dot product and by cosine are those by cosine in the original space, scores included, and the list by Euclidean score names the same words in the same order.", "quantifier": "all spaces, also a second space searched for the neighbours, all words and numbers of neighbours, over exact arithmetic", "why_tests_cant": "all real vectors, null vectors and ties included", "anchors": ["src/composes/transformation/scaling/row_normalization.py:RowNormalization.apply", "src/composes/semantic_space/space.py:Space.get_neighbours", "src/composes/semantic_space/space.py:Space.get_sim", "src/composes/similarity/cos.py:CosSimilarity", "src/composes/similarity/dot_prod.py:DotProdSimilarity", "src/composes/similarity/euclidean.py:EuclideanSimilarity"]}
{"id": "C88", "title": "Composing in batches and stacking the results gives what composing all at once gives", "statement": "If the phrase list is cut into consecutive batches, each with at least one phrase whose words are known, composing each batch and stacking the results with vstack gives a space with the same phrases in the same order, the same columns and the same vectors as composing the whole list in one call, and fails with the same exception when that call fails (for instance on a phrase named twice, within or across batches). This holds for the weighted additive, multiplicative, dilation and full additive models, for one or two argument spaces, and for lexical functions whose composed vectors are vectors.", "quantifier": "all models, argument spaces (dense or sparse), phrase lists and ways of cutting them", "why_tests_cant": "all numbers and sizes of batches, known and unknown words", "anchors": ["src/composes/composition/composition_model.py:CompositionModel.compose", "src/composes/composition/lexical_function.py:LexicalFunction.compose", "src/composes/semantic_space/space.py:Space.vstack"]}
{"id": "C89", "title": "Logarithms and row normalisations can be applied before or after stacking spaces", "statement": "Stacking two spaces and then applying a chain of PLOG and row normalisations (by sum or by length) gives the same table of labels and numbers as applying the chain to each space and stacking the results; and the two spaces can be stacked before the chain exactly when they can after it.", "quantifier": "all pairs of spaces, dense or sparse in any mixture, and all chains of these transformations, over any arithmetic", "why_tests_cant": "all data and chains of any length", "anchors": ["src/composes/transformation/scaling/plog_weighting.py:PlogWeighting.apply", "src/composes/transformation/scaling/row_normalization.py:RowNormalization.apply", "src/composes/semantic_space/space.py:Space.vstack", "src/composes/semantic_space/space.py:Space.apply"]}
{"id": "C90", "title": "Running the command-line tools one after the other computes what one program does", "statement": "Building core spaces, training a composition model on one of them, composing phrases with the saved model and computing similarities of the saved phrases, each with its own command-line tool on the files the one before wrote, succeeds only with the result of doing the four steps in memory: the last file has, per line, the similarity of the phrases composed by the model trained on the transformed input space; likewise for building a core space and then a peripheral space of it. No precision or label is lost on the way, whatever the formats of the additional exports.", "quantifier": "all input files, options, models, output directories and phrase lists, as long as no tool overwrites an input of a later one", "why_tests_cant": "all file contents and option combinations", "anchors": ["src/pipelines/build_core_space.py", "src/pipelines/build_peripheral_space.py", "src/pipelines/train_composition.py", "src/pipelines/apply_composition.py", "src/pipelines/compute_similarities.py"]}
{"id": "C91", "title": "Neighbours in a stacked space are found among the neighbours in its parts", "statement": "Searching the space stacked from two spaces for the k nearest neighbours of a word of another space, or of one of its own words, gives exactly the first k of the merge, by decreasing score with the first part's words first on ties, of the k nearest neighbours in each part; so a large space can be searched part by part, and no word is a neighbour in the whole that is not among the k nearest in its part. More parts are merged the same way.", "quantifier": "all pairs of spaces that can be stacked (and lists of them), dense or sparse, all words, measures and numbers of neighbours, over exact arithmetic", "why_tests_cant": "all real vectors, ties included, all sizes", "anchors": ["src/composes/semantic_space/space.py:Space.get_neighbours", "src/composes/semantic_space/space.py:Space.vstack"]}
{"id": "C92", "title": "Stacking does not depend on how the vstack calls are grouped", "statement": "Stacking several spaces with vstack gives the same table of labels and numbers however the calls are grouped, as long as the order of the spaces is kept, and succeeds for one grouping exactly when for every other: when no word is in two of the spaces and the columns have the same labels in the same order (and as many). Each word of a part has in the result the vector it had there.", "quantifier": "all non-empty lists of spaces, dense or sparse in any mixture, all ways of grouping, over any arithmetic", "why_tests_cant": "all trees of calls of any size", "anchors": ["src/composes/semantic_space/space.py:Space.vstack"]}
{"id": "C93", "title": "Selecting the best columns in two steps gives what one step gives", "statement": "Applying TopFeatureSelection with k' and then with k columns, by the same criterion, gives the space that selecting min(k, k') columns at once gives: the same column labels in the same order and the same numbers. In particular repeating a selection changes nothing, and a peripheral space built on a core space with two such selections has the numbers of one built on a core space with the single selection.", "quantifier": "all spaces, dense or sparse, both criteria, all k and k' greater than 0, over exact arithmetic", "why_tests_cant": "all real matrices, ties included", "anchors": ["src/composes/transformation/feature_selection/top_feature_selection.py:TopFeatureSelection.apply", "src/composes/semantic_space/space.py:Space.apply"]}
{"id": "C94", "title": "A run of a command-line tool is determined by the values of its settings", "statement": "Two runs of a tool on the same files that have the same value for each setting do the same: they write the same files, print the same text, or fail with the same exception. The order of the options, the short or long name used for each, the way it is written (-x v, -xv, --name v, --name=v), values that a later option replaces, and whether a value comes from the command line or the configuration file make no difference.", "quantifier": "all seven tools, all command lines made of the working options, all configuration files and file systems", "why_tests_cant": "all option lists of any length and order", "anchors": ["src/pipelines/build_core_space.py:main", "src/pipelines/build_peripheral_space.py:main", "src/pipelines/train_composition.py:main", "src/pipelines/apply_composition.py:main", "src/pipelines/compute_similarities.py:main", "src/pipelines/compute_neighbours.py:main", "src/pipelines/evaluate_similarities.py:main"]}
{"id": "C95", "title": "Euclidean scores and cosines are those of a geometry", "statement": "The distance 1/score - 1 of the Euclidean similarity of two words is the Euclidean distance of their vectors: it is 0 exactly when the vectors are equal, and it satisfies the triangle inequality over any three words, also of three different spaces. The angle of the cosine (its arc cosine) satisfies the triangle inequality as well, so the cosines of two pairs confine the cosine of the third, and words with cosine 1 have the same cosine with every other word.", "quantifier": "all spaces with as many columns, dense or sparse in any mixture, and all triples of their words, null vectors included, over exact arithmetic", "why_tests_cant": "all real vectors of all dimensions", "anchors": ["src/composes/semantic_space/space.py:Space.get_sim", "src/composes/similarity/euclidean.py:EuclideanSimilarity", "src/composes/similarity/cos.py:CosSimilarity"]}
{"id": "C96", "title": "The weightings treat rows and columns alike", "statement": "Applying EPMI, PPMI, PLMI, PLOG or the normalisation of the whole matrix to the transposed matrix gives the transposed result of applying it to the matrix, in the same representation, and fails with the same exception exactly when that does; transposing twice gives the matrix back.", "quantifier": "all matrices, dense or sparse, of all shapes, over exact arithmetic, including those with negative entries, null rows and null columns", "why_tests_cant": "all real matrices", "anchors": ["src/composes/transformation/scaling/epmi_weighting.py:EpmiWeighting.apply", "src/composes/transformation/scaling/ppmi_weighting.py:PpmiWeighting.apply", "src/composes/transformation/scaling/plmi_weighting.py:PlmiWeighting.apply", "src/composes/transformation/scaling/plog_weighting.py:PlogWeighting.apply", "src/composes/transformation/scaling/normalization.py:Normalization.apply", "src/composes/matrix/dense_matrix.py:DenseMatrix.transpose", "src/composes/matrix/sparse_matrix.py:SparseMatrix.transpose"]}
{"id": "C97", "title": "Tools that run at the same time and use different files do not disturb each other", "statement": "If several runs of the command-line tools are started at the same time, none of them writes a file that another reads or writes, and their output directories exist, then under every interleaving of their steps each run ends with the result it has when it is alone, after a number of its own steps that does not depend on the others, and leaves the output files it leaves alone; at every moment its output files are as at some moment of a run alone (also if the machine stops everything then), all other files and directories are as before, and when all have ended and each would succeed alone, the disk is what running them one after the other leaves, in any order. This includes the runs of build_peripheral_space and compute_similarities on a directory: such a run reads every entry of the directory, so no other run may write there (it is assumed that os.listdir depends on the entries of the directory only); and runs with a log file, which counts as one of the files they write.", "quantifier": "all numbers of runs, settings, disks and schedules", "why_tests_cant": "all interleavings of the single steps (tests for existence, listing a directory, reading a file, opening a file, writing a character)", "anchors": ["src/composes/utils/io_utils.py:save", "src/composes/utils/io_utils.py:load", "src/composes/utils/io_utils.py:create_parent_directories", "src/pipelines/build_core_space.py:build_spaces", "src/pipelines/build_peripheral_space.py:build_space", "src/pipelines/build_peripheral_space.py:build_space_batch", "src/pipelines/train_composition.py:train_model", "src/pipelines/apply_composition.py:apply_model", "src/pipelines/compute_similarities.py:compute_sim", "src/pipelines/compute_similarities.py:compute_sim_batch", "src/pipelines/compute_neighbours.py:compute_neighbours"]}
{"id": "C98", "title": "Tools can be started at the same time although their common output directory does not exist yet", "statement": "Tools that succeed alone, none of which writes a file another reads or writes, succeed when they are started at the same time although their common output directory is not there: one of them makes it. Refuted: the directory is first looked for and then made, and a tool that is overtaken between the two ends with OSError. What holds: a tool that is not overtaken ends as it does alone; one that is has written nothing, and running it again gives the files it would have written alone; at least one tool succeeds; when all have ended, running the failed ones again in any order leaves the files that running all of them one after the other leaves; all end; files that no tool writes do not change.", "quantifier": "all lists of runs of the six writing tools (directory modes and log files in the output directory included), all settings, disks and interleavings of their steps", "why_tests_cant": "all schedules of any length", "anchors": ["src/composes/utils/io_utils.py:create_parent_directories", "src/composes/utils/io_utils.py:save", "src/composes/semantic_space/space.py:Space.export", "src/pipelines/build_core_space.py", "src/pipelines/build_peripheral_space.py", "src/pipelines/train_composition.py", "src/pipelines/apply_composition.py", "src/pipelines/compute_similarities.py", "src/pipelines/compute_neighbours.py"]}
{"id": "C99", "title": "Every matrix method computes what its documentation says, for both classes", "statement": "For dense and sparse matrices of every shape: negation, scalar product, division, plog, to_non_negative, get_non_negative, to_ones and remove_small_values give the documented value in every cell; +, - and component-wise product combine cells of equal position, the matrix product is the sum of products, vstack and hstack place the operands one after the other; rows and columns are selected in the order asked for, negative row numbers counting from the end; reshape keeps the row-major order of the cells; sum and norm, over all cells, each row or each column, and sorted_permutation are the sums, Euclidean lengths and the ranking (largest first, ties by position); nary_vstack, nary_hstack, padd_matrix, identity, the conversions and the choice of a common class are as documented. Operands of different classes raise TypeError, shapes that do not fit ValueError (+ and - of dense matrices broadcast one row or column), rows or columns that do not exist IndexError, division by 0 ZeroDivisionError. The result is of the class of the operands.", "quantifier": "all matrices of both classes, all shapes and entries, stored zeros and unsorted rows included, all arguments (reshape below 2^63 cells), over exact arithmetic", "why_tests_cant": "all matrices and arguments", "anchors": ["src/composes/matrix/matrix.py:Matrix", "src/composes/matrix/dense_matrix.py:DenseMatrix", "src/composes/matrix/sparse_matrix.py:SparseMatrix", "src/composes/utils/matrix_utils.py"]}
{"id": "C100", "title": "The laws of matrix algebra hold for the matrix classes", "statement": "Within a class, addition is commutative and associative and subtraction undoes it, scalar and component-wise products distribute over it, the matrix product is associative, distributes over addition and has the identities of the right size as units, transposing a product reverses it, transposing twice or reshaping back restores the matrix, stacks transpose to stacks and multiply blockwise, scaling the rows (columns) is multiplying by a diagonal matrix from the left (right), the norm and sum do not change under transposition and scale with the matrix, and the norm is 0 only for the null matrix. Each law says that both sides are defined whenever the shapes fit, are of the same class and agree in every cell.", "quantifier": "all matrices of both classes with shapes that fit, all numbers, over exact arithmetic", "why_tests_cant": "all matrices", "anchors": ["src/composes/matrix/matrix.py:Matrix", "src/composes/matrix/dense_matrix.py:DenseMatrix", "src/composes/matrix/sparse_matrix.py:SparseMatrix"]}
{"id": "C101", "title": "Two-argument lexical functions are learnt and applied one argument at a time", "statement": "Functions of two arguments (verbs) can be learnt by training phrase functions (object already filled in) on sentences, then training verb functions on the learnt function space; composing a verb with an object and using the result as LexicalFunction(function_space=..., intercept=...) to compose with a subject yields, for every subject and object, the contraction of the verb's three-dimensional array with both vectors (extended by a 1 where the learner has an intercept); each step drops one dimension of the element shape, and an intercept flag that does not fit raises ValueError. If the training sentences are given by some three-dimensional array and the training subjects and objects determine linear functions, then with an unregularised learner the learnt array is that one, so composed sentences are exact also for subjects and objects never seen in training.", "quantifier": "every pair of training lists, every argument and sentence space of any dimension, both learners with or without intercept, every list of verb-object and sentence tuples to compose", "why_tests_cant": "a test composes one verb with a few nouns and cannot tell a permuted reshape that happens to fit from the right one, nor show that unseen arguments are composed exactly", "anchors": ["src/composes/composition/lexical_function.py:LexicalFunction.train", "src/composes/composition/lexical_function.py:LexicalFunction.compose", "src/composes/composition/lexical_function.py:LexicalFunction.__init__", "src/examples/ex19.py", "src/composes/utils/regression_learner.py:LstsqRegressionLearner"]}
{"id": "C102", "title": "Rounding errors of composed vectors are small", "statement": "Let every operation of the machine (+, -, *, /, square root, logarithm) have a relative error of at most a factor t. Then every coordinate of a composed vector is within (t^k - 1) times the sum of the absolute values of the terms of the model's formula: multiplicative: a factor t of u_j v_j; weighted additive: k = 2 (and a factor t^2 of the formula if both terms are non-negative); dilation: k = n+7; full additive: k = max(n1, n2+1)+2; lexical function on dense matrices: k = n+2 for every coordinate of the result, with and without intercept. In double precision (t-1 < 2^-52) an error of k roundings is at most k 2^-52 times the terms.", "quantifier": "all spaces of both matrix types (dense for lexical functions), all data lists, all parameters, every rounding with bounded relative error (double precision, Flocq's round to nearest even without exponent bounds, is one), sums taken from left to right", "why_tests_cant": "all vectors of all lengths and every rounding of every intermediate result", "anchors": ["src/composes/composition/composition_model.py:CompositionModel.compose", "src/composes/composition/multiplicative.py:Multiplicative._compose", "src/composes/composition/weighted_additive.py:WeightedAdditive._compose", "src/composes/composition/dilation.py:Dilation._compose", "src/composes/composition/full_additive.py:FullAdditive._compose", "src/composes/composition/lexical_function.py:LexicalFunction.compose"]}
{"id": "C103", "title": "Similarities, neighbours and scalar composition models depend on the geometry only, not on the axes; a lossless SVD only changes the axes", "statement": "Take two families of spaces with the same words in which any two vectors (of the same or of different spaces of the family) have the same dot product. Then get_sim and get_neighbours with CosSimilarity, DotProdSimilarity and EuclideanSimilarity give exactly the same results in both, WeightedAdditive and Dilation learn the same parameters in both, and composing the same tuples with WeightedAdditive or Dilation extends both families by spaces that again have the same dot products. Svd(k) of a space whose matrix has rank at most k is such a change of axes, also for peripheral spaces whose vectors are combinations of core vectors. For peripheral vectors of any kind the dot products with the core words are unchanged, and their neighbours among the core words come in the same order for all three measures.", "quantifier": "all families of spaces of both matrix types, all words, all tuples, all parameters, all k; SVD routines that return a correct decomposition without singular values between 0 and the cut-off 1e-12; exact arithmetic", "why_tests_cant": "all spaces and all rotations of the axes; every word of every peripheral space", "anchors": ["src/composes/similarity/cos.py:CosSimilarity", "src/composes/similarity/dot_prod.py:DotProdSimilarity", "src/composes/similarity/euclidean.py:EuclideanSimilarity", "src/composes/semantic_space/space.py:Space.get_sim", "src/composes/semantic_space/space.py:Space.get_neighbours", "src/composes/composition/weighted_additive.py:WeightedAdditive", "src/composes/composition/dilation.py:Dilation", "src/composes/transformation/dim_reduction/svd.py:Svd", "src/composes/semantic_space/peripheral_space.py:PeripheralSpace"]}
{"id": "C104", "title": "The order of the columns does not matter", "statement": "Two spaces with the same words, the same labelled columns in different orders and the same number for every word and label are interchangeable: every scaling raises the same exception or gives such spaces again; so does a feature selection, and a chain of scalings and selections, in which no dropped column scores as much as a kept one (with a tie at the cut the first column is kept, and the order does decide); every similarity, of all four measures, and every neighbour list is the same; weighted additive, multiplicative and dilation models that have not been trained compose such spaces from such spaces. If the core spaces come from such tables by the same chain, projecting raw data of other words (the columns in the respective order) raises the same exception or gives such peripheral spaces. Reading sparse data with the lines of the column file in another order gives such a space or the same exception.", "quantifier": "all pairs of spaces that are the same table, all scalings, criteria, chains, words, measures, models, tuples, and all texts and orders of their lines (real arithmetic)", "why_tests_cant": "all column permutations of matrices of all sizes", "anchors": ["src/composes/semantic_space/space.py:Space.apply", "src/composes/semantic_space/space.py:Space.build", "src/composes/semantic_space/space.py:Space.get_sim", "src/composes/semantic_space/space.py:Space.get_neighbours", "src/composes/transformation/scaling/epmi_weighting.py", "src/composes/transformation/feature_selection/top_feature_selection.py", "src/composes/semantic_space/peripheral_space.py:PeripheralSpace", "src/composes/composition/composition_model.py:CompositionModel.compose"]}
{"id": "C105", "title": "Pipelines with rounding errors keep the right columns and give nearly the right similarities", "statement": "Let every operation of the machine have a relative error of at most a factor t. TopFeatureSelection(k) then keeps min(k, n) distinct columns, and no column listed later or dropped has an exact score above t^(2 s) times that of one listed earlier, where s is the number of roundings of a score (rows + errors of the entries for sums, about half of that for norms). If in exact arithmetic each kept column scores more than t^(2 s) times every later or dropped one, the rounded run keeps the same columns in the same order. A chain of scalings without logarithms (EpmiWeighting, RowNormalization, Normalization) and such selections, run with rounding, raises the same exceptions as in exact arithmetic or ends in a space with the same words and columns whose entries carry a number of relative errors given by the chain and the shape alone; get_sim (all four measures) on that space differs from the exact result by at most an explicit bound, and is 0 in both for missing words; the neighbour lists are the exact ranking up to an explicit error of the scores. A PeripheralSpace over that core, and rows added to it later, likewise raise the same exceptions or carry an explicit number of errors. In double precision ties are not protected: two columns with the same numbers in another order can be ranked differently from exact arithmetic.", "quantifier": "all matrices of both types with non-negative entries, both criteria, all k, all chains, all pairs of words, all four measures, every rounding with bounded relative error (double precision without exponent bounds is one), sums taken from left to right", "why_tests_cant": "all matrices of all sizes, all chains and every rounding of every intermediate result", "anchors": ["src/composes/transformation/feature_selection/top_feature_selection.py", "src/composes/semantic_space/space.py:Space.apply", "src/composes/semantic_space/space.py:Space.get_sim", "src/composes/semantic_space/space.py:Space.get_neighbours", "src/composes/semantic_space/peripheral_space.py:PeripheralSpace", "src/composes/semantic_space/peripheral_space.py:PeripheralSpace.add_rows", "src/composes/transformation/scaling/epmi_weighting.py", "src/composes/transformation/scaling/row_normalization.py", "src/composes/transformation/scaling/normalization.py", "src/composes/similarity/cos.py:CosSimilarity", "src/composes/similarity/euclidean.py:EuclideanSimilarity"]}
{"id": "C106", "title": "Words and contexts that never occur do not matter", "statement": "Two spaces with labelled columns that hold the same number for every word and label, where a word or label that one of them lacks counts as zeros, are interchangeable: every scaling raises the same exception or gives such spaces again; so does a feature selection (by length, or of non-negative entries) and a chain of scalings and selections in which no dropped column has the same non-zero score as a kept one; cosine, dot product and Lin similarity of any two words are the same, also when a word is missing in one space and a vector of zeros in the other, and so is the Euclidean similarity of words that both spaces have; the neighbours with a positive similarity are rank by rank equally similar in both, and the same words where the similarity is not shared. Reading a sparse count file with row and column files that list other words in another order, but keep the same records, gives such spaces (or ValueError in both cases). Peripheral spaces made of such raw vectors from the two transformed spaces agree in the same way, or fail with the same exception, when no selection keeps a column of score zero; and weighted additive, multiplicative and dilation models compose the phrases whose words both pairs of spaces have to vectors that agree. Training weighted additive and dilation models on such argument and phrase spaces with the same usable tuples learns the same parameters; weighted additive needs as many phrases on both sides. The Euclidean similarity of a missing word, selection by sums of negative entries and phrases that never occur in the training of weighted additive are shown to be exceptions.", "quantifier": "all pairs of spaces of both matrix types that hold the same non-zero numbers, with any number of further rows and columns of zeros anywhere, all scalings, criteria, chains, words, measures, texts and index files (real arithmetic)", "why_tests_cant": "all insertions of zero rows and columns into matrices of all sizes", "anchors": ["src/composes/semantic_space/space.py:Space.apply", "src/composes/semantic_space/space.py:Space.build", "src/composes/semantic_space/space.py:Space.get_sim", "src/composes/semantic_space/space.py:Space.get_neighbours", "src/composes/transformation/scaling/epmi_weighting.py", "src/composes/transformation/scaling/row_normalization.py", "src/composes/transformation/scaling/normalization.py", "src/composes/transformation/feature_selection/top_feature_selection.py", "src/composes/utils/io_utils.py", "src/composes/composition/weighted_additive.py", "src/composes/composition/dilation.py"]}
{"id": "C107", "title": "A run over a directory can be killed and started again", "statement": "When build_peripheral_space works on a directory of core spaces, or compute_similarities on a directory of spaces, and the output directory is neither the input directory nor below it, a run that would have ended normally can be killed at any moment, any number of times, and started again: the last run ends normally and leaves exactly the files, with the contents, that the run would have left without interruption. In particular a second run changes nothing. It is assumed that os.listdir lists the same names in the same order as long as the entries of the directory stay the same. Writing the peripheral spaces into the directory of the core spaces is shown to be an exception: a second run takes the first run's outputs for core spaces.", "quantifier": "all disks, directories, names, filters, formats, measures, listings and crash points, any number of interruptions", "why_tests_cant": "a test kills a run at a few points; the claim is about every prefix of the effects of every run", "anchors": ["src/pipelines/build_peripheral_space.py:build_space_batch", "src/pipelines/build_peripheral_space.py:transform_raw_per_space", "src/pipelines/compute_similarities.py:compute_sim_batch", "src/composes/utils/io_utils.py"]}
{"id": "C108", "title": "Tools running at the same time can be killed and started again", "statement": "Let several runs of the command line tools, with or without log files, use the same disk at the same time, in existing directories, such that no run writes a file that another one reads or writes, no run reads a file it writes, and each would end normally alone. At any moment all of them can be killed, whatever each has done by then; later any of them can be started again, at the same time or one after the other, in any order, under any schedule, and be killed again, any number of times. A run that ends in one of these rounds ends without an exception, and it ends once it has made enough steps, whatever the others do. The files of a run that has ended are those it leaves when it is alone on the untouched disk; files that no run writes, and the directories, never change. Once the last attempt of every run has ended, the disk is exactly what running the tools one after the other, in any order, leaves: nothing of the killed attempts remains.", "quantifier": "all finite sets of runs of the eight tools, all settings, all disks, all schedules, all moments at which a round breaks off, all numbers of rounds and choices of what is started again", "why_tests_cant": "a test sees a few schedules and a few crash points; the claim is about all histories of interrupted concurrent runs", "anchors": ["src/pipelines/build_core_space.py", "src/pipelines/build_peripheral_space.py", "src/pipelines/train_composition.py", "src/pipelines/apply_composition.py", "src/pipelines/compute_similarities.py", "src/pipelines/compute_neighbours.py", "src/composes/utils/io_utils.py"]}
{"id": "C109", "title": "Composing transformed vectors with rounding errors gives nearly the right similarities of phrases", "statement": "Let every operation of the machine have a relative error of at most a factor t, and let the argument spaces hold vectors that already carry k relative errors per entry (as the spaces that transformations end in do). Composing any tuples with WeightedAdditive, Multiplicative or Dilation then raises the same exception as in exact arithmetic from the exact vectors, or makes spaces with the same phrases and column labels in which every entry is within (t^k' - 1) times the sum of the absolute values of the terms of the model's formula, where k' is k+2, 2k+1 and 3k+n+7 for vectors of length n; for non-negative vectors and weights (a dilation factor of at least 1) the entries carry k' relative errors. So a corpus space with non-negative counts, transformed by a chain of scalings and clearly decided selections, composed and asked for the similarity of two phrases by any of the four measures gives the exact similarity up to an explicit bound that depends on the chain, the model, the shapes and the two exact phrase vectors; phrases that could not be composed have similarity 0 in both.", "quantifier": "all spaces of both matrix types, all chains, all tuples, all parameters of the three models, all pairs of phrases, all four measures, every rounding with bounded relative error (double precision without exponent bounds is one), sums taken from left to right", "why_tests_cant": "all matrices of all sizes, all chains and every rounding of every intermediate result", "anchors": ["src/composes/composition/composition_model.py:CompositionModel.compose", "src/composes/composition/weighted_additive.py:WeightedAdditive._compose", "src/composes/composition/multiplicative.py:Multiplicative._compose", "src/composes/composition/dilation.py:Dilation._compose", "src/composes/semantic_space/space.py:Space.apply", "src/composes/semantic_space/space.py:Space.get_sim"]}
{"id": "C110", "title": "Every command line is either refused before anything happens or means one list of options", "statement": "The command lines a tool accepts are those of getopt: options in any order, -x v, -xv, --name v, --name=v, several letters after one dash (only the last may take a value), long names shortened to a beginning that no other long name shares (an exact name always wins), options ending at the first other argument, at a single - or after --. Each such line can be read in one way only. What a run does, to the disk step by step and in its result or exception, depends only on the options read, their values and the configuration file (the argument that is left if there is exactly one): two lines read alike do the same, and the plain lines of C55 and C94 are read as written. Every other line (an unknown or ambiguous name, a missing value, a value for --help) ends with the usage message and exit status before any file is touched, and so does a line that contains -h or --help, if its configuration file is readable. A --gz that is neither True nor False makes build_core_space and build_peripheral_space fail having touched nothing but the log file.", "quantifier": "all seven tools, all lists of arguments, all file systems, all configuration files", "why_tests_cant": "all lists of arguments of any length, whatever characters they contain", "anchors": ["src/pipelines/build_core_space.py:main", "src/pipelines/build_peripheral_space.py:main", "src/pipelines/train_composition.py:main", "src/pipelines/apply_composition.py:main", "src/pipelines/compute_similarities.py:main", "src/pipelines/compute_neighbours.py:main", "src/pipelines/evaluate_similarities.py:main", "src/pipelines/pipeline_utils.py:assert_bool"]}
{"id": "C111", "title": "Adding raw vectors before or after the transformations", "statement": "Let a core space be made from a corpus space by Normalization, Svd(k) and TopFeatureSelection(k) with k > 0, any of them, in any order and number. If a raw row of new data is a times the raw row of one word plus b times that of another (for example the counts of two corpora added up), its vector in a peripheral space is a times the vector of the one plus b times the vector of the other. So composing the two projected words with WeightedAdditive(a, b) gives entry by entry the projection of the added raw vector. With EpmiWeighting first the vectors combine in proportion to the totals of the rows: total_c * v_c = a * total_a * v_a + b * total_b * v_b, where total_c = a * total_a + b * total_b.", "quantifier": "all corpus spaces, all chains of these transformations, all new data of both matrix types, all rows and coefficients, all lists of tuples", "why_tests_cant": "all matrices, all chains and all coefficients; a test sees a few additions", "anchors": ["src/composes/semantic_space/peripheral_space.py:PeripheralSpace.__init__", "src/composes/semantic_space/space.py:Space.apply", "src/composes/semantic_space/operation.py", "src/composes/transformation/scaling/normalization.py", "src/composes/transformation/scaling/epmi_weighting.py", "src/composes/transformation/dim_reduction/svd.py", "src/composes/transformation/feature_selection/top_feature_selection.py", "src/composes/composition/weighted_additive.py"]}
{"id": "C112", "title": "What a LexicalFunction object composes is decided by its constructor and its last training", "statement": "LexicalFunction(function_space, intercept, learner) refuses a function space together with a learner (ValueError); the default is no intercept and least squares, and without functions compose raises AttributeError. In any history of train, compose, and of setting the regression learner or MIN_SAMPLES: a training ends as it would on a new object with the learner and the MIN_SAMPLES set last, and until the next training compose gives what that new object would give, whatever happened before; choosing a learner, setting MIN_SAMPLES and composing change nothing of what is composed. Given functions are applied with the given intercept flag, and the result has no column labels. After a training exactly the words with at least MIN_SAMPLES usable tuples have a function. After trainings that all failed the given functions are still applied, but with the intercept flag of the learner of the last attempt.", "quantifier": "all constructor arguments, all histories of calls of any length, all spaces and tuples, all behaviours of the numpy routines", "why_tests_cant": "all histories; a test sees a few short ones", "anchors": ["src/composes/composition/lexical_function.py:LexicalFunction.__init__", "src/composes/composition/lexical_function.py:LexicalFunction.train", "src/composes/composition/lexical_function.py:LexicalFunction.compose", "src/composes/composition/lexical_function.py:LexicalFunction.set_min_samples", "src/composes/composition/lexical_function.py:LexicalFunction.set_regression_learner"]}
