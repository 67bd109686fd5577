# Formal model of dimazest/dissect in Rocq (Coq 8.16.1)

The code under /repo is Python 2.7 on numpy/scipy/sparsesvd.  It is never run here; the model in
`rocq/theories` is a function-by-function transcription, every definition citing file and lines.

## 1. Layers

| layer | files | content |
|---|---|---|
| base | `Base`, `PyList`, `Dict`, `Str`, `Num` | exceptions as values (`res A = Ok a \| Err e`), Python list indexing and slicing, stable sort, dictionaries as association lists, byte strings with lines / `strip` / `split` / `os.path`, the numeric class |
| rounding | `Round` (`RoundEx` for double precision) | the arithmetic of `Num` with rounded operations: each returns the exact result up to a relative error; sums from left to right |
| matrix | `Dense`, `Sparse`, `Matrix`, `Linalg`, `NmfInit` | numpy-style dense matrices (shape + rows), raw CSR triples (data, indices, indptr), the DenseMatrix/SparseMatrix union with every method the toolkit uses, regressions, SVD wrapper, NMF loops |
| memory | `Imp` | Matrix objects that refer to arrays, the in-place methods, and the code that uses them as imperative programs |
| core | `Scaling`, `Operation`, `Similarity`, `Space`, `Peripheral`, `Heap` | weightings, feature selection, reductions, operation objects, similarities, `Space`, `PeripheralSpace`, sharing of dictionary objects between spaces |
| composition | `Learner`, `Composition`, `LexFun` | regression learners, the four additive/multiplicative/dilation/full additive models, lexical functions |
| utilities | `Utils` | partitions, folds, AUC, score |
| io | `IO` | `io_utils.py` at byte level, a file system, `Space.build`, `Space.export`, save/load |
| programs | `Pipe` | the seven command line programs of `src/pipelines` from `sys.argv` (including `getopt`) to the files they write |
| interruption | `Crash` | the writing programs again, as lists of effects on the disk: what a killed or failing run leaves |
| concurrency | `Conc` | the same programs as atomic steps on a shared disk, schedules |
| specifications | `Spec*` | small definitions used in theorem statements only |
| proofs | `P*` (not `Prop_*`) | lemmas |
| properties | `Prop_*` | the theorems `Cnn_...`, each with a concrete example meeting its hypotheses |
| instances | `Qio`, `Pio` | concrete number formatting / program environments for the examples |

### Numbers
The model is written once over a class `Num` (carrier, 0, 1, + - * /, comparisons, sqrt, ln and the single law that
`eqb` decides equality).  Four instances are used:
* `RNum`: Coq's real numbers.  Every theorem about numerical values is about `RNum`, i.e. about exact real
  arithmetic, except those of C79-C81 and C102.
* `FNum o`: real numbers with rounded operations `o`; C79-C81 and C102 hold for every `o` whose operations have a bounded relative error
  (`standard`), and double precision with unbounded exponent (Flocq's `FLX`, 53 bits, nearest even) is shown to be one.  NaN,
  infinities, overflow and underflow are not modelled.
* `QNum`: canonical rationals `Qc` (computable), used for executable examples and for refutation witnesses that
  involve only field operations and comparisons (its `sqrt`/`ln` are dummies that no example uses, except that C90_example takes square roots of 0 and 1, where the dummy is right).
* `NanNum`: the reals with an undefined value that division by zero, roots of negative numbers and logarithms of non-positive
  numbers return; C85 shows that it never appears, so no theorem over `RNum` depends on Coq's conventions for `x/0`, `sqrt (-1)`, `ln 0`.
Theorems that only concern structure (shapes, indices, labels, histories, files, exceptions) are stated for every `Num`.

### External routines
`np.linalg.svd`, `sparsesvd`, `np.linalg.pinv`, `np.linalg.lstsq`, the random index draws and the wall clock are fields
of a class `Ext`: theorems quantify over *all* behaviours of these routines and, where a numerical guarantee is needed,
assume it of the value returned (`pinv_correct`: the matrix returned is a Moore-Penrose inverse; `lstsq_correct`: it
minimises the squared error; a valid decomposition for the SVDs).  `numpy`/`scipy` array primitives (sum, product,
broadcasting, fancy indexing, coo->csr summing duplicates, `eliminate_zeros`) are modelled by their documented meaning.
Number <-> text conversions (`float(s)`, `repr`, `"%f"`, `str`, `int(s)`) are the fields of the class `FloatIO`, without
laws; the round-trip theorems assume exactly the law they need (e.g. "`float(repr(x))` is `x` and `repr(x)` has no white
space") of the numbers they concern.  `ConfigParser`, `eval`, `os.listdir`, `str(numpy.matrix)` and the `scipy.stats`
correlations are the fields of `PipeIO`, without laws.

### What is not modelled
* infinities, overflow, underflow and integer dtypes, NaN outside C85 (outside C79-C81, C102 and C105 all matrices hold exact numbers; C79-C81, C102 and C105 hold for operations that round with a bounded relative error, sums taken from left to right, not numpy's pairwise order); `int32` index overflow
  *is* modelled in `SparseMatrix.reshape`, where the code handles it;
* the byte format of pickles: a pickle file holds the object (`content = Pickle o`), so save-then-load is the identity;
* gzip (the content of a `.gz` file is its uncompressed content); links, permissions, path normalisation;
* `IO.v` and `Pipe.v` give a failing call no resulting file system; what a failing or killed run leaves on disk is modelled in
  `Crash.v`, as the list of its effects.  There, files are written character by character; a pickle loads only when its last
  byte is written; the second attempt of `io_utils.save` with protocol 0 after `struct.error` and what the operating system
  loses when the machine goes down are not modelled; `evaluate_similarities` prints to the terminal, which is not the disk;
* several processes at once are modelled in `Conc.v` (C97, C98): the writing tools, their directory modes and the opening of their log files, after the settings have been read;
  one step is one test for existence, one `os.listdir`, the reading of one file, one `mkdir`, one `open`, or one character written;
* numpy's subclass `matrix` versus plain arrays (all dense arrays are two-dimensional here);
* logging, `print` of progress, `warn`, exit codes, memory use;
* malformed configuration files (`cfg_opt` is total);
* storage order of scipy results beyond what the CSR operations used here document;
* `src/examples`, the unit tests, `setup.py`, `log_utils` beyond creating the log file, the dead FANCY BUILD string.

## 2. Properties: what is modelled and how each is proved

I: induction / invariant, A: algebra over R, R: refinement / round trip, T: totality theorem as well (the success
condition is proved, so the main theorem is not vacuous), X: the faithful model violates the English claim: a `_refuted`
theorem with a witness (or for all inputs of the bad kind) stands beside `_partial` theorems stating what does hold.

| id | model | theorems in | method |
|---|---|---|---|
| C01 | `mk_space`, dict/list checks incl. negative ids | `Prop_Space` | counting argument: injective map between key set and positions; iff |
| C02 | inductive `reachable` over all API operations | `Prop_Space` | I, X for negative ids in supplied dictionaries |
| C03 | `get_row(s)`, CSR slicing | `Prop_Space` | R to entries |
| C04 | `Space.vstack` | `Prop_Space` | case analysis, row lemma; X for negative ids |
| C05 | `Space.apply`, `vstack` | `Prop_Space` | X |
| C06 | `set_cooccurrence_matrix` | `Prop_Space` | X (arguments swapped) |
| C07 | `to_dense`, `to_sparse` | `Prop_Space` | R |
| C08 | `Space.apply` | `Prop_Space` | case analysis |
| C09 | `get_neighbours` | `Prop_Neigh` | sort lemma (permutation, sorted, stable) |
| C10 | `get_sim(s)` | `Prop_Neigh` | case analysis, T |
| C11, C12 | similarities | `Prop_Sim` | A (Cauchy-Schwarz) |
| C13 | Lin | `Prop_Sim` | A; X for negative entries |
| C14 | `get_sims_to_matrix` | `Prop_Sim` | A |
| C15-C19 | weightings | `Prop_Scaling` | A |
| C20 | `TopFeatureSelection`, `Space.apply` | `Prop_Scaling` | sort lemma, label alignment |
| C21 | SVD wrapper with oracle | `Prop_Svd` | A |
| C22, C23 | NMF loops with clock / init oracles | `Prop_Nmf` | I, A (projected gradient descent lemma) |
| C24 | CSR vs dense | `Prop_Alike` | R; X for broadcasting + and - |
| C25 | `is_mostly_positive`, `all_close` | `Prop_Alike` | exact meanings; X |
| C26-C28 | `Peripheral` | `Prop_Periph` | I over the operation list, row-locality |
| C29 | `add_rows` with effects before the exception | `Prop_Periph` | X |
| C30 | heap of dictionaries, all histories | `Prop_Heap` | I; X, frame theorem |
| C31 | operation state machine, all call histories | `Prop_Periph` | I; X |
| C32 | `PeripheralSpace.build` | `Prop_Periph` | X |
| C33 | `valid_data_to_lists` | `Prop_Comp` | I; X for the empty list |
| C34, C35 | `compose` | `Prop_Comp` | A, T |
| C36 | chunked training | `Prop_Train` | A (normal equations); X (tail dropped) |
| C37 | `Dilation._train` | `Prop_Train` | A, T |
| C38 | ridge with pinv oracle | `Prop_Ridge` | A, T |
| C39 | full additive training | `Prop_Fadd` | A, T |
| C40, C41 | lexical functions | `Prop_LexFun` | I (sort + partitions), A, T |
| C42 | compose with a used model | `Prop_Comp` | X |
| C43 | GCV loop | `Prop_Ridge`, `Prop_Fadd` | I |
| C44-C46, C58 | file readers | `Prop_IO` | I over lines |
| C47, C48 | writers then readers | `Prop_Export` | R at byte level |
| C49 | `export` | `Prop_Export` | exact bytes; X |
| C50, C51 | partitions, folds | `Prop_Utils` | I |
| C52 | AUC | `Prop_Score` | I; X for ties |
| C53 | reshape with explicit wrap-around | `Prop_Alike` | A |
| C54 | build_core_space | `Prop_Core` | I over the nested loops, T |
| C55 | all seven mains: option handling from `sys.argv` | `Prop_Pipe`, `Prop_Pipe2` | I over the argument list (`getopt`); X |
| C56 | train_composition with ridge | `Prop_Lambda` | end to end: argv to optimality of the saved model; X |
| C57, C64 | compute_similarities, compute_neighbours | `Prop_Sims`, `Prop_SimsR`, `Prop_Batch` | I over lines, T |
| C59 | `assert_1dim_element` | `Prop_Periph` | X (formatting the message raises TypeError) |
| C60 | + and - | `Prop_Alike` | X for dense |
| C61 | build_peripheral_space | `Prop_Batch` | I over the directory, T |
| C62 | train_composition | `Prop_TrainPipe` | composition of C33-C41 with the file layer, T |
| C63 | apply_composition | `Prop_Batch` | same, T |
| C65 | evaluate_similarities | `Prop_Sims`, `Prop_Batch` | I over lines |
| C66 | failed training | `Prop_Models` | case analysis; refuted by a witness |
| C67 | histories of model calls | `Prop_Models` | I over histories |
| C68 | histories of calls on Matrix objects that share storage | `Imp`, `Prop_Alias` | simulation of the memory by values, invariant: shared arrays have one origin |
| C69 | scalings, projections, Lin, lexical functions as programs with in-place steps | `Imp`, `Prop_Imp` | refinement: the programs end like the functions on values and only add to the memory |
| C70 | the tools as sequences of effects on the disk (mkdir, open, one character, last byte of a pickle) with their result | `Crash`, `SpecCrash`, `Prop_Crash`, `Prop_Crash2`, `Prop_CrashMain`, `Prop_CrashEx` | structural induction over the traced programs (`runs`), refinement of the untraced ones (C70_steps): same result, and the replayed effects give the same disk |
| C71 | repeated interruption of the traced tools | `Crash`, `SpecCrash`, `Prop_Rerun`, `Prop_RerunEx` | invariant `agree`: the inputs are untouched at every crash point, and a finished run determines its outputs from the inputs |
| C72 | existing model; relation `same_vectors` (same words, vectors, columns, history) | `PMoved`, `Prop_Order` | a relational invariant of matrices (`moved`: one is a row permutation of the other, any class) preserved by every matrix routine the scalings and selections use; uniqueness of a ranking |
| C73 | existing model; relation `proportional` | `Prop_Counts` | every statistic used by the scalings is homogeneous; uniqueness of the selected columns (ties included) |
| C74 | existing model | `Prop_Order` | uniqueness of a ranking with a tie rule, from C09 |
| C75 | existing model of `Space.build` and of text files | `Prop_Lines` | `build` is determined by the multiset of records (C45, C46 text-level theorems), then `same_vectors` of C72 |
| C76 | existing model of training | `Prop_TrainOrder` | sums over rows are invariant under a row permutation, so `ridge_regression` returns the very same solution, trace and distance, hence the same cross-validated parameter; two least squares minimisers have the same fitted values (parallelogram identity) |
| C77 | `NmfInit`: `Nmf.random_init`, `Nmf.nndsvd_init` (nmf.py 41-136) with the svd and random oracles | `Prop_NmfInit` | the entry values of each section; a section chosen by `termp >= termn` has a non-zero norm because the product of the two norms is at least that of the other and the singular vectors are not null; then C22/C23 apply |
| C78 | existing model of `ridge_regression` | `Prop_Ridge2` | exchange argument between the two minimisers; expansion of the cost around a solution of the normal equations; P G is a symmetric projection that fixes the solution |
| C79 | the whole model instantiated with rounded operations (`Round`: `FNum`, standard model `standard`) | `PRound`, `Prop_Round`; double precision (Flocq) in `RoundEx`, `Prop_RoundEx` | relative errors: factors between 1/t and t multiply through products, quotients, roots and sums of non-negative terms; logarithms turn them into absolute errors |
| C80 | same, on the similarities and `Space.get_sim` | `Prop_RoundSim`, `Prop_RoundNeigh`, `Prop_RoundEx` | signed sums by the error relative to the sum of absolute values and Cauchy-Schwarz; `C80_above_one` computes a double-precision cosine above 1 |
| C81 | same, on `Space.get_neighbours` | `Prop_RoundNeigh` | the sort is exact on the rounded keys (C09's ranking lemma); each key is within the error of the true score |
| C82 | training and composition of the four trainable models | `Prop_Recover` | the true parameters have error 0, so by C36, C37, C39, C40 the learnt ones have error 0: every squared distance is 0; C35 and C41 for what compose then returns |
| C83 | SVD reduction and projection, with the decomposition routines as oracles (`numpy_svd_correct`; for sparse matrices `sparsesvd_leading`: the routine returns the leading triples) | `PEckart`, `Prop_SvdBest` | Eckart-Young: Gram-Schmidt turns any competing decoder into an orthonormal one, Bessel's inequality on both sides bounds the energy it captures by that of the leading singular values |
| C84 | `compose` of the models | `Prop_Algebra` | from the formulas C35 and the rows C34 |
| C85 | every numerical operation of the model, over an arbitrary number system that extends the reals, and over the reals with an undefined value | `PMorph`, `PMorph2`, `PMorph3`, `Prop_Defined` | the embedding of the reals commutes with every function of the model: each division, root and logarithm is reached only under a guard that makes it defined; instantiated with NaN-carrying numbers |
| C86 | `get_sim`, all measures, over an arbitrary number system | `Prop_Symm` | records `commuting` and `exact_zero_one` state what is asked of the arithmetic; double precision (Flocq) meets both; argument symmetric through conversions, both representations and errors |
| C87 | `RowNormalization` by length, then similarities and neighbour lists, over the reals | `Prop_Unit` | dot product of unit vectors is the cosine; the Euclidean score is an increasing function of it; neighbour lists are determined by the order of the scores (`top_k_order`) |
| C88 | `compose` of all models, `LexicalFunction.compose`, `vstack` | `Prop_Batches` | rows of a composed space are a function of the phrase alone; induction over the batches with the stacked prefix as invariant; the failing cases compared exception by exception |
| C89 | PLOG, row normalisation, `vstack`, `apply` | `Prop_Rowwise` | each of these maps a row to a function of that row (`PVals` over any arithmetic), commutes with stacking; induction over the chain |
| C90 | the `main` functions of the pipelines over a model file system | `Prop_Chain` | composition of C54, C61, C62, C63 and C57: each tool's output file is the next one's input, and the frame conditions keep the other inputs |
| C91 | `Space.get_neighbours` over `Space.vstack`, on R | `Prop_Shard` | the neighbour list is the stable sort of the scores cut at k; the sort of a concatenation is the merge of the sorts, and cutting commutes with merging |
| C92 | `Space.vstack` | `Prop_Stack` | trees of vstack calls; induction over the tree: labels are concatenated, entries are those of the parts at their offsets |
| C93 | `TopFeatureSelection.apply` through `Space.apply`, on R | `Prop_TwoStep` | a prefix of the best columns is the best columns; the ordering of the selected columns makes the second selection a prefix; uniqueness of the selection; `C93_peripheral` through `PeripheralSpace` |
| C94 | the `main` functions of the seven pipelines | `Prop_Options` | C55 describes each run through the values of the settings; the last value of each setting is a function of what the options say |
| C95 | `get_sim` with the Euclidean and cosine measures, on R | `Prop_Metric` | Cauchy–Schwarz gives the triangle inequality of the norm; the Gram determinant of three unit vectors gives that of the angles; a null vector has cosine 0 with everything |
| C96 | the weightings of `scaling/`, `transpose`, on R | `Prop_Transpose` | the entry-wise characterisations C15–C19 are symmetric in rows and columns |
| C97 | the six writing tools and their two directory modes as programs of atomic steps on a shared disk (`Conc`), schedules | `SpecConc`, `SpecDir`, `PConc`, `PConc2`, `Prop_Conc`, `Prop_ConcEx`, `Prop_ConcDirEx` | each program alone is the run of `Crash.v` (and so the tool of `Pipe.v`); each is confined to its files; a simulation over the schedule keeps, for every program, a disk of its own that agrees with the shared one on its files. A directory mode reads every entry of its directory; `os.listdir` is any function determined by the entries. A log file counts as written. Reading one file, or listing a directory, is one step; the reading of configuration files, what is logged, and foreign processes are not modelled |
| C98 | the same programs, started although their common output directory is missing | `PRace`, `PRace2`, `Prop_Race`, `Prop_Race2` | refuted by a schedule of three tools; otherwise a simulation of each program by its run on the disk that has the directory, with the extra states of making it and of having lost the race |
| C99 | all of `Matrix` | `Prop_Methods` | A: cell by cell, for both classes, with all exceptions; is_mostly_positive and all_close are in C25 |
| C100 | all of `Matrix` | `Prop_MatAlg` | A over the cells given by C99 |
| C101 | `LexicalFunction` trained on, and constructed from, a function space (`examples/ex19.py`) | `Prop_Tensor` | C41 applied twice and row-major index arithmetic; C82 for each stage, with a spanning condition on the training arguments giving uniqueness; hypotheses on `lstsq`/`pinv` as in C38/C39 |
| C102 | composition over rounded operations (`Round`); the generic (any arithmetic) formula of `compose` and of dense `LexicalFunction.compose` (`PLexAny`) | `Prop_RoundComp`, double precision in `Prop_RoundCompEx` | forward error analysis: a pair "close to y within (t^k-1)T, and abs y <= T" is closed under rounded products and sums; cancellation makes a bound relative to the terms, not to the result, the right one |
| C103 | similarities, neighbours, `WeightedAdditive`/`Dilation` (compose and train), `Svd`, peripheral spaces | `Prop_Axes`, `Prop_AxesSvd`, example `Prop_AxesEx` | the formulas of C11, C12, C35 and the normal equations of training use dot products only; SVD: Eckart-Young makes the discarded singular values 0, projection multiplies with orthonormal columns that span the row space |
| C104 | two spaces that are the same table with the columns in different orders | `Prop_ColOrder`, `Prop_ColOrder2`, `Prop_ColPeriph` | a permutation of the column numbers from the labels; sums are invariant under it (reals), scalings entrywise by C15-C19, selection by counting the kept columns, files by C45, composition by C34/C35; a tie at the cut is shown to matter; for peripheral spaces the permutation is carried through the recorded operations |
| C105 | feature selection and whole chains of transformations computed with rounding errors, followed by similarities | `Prop_RoundSel`, `Prop_RoundPipe`, `Prop_RoundPipeEx`, `Prop_RoundPeriph`, `Prop_RoundPeriphEx` | relative errors of column sums and norms (PRound); an exact choice with margins is also the choice of the rounded scores, and the choice is unique; induction over the chain; similarities by C80, Euclidean by a Lipschitz bound; double precision (Flocq) with a tie as counterexample; peripheral spaces by relating the operations the two cores remember (marginals, sums, selections) |
| C106 | two spaces that agree on every word and label, a missing word or label counting as zeros | `Prop_Zeros`, `Prop_Zeros2`, `Prop_ZeroPeriph`, `Prop_ZeroComp`, `Prop_ZeroTrain` | all sums become sums over labels, which are the same over two label lists when the terms vanish outside either (the non-zero terms are a permutation); scalings entrywise by C15-C19 and 0 goes to 0; selection and neighbour lists by counting; files by C45; for peripheral spaces the recorded operations are compared entry by entry under the labels, one projection at a time; training only reads dot products, which are sums over labels; three exceptions are shown by examples |
| C107 | the batch modes of `Crash.v` (build_peripheral_space, compute_similarities), `os.listdir` any function that is determined by the entries of the input directory (`SpecDir`) | `SpecDir`, `Prop_RerunDir`, `Prop_RerunDirEx` | the invariant `agree` of C71, extended to the entries of the input directory: no output and no created directory is an entry of it, so the listing and every file read stay the same |
| C108 | rounds of concurrent programs (`Conc.v`), each round cut off at any point of its schedule and followed by others over the disk it left | `SpecConc`, `Prop_ConcRerun` (`rounds`, `tidy`, `startable`), `Prop_ConcRerunEx` | invariant over rounds: every file of a job is as at first, or among those its run truncates before writing (so what was there does not matter), or its freshly created log; the reads of a job are never touched, so every run makes the same effects as on the first disk (`alone_same`); C97 applied to each round |
| C109 | composition over rounded operations of spaces whose vectors already carry errors (`close`, C105); transformations, composition and similarities in one statement | `Prop_RoundCompPipe`, double precision in `Prop_RoundCompPipeEx` | the error pairs of C102 with k errors per argument entry; both runs choose the same tuples and labels because these depend on words only; for non-negative vectors and weights the result is again `close`, so C105_get_sim applies |
| C110 | `getopt` (Python 2.7, modelled in full in `Pipe`), the seven mains and their effect traces (`Crash`) | `SpecGetopt` (a grammar of command lines), `PGetopt`, `Prop_Getopt` | getopt accepts exactly the grammar (induction over derivations, and over the length of the line for the converse); the mains use the parsed options and `config_of` only; C55/C70 for the boolean option |
| C111 | projection (`Peripheral`, `row_map` of `PProj`), WeightedAdditive (`Composition`) | `linear`, `combined`, `total` in `Prop_Superpose` | induction over the recorded operations with a linear invariant; for EPMI the projection multiplies each row by a factor inverse to its total; C35 for the composition |
| C112 | `LexFun` (constructor, setters, train, compose) | `lcall`, `last_learner`, `last_min`, `all_fail` in `Prop_LexHist` | induction over histories; C67, C40 and C41 for the last training and the composed values |

No property of the list is inexpressible in the model; none is `not_applicable`.

## 3. What the proofs found (violations in the pinned code, each with a `_refuted` theorem)

| id | finding | code |
|---|---|---|
| C02, C04 | `row2id` with negative ids is accepted; `vstack` then yields wrong rows or fails | `space_utils.py` `assert_dict_match_list` |
| C05 | scaling and `vstack` flatten the element shape of spaces of matrices | `space.py` `_apply`, `vstack` |
| C06 | rows and columns swapped in the check of the matrix setter: only square matrices are accepted | `space.py` |
| C13 | Lin's measure counts pairs of negative features | `lin.py` |
| C25 | dense `is_mostly_positive` counts zeros, sparse does not; `all_close` tolerances differ | `dense_matrix.py`, `sparse_matrix.py` |
| C29 | a failing `add_rows` leaves the space changed and inconsistent, and it cannot be repaired by a correct `add_rows` | `peripheral_space.py` |
| C30 | `PeripheralSpace` shares the caller's dictionary object | `peripheral_space.py` |
| C31 | `FeatureSelectionOperation.project` before `apply`: AttributeError; scalings without statistics are unguarded | `operation.py` |
| C32 | column labels of peripheral data are not compared with those of the core | `peripheral_space.py` |
| C33 | empty data: UnboundLocalError | `composition_model.py` |
| C36 | the last incomplete chunk is dropped; fewer tuples than one chunk learn alpha = beta = 0 | `weighted_additive.py` |
| C42 | columns of the first compose call stick to the model | `composition_model.py` |
| C49 | `export` without `format` writes no matrix; a prefix without slash is refused (`makedirs("")`) | `space.py`, `io_utils.py` |
| C52 | ties between positive and negative count as won | `scoring_utils.py` |
| C55 | `--sim_measure` is documented, but getopt takes it for an abbreviation of its own `--sim_measures` and the loop does not know that name: usage and exit | `compute_neighbours.py` |
| C56 | a list comprehension overwrites `param`: with `--lambda_range` and fixed lambda the run fails | `train_composition.py` |
| C59 | `IllegalOperationError` cannot be raised: its message `"...%s" % element_shape` with a tuple of two or more elements raises TypeError | `space.py` |
| C60 | dense + and - broadcast | `dense_matrix.py` |
| C66 | the intercept flag is refreshed before the training can fail: a model that worked before a failed train may compose nothing afterwards | `full_additive.py:78`, `lexical_function.py:113` |
| C68 | `DenseMatrix(x)` / `SparseMatrix(x)` / `to_dense_matrix()` share the storage of x: `DenseMatrix(a).plog()` turns the entries of a below 1 into 1 without taking logarithms | `dense_matrix.py:45,244` |
| C70 | outputs are opened for writing in place: a compute_similarities run that fails on its first word pair has already emptied a good result of an earlier run (C70_result_lost_refuted), and an export cut short between two lines loads without an error as a smaller space (C70_partial_export_refuted) | `compute_similarities.py`, `print_utils.py` |
| C107 | (C107_own_directory) build_peripheral_space in batch mode with the output directory as core directory takes its own outputs for core spaces when it is run again, so the run cannot be repeated | `build_peripheral_space.py` |

Not a violation of the listed claim but worth knowing: in build_core_space an *unknown* name is shown in the file name although
it does nothing, so `-w ppmi` and `-s ppmi` write the same file; C54_saved has the hypothesis `unambiguous`, which
C54_unambiguous proves for all lists of defined operations.

## 4. Trusted base
* Coq 8.16.1's kernel (and `vm_compute` in the examples).
* The axioms `Print Assumptions` lists, below; all of them are the standard library's: those of its real
  numbers, and functional extensionality (file systems are functions from paths, so C70 and C71 compare functions).  No axiom,
  parameter or section-less variable is declared in this development, and no third-party library is used.
* The reading of the Python 2.7 source and of the numpy/scipy/getopt/posixpath documentation embodied in the model
  (section 1 says what is left out).

Output of `tools/assumptions.py` (Print Assumptions of every `Cnn_` theorem):

<!-- assumptions -->
* no axioms (closed under the global context) -- 161 theorems: C01_accepted_inverse, C01_accepts_iff, C02_reachable_consistent_partial, C02_refuted, C03_get_row, C03_get_row_missing, C03_get_rows, C03_get_rows_empty, C03_get_rows_missing, C04_negative_id_refuted, C04_vstack, C04_vstack_vectors, C05_refuted, C05_vector_spaces_partial, C05_vstack_refuted, C06_refuted, C06_set_matrix_partial, C07_conversion, C08_apply_history, C110_boolean, C110_help, C110_plain, C110_refused, C110_same, C110_unique, C112_constructor, C112_failed, C112_last_training, C112_settings, C112_untrained, C27_add_rows, C27_columns, C29_failed_add_rows_partial, C29_refuted, C30_frame_partial, C30_refuted, C30_separate_partial, C31_learning_operations_partial, C31_refuted, C31_selection_partial, C32_refuted, C32_width_partial, C32_width_refuted, C33_compose_partial, C33_refuted, C33_train_partial, C34_rows, C34_total, C42_first_partial, C42_given_full_additive_partial, C42_refuted, C42_sticky_partial, C42_trained_partial, C44_distinct, C44_indexing, C44_no_field, C45_build, C45_invalid, C45_needs_columns, C46_arguments, C46_build, C46_empty_file, C46_invalid, C47_roundtrip, C48_no_columns, C48_roundtrip, C49_bare_prefix_refuted, C49_default_format_refuted, C49_directory, C49_export_partial, C50_low_threshold, C50_runs, C50_sorted, C51_folds, C54_distinct, C54_saved, C54_total, C54_unambiguous, C55_apply, C55_commas, C55_core, C55_evaluate, C55_neighbours_partial, C55_peripheral, C55_sim_measure_refuted, C55_similarities, C55_train, C56_lambda_range_refuted, C57_batch, C57_lines, C57_missing_column, C57_not_a_space, C57_total, C58_fields, C58_lines, C58_list_field, C58_list_lines, C58_records, C58_strip, C58_text_lines, C58_tuples, C58_tuples_all, C59_always_fails_partial, C59_refuted, C61_batch, C61_built, C61_total, C62_params, C62_total, C62_trained, C63_composed, C63_short_line, C63_total, C64_fails, C64_neighbours, C64_total, C64_unknown_measure, C65_batch, C65_evaluate, C66_failed_train_partial, C66_lexfun_partial, C66_refuted, C66_same_learner_partial, C67_compose_repeatable, C67_last_training, C67_lexfun, C67_training_forgets, C68_elsewhere, C68_partial, C68_receiver, C68_refuted_sparse, C69_apply, C69_function_row, C69_lexical_function, C69_project, C69_scaling, C69_similarity, C70_evaluate_steps, C70_run_apply, C70_run_core, C70_run_neighbours, C70_run_peripheral, C70_run_similarities, C70_run_train, C86_same_space, C86_self, C86_vectors, C86_words, C88_compose, C90_core_peripheral, C90_experiment, C90_train_compose, C92_grouping, C92_possible, C92_vectors, C94_last_wins, C94_order, C94_values, C97_any_moment, C97_ends, C98_refuted

* `FunctionalExtensionality.functional_extensionality_dep` -- 34 theorems: C107_own_directory, C107_peripheral, C107_similarities, C108_ends, C108_files, C108_finished, C108_results, C70_after_log, C70_apply, C70_core, C70_evaluate, C70_log, C70_neighbours, C70_peripheral, C70_peripheral_batch, C70_pickle_first_apply, C70_pickle_first_peripheral, C70_pickle_first_train, C70_similarities, C70_similarities_batch, C70_steps, C70_train, C71_apply, C71_core, C71_neighbours, C71_peripheral, C71_similarities, C71_train, C97_result, C97_serial, C98_ends, C98_one_wins, C98_partial, C98_repair

* `ClassicalDedekindReals.sig_forall_dec`, `FunctionalExtensionality.functional_extensionality_dep` -- 3 theorems: C102_double, C80_double_error, C81_order

* `ClassicalDedekindReals.sig_forall_dec`, `ClassicalDedekindReals.sig_not_dec`, `FunctionalExtensionality.functional_extensionality_dep` -- 1 theorems: C77_sections

* `ClassicalDedekindReals.sig_forall_dec`, `ClassicalDedekindReals.sig_not_dec`, `Classical_Prop.classic`, `FunctionalExtensionality.functional_extensionality_dep` -- 285 theorems: C09_missing, C09_neighbours, C100_addition, C100_blocks, C100_distributes, C100_product, C100_reductions, C100_reshape, C100_scaling, C101_compose, C101_learn, C101_sentences, C101_total, C101_wrong_intercept, C102_dilation, C102_full_additive, C102_lexical_function, C102_multiplicative, C102_weighted_additive, C103_compose, C103_get_sim, C103_neighbours, C103_svd, C103_svd_dot, C103_svd_neighbours, C103_svd_peripheral, C103_train, C104_build, C104_chain, C104_compose, C104_get_sim, C104_neighbours, C104_peripheral, C104_scale, C104_select, C104_tie, C105_add_rows, C105_chain, C105_get_sim, C105_neighbours, C105_peripheral, C105_peripheral_ops, C105_pipeline, C105_same, C105_selection, C105_tie, C106_build, C106_chain, C106_compose, C106_euclid, C106_get_sim, C106_negative, C106_neighbours, C106_peripheral, C106_scale, C106_select, C106_train, C106_unseen_phrases, C109_compose, C109_end_to_end, C10_get_sim_mismatch, C10_get_sim_missing, C10_get_sim_present, C10_get_sims, C10_get_sims_total, C111_composed, C111_epmi, C111_linear, C112_given, C112_learnt_words, C11_cosine, C11_cosine_scale, C11_cosine_self, C11_cosine_symmetric, C12_euclidean, C13_lin_nonneg_partial, C13_lin_refuted, C13_lin_symmetric_partial, C14_sims_to_matrix, C15_epmi, C15_negative_rejected, C16_plmi, C16_ppmi, C17_plog, C18_idempotent, C18_preserves_cosine, C18_row_normalization, C19_normalization, C20_labels, C20_selection, C21_apply_dense, C21_apply_sparse, C21_dot_products, C21_dot_products_sparse, C21_geometry, C22_apply, C22_nmf, C22_project, C22_total, C23_error, C24_access, C24_add_sub_partial, C24_binary, C24_reductions, C24_unary, C25_all_close_dense, C25_all_close_partial, C25_all_close_refuted, C25_all_close_sparse, C25_mostly_positive_dense, C25_mostly_positive_partial, C25_refuted, C26_core_data, C28_batches, C35_dilation, C35_full_additive, C35_full_additive_given, C35_multiplicative, C35_weighted_additive, C35_weighted_additive_given, C36_covered_partial, C36_nothing_learnt_refuted, C36_refuted, C36_total, C36_whole_partial, C37_optimal, C37_total, C38_ridge_optimal, C38_ridge_rejects, C38_ridge_total, C39_composes_fitted_values, C39_optimal, C39_total, C40_optimal, C40_too_few, C40_total, C40_train, C41_compose, C41_dimension_mismatch, C41_total, C43_constructor, C43_cv_picks_best, C43_fixed_param, C43_score, C52_auc_no_ties_partial, C52_auc_tie_excess, C52_auc_value, C52_errors, C52_order_irrelevant, C52_ties_refuted, C53_like_dense, C53_reshape, C56_full_add_partial, C56_lexical_func_partial, C57_values, C60_add_sub_partial, C60_refuted, C64_missing_word, C64_values, C68_refuted_dense, C72_apply, C72_apply_all, C72_conversion, C72_get_sim, C72_get_sims, C72_neighbours, C72_neighbours_missing, C72_peripheral, C72_vstack, C73_apply, C73_apply_all, C73_exact, C73_get_sim, C73_neighbours, C73_pipeline, C73_plog_excluded, C73_scaling, C73_selection, C74_prefix, C74_self, C75_dense, C75_similarities, C75_sparse, C76_dilation, C76_full_additive, C76_full_additive_lstsq, C76_lexical_function, C76_lexical_function_lstsq, C76_weighted_additive, C76_weighted_additive_order_matters, C77_factorise, C77_nndsvd, C77_random, C77_triples_dense, C77_triples_sparse, C77_v_col, C78_library_independent, C78_monotone, C78_shrinks, C78_smallest, C78_unique, C79_chain, C79_logarithm, C79_peripheral, C79_plmi, C79_rejects, C79_scaling, C80_above_one, C80_cosine, C80_cosine_range, C80_dot, C80_euclid, C80_get_sim, C80_lin, C81_neighbours, C82_dilation, C82_dilation_determined, C82_full_additive, C82_lexical_function, C82_weighted_additive, C83_best_dense, C83_best_sparse, C83_dot_products, C83_error, C84_dilation_stretches, C84_full_additive_scalar, C84_multiplicative_commutes, C84_weighted_additive_swaps, C85_auc, C85_auc_defined, C85_compose, C85_compose_defined, C85_compose_lexical, C85_lexical_defined, C85_neighbours, C85_neighbours_defined, C85_nndsvd, C85_peripheral, C85_peripheral_defined, C85_peripheral_rows, C85_peripheral_rows_defined, C85_scaling, C85_similarity, C85_similarity_defined, C85_stacking, C85_train, C85_train_defined, C85_train_lexical, C85_transformation, C85_transformation_defined, C86_double, C87_euclid, C87_neighbours, C87_neighbours_euclid, C87_similarity, C88_lexical, C89_stackable, C89_stacking, C91_parts, C91_search, C91_self, C91_within, C91_words, C93_again, C93_peripheral, C93_two_steps, C95_angles, C95_cosine_between, C95_euclidean, C95_parallel, C95_same_vector, C96_involution, C96_transposed, C99_access, C99_broadcast, C99_classes, C99_conflict, C99_entrywise, C99_largest, C99_nary_hstack, C99_nary_vstack, C99_pairs, C99_ranking, C99_shapes, C99_sums
<!-- end -->

## 5. Testing the theorems against wrong programs
`seeded/LOG.jsonl` has one line per attempt.  Each edit was made in a scratch copy of the model, the affected files were
rebuilt, every lemma whose proof no longer goes through was marked, and the theorems that rest on a marked lemma are
listed.  Where the theorem of the broken claim survived, it was tightened.
