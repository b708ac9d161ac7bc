{"id": "C01", "title": "Minority and majority class are identified correctly", "statement": "After sample(X, y) on a two-class label vector, the class that the sampler treats as the minority is the one with fewer rows (on a tie the larger label value), the majority is the other one, and the recorded class statistics are the exact row counts of each label.", "quantifier": "every label vector containing exactly two distinct labels, any length, any order of rows", "why_tests_cant": "Tests try a few label vectors; the claim ranges over all orders, all label values and all tie situations.", "anchors": ["smote_variants/base/_base.py:StatisticsMixin.class_label_statistics"]}
{"id": "C02", "title": "Requested number of synthetic samples", "statement": "For a numeric proportion the number of samples a sampler decides to generate is max(0, trunc((n_maj - n_min) * proportion)) in IEEE double arithmetic: never negative, monotone in the proportion, and exactly n_maj - n_min for proportion 1.0; a non-numeric proportion raises ValueError.", "quantifier": "all class counts below 2^53 and all finite double (or int) proportions", "why_tests_cant": "Rounding of the double product cannot be enumerated; the exactness at 1.0 must hold for all counts.", "anchors": ["smote_variants/base/_oversampling.py:OverSamplingBase.det_n_to_sample"]}
{"id": "C03", "title": "SMOTE keeps the original data intact as a prefix", "statement": "SMOTE.sample(X, y) returns (X', y') such that the first len(X) rows of X' are X and the first len(y) entries of y' are y, unchanged and in order; everything appended carries the minority label.", "quantifier": "all two-class datasets, all accepted parameter settings, all random draws", "why_tests_cant": "A test fixes one dataset and one seed; the claim is over every dataset and every random outcome.", "anchors": ["smote_variants/oversampling/_smote.py:SMOTE.sampling_algorithm", "smote_variants/base/_oversampling.py:OverSamplingBase.sample"]}
{"id": "C04", "title": "SMOTE with proportion 1.0 balances the classes exactly", "statement": "If the minority class has more than two rows, SMOTE(proportion=1.0).sample(X, y) returns a dataset where both classes have exactly the same number of rows.", "quantifier": "all two-class datasets with more than two minority rows, all random draws", "why_tests_cant": "The count depends on float rounding and on every code path of simplex sampling producing exactly the requested number of rows.", "anchors": ["smote_variants/oversampling/_smote.py:SMOTE.sampling_algorithm", "smote_variants/base/_simplexsampling.py:SimplexSamplingMixin.sample_simplex"]}
{"id": "C05", "title": "SMOTE samples lie in the convex hull of the minority class", "statement": "Without a gaussian component every synthetic row SMOTE generates is a convex combination of at most n_dim minority rows: a base point and some of its returned nearest neighbours; in particular each coordinate stays within the minority bounding box. With a gaussian component SMOTE returns the same rows and labels except that every coordinate of a new row is moved by its configured standard deviation times a normal draw.", "quantifier": "all two-class datasets, neighbour counts, simplex dimensions, random draws with a positive weight sum", "why_tests_cant": "Geometric containment over all reals cannot be covered by sampling.", "anchors": ["smote_variants/base/_simplexsampling.py:random_samples_from_simplices", "smote_variants/oversampling/_smote.py:SMOTE"]}
{"id": "C06", "title": "Too small problems are returned unchanged", "statement": "If the minority class has at most two rows (or the data has fewer columns than the method's minimum), sample returns exactly equal copies of X and y for every oversampler that keeps the default checks, whatever its sampling algorithm does.", "quantifier": "all datasets, all samplers (arbitrary sampling algorithm), all check dictionaries", "why_tests_cant": "Must hold independently of what the subclass implements.", "anchors": ["smote_variants/base/_oversampling.py:OverSamplingBase.sample"]}
{"id": "C07", "title": "Every neighbourhood simplex is enumerated exactly once", "statement": "For a neighbour index table with c columns and simplex order d, the candidate simplices are, for each base row, every (d-1)-subset of that row's neighbours 1..c-1, each exactly once and grouped by base row; their number is n_base * C(c-1, d-1).", "quantifier": "all index tables and all orders d >= 1 with d <= c", "why_tests_cant": "Combinatorial completeness over unbounded sizes.", "anchors": ["smote_variants/base/_simplexsampling.py:base_idx_neighbor_idx_simplices", "smote_variants/base/_simplexsampling.py:all_neighbor_simplices_real_idx", "smote_variants/base/_simplexsampling.py:array_array_index"]}
{"id": "C08", "title": "Base weights stay aligned with their base points", "statement": "When per-point base weights are given, the weight used for a candidate simplex is the weight of its own base point; a base point of weight zero is never used as base of a synthetic sample, and a simplex whose simplex weight product is zero is never used.", "quantifier": "all weight vectors, index tables and orders; all outcomes of a random choice that respects its probabilities", "why_tests_cant": "Misalignment by one block only shows for particular shapes; must hold for all.", "anchors": ["smote_variants/base/_simplexsampling.py:SimplexSamplingMixin.determine_weights", "smote_variants/base/_simplexsampling.py:SimplexSamplingMixin.simplices"]}
{"id": "C09", "title": "Deterministic allocation is exact and fair", "statement": "With deterministic simplex sampling exactly n_to_sample simplices are selected, the number assigned to simplex i is at most one below and less than one above n_to_sample * p_i, a simplex of probability zero is never taken, and the internal consistency assertion can never fail.", "quantifier": "all probability vectors (non-negative, sum one) of any length and all n_to_sample", "why_tests_cant": "The proof is an argument about ceilings and distinct removal indices for all vectors.", "anchors": ["smote_variants/base/_simplexsampling.py:deterministic_sample", "smote_variants/base/_simplexsampling.py:counts_to_vector"]}
{"id": "C10", "title": "Deterministic within-simplex sampling is complete and evenly spaced", "statement": "With deterministic within-simplex sampling of order 2 the number of generated rows equals the number of selected simplices, and an edge selected c times contributes the c interior points at fractions 1/(c+1), ..., c/(c+1) of the (weighted) edge, so no generated row coincides with an end point of a non-degenerate edge.", "quantifier": "all point sets, all multisets of selected edges, all vertex weights", "why_tests_cant": "Counting over arbitrary multisets of edges.", "anchors": ["smote_variants/base/_simplexsampling.py:SimplexSamplingMixin.deterministic_samples_dim_2", "smote_variants/base/_simplexsampling.py:add_samples"]}
{"id": "C11", "title": "Vertex weights pull samples toward the base point", "statement": "With vertex weights every randomly generated row is a convex combination of the base point and the points base + w * (vertex - base); with deterministic within-simplex sampling and a separate vertex set the edge is walked from the base point toward the weighted vertex. (With a shared vertex set the deterministic mode may swap the two ends and use the wrong weight.)", "quantifier": "all point sets, simplices and weights in [0,1]", "why_tests_cant": "Depends on index order for every selected pair.", "anchors": ["smote_variants/base/_simplexsampling.py:reweight_simplex_vertices", "smote_variants/base/_simplexsampling.py:SimplexSamplingMixin.deterministic_samples_dim_2"]}
{"id": "C12", "title": "Sampling from simplices does not corrupt the caller's simplices", "statement": "Generating random samples leaves the array of simplices passed in with the same content it had before the call, although it is temporarily modified in place, whenever the call does not raise.", "quantifier": "all arrays of simplices and all vertex sets", "why_tests_cant": "In-place modification and restoration must cancel for all contents.", "anchors": ["smote_variants/base/_simplexsampling.py:random_samples_from_simplices"]}
{"id": "C13", "title": "Density repair always yields a probability vector", "statement": "fix_density maps any density vector (with nan and infinities) that is non-negative where finite to a vector of the same length with entries in [0,1] summing to one, proportional to the finite entries when they do not all vanish. safe_divide returns the default when the denominator is zero and the quotient otherwise.", "quantifier": "all non-empty density vectors over finite numbers, nan, inf, -inf", "why_tests_cant": "All combinations of special values.", "anchors": ["smote_variants/base/_base.py:fix_density", "smote_variants/base/_base.py:safe_divide"]}
{"id": "C14", "title": "Vectorised weighted choice only returns possible choices", "statement": "vector_choice returns for each row an element of the candidate list with positive probability in that row, namely the inverse-CDF element for the drawn number.", "quantifier": "all probability rows summing to one, all draws in [0,1)", "why_tests_cant": "Boundary draws and zero-probability prefixes.", "anchors": ["smote_variants/base/_simplexsampling.py:vector_choice"]}
{"id": "C15", "title": "Parameter validators accept exactly the documented values", "statement": "For every non-nan value, each check_* validator raises ValueError exactly for the forbidden values and returns otherwise; check_isin accepts exactly the listed values and check_n_jobs rejects None, False and non-positive ints; no validator raises anything but ValueError. (nan passes all of them.)", "quantifier": "all values, bounds and lists", "why_tests_cant": "Boundary values for all bounds.", "anchors": ["smote_variants/base/_base.py:ParametersMixin"]}
{"id": "C16", "title": "Dictionary helpers have map semantics", "statement": "coalesce_dict(d0, d1) looks up to d0's value where d0 has the key and to d1's value otherwise; equal_dicts returns True only for dictionaries that agree on every key at every depth (up to empty dict against empty sequence), returns True whenever they agree, and does not raise when the second dictionary has the keys of the first at every depth.", "quantifier": "all (nested) dictionaries", "why_tests_cant": "Recursive structure of unbounded depth.", "anchors": ["smote_variants/base/_base.py:coalesce_dict", "smote_variants/base/_base.py:equal_dicts"]}
{"id": "C17", "title": "mode returns the smallest most frequent value", "statement": "mode(data) returns an element of data whose multiplicity is maximal, and the smallest such element.", "quantifier": "all non-empty integer arrays", "why_tests_cant": "All multisets.", "anchors": ["smote_variants/base/_base.py:mode"]}
{"id": "C18", "title": "Confusion atoms partition the test set", "statement": "calculate_atoms returns tp, tn, fp, fn counting disjoint and exhaustive groups of test rows: tp+fn = p, tn+fp = n, p+n = number of rows, and for two labels each atom is the number of rows with that (true, predicted) pair; prediction_labels thresholds at 0.5 and splits ties in half.", "quantifier": "all prediction/label vectors with labels 0 and 1", "why_tests_cant": "All vectors.", "anchors": ["smote_variants/base/_metrics.py:calculate_atoms", "smote_variants/base/_metrics.py:prediction_labels"]}
{"id": "C19", "title": "Label scores stay in their documented range", "statement": "When both classes occur in the test labels and there are at most 2^52 rows, every rate score (acc, sens, spec, ppv, npv, fpr, fdr, fnr, bacc, gacc, f1) is the correctly rounded documented formula and in [0,1], informedness and markedness are in [-1,1], mcc is in [-1,1] when the product of the four marginals is below 2^63 and undefined only if a prediction class is empty, the uncertainty coefficient is in [0,1], and perfect predictions give the optimum everywhere.", "quantifier": "all confusion counts with p > 0 and n > 0", "why_tests_cant": "All quadruples of counts.", "anchors": ["smote_variants/base/_metrics.py:calculate_label_scores"]}
{"id": "C20", "title": "Scores do not depend on the order of the rows", "statement": "Atoms, Brier score and (without ties at 0.5) predicted labels are invariant under a common permutation of predictions and labels, the Brier score is in [0,1], and p_top20 is the share of positives in the first fifth (at least one) of the rows in the order given.", "quantifier": "all prediction and label vectors and permutations", "why_tests_cant": "All permutations.", "anchors": ["smote_variants/base/_metrics.py:calculate_prob_scores"]}
{"id": "C21", "title": "Memory-limited distance computation is exact", "statement": "pairwise_distances_mahalanobis returns the complete matrix of distances, the same whether or not it is split into blocks, whenever the differences of one row fit into the memory limit. The entries are Euclidean distances without a tensor (or with one numpy finds close to the identity) and the distances of the tensor otherwise. (With a smaller limit the function recurses without end.)", "quantifier": "all matrices, tensors and memory limits of at least the number of columns times the number of rows of the second matrix", "why_tests_cant": "The recursion on block sizes must be exact for all sizes.", "anchors": ["smote_variants/base/_metrictensor.py:pairwise_distances_mahalanobis"]}
{"id": "C22", "title": "Metric-tensor neighbours are the nearest ones", "statement": "With metric='precomputed' and a metric tensor, kneighbors returns for each query min(k, number of rows) distinct indices in order of non-decreasing distance such that no unreturned row is strictly closer, with their distances; radius_neighbors returns exactly the rows within the radius, with their distances. (With any other metric the tensor is ignored.)", "quantifier": "all data, tensors, k and radii, distances of one query fitting into the memory limit", "why_tests_cant": "All orders and ties.", "anchors": ["smote_variants/base/_metrictensor.py:n_neighbors_func", "smote_variants/base/_metrictensor.py:NearestNeighborsWithMetricTensor"]}
{"id": "C23", "title": "Tomek-link removal removes only what it should", "statement": "TomekLinkRemoval returns a sub-dataset (same rows with their own labels, in order). On data without coinciding rows, every removed row belongs to a pair of rows of different classes that are nearest to each other, every such pair without ties is found, and with 'remove_majority' exactly the majority members are removed, with 'remove_both' all members. 'remove_majority' never removes a minority row, with or without coinciding rows.", "quantifier": "all datasets and any nearest-neighbour answer consistent with the data", "why_tests_cant": "All datasets and tie-breaking choices.", "anchors": ["smote_variants/noise_removal/_tomeklinkremoval.py:TomekLinkRemoval.remove_noise"]}
{"id": "C24", "title": "Condensed nearest neighbour terminates and is consistent", "statement": "CondensedNearestNeighbors.remove_noise terminates, keeps every minority row, keeps only rows of the input, and every dropped majority row is classified as majority by the nearest neighbour rule on the kept rows.", "quantifier": "all two-class datasets, any neighbour search that returns nearest rows, ties broken anyhow", "why_tests_cant": "Termination and a fix-point property for all inputs.", "anchors": ["smote_variants/noise_removal/_condensednn.py:CondensedNearestNeighbors.remove_noise"]}
{"id": "C25", "title": "Edited nearest neighbours / cleaning rule only drop contradicted rows of the chosen class", "statement": "On at least four rows without coinciding rows, EditedNearestNeighbors drops exactly the rows of the configured class(es) that at most one of their three nearest other rows agrees with, and NeighborhoodCleaningRule drops exactly the majority rows that are outvoted by their three nearest other rows or are among the three nearest rows of an outvoted minority row. Both return a sub-dataset and never touch the other class. EditedNearestNeighbors returns data of fewer than four rows unchanged.", "quantifier": "all datasets and neighbour answers", "why_tests_cant": "All datasets.", "anchors": ["smote_variants/noise_removal/_editednn.py", "smote_variants/noise_removal/_neighborhoodcleaningrule.py"]}
{"id": "C26", "title": "Composite cleaners return sub-datasets and protect the minority class while it stays the minority", "statement": "CNNTomekLinks and OneSidedSelection return a sub-dataset of their input (rows with their own labels, none repeated), and keep every row of the minority class provided that the first stage leaves it the minority.", "quantifier": "all two-class datasets, any neighbour search that returns nearest rows", "why_tests_cant": "Class roles are recomputed between the stages; only particular intermediate counts expose it.", "anchors": ["smote_variants/noise_removal/_onesidedselection.py", "smote_variants/noise_removal/_cnntomeklinks.py"]}
{"id": "C27", "title": "Undersampling balances without inventing rows", "statement": "RandomUndersampling.sample keeps all rows labelled 1 and exactly as many distinct rows labelled 0, every returned row is an input row with its own label, and no input row is returned twice; it raises ValueError on labels other than 0/1, without a 1, or with more 1s than 0s. OversamplingDrivenUndersampling, whenever it returns, returns a sub-dataset keeping all rows labelled 1, balanced in 'random' and 'farthest' mode, and 'farthest' keeps the majority rows nearest to the generated ones.", "quantifier": "all labelled datasets, all draws without replacement, all oversamplers", "why_tests_cant": "All draws.", "anchors": ["smote_variants/undersampling/_random_undersampling.py", "smote_variants/undersampling/_oversampling_driven_undersampling.py"]}
{"id": "C28", "title": "Multiclass oversampling equalises all classes", "statement": "When one class is strictly largest, MulticlassOversampling.sample keeps the original rows as a prefix and adds to every other class rows generated from that class only. With the default strategy the second largest class ends exactly as large as the largest and every further class ends as large or one row smaller; with 'equalize_1_vs_many' every other class ends with as many rows as the remaining classes had together.", "quantifier": "all datasets with any number of classes whose largest class is unique, any binary oversampler that appends the number of minority rows prescribed (SMOTE is shown to be one)", "why_tests_cant": "The proportion handed to the binary oversampler is a rounded double for each class; all counts and ties matter.", "anchors": ["smote_variants/multiclassoversampling/_multiclassoversampling.py"]}
{"id": "C29", "title": "Parallel job pool: each job's result exactly once in its own slot", "statement": "ThreadTimeoutProcessPool.execute/apply: in every interleaving of the worker threads, manager threads and job processes each job is started at most once, never more than n_jobs processes exist, the execution is finite, and it cannot get stuck before returning provided every process can be started and either a timeout is set (and no process dies holding its queue lock) or every job ends with a result that fits into the pipe buffer; on return there is one entry per job in job order, no process is left, and every job that was not late and did not die contributes its own result.", "quantifier": "all job lists, n_jobs >= 1, all interleavings of threads, processes, timeouts and process deaths", "why_tests_cant": "Interleavings cannot be enumerated by tests.", "anchors": ["smote_variants/evaluation/_parallelization.py"]}
{"id": "C30", "title": "A timed-out or crashed job yields its timeout value and nothing else", "statement": "On return the entry of a job whose process was still alive after the timeout, or which delivered no result, is job.timeout(); the entry of a job that delivered in time is its result. A job is late only if a timeout is set and expired; it delivers nothing only if it raised, died or was late. Only the events of the job itself decide about its entry.", "quantifier": "all job lists, n_jobs >= 1, all schedules, crash and timeout patterns", "why_tests_cant": "Crash points and schedules.", "anchors": ["smote_variants/evaluation/_parallelization.py:process_manager", "smote_variants/evaluation/_parallelization.py:queue_get_default"]}
{"id": "C31", "title": "Interrupted JSON cache writes are always detected", "statement": "If the process stops at any point while dump_dict writes a JSON file, then the file is still the previous one, or check_if_damaged returns True, or load_dict returns the dumped dictionary; a proper prefix of a document is always reported as damaged and check_if_damaged never raises for JSON.", "quantifier": "all dictionaries, all previous contents, all crash points (any prefix of the bytes reaches the disk)", "why_tests_cant": "Every byte position is a crash point.", "anchors": ["smote_variants/base/_base.py:dump_dict", "smote_variants/base/_base.py:check_if_damaged"]}
{"id": "C32", "title": "JSON dump/load round trip", "statement": "load_dict(f, array_fields) after dump_dict(obj, f, array_fields) returns an equal dictionary, with arrays converted to floating point.", "quantifier": "all nested dictionaries of strings, numbers, booleans, null and lists, with integer or float vectors and non-empty float matrices as array fields", "why_tests_cant": "All nestings and characters incl. escapes.", "anchors": ["smote_variants/base/_base.py:dump_dict", "smote_variants/base/_base.py:load_dict"]}
{"id": "C33", "title": "Interrupted pickle cache writes are not mistaken for results", "statement": "check_if_damaged(f, 'pickle') never returns False for a truncated file. (It does not return True either: it raises.)", "quantifier": "all objects and truncation points, for every pickle format whose reader raises EOFError or UnpicklingError on truncated input", "why_tests_cant": "Every byte position is a crash point.", "anchors": ["smote_variants/base/_base.py:check_if_damaged"]}
{"id": "C34", "title": "Cached evaluation is restartable and idempotent", "statement": "After any history of interrupted runs and clean-ups, each result file is damaged, missing, or a complete result of its job; undamaged files are not changed by later runs, other files are not touched, any history can be continued to a complete run, and two complete runs leave the same files when results are deterministic. Jobs must have different file names.", "quantifier": "all histories of interrupted runs", "why_tests_cant": "Histories of crashes.", "anchors": ["smote_variants/evaluation/_sampling.py:SamplingJob", "smote_variants/evaluation/_evaluation.py:EvaluationJob", "smote_variants/evaluation/_functions.py"]}
{"id": "C35", "title": "Cached results belong to the requested configuration", "statement": "A cached oversampling that is reused was made for the same repetition, fold, oversampler and parameters as requested, an evaluation for the same fold, classifier and oversampler parameters, and requests differing in these get their own results. (The scaler and the data are not part of the key.)", "quantifier": "all pairs of requests sharing a cache directory, md5 assumed free of collisions and str injective on parameter dictionaries", "why_tests_cant": "All pairs of configurations.", "anchors": ["smote_variants/evaluation/_sampling.py:SamplingJob.target_filename_damaged", "smote_variants/evaluation/_folding.py:Folding.folding_files"]}
{"id": "C36", "title": "Folds partition the data and are uniquely named", "statement": "Train and test of every fold together are the data, the test sets of one repetition together are the data, folds are generated and named in the order of (repeat_idx, fold_idx), names are distinct and sort in that order below 10000, and folding_files on a directory without fold files lists exactly them in that order.", "quantifier": "all datasets, validator settings and splits satisfying the contract of RepeatedStratifiedKFold", "why_tests_cant": "Index arithmetic over all settings.", "anchors": ["smote_variants/evaluation/_folding.py:Folding.fold"]}
{"id": "C37", "title": "Each yielded fold carries its own descriptor", "statement": "At the time Folding.fold() yields a fold, its descriptor carries the fold's own split, repeat and fold index. (The descriptor is shared: list(Folding.fold()) holds folds that all show the last indices.)", "quantifier": "all datasets and splits", "why_tests_cant": "Aliasing appears only when folds are retained.", "anchors": ["smote_variants/evaluation/_folding.py:Folding.fold"]}
{"id": "C38", "title": "Failed and timed-out sampling jobs hand over the fold on one scale", "statement": "A ValueError or RuntimeError of the oversampler is recorded in the result, any other exception propagates. When the oversampler fails or times out, the job returns the fold's training and test data transformed by one and the same map (the scaler fitted to the training data, if given), with the labels and the descriptor of the fold; when it succeeds, the result is what the oversampler made of the scaled training data. (The test data are then not scaled.)", "quantifier": "all folds, scalers and oversamplers", "why_tests_cant": "Success and failure path both matter for all data.", "anchors": ["smote_variants/evaluation/_sampling.py:SamplingJob.do_oversampling"]}
{"id": "C39", "title": "Result tables average each configuration and model selection returns the maximum", "statement": "The table of evaluate_oversamplers has one row per configuration with the mean of exactly its results, NaN left out; model_selection returns a configuration with the greatest mean of the requested score and raises IndexError exactly if there is none. (It maximises also scores for which less is better.)", "quantifier": "all tables of results and scores", "why_tests_cant": "All tables incl. lower-is-better scores.", "anchors": ["smote_variants/evaluation/_functions.py:model_selection", "smote_variants/evaluation/_functions.py:_pivot_best_scores"]}
{"id": "C40", "title": "Oversampler queries filter exactly", "statement": "Each query (get_all_/proportion_/metric_learning_/simplex_sampling_/multiclass_oversamplers) selects exactly the registered oversamplers with all the properties asked for, in their order, and returns them all, or for n_quickest = n >= 0 the min(n, number) quickest of them ordered by the listed runtime, ties in their order; no query on the library's own registry raises. (get_multiclass_oversamplers with an unknown strategy filters nothing.)", "quantifier": "all registries, runtime tables, filter settings and n; totality for the library's 91 oversamplers", "why_tests_cant": "All combinations of filters.", "anchors": ["smote_variants/queries/_queries.py:get_all_oversamplers", "smote_variants/queries/_queries.py:get_simplex_sampling_oversamplers", "smote_variants/queries/_queries.py:get_multiclass_oversamplers", "smote_variants/queries/_queries.py:determine_n_quickest", "smote_variants/queries/_runtimes.py"]}
{"id": "C41", "title": "Parameter grids are complete", "statement": "generate_parameter_combinations returns each element of the Cartesian product of the per-key value lists exactly once, as a dictionary with exactly the given keys.", "quantifier": "all dictionaries of value lists", "why_tests_cant": "All sizes.", "anchors": ["smote_variants/base/_base.py:ParametersMixin.generate_parameter_combinations"]}
{"id": "C42", "title": "Parameters round-trip", "statement": "Rebuilding a sampler from get_params() reproduces the freshly constructed sampler however often it was used in between, and every constructed sampler can be used. (set_params(**get_params()) does not keep a seeded sampler usable.) A SMOTE object exists only with a numeric proportion >= 0, a numeric n_neighbors >= 1 and a valid n_jobs; it keeps the values it was given and draws from its own generator at the start of the seed's stream when seeded, from the passed generator object, or else from the global one.", "quantifier": "all samplers, parameters, seeds and call histories", "why_tests_cant": "Histories of calls on a stateful generator.", "anchors": ["smote_variants/base/_oversampling.py:OverSamplingBase.set_params", "smote_variants/base/_base.py:RandomStateMixin.set_random_state"]}
{"id": "C43", "title": "ADASYN honours its parameters", "statement": "ADASYN either returns the data unchanged (at most two minority rows, nothing to generate, class ratio above d_th, or no minority row with a majority neighbour) or appends exactly the requested number of minority rows, each a convex combination of a minority row having at least one majority neighbour and of its nearest minority neighbours; it never raises on such data. (proportion=0 is not honoured: beta takes over.)", "quantifier": "all datasets, parameters, draws", "why_tests_cant": "All datasets and weights.", "anchors": ["smote_variants/oversampling/_adasyn.py:ADASYN"]}
{"id": "C44", "title": "Borderline-SMOTE samples around danger points only", "statement": "Borderline_SMOTE1/2 return the data unchanged or append exactly the requested number of minority rows, each a convex combination of a danger point (more than half but not all of its neighbours are majority; exactly half only if the majority label is the smaller one) and of its nearest non-noise minority rows (version 2: nearest rows of any class, displaced at most half-way toward majority rows); they never raise. (The nearest neighbour itself is never used, and with k_neighbors=1 all samples are copies.)", "quantifier": "all datasets, parameters, draws", "why_tests_cant": "All neighbour tables.", "anchors": ["smote_variants/oversampling/_borderline_smote.py:Borderline_SMOTE1.sampling_algorithm", "smote_variants/oversampling/_borderline_smote.py:Borderline_SMOTE2.sampling_algorithm", "smote_variants/oversampling/_borderline_smote.py:determine_danger_remove_noise"]}
{"id": "C45", "title": "Agglomerative clustering inside oversamplers yields a partition", "statement": "Clustering inside CBSO, CURE_SMOTE, A_SUWO and Assembled_SMOTE terminates and the clusters are non-empty and disjoint. They cover the clustered rows (CURE_SMOTE: except the removed ones). CBSO's clusters are exactly the groups of rows connected by chains of distances within the threshold, A_SUWO's never join rows that are not so connected; they join all that are if every majority cluster is near at most one minority row, and none if a majority cluster is nearer to both of any two near rows. CURE_SMOTE with n_clusters >= 2 keeps n_clusters or n_clusters-1 clusters before noise removal (n_clusters=1 can lose all).", "quantifier": "all distance matrices and parameters", "why_tests_cant": "Loop invariants over unbounded merges.", "anchors": ["smote_variants/oversampling/_cbso.py:CBSO.do_clustering", "smote_variants/oversampling/_cure_smote.py:CURE_SMOTE.do_the_clustering", "smote_variants/oversampling/_a_suwo.py:A_SUWO.cluster_minority_samples", "smote_variants/oversampling/_assembled_smote.py:Assembled_SMOTE.do_the_clustering"]}
{"id": "C46", "title": "Shuffling keeps rows and labels together", "statement": "shuffle_training_set returns the same multiset of (row, label) pairs it was given, in the same lengths, and leaves the data alone without a random state.", "quantifier": "all data sets and all permutations drawn", "why_tests_cant": "tests look at one seed", "anchors": ["smote_variants/base/_base.py:58-76"]}
{"id": "C47", "title": "Fold descriptors record the class sizes", "statement": "The fold descriptor records the numbers of minority and majority samples and their ratio.", "quantifier": "all data sets with labels 0 and 1 (false for other labels)", "why_tests_cant": "The labels index the array of counts; the tests use labels 0 and 1.", "anchors": ["smote_variants/evaluation/_folding.py:Folding.__init__"]}
{"id": "C48", "title": "Completed and timed-out folds of a configuration are averaged together", "statement": "A fold whose oversampling timed out is recorded under the same parameter dictionary as the completed folds of the configuration, so that all folds are averaged in one row.", "quantifier": "all oversamplers and parameters", "why_tests_cant": "Timeouts are not provoked in tests of the tables; the dictionaries are equal but ordered differently and compared as strings.", "anchors": ["smote_variants/evaluation/_sampling.py:SamplingJob.timeout", "smote_variants/evaluation/_sampling.py:SamplingJob.do_oversampling", "smote_variants/evaluation/_functions.py:_explode_entries"]}
{"id": "C49", "title": "Clean-up removes what it should", "statement": "Cleaning up 'oversamplings' removes every oversampling file and keeps folds and evaluations; 'all' also removes the folds and keeps evaluations.", "quantifier": "all directory contents", "why_tests_cant": "Tests look at a few files only.", "anchors": ["smote_variants/evaluation/_functions.py:do_clean_up"]}
{"id": "C50", "title": "Correlated columns are removed, one of each pair kept", "statement": "RemoveCorrelatedColumns keeps a column exactly if its absolute correlation with no later column exceeds the threshold; so no two kept columns are correlated above the threshold, and the last column is always kept.", "quantifier": "all correlation matrices of two or more columns, including NaN entries, and thresholds", "why_tests_cant": "Tests use one data set.", "anchors": ["smote_variants/base/_metrictensor.py:RemoveCorrelatedColumns"]}
{"id": "C51", "title": "Border point selection returns one label per row", "statement": "ClosestNeighborsInClasses.fit_transform returns as many labels as rows.", "quantifier": "all data sets and neighbour tables (false)", "why_tests_cant": "The tests call it on data where both numbers happen to agree, or only check that a tensor is returned.", "anchors": ["smote_variants/base/_metrictensor.py:ClosestNeighborsInClasses"]}
{"id": "C52", "title": "Random parameter combinations cover each class evenly", "statement": "generate_parameter_combinations(classes, n_max_comb) returns for each class, in order, the parameters of min(n_max_comb, number) distinct ones of its combinations, each with its class name. (With SMOTE_AMSR among the classes the default format raises KeyError.)", "quantifier": "all classes, numbers n_max_comb >= 0 and shuffles", "why_tests_cant": "The tests pass the first five oversamplers only.", "anchors": ["smote_variants/queries/_queries.py:generate_parameter_combinations", "smote_variants/oversampling/_smote_amsr.py:SMOTE_AMSR.get_params"]}
{"id": "C53", "title": "get_params returns every constructor parameter", "statement": "Every constructor parameter of every registered oversampler is among its get_params(), and the constructor accepts all keys of get_params(), so rebuilding loses nothing. (Six parameters of six oversamplers are exceptions.)", "quantifier": "all 91 registered oversamplers and their parameters", "why_tests_cant": "Tests rebuild each oversampler from its defaults, where a lost parameter changes nothing.", "anchors": ["smote_variants/oversampling/_deago.py:DEAGO.get_params", "smote_variants/oversampling/_pdfos.py:PDFOS.get_params", "smote_variants/oversampling/_somo.py:SOMO.get_params", "smote_variants/oversampling/_spy.py:SPY.get_params", "smote_variants/oversampling/_symprod.py:SYMPROD.get_params", "smote_variants/oversampling/_smotewb.py:SMOTEWB.get_params"]}
{"id": "C54", "title": "Cluster-based oversamplers sample inside one cluster", "statement": "CBSO, CURE_SMOTE, Assembled_SMOTE and A_SUWO either return the data unchanged (too few minority rows, nothing to generate, everything noise, no border row) or append exactly the requested number of minority-labelled rows, each within the convex hull of the minority rows of a single cluster (CBSO: based at a row with a majority neighbour; CURE_SMOTE: a cluster not below noise_th; Assembled_SMOTE: or of the non-border rows; A_SUWO: on the data without the rows lacking a neighbour of their own class). CBSO, CURE_SMOTE and Assembled_SMOTE do not raise on such data if CBSO has enough rows for n_neighbors+1.", "quantifier": "all data sets, parameters, distance functions, neighbour searches and random draws meeting their contracts", "why_tests_cant": "Universal over data, clusterings and draws; tests look at a few random runs and shapes only.", "anchors": ["smote_variants/oversampling/_cbso.py:CBSO.sampling_algorithm", "smote_variants/oversampling/_cure_smote.py:CURE_SMOTE.sampling_algorithm", "smote_variants/oversampling/_assembled_smote.py:Assembled_SMOTE.sampling_algorithm", "smote_variants/oversampling/_a_suwo.py:A_SUWO.sampling_algorithm"]}
{"id": "C55", "title": "Random_SMOTE samples between a row and a point between two of its neighbours", "statement": "Random_SMOTE appends exactly the requested number of minority rows; each lies coordinate-wise between a minority row and a point that lies coordinate-wise between two of its n_neighbors nearest minority neighbours. Data with at most two minority rows or nothing to generate comes back unchanged; the call does not raise.", "quantifier": "all data sets with two classes, all parameters accepted by the constructor, all distance functions, neighbour searches and random draws meeting their contracts", "why_tests_cant": "Universal over data and draws; tests check only shapes on a handful of random runs.", "anchors": ["smote_variants/oversampling/_random_smote.py:Random_SMOTE.sampling_algorithm"]}
{"id": "C56", "title": "Safe_Level_SMOTE places rows according to the safe levels", "statement": "Safe_Level_SMOTE appends exactly the requested number of minority-labelled rows if some minority row has a neighbour such that one of the two has a minority row among its nearest rows, and none otherwise. Each lies coordinate-wise between a minority row p and one of its nearest rows n: at p itself if n has no minority neighbour, within the share sl(n)/sl(p) next to p if sl(n) <= sl(p), within the share sl(p)/sl(n) next to n if sl(p) < sl(n), where sl counts minority neighbours. Data with at most two minority rows or nothing to generate comes back unchanged; the call does not raise.", "quantifier": "all data sets with two classes, all parameters accepted by the constructor, all distance functions, neighbour searches and random draws meeting their contracts", "why_tests_cant": "Universal over data and draws; tests check only shapes on a handful of random runs.", "anchors": ["smote_variants/oversampling/_safe_level_smote.py:Safe_Level_SMOTE.sampling_algorithm", "smote_variants/oversampling/_safe_level_smote.py:Safe_Level_SMOTE.generate_samples"]}
{"id": "C57", "title": "Selected_SMOTE varies only the most overlapping attributes", "statement": "Selected_SMOTE appends exactly the requested number of minority rows, each obtained from a minority row by moving toward one of its n_neighbors nearest minority neighbours only in the attributes whose minority range the majority range covers to the largest share (all attributes if perc_sign_attr * dimension rounds to 0). Data with at most two minority rows or nothing to generate comes back unchanged; the call does not raise.", "quantifier": "all data sets with two classes, all parameters accepted by the constructor, all distance functions, neighbour searches and random draws meeting their contracts", "why_tests_cant": "Universal over data and draws; tests check only shapes on a handful of random runs.", "anchors": ["smote_variants/oversampling/_selected_smote.py:Selected_SMOTE.significant_attributes", "smote_variants/oversampling/_selected_smote.py:Selected_SMOTE.sampling_algorithm"]}
{"id": "C58", "title": "SMOTE_OUT and SMOTE_Cosine sample toward the outside of the minority", "statement": "SMOTE_OUT and SMOTE_Cosine append exactly the requested number of minority rows. Each coordinate lies at most half way from a neighbouring minority row x to the base row u moved away from one of its nearest majority rows v by at most 0.3 (u-v); so it leaves the range of u and x by at most 0.15 |u-v|. SMOTE_Cosine ranks the neighbours of u by the sum of their Euclidean and cosine ranks. Data with at most two minority rows or nothing to generate comes back unchanged; the call does not raise.", "quantifier": "all data sets with two classes, all parameters accepted by the constructor, all distance functions, neighbour searches and random draws meeting their contracts", "why_tests_cant": "Universal over data and draws; tests check only shapes on a handful of random runs.", "anchors": ["smote_variants/oversampling/_smote_out.py:SMOTE_OUT.generate_samples", "smote_variants/oversampling/_smote_cosine.py:SMOTE_Cosine.sampling_algorithm"]}
{"id": "C59", "title": "NDO_sampling falls back to SMOTE for a dense minority", "statement": "NDO_sampling returns exactly what SMOTE with the same proportion and its default n_neighbors returns if the mean distance of minority rows to their minority neighbours is below T times that to their majority neighbours. Otherwise it appends the requested number of minority rows or one more, each in the nearer half of the segment from a minority row to one of its nearest rows, or, if that neighbour is a minority row, a second one in the nearer half from the neighbour. Data with at most two minority rows or nothing to generate comes back unchanged; the call does not raise.", "quantifier": "all data sets with two classes, all parameters accepted by the constructor, all distance functions, neighbour searches and random draws meeting their contracts", "why_tests_cant": "Universal over data and draws; tests check only shapes on a handful of random runs.", "anchors": ["smote_variants/oversampling/_ndo_sampling.py:NDO_sampling.sampling_algorithm", "smote_variants/oversampling/_ndo_sampling.py:NDO_sampling.determine_alpha"]}
{"id": "C60", "title": "polynom_fit_SMOTE divides segments evenly (star, bus)", "statement": "With topology star (bus) polynom_fit_SMOTE appends k = max(1, requested/minority size rounded half to even) minority rows per minority row (per consecutive pair): the points dividing the segment to the minority mean (to the next minority row) into k+1 equal parts. They lie in the minority's convex hull; for star the count deviates from the request by at most half the minority size unless that rounds to 0. Data with at most two minority rows or nothing to generate comes back unchanged; the call does not raise.", "quantifier": "all data sets with two classes and all proportions", "why_tests_cant": "Universal over data and draws; tests check only shapes on a handful of random runs.", "anchors": ["smote_variants/oversampling/_polynom_fit_smote.py:polynom_fit_SMOTE_star.sampling_algorithm", "smote_variants/oversampling/_polynom_fit_smote.py:polynom_fit_SMOTE_bus.sampling_algorithm"]}
{"id": "C61", "title": "SMOTE_D distributes rows by neighbour distances", "statement": "SMOTE_D splits the requested number n over the pairs (minority row, one of its n_neighbors nearest minority neighbours) in proportion to the deviation of the row's neighbour distances and to the distance. The count c of a pair is rounded up or down, its i-th row lies on the segment at the share 1/(c-i+1). All rows are in the minority's convex hull and the total differs from n by less than the number of pairs. Data with at most two minority rows or nothing to generate comes back unchanged; the call does not raise.", "quantifier": "all data sets with two classes, all parameters accepted by the constructor, all distance functions, neighbour searches and random draws meeting their contracts", "why_tests_cant": "Universal over data and draws; tests check only shapes on a handful of random runs.", "anchors": ["smote_variants/oversampling/_smote_d.py:SMOTE_D.sampling_algorithm", "smote_variants/oversampling/_smote_d.py:SMOTE_D.generate_samples"]}
{"id": "C62", "title": "SMOTE_TomekLinks and SMOTE_ENN only remove rows from SMOTE's result", "statement": "SMOTE_TomekLinks and SMOTE_ENN return SMOTE's result for the same parameters minus some rows, or the original data; they never raise and never return an empty set. Without duplicates, SMOTE_TomekLinks removes only rows that have a mutually nearest row of the other class and every row whose mutually nearest row of the other class is unique; it returns the original data only if nothing is left. SMOTE_ENN removes exactly the rows with at most one of their three nearest rows in their own class, and returns the original data iff a class would vanish or the minority would outnumber the majority. Data with at most two minority rows comes back unchanged.", "quantifier": "all data sets with two classes, all parameters accepted by the constructor, all distance functions, neighbour searches and random draws meeting their contracts", "why_tests_cant": "Universal over data and draws; tests check only shapes on a handful of random runs.", "anchors": ["smote_variants/oversampling/_smote_tomeklinks.py:SMOTE_TomekLinks.sampling_algorithm", "smote_variants/oversampling/_smote_enn.py:SMOTE_ENN.sampling_algorithm"]}
{"id": "C63", "title": "SMOTE_RSB keeps the generated rows that resemble no majority row", "statement": "SMOTE_RSB appends to the data a selection, without repetition, of at most n_maj - n_min of the rows SMOTE generates: a row enters at the first of the levels 0.4, 0.45, ..., 0.85 that none of its similarities to majority rows (1 minus the mean attribute difference, each divided by the attribute's range) exceeds; rows are taken in order of levels, and fewer than n_maj - n_min are kept only if every row left out exceeds the last level. Data with at most two minority rows comes back unchanged.", "quantifier": "all data sets with two classes, all parameters accepted by the constructor, all distance functions, neighbour searches and random draws meeting their contracts", "why_tests_cant": "Universal over data and draws; tests check only shapes on a handful of random runs.", "anchors": ["smote_variants/oversampling/_smote_rsb.py:SMOTE_RSB.sampling_algorithm"]}
{"id": "C64", "title": "SPY only relabels majority rows", "statement": "SPY returns the rows unchanged and in order. A label changes only from majority to minority, and exactly for the majority rows among the n_neighbors nearest rows of a minority row that has fewer than threshold * (n_neighbors + 1) majority rows among them. With threshold >= 1 every nearest row of a minority row ends up as minority. Data with at most two minority rows comes back unchanged.", "quantifier": "all data sets with two classes, all parameters accepted by the constructor, all distance functions and neighbour searches meeting their contract", "why_tests_cant": "Universal over data; tests check only shapes.", "anchors": ["smote_variants/oversampling/_spy.py:SPY.sampling_algorithm"]}
{"id": "C65", "title": "Stefanowski never loses minority rows and never invents rows", "statement": "For each strategy the result of Stefanowski contains only rows of the input, every minority row stays minority, every majority row of the result was one before, and both classes are present. Exactly the majority rows with at most one majority row among their three nearest are removed, or relabelled if strategy is weak_amp_relabel and a noisy minority row has them among its three nearest; noisy (strong_amp: also safe) minority rows are repeated once per safe majority row among their nearest rows. If no majority row would be left, or there are at most six minority rows, the data comes back unchanged.", "quantifier": "all data sets with two classes, all three strategies, all distance functions and neighbour searches meeting their contract", "why_tests_cant": "Universal over data and neighbourhood configurations.", "anchors": ["smote_variants/oversampling/_stefanowski.py:Stefanowski.sampling_algorithm"]}
{"id": "C66", "title": "SUNDO adds N minority rows and removes at most 2N majority rows", "statement": "With N = (n_maj - n_min + 1)/2 rounded half to even, SUNDO keeps all minority rows and adds N rows, each the one of three normally shifted copies of a minority row that is farthest from the majority; it removes exactly the majority rows closer than a threshold to another one after scaling to the unit box, the threshold being the entry of rank n_maj + 2N of all pairwise distances. At most 2N majority rows are removed, never all. Balanced data or at most two minority rows: unchanged.", "quantifier": "all data sets with two classes, all parameters accepted by the constructor, all distance functions, neighbour searches and random draws meeting their contracts", "why_tests_cant": "Universal over data and draws; tests check only shapes on a handful of random runs.", "anchors": ["smote_variants/oversampling/_sundo.py:SUNDO.sampling_algorithm"]}
{"id": "C67", "title": "SMOTE_IPF filters SMOTE's result round by round and ends", "statement": "SMOTE_IPF returns a part of SMOTE's result for the same parameters. In each round exactly the rows are removed whose label differs from what more than half of the fold classifiers say; with voting 'consensus' only if the predictions also add up to n_folds. It stops after k rounds in a row that removed fewer than p times the remaining rows. For p > 0 it ends with a result unless training a classifier raises. Data with at most two minority rows comes back unchanged.", "quantifier": "all data sets with two classes, all parameters accepted by the constructor, all distance functions, neighbour searches and random draws meeting their contracts, all classifiers", "why_tests_cant": "Universal over classifiers' predictions and round histories; termination.", "anchors": ["smote_variants/oversampling/_smote_ipf.py:SMOTE_IPF.sampling_algorithm"]}
{"id": "C68", "title": "Supervised_SMOTE adds exactly the requested rows within moved thresholds", "statement": "For probabilities in [0,1] Supervised_SMOTE ends and appends exactly the requested number of minority rows from the convex hull of the minority (without a Gaussian component); the i-th has predicted minority probability in [th_lower - w_i/10, th_upper + w_i/10] with w_i <= 10 non-decreasing, and w_i = 0 if at least a tenth of every batch falls in [th_lower, th_upper]. Data with at most two minority rows comes back unchanged.", "quantifier": "all data sets with two classes, all parameters accepted by the constructor, all distance functions, neighbour searches and random draws meeting their contracts, all probability estimators", "why_tests_cant": "Termination and universal over probability estimators.", "anchors": ["smote_variants/oversampling/_supervised_smote.py:Supervised_SMOTE.sampling_algorithm"]}
{"id": "C69", "title": "distance_SMOTE samples between neighbour means and minority rows", "statement": "distance_SMOTE appends exactly the requested number of minority rows after the unchanged data. Each is a convex combination of the first n_dim of: the mean of the n_neighbors nearest other minority rows of a minority row, that row, its neighbours in order of distance. Nothing requested or at most two minority rows: unchanged.", "quantifier": "all data sets with two classes, all parameters accepted by the constructor, all distance functions, neighbour searches and random draws meeting their contracts", "why_tests_cant": "Universal over data and draws; tests check only shapes on a handful of random runs.", "anchors": ["smote_variants/oversampling/_distance_smote.py:distance_SMOTE.sampling_algorithm"]}
{"id": "C70", "title": "NT_SMOTE samples simplices of mutually close minority rows", "statement": "NT_SMOTE appends exactly the requested number of minority rows, each a convex combination of a minority row and its n_dim - 1 nearest minority rows. If n_dim exceeds the number of minority rows it raises ValueError. Nothing requested or at most two minority rows: unchanged.", "quantifier": "all data sets with two classes, all parameters accepted by the constructor, all distance functions, neighbour searches and random draws meeting their contracts", "why_tests_cant": "Universal over data and draws; tests check only shapes on a handful of random runs.", "anchors": ["smote_variants/oversampling/_nt_smote.py:NT_SMOTE.sampling_algorithm"]}
{"id": "C71", "title": "RWO_sampling, ROSE and Gaussian_SMOTE add one scaled normal vector per row", "statement": "Each appends exactly the requested number of minority rows; row i is a base point plus the i-th normal vector drawn, attribute by attribute multiplied by a scale. RWO_sampling: the base is a convex combination of a minority row and its n_dim - 1 nearest ones, the scale the minority's standard error. ROSE: the base is a minority row, the scale the minority's standard deviation times the bandwidth. Gaussian_SMOTE: the base is a SMOTE sample with neighbours measured on standardised data, the scale sigma times the standard deviation of all rows (sigma for constant attributes). Nothing requested or at most two minority rows: unchanged.", "quantifier": "all data sets with two classes, all parameters accepted by the constructor, all distance functions, neighbour searches and random draws meeting their contracts; all standard deviation and bandwidth functions", "why_tests_cant": "Universal over data and draws; tests check only shapes on a handful of random runs.", "anchors": ["smote_variants/oversampling/_rwo_sampling.py:RWO_sampling.sampling_algorithm", "smote_variants/oversampling/_rose.py:ROSE.sampling_algorithm", "smote_variants/oversampling/_gaussian_smote.py:Gaussian_SMOTE.sampling_algorithm"]}
{"id": "C72", "title": "SDSMOTE is SMOTE: the density never matters", "statement": "SDSMOTE appends exactly the requested number of minority rows, each a convex combination of a minority row and minority rows among its n_neighbors nearest. The rows it generates do not depend on the majority rows, on the distances to them, or on what the radius search finds: for the same labels, minority rows and draws they are the same. Nothing requested or at most two minority rows: unchanged.", "quantifier": "all data sets with two classes, all parameters accepted by the constructor, all distance functions, neighbour searches and random draws meeting their contracts; all radius searches that return one list per query", "why_tests_cant": "Relates runs on different data sets; universal over data and draws.", "anchors": ["smote_variants/oversampling/_sdsmote.py:SDSMOTE.calculate_density", "smote_variants/oversampling/_sdsmote.py:SDSMOTE.sampling_algorithm"]}
{"id": "C73", "title": "ISMOTE removes the farthest majority rows and adds as many minority rows", "statement": "With N = (n_maj - n_min + 1) div 2, ISMOTE returns the majority rows without the N that have the largest mean distance to the minority, followed by all minority rows and N new ones. For minority_weight w in [0,1] a new row is a convex combination of a minority row and points on the way to its neighbours except the nearest one: a share w of the way to a minority neighbour, 1 - w of the way to a majority neighbour. With n_neighbors = 1 every row of the result equals a row of the input. Balanced data or at most two minority rows: unchanged.", "quantifier": "all data sets with two classes, all parameters accepted by the constructor, all distance functions, neighbour searches and random draws meeting their contracts", "why_tests_cant": "Universal over data and draws; tests check only shapes on a handful of random runs.", "anchors": ["smote_variants/oversampling/_ismote.py:ISMOTE.sampling_algorithm"]}
{"id": "C74", "title": "NRAS replaces noisy minority rows", "statement": "NRAS drops exactly the minority rows with fewer than t * (n_neighbors + 1) minority rows among their n_neighbors nearest rows (measured with the propensity score as an additional attribute after scaling to the unit box), keeps all other rows up to the rounding of scaling, and adds the requested number of rows plus one per dropped row. Each new row is a convex combination of a kept minority row and rows among its nearest. If at most one minority row would be kept the data comes back unchanged; with t = 1 always. Nothing requested or at most two minority rows: unchanged.", "quantifier": "all data sets with two classes, all parameters accepted by the constructor, all distance functions, neighbour searches and random draws meeting their contracts; all propensity scores", "why_tests_cant": "Universal over data and draws; tests check only shapes on a handful of random runs.", "anchors": ["smote_variants/oversampling/_nras.py:NRAS.sampling_algorithm", "smote_variants/oversampling/_nras.py:NRAS.generate_samples"]}
{"id": "C75", "title": "SN_SMOTE samples between minority rows and their nearest neighbour", "statement": "For n_neighbors >= 2, SN_SMOTE appends exactly the requested number of minority rows, each on the segment from a minority row to its nearest minority neighbour (for n_dim = 1: at the row itself); no further centroid neighbour is ever used. Nothing requested or at most two minority rows: unchanged.", "quantifier": "all data sets with two classes, all parameters accepted by the constructor, all distance functions, neighbour searches and random draws meeting their contracts", "why_tests_cant": "Universal over data and draws; tests check only shapes on a handful of random runs.", "anchors": ["smote_variants/oversampling/_sn_smote.py:SN_SMOTE.sampling_algorithm", "smote_variants/oversampling/_sn_smote.py:SN_SMOTE.generate_centroid_neighborhood"]}
{"id": "C76", "title": "SMMO samples around the minority rows its ensemble gets wrong", "statement": "Let the selected rows be the minority rows whose label differs from what more than half of the ensemble says (1 or 0). If fewer than two are selected SMMO returns the data unchanged; otherwise it appends exactly the requested number of minority rows, each on a segment from the mean of the n_neighbors nearest minority rows of a selected row (the nearest one left out) to the nearest. Minority rows with a label other than 0 and 1 are all selected. Nothing requested or at most two minority rows: unchanged.", "quantifier": "all data sets with two classes, all parameters accepted by the constructor, all distance functions, neighbour searches and random draws meeting their contracts; all ensembles", "why_tests_cant": "Universal over data and draws; tests check only shapes on a handful of random runs.", "anchors": ["smote_variants/oversampling/_smmo.py:SMMO.sampling_algorithm", "smote_variants/oversampling/_smmo.py:SMMO.generate_samples"]}
{"id": "C77", "title": "LN_SMOTE weighs the way to a neighbour by the safe levels", "statement": "The safe level of a row is its number of minority rows among its k = min(n - 2, n_neighbors) nearest rows (seen from a minority row among a majority row's neighbours, that row is replaced by the next neighbour). For n_neighbors >= 2 LN_SMOTE appends no rows if no minority row has, with itself, a neighbour of positive safe level, and exactly the requested number otherwise. Each new row lies between a minority row and one of its neighbours, both of positive safe level a and b; the share of the way is u, u*b/a or 1 - u*a/b (u in [0,1)) for a = b, a > b, a < b, multiplied by b/k toward a majority row, so it stays in [0,1] and is at most b/k toward a majority row. n_neighbors = 1 never generates anything. Nothing requested or at most two minority rows: unchanged.", "quantifier": "all data sets with two classes, all parameters accepted by the constructor, all distance functions, neighbour searches and random draws meeting their contracts", "why_tests_cant": "Universal over data and draws; tests check only shapes on a handful of random runs.", "anchors": ["smote_variants/oversampling/_ln_smote.py:LN_SMOTE.sampling_algorithm"]}
{"id": "C78", "title": "Lee accepts only rows below a rejection level raised at most eleven times", "statement": "Lee terminates and appends exactly the requested number of minority rows. Each is a simplex sample around a minority row, and the number of majority rows among its min(n_min, n_neighbors) nearest rows divided by n_neighbors is less than rejection_level + w/10, where w (at most 11) never decreases along the appended rows; w stays 0 if every batch has an acceptable row. Nothing requested or at most two minority rows: unchanged.", "quantifier": "all data sets with two classes, all parameters accepted by the constructor, all distance functions, neighbour searches and random draws meeting their contracts; all rejection levels in [0,1]", "why_tests_cant": "Universal over data and draws; tests check only shapes on a handful of random runs.", "anchors": ["smote_variants/oversampling/_lee.py:Lee.sampling_algorithm"]}
{"id": "C79", "title": "ProWSyn partitions the minority by proximity to the majority", "statement": "ProWSyn sorts the minority rows into clusters: level i holds those of the remaining minority rows that are among the n_neighbors nearest to some majority row, for i = 1..L; rows left over form one more cluster of level L. Every minority row is in exactly one cluster. It appends exactly the requested number of minority rows; the clusters of the new rows are drawn with probabilities proportional to exp(-theta*(level-1)), and every new row lies in the convex hull of its cluster. Nothing requested or at most two minority rows: unchanged.", "quantifier": "all data sets with two classes, all parameters accepted by the constructor, all distance functions, neighbour searches and random draws meeting their contracts; all positive functions in place of exp", "why_tests_cant": "Universal over data and draws; tests check only shapes on a handful of random runs.", "anchors": ["smote_variants/oversampling/_prowsyn.py:ProWSyn.sampling_algorithm"]}
{"id": "C80", "title": "Gazzah keeps the inner majority rows and returns generated minority rows only", "statement": "With something requested and more than two minority rows, Gazzah returns the majority rows whose principal component scores are at most as long as their root mean square (at least one), followed by the rows polynom_fit_SMOTE generates for the star topology, labelled accordingly; no original minority row is returned as such. If min(d, n_components) exceeds the number of majority rows it raises ValueError. Nothing requested or at most two minority rows: unchanged.", "quantifier": "all data sets with two classes, all parameters accepted by the constructor, all distance functions, neighbour searches and random draws meeting their contracts; all centred score matrices in place of the principal components", "why_tests_cant": "Universal over data and draws; tests check only shapes on a handful of random runs.", "anchors": ["smote_variants/oversampling/_gazzah.py:Gazzah.sampling_algorithm"]}
{"id": "C81", "title": "MSMOTE samples toward any neighbour of safe rows and the nearest one of border rows", "statement": "MSMOTE ignores minority rows without minority rows among their n_neighbors nearest; if that is all of them the data comes back unchanged, otherwise exactly the requested number of minority rows is appended. Each lies between a remaining minority row and one of its neighbours, whatever the neighbour's class; if not all neighbours are minority rows it is the nearest neighbour. Nothing requested or at most two minority rows: unchanged.", "quantifier": "all data sets with two classes, all parameters accepted by the constructor, all distance functions, neighbour searches and random draws meeting their contracts", "why_tests_cant": "Universal over data and draws; tests check only shapes on a handful of random runs.", "anchors": ["smote_variants/oversampling/_msmote.py:MSMOTE.sampling_algorithm"]}
{"id": "C82", "title": "cluster_SMOTE samples inside clusters of the minority", "statement": "cluster_SMOTE clusters the minority rows into min(n_min, n_clusters) clusters. If no cluster has two rows the data comes back unchanged; otherwise exactly the requested number of minority rows is appended, ordered by cluster, the clusters drawn with equal probabilities. Every new row is a simplex sample of rows of its cluster: a row and rows among its min(n_neighbors, cluster size) nearest in the cluster, itself counted. So n_neighbors = 1 produces copies of minority rows only. Nothing requested or at most two minority rows: unchanged.", "quantifier": "all data sets with two classes, all parameters accepted by the constructor, all distance functions, neighbour searches, clusterings and random draws meeting their contracts", "why_tests_cant": "Universal over data, clusterings and draws; tests check only shapes on a handful of random runs.", "anchors": ["smote_variants/oversampling/_cluster_smote.py:cluster_SMOTE.sampling_algorithm"]}
{"id": "C83", "title": "kmeans_SMOTE oversamples clusters rich in minority rows, sparse ones more", "statement": "kmeans_SMOTE clusters all rows; a cluster is used if (majority rows + 1)/(minority rows + 1) is below irt and it has at least two minority rows. Without such clusters the data comes back unchanged; otherwise exactly the requested number of minority rows is appended, ordered by cluster. Clusters are drawn with probabilities proportional to (mean distance of two of their minority rows)^d / (number of them), equal ones if these are all zero; every new row is a simplex sample of a minority row of the cluster and rows among its n_neighbors nearest there. Nothing requested or at most two minority rows: unchanged.", "quantifier": "all data sets with two classes, all parameters accepted by the constructor, all distance functions, neighbour searches, clusterings and random draws meeting their contracts", "why_tests_cant": "Universal over data, clusterings and draws; tests check only shapes on a handful of random runs.", "anchors": ["smote_variants/oversampling/_kmeans_smote.py:kmeans_SMOTE.sampling_algorithm"]}
{"id": "C84", "title": "CE_SMOTE samples minority rows that the clusterings disagree on", "statement": "CE_SMOTE labels the rows with h clusterings. A minority row is a boundary row if the most frequent of its h cluster names occurs in at most alpha*h of them. With fewer boundary rows than n_dim the data comes back unchanged; otherwise exactly the requested number of minority rows is appended, each a simplex sample among the boundary rows. Nothing requested or at most two minority rows: unchanged.", "quantifier": "all data sets with two classes, all parameters accepted by the constructor, all distance functions, neighbour searches, clusterings and random draws meeting their contracts", "why_tests_cant": "Universal over data, clusterings and draws; tests check only shapes on a handful of random runs.", "anchors": ["smote_variants/oversampling/_ce_smote.py:CE_SMOTE.sampling_algorithm"]}
{"id": "C85", "title": "NRSBoundary_SMOTE keeps new rows away from majority rows surrounded by the majority", "statement": "The neighbourhood of row i are the rows within delta_i = smallest + w*(largest - smallest) distance to other rows. Boundary rows are minority rows with a majority row in the neighbourhood, inner rows majority rows without minority rows in it. Without either kind the data comes back unchanged. Otherwise batches of ten rows per missing row are drawn around boundary rows, for at most min(requested, 10) turns (none if some inner row's delta is zero); in turn t rows within (1 - t/10)*delta_i of inner row i are dropped. The first accepted rows, at most the requested number, are appended as minority; every one of them keeps at least delta_i/10 from every inner row. If none is accepted ValueError is raised. Nothing requested or at most two minority rows: unchanged.", "quantifier": "all data sets with two classes, all parameters accepted by the constructor, all distance functions, neighbour searches, clusterings and random draws meeting their contracts", "why_tests_cant": "Universal over data, clusterings and draws; tests check only shapes on a handful of random runs.", "anchors": ["smote_variants/oversampling/_nrsboundary_smote.py:NRSBoundary_SMOTE.sampling_algorithm"]}
{"id": "C86", "title": "ANS samples minority rows with few majority rows near them", "statement": "For each minority row ANS counts the majority rows not farther than the nearest other minority row. C is the number of minority rows whose count is at least c, for the first c in 1..n/4 - 1 at which that number changes least; minority rows with counts below C are used. Without used rows, or if no two of them are within eps (the largest nearest distance among them), the data comes back unchanged; otherwise exactly the requested number of minority rows is appended, each a convex combination of a used row and used rows within eps of it. Data with fewer than eight rows, or whose minority rows each have another minority row nearer than every majority row, is never changed. Nothing requested or at most two minority rows: unchanged.", "quantifier": "all data sets with two classes, all parameters accepted by the constructor, all distance functions, neighbour searches, clusterings and random draws meeting their contracts", "why_tests_cant": "Universal over data, clusterings and draws; tests check only shapes on a handful of random runs.", "anchors": ["smote_variants/oversampling/_ans.py:ANS.sampling_algorithm"]}
{"id": "C87", "title": "ISOMAP_Hybrid returns embedded rows, oversampled by SMOTE and cleaned", "statement": "ISOMAP_Hybrid returns rows of the embedding (n_components columns), not of the input: the embedded input rows followed by SMOTE's new rows for them, then cleaned by the neighbourhood cleaning rule with three neighbours. If after cleaning the labels sum to at most 2, or at most two rows are labelled 0, the rows before cleaning are returned. So with no class labelled 0, or no positive label, nothing is ever cleaned. At most two minority rows: the input unchanged, not embedded.", "quantifier": "all data sets with two classes, all parameters accepted by the constructor, all distance functions, neighbour searches, embeddings, classifiers, clusterings and random draws meeting their contracts", "why_tests_cant": "Universal over data, external components and draws; tests check only shapes on a handful of random runs.", "anchors": ["smote_variants/oversampling/_isomap_hybrid.py:ISOMAP_Hybrid.sampling_algorithm"]}
{"id": "C88", "title": "SL_graph_SMOTE chooses an oversampler by the skew of neighbour label sums", "statement": "For each minority row SL_graph_SMOTE sums the labels of its n_neighbors nearest rows, itself counted. If the sums are skewed to the left the result is Safe_Level_SMOTE's, otherwise Borderline_SMOTE1's (k_neighbors 5). The choice depends on the label names: renaming the labels by an increasing linear map keeps it, a decreasing one turns the question into skewed to the right, so exchanging the names of the classes can change the rows added. Nothing requested or at most two minority rows: unchanged.", "quantifier": "all data sets with two classes, all parameters accepted by the constructor, all distance functions, neighbour searches, embeddings, classifiers, clusterings and random draws meeting their contracts", "why_tests_cant": "Universal over data, external components and draws; tests check only shapes on a handful of random runs.", "anchors": ["smote_variants/oversampling/_sl_graph_smote.py:SL_graph_SMOTE.sampling_algorithm"]}
{"id": "C89", "title": "SVM_balance replaces all labels by predictions", "statement": "SVM_balance returns SMOTE's rows with the labels predicted by a support vector machine trained on them, for input rows too, even if no rows are requested. Its parameter C is, of 0.01, 0.1, 1, 10, the one with the highest positive cross validation score (in min(5, n_min) folds), the smallest of several, 0.01 if no score is positive. At most two minority rows: unchanged.", "quantifier": "all data sets with two classes, all parameters accepted by the constructor, all distance functions, neighbour searches, embeddings, classifiers, clusterings and random draws meeting their contracts", "why_tests_cant": "Universal over data, external components and draws; tests check only shapes on a handful of random runs.", "anchors": ["smote_variants/oversampling/_svm_balance.py:SVM_balance.sampling_algorithm"]}
{"id": "C90", "title": "MSYN appends the SMOTE candidates with the best margins", "statement": "MSYN draws SMOTE candidates for three times the proportion and appends the requested number of them with the smallest scores, in order, the earlier first among equal ones. The score is the sum over majority rows of how much nearer the candidate is than the nearest minority row, divided by 0.02 plus the sum over minority rows of how much nearer it is than the nearest other minority row. For every finite nonnegative proportion three times of it asks for at least as many rows. Nothing requested or at most two minority rows: unchanged.", "quantifier": "data sets with two classes and distinct rows, all parameters accepted by the constructor, all distance functions, neighbour searches and random draws meeting their contracts", "why_tests_cant": "Universal over data, external components and draws; tests check only shapes on a handful of random runs.", "anchors": ["smote_variants/oversampling/_msyn.py:MSYN.sampling_algorithm", "smote_variants/oversampling/_msyn.py:MSYN.determine_nearest_hit_miss_dist", "smote_variants/oversampling/_msyn.py:MSYN.determine_Delta_P_N", "smote_variants/oversampling/_msyn.py:MSYN.determine_f_3"]}
{"id": "C91", "title": "Edge_Det_SMOTE samples minority rows where labels change along attributes", "statement": "The strength of a row is the sum over the attributes of the squared difference of the labels of the rows before and after it in the order of the attribute (none for the first and the last row, the earlier row first among equal values). Edge_Det_SMOTE appends exactly the requested number of minority rows, simplex samples whose base rows are drawn with probabilities proportional to the root of the share of their strength among the minority rows, equal ones if all strengths are zero. So rows with strength zero are bases only if all are. Nothing requested or at most two minority rows: unchanged.", "quantifier": "all data sets with two classes, all parameters accepted by the constructor, all distance functions, neighbour searches, embeddings, classifiers, clusterings and random draws meeting their contracts", "why_tests_cant": "Universal over data, external components and draws; tests check only shapes on a handful of random runs.", "anchors": ["smote_variants/oversampling/_edge_det_smote.py:Edge_Det_SMOTE.determine_magnitudes", "smote_variants/oversampling/_edge_det_smote.py:Edge_Det_SMOTE.sampling_algorithm"]}
{"id": "C92", "title": "MCT prefers minority rows near the median and copies them by default", "statement": "MCT appends exactly the requested number of minority rows, simplex samples whose base rows are drawn with probabilities proportional to (sum of the distances of the minority rows from their median) minus the distance of the row, equal ones if these are all zero. With one vertex per simplex, the default, the new rows are copies of minority rows. Nothing requested or at most two minority rows: unchanged.", "quantifier": "all data sets with two classes, all parameters accepted by the constructor, all distance functions, neighbour searches, embeddings, classifiers, clusterings and random draws meeting their contracts", "why_tests_cant": "Universal over data, external components and draws; tests check only shapes on a handful of random runs.", "anchors": ["smote_variants/oversampling/_mct.py:MCT.sampling_algorithm"]}
{"id": "C93", "title": "AHC adds the centres of all nodes of the dendrogram of the minority", "statement": "With strategy min or minmaj AHC puts n_min - 1 new minority rows first: for every merge of the hierarchical clustering the mean of the rows under it, the last one the mean of the minority class; then the minority rows; then all majority rows (min) or min(n_maj, 2 n_min - 1) cluster centres of them (minmaj). With maj it returns the minority rows and n_min cluster centres of the majority. It needs no deeper recursion than the number of minority rows; a chain of merges does need that much, so for every recursion limit there are data on which RecursionError is raised. At most two minority rows: unchanged.", "quantifier": "all data sets with two classes, all parameters accepted by the constructor, all distance functions, neighbour searches, embeddings, classifiers, clusterings and random draws meeting their contracts", "why_tests_cant": "Universal over data, external components and draws; tests check only shapes on a handful of random runs.", "anchors": ["smote_variants/oversampling/_ahc.py:AHC.sample_minority", "smote_variants/oversampling/_ahc.py:AHC.sampling_algorithm"]}
{"id": "C94", "title": "LLE_SMOTE maps samples of the embedding back by barycentric weights", "statement": "LLE_SMOTE draws the requested number of simplex samples of the embedded minority rows; each is replaced by the combination of the original rows of its min(n_neighbors + 1, n_min) nearest embedded rows. The weights sum to one; they are equal, or no other weights with sum one reproduce the sample better in the embedding (always the latter if the equations are solved by weights of squared length at most 1e16). They may be negative, so new rows can lie outside the convex hull of the minority class. Nothing requested or at most two minority rows: unchanged.", "quantifier": "all data sets with two classes, all parameters accepted by the constructor, all distance functions, neighbour searches, embeddings, classifiers, clusterings and random draws meeting their contracts", "why_tests_cant": "Universal over data, external components and draws; tests check only shapes on a handful of random runs.", "anchors": ["smote_variants/oversampling/_lle_smote.py:LLE_SMOTE.solve_for_weights", "smote_variants/oversampling/_lle_smote.py:LLE_SMOTE.embed_in_original_space", "smote_variants/oversampling/_lle_smote.py:LLE_SMOTE.sampling_algorithm"]}
{"id": "C95", "title": "NoSMOTE returns its input", "statement": "NoSMOTE returns the data unchanged. Asked to raise an error it raises ValueError, else RuntimeError, but only with more than two minority rows.", "quantifier": "all data sets with two classes, all settings of the flags", "why_tests_cant": "Universal over data; a test sees single runs.", "anchors": ["smote_variants/oversampling/_nosmote.py:NoSMOTE.sampling_algorithm"]}
{"id": "C96", "title": "ADOMS steps along the principal direction of a neighbourhood", "statement": "ADOMS appends exactly the requested number of minority rows. Each is a minority row plus or minus t times the distance of one of its n_neighbors nearest minority rows times the principal direction of the neighbourhood, t in [0, 1), with the sign of the direction's inner product with the difference to that neighbour (minus if zero). With unit directions it is no further from its base than the neighbour. New rows can lie outside the convex hull of the minority class, since the whole distance of the neighbour is used instead of its part along the direction. Nothing requested or at most two minority rows: unchanged.", "quantifier": "all data sets with two classes, all parameters accepted by the constructor, all distance functions, neighbour searches, principal directions, clusterings and random draws meeting their contracts", "why_tests_cant": "Universal over data, external components and draws; tests check only shapes on a handful of random runs.", "anchors": ["smote_variants/oversampling/_adoms.py:ADOMS.generate_sample_in_neighborhood", "smote_variants/oversampling/_adoms.py:ADOMS.sampling_algorithm"]}
{"id": "C97", "title": "DE_oversampling mutates minority rows and then removes similar rows", "statement": "DE_oversampling draws the requested number of rows: a minority row, whose attributes are kept or moved by t times the difference of two distinct neighbours, t in [0, 1) the same for all attributes, at least one attribute being moved. Of the input rows followed by these it removes exactly those that share a cluster with rows of their own label only, are not the first row nearest to the cluster centre and are of cosine similarity above the limit to it (or one of the two is zero). Every label survives. Input rows can be removed, and the majority can end up smaller than the minority. Nothing requested or at most two minority rows: unchanged.", "quantifier": "all data sets with two classes, all parameters accepted by the constructor, all distance functions, neighbour searches, principal directions, clusterings and random draws meeting their contracts", "why_tests_cant": "Universal over data, external components and draws; tests check only shapes on a handful of random runs.", "anchors": ["smote_variants/oversampling/_de_oversampling.py:DE_oversampling.generate_samples", "smote_variants/oversampling/_de_oversampling.py:DE_oversampling.cleansing", "smote_variants/oversampling/_de_oversampling.py:DE_oversampling.sampling_algorithm"]}
{"id": "C98", "title": "LVQ_SMOTE carries minority rows from one code word to another", "statement": "LVQ_SMOTE appends exactly the requested number of minority rows. For two distinct code words c0, c1 it takes, among the code words other than these, a pair whose difference is nearest to that of c0 and c1, and moves one of the n_neighbors minority rows nearest to a member o of that pair by c0 - o. Nothing requested or at most two minority rows: unchanged.", "quantifier": "all data sets with two classes, all parameters accepted by the constructor, all distance functions, neighbour searches, principal directions, clusterings and random draws meeting their contracts", "why_tests_cant": "Universal over data, external components and draws; tests check only shapes on a handful of random runs.", "anchors": ["smote_variants/oversampling/_lvq_smote.py:LVQ_SMOTE.generate_samples", "smote_variants/oversampling/_lvq_smote.py:LVQ_SMOTE.sampling_algorithm"]}
{"id": "C99", "title": "G_SMOTE pairs rows with the neighbour in the direction of one row of the eigenvector matrix", "statement": "G_SMOTE (linear) appends exactly the requested number of minority rows; with two vertices each is a convex combination of a minority row and that one of its n_neighbors nearest minority rows whose direction has the largest absolute cosine with the row of the eigenvector matrix numbered like the largest eigenvalue of the covariance. The eigenvectors are the columns of that matrix, so the partner need not be the neighbour closest to the principal axis. One attribute, nothing requested or at most two minority rows: unchanged.", "quantifier": "all data sets with two classes, all parameters accepted by the constructor, all distance functions, neighbour searches, principal directions, clusterings and random draws meeting their contracts", "why_tests_cant": "Universal over data, external components and draws; tests check only shapes on a handful of random runs.", "anchors": ["smote_variants/oversampling/_g_smote.py:G_SMOTE.determine_H", "smote_variants/oversampling/_g_smote.py:G_SMOTE.update_indices_by_angles", "smote_variants/oversampling/_g_smote.py:G_SMOTE.angles", "smote_variants/oversampling/_g_smote.py:G_SMOTE.sampling_algorithm"]}
{"id": "C100", "title": "MDO draws new rows around the mean in the box of an ellipsoid", "statement": "MDO selects the minority rows with at least K1 minority rows among their K2 nearest rows; without any it returns the data unchanged. New rows, exactly as many as requested, are drawn for selected rows with probabilities proportional to these numbers: a point v of the principal components, mapped back around the mean of the selected rows, with squared coordinates at most a_j = max(alpha V_j, 0.001), alpha being the row's squared distance weighted by the variances V_j = max(var_j, 0.001). If the sum s of v_j^2 / a_j over all but the last component is at most 1, v lies in the ellipsoid; otherwise its last coordinate is zero and it may lie outside, further from the mean than every minority row in Mahalanobis distance. If K1 is 0 and no selected row has a minority neighbour, ValueError is raised. Nothing requested or at most two minority rows: unchanged.", "quantifier": "all data sets with two classes, all parameters accepted by the constructor, all distance functions, neighbour searches, principal directions, clusterings and random draws meeting their contracts", "why_tests_cant": "Universal over data, external components and draws; tests check only shapes on a handful of random runs.", "anchors": ["smote_variants/oversampling/_mdo.py:MDO.generate_1_sample", "smote_variants/oversampling/_mdo.py:MDO.generate_samples", "smote_variants/oversampling/_mdo.py:MDO.sampling_algorithm"]}
{"id": "C101", "title": "OUPS pairs minority rows with rows of the next propensity ranks", "statement": "OUPS appends exactly the requested number of minority rows. Each is a convex combination of a minority row, not the last ranked, and rows at least two and at most c ranks further down, c being the imbalance ratio rounded up; the row directly after it is never used. Past the last rank the count wraps round to the end of the list again, so a new row need not lie between a minority row and any row ranked after it. Nothing requested or at most two minority rows: unchanged.", "quantifier": "all data sets with two classes, all parameters accepted by the constructor, all distance functions, neighbour searches, rankings, OPTICS answers and random draws meeting their contracts", "why_tests_cant": "Universal over data, external components and draws; tests check only shapes on a handful of random runs.", "anchors": ["smote_variants/oversampling/_oups.py:OUPS.determine_sorting", "smote_variants/oversampling/_oups.py:OUPS.sampling_algorithm"]}
{"id": "C102", "title": "AND_SMOTE adapts the number of neighbours to the share of minority rows around a row", "statement": "AND_SMOTE computes for every minority row a neighbourhood size: 0 with fewer than two minority rows among its nearest rows, otherwise the first number s of minority neighbours at which the share of minority rows in the union of the boxes spanned with them drops most from s - 1 to s. If all sizes are 0 the data come back unchanged; otherwise exactly the requested number of minority rows is appended, each a convex combination of a minority row and some of as many of its nearest minority rows as its size says. Nothing requested or at most two minority rows: unchanged.", "quantifier": "all data sets with two classes, all parameters accepted by the constructor, all distance functions, neighbour searches, rankings, OPTICS answers and random draws meeting their contracts", "why_tests_cant": "Universal over data, external components and draws; tests check only shapes on a handful of random runs.", "anchors": ["smote_variants/oversampling/_and_smote.py:AND_SMOTE.calculate_r_min_maj", "smote_variants/oversampling/_and_smote.py:AND_SMOTE.calculate_kappa", "smote_variants/oversampling/_and_smote.py:AND_SMOTE.sampling_algorithm"]}
{"id": "C103", "title": "CCR places rows in balls around minority rows", "statement": "CCR appends minority rows around every minority row i, none further from it in any attribute than a positive radius r_i, nor in the sum of the attributes with at most two of them. Their number is n R / (N^2 r_i), R the sum of the radii, rounded; the total need not be the number n asked for. The radius is the energy if no majority row is nearer than it. The balls can cost more than the energy, with three attributes rows leave the ball, and majority rows inside the balls are returned unmoved. Zero energy raises ValueError. Nothing requested or at most two minority rows: unchanged.", "quantifier": "all data sets with two classes, all parameters accepted by the constructor, all distance functions, neighbour searches, rankings, OPTICS answers and random draws meeting their contracts", "why_tests_cant": "Universal over data, external components and draws; tests check only shapes on a handful of random runs.", "anchors": ["smote_variants/oversampling/_ccr.py:CCR.taxicab_sample", "smote_variants/oversampling/_ccr.py:CCR.determine_radii_current_majority", "smote_variants/oversampling/_ccr.py:CCR.sampling_algorithm"]}
{"id": "C104", "title": "SMOBD weighs minority rows by density; its noise filter has no effect", "statement": "If OPTICS rejects the minority rows or finds no core row SMOBD returns the data unchanged. Otherwise it appends exactly the requested number of minority rows, each lying attribute by attribute between a minority row and one of its min_samples nearest minority rows; the first is of positive weight unless all weights are zero. The weight is eta1 times the core distance (infinite ones counting 1.1 times the largest) relative to the largest, plus 1 - eta1 times the relative number of rows within max_eps. The noise threshold t has no effect on the result, as one reachability distance is always infinite and hence their mean, so rows neither dense nor reachable are used too. Nothing requested or at most two minority rows: unchanged.", "quantifier": "all data sets with two classes, all parameters accepted by the constructor, all distance functions, neighbour searches, rankings, OPTICS answers and random draws meeting their contracts", "why_tests_cant": "Universal over data, external components and draws; tests check only shapes on a handful of random runs.", "anchors": ["smote_variants/oversampling/_smobd.py:SMOBD.determine_indices_and_density", "smote_variants/oversampling/_smobd.py:SMOBD.sampling_algorithm"]}
{"id": "C105", "title": "E_SMOTE searches a set of columns and returns only these", "statement": "E_SMOTE returns the data restricted to the columns of the best mask found, followed by exactly the requested number of minority rows sampled as SMOTE does in those columns. The mask is found in 50 rounds that each try five masks, crossed or mutated from the five best so far, and complete each to at least min(min_features, columns) columns. With positive accuracies it is the best of the 250 masks tried. The starting mask is a single column that does not come from the random state of the object, so two runs with the same random state can differ. Nothing requested or at most two minority rows: unchanged.", "quantifier": "all data sets with two classes, all parameters accepted by the constructor, all distance functions, neighbour searches, classifiers, clusterings and random draws meeting their contracts", "why_tests_cant": "Universal over data, external components and draws; tests check only shapes on a handful of random runs.", "anchors": ["smote_variants/oversampling/_e_smote.py:E_SMOTE.sampling_algorithm", "smote_variants/oversampling/_e_smote.py:E_SMOTE.crossover", "smote_variants/oversampling/_e_smote.py:E_SMOTE.mutate"]}
{"id": "C106", "title": "GASMOTE gives every minority row fewer than maxn new rows", "statement": "With more than two minority rows GASMOTE appends for each minority row, in order, fewer than maxn rows, each a convex combination of it and some of its nearest minority rows. The numbers come from a genetic search whose result has an evaluated fitness of at least that of every initial configuration. With maxn = 1 nothing is appended. The number of new rows is not that needed to balance the classes. A crossover returns the second parent unchanged as second child, and pm is the probability of not mutating: with pm = 1 nothing mutates.", "quantifier": "all data sets with two classes, all parameters accepted by the constructor, all distance functions, neighbour searches, classifiers, clusterings and random draws meeting their contracts", "why_tests_cant": "Universal over data, external components and draws; tests check only shapes on a handful of random runs.", "anchors": ["smote_variants/oversampling/_gasmote.py:GASMOTE.genetic_algorithm", "smote_variants/oversampling/_gasmote.py:GASMOTE.crossover", "smote_variants/oversampling/_gasmote.py:GASMOTE.mutation", "smote_variants/oversampling/_gasmote.py:GASMOTE.sampling_algorithm"]}
{"id": "C107", "title": "SSO generates rows in rounds around sensitive minority rows", "statement": "With more than two minority rows SSO appends n_iter rounds of max(1, n / n_iter) minority rows each, n the number requested; so with n_iter > n more than n rows, and rows are appended even if n = 0. A row of a round lies around a minority row or a row of an earlier round, in every attribute within Q (1 - w), Q the spread computed in that round and w > 0 the share of the sensitivity of that row. With one hidden unit (h = 1, accepted by the constructor) sampling raises ValueError. At most two minority rows: unchanged.", "quantifier": "all data sets with two classes, all parameters accepted by the constructor, all distance functions, neighbour searches, classifiers, clusterings and random draws meeting their contracts", "why_tests_cant": "Universal over data, external components and draws; tests check only shapes on a handful of random runs.", "anchors": ["smote_variants/oversampling/_sso.py:SSO.determine_Q_and_weights", "smote_variants/oversampling/_sso.py:SSO.generate_samples", "smote_variants/oversampling/_sso.py:SSO.sampling_algorithm"]}
{"id": "C108", "title": "TRIM_SMOTE samples within boxes rich in minority rows", "statement": "TRIM_SMOTE cuts the data into disjoint boxes. Each box kept as seed has at least two rows, at least one of them of the minority, and no cut by a value of an attribute raises the number of minority rows squared over the size in one of its parts. A minority row in no seed is alone in its box. If no seed has a minority share above min_precision / 10 nothing is appended; otherwise exactly the requested number of rows, sampled as SMOTE does from the minority rows of the seeds whose share exceeds min_precision times the largest power of 0.9 some seed exceeds. Nothing requested or at most two minority rows: unchanged.", "quantifier": "all data sets with two classes, all parameters accepted by the constructor, all distance functions, neighbour searches, classifiers, clusterings and random draws meeting their contracts", "why_tests_cant": "Universal over data, external components and draws; tests check only shapes on a handful of random runs.", "anchors": ["smote_variants/oversampling/_trim_smote.py:TRIM_SMOTE.determine_splitting_point", "smote_variants/oversampling/_trim_smote.py:TRIM_SMOTE.trimming", "smote_variants/oversampling/_trim_smote.py:TRIM_SMOTE.sampling_algorithm"]}
{"id": "C109", "title": "MWMOTE samples around informative minority rows within their clusters", "statement": "If no minority row has another one among its k1 nearest rows MWMOTE appends nothing, otherwise exactly the requested number of minority rows. Each is a convex combination of an informative minority row -- among the k3 nearest of a majority row that is among the k2 + 1 nearest of a minority row with company -- and distinct other rows of the cluster of that row. With cf_th = 0 or cmax = 0, accepted by the constructor, it raises ValueError whenever a minority row has company. Nothing requested or at most two minority rows: unchanged.", "quantifier": "all data sets with two classes, all parameters accepted by the constructor, all distance functions, neighbour searches, classifiers, clusterings and random draws meeting their contracts", "why_tests_cant": "Universal over data, external components and draws; tests check only shapes on a handful of random runs.", "anchors": ["smote_variants/oversampling/_mwmote.py:MWMOTE.filter_minorities", "smote_variants/oversampling/_mwmote.py:MWMOTE.determine_selection_probabilities", "smote_variants/oversampling/_mwmote.py:MWMOTE.generate_samples_in_clusters", "smote_variants/oversampling/_mwmote.py:MWMOTE.sampling_algorithm"]}
{"id": "C110", "title": "DBSMOTE grows rows along shortest paths from the centres of the clusters", "statement": "The Bellman-Ford routine returns, for every graph without negative edges, the exact distance of each node from the source (infinite if it cannot be reached) and a parent whose edge ends a shortest path; following parents from a node never cycles and ends in the source, or at once if the node cannot be reached. DBSMOTE appends exactly the requested number of minority rows: each is a copy of a row of a cluster that is its centre or is not connected to it, or lies on the segment between the ends of the last edge of a shortest path from the centre. It retries a clustering that finds no cluster with a larger radius and fewer rows, but joins rows by the original radius: if no two minority rows are closer than eps, only copies are added. If no attempt finds a cluster: unchanged. Nothing requested or at most two minority rows: unchanged.", "quantifier": "all data sets with two classes, all parameters accepted by the constructor, all distance functions, neighbour searches, classifiers, clusterings and random draws meeting their contracts; all graphs without negative edge weights", "why_tests_cant": "Universal over data, external components and draws; tests check only shapes on a handful of random runs.", "anchors": ["smote_variants/oversampling/_dbsmote.py:bellman_ford", "smote_variants/oversampling/_dbsmote.py:relax", "smote_variants/oversampling/_dbsmote.py:DBSMOTE.execute_dbscan", "smote_variants/oversampling/_dbsmote.py:DBSMOTE.extract_shortest_paths", "smote_variants/oversampling/_dbsmote.py:DBSMOTE.generate_samples", "smote_variants/oversampling/_dbsmote.py:DBSMOTE.sampling_algorithm"]}
{"id": "C111", "title": "NEATER relabels the rows of SMOTE and ADASYN with 0 and 1", "statement": "NEATER appends the rows of SMOTE followed by those of ADASYN, labelled 0 or 1 by a game between neighbours, whatever the labels of the data are: with other labels the new labels are not labels of the data. A new row the b nearest others of which are all original minority rows gets 1, one the nearest others of which are all original majority rows gets 0 (for alpha < 1 and h >= 1); with h = 0 all get 0. With fewer than b + 1 rows in total: ValueError. Nothing requested or at most two minority rows: unchanged.", "quantifier": "all data sets with two classes, all parameters accepted by the constructor, all distance functions, neighbour searches, classifiers, clusterings and random draws meeting their contracts", "why_tests_cant": "Universal over data, external components and draws; tests check only shapes on a handful of random runs.", "anchors": ["smote_variants/oversampling/_neater.py:NEATER.evolution", "smote_variants/oversampling/_neater.py:NEATER.utilities", "smote_variants/oversampling/_neater.py:NEATER.generate_new_samples", "smote_variants/oversampling/_neater.py:NEATER.sampling_algorithm"]}
{"id": "C112", "title": "VIS_RST relabels majority rows near the minority and filters what it generates", "statement": "VIS_RST relabels every majority row with a row of the other class among its nearest rows as minority, also in the returned labels. It then copies or combines minority rows: if more than 30 percent of them are in danger the new rows copy those in danger or lie around safe ones, otherwise the other way round, and without safe rows all are combined alike. New rows with a majority row among their nearest original rows are dropped, so at most the requested number is appended. If the relabelling leaves no more majority than minority rows, or all minority rows are noise: unchanged. Nothing requested or at most two minority rows: unchanged.", "quantifier": "all data sets with two classes, all parameters accepted by the constructor, all distance functions, neighbour searches, classifiers, clusterings and random draws meeting their contracts", "why_tests_cant": "Universal over data, external components and draws; tests check only shapes on a handful of random runs.", "anchors": ["smote_variants/oversampling/_vis_rst.py:VIS_RST.relabel_boundary", "smote_variants/oversampling/_vis_rst.py:VIS_RST.label_minority_samples", "smote_variants/oversampling/_vis_rst.py:VIS_RST.generate_samples", "smote_variants/oversampling/_vis_rst.py:VIS_RST.noise_removal", "smote_variants/oversampling/_vis_rst.py:VIS_RST.sampling_algorithm"]}
{"id": "C113", "title": "SOI_CJ samples within disjoint clusters of minority rows", "statement": "The clusters SOI_CJ returns, if its merging ends, are non-empty pairwise disjoint sets of minority rows, built by unions and differences from the runs of minority rows nearest to each minority row. With interpolation every new row lies attribute by attribute between two different rows of one cluster of more than two rows; otherwise it is a convex combination of rows of such a cluster with normal noise scaled by the smaller of two deviations. Exactly the requested number is appended if a cluster has more than two rows, else nothing. If every majority row is farther from each minority row than all minority rows, nothing is appended: perfectly separated classes are never oversampled. A row of a run can end up in no cluster. Nothing requested or at most two minority rows: unchanged.", "quantifier": "all data sets with two classes, all parameters accepted by the constructor, all distance functions, neighbour searches, classifiers, clusterings and random draws meeting their contracts; all fuels (termination of the merging is not claimed)", "why_tests_cant": "Universal over data, external components and draws; tests check only shapes on a handful of random runs.", "anchors": ["smote_variants/oversampling/_soi_cj.py:SOI_CJ.update_clusters", "smote_variants/oversampling/_soi_cj.py:SOI_CJ.rearrange_clusters", "smote_variants/oversampling/_soi_cj.py:SOI_CJ.init_clusters", "smote_variants/oversampling/_soi_cj.py:SOI_CJ.clustering", "smote_variants/oversampling/_soi_cj.py:SOI_CJ.sampling_algorithm"]}
{"id": "C114", "title": "SYMPROD averages selected minority rows with positive weights", "statement": "SYMPROD drops rows with a standardised attribute of at least std_outliers from each class, selects the minority rows whose closeness to their own class passes the first of at most eleven falling thresholds that two rows pass, and appends exactly the requested number of rows, each the average of m + 1 selected rows with non-negative weights of positive sum. m of these rows are always among the m + 3 selected rows nearest to the first selected row, whichever row the new row starts from. Too few selected rows, equal ratings or rows at zero distance from their whole class: unchanged. If all rows chosen for a new row have closeness zero, the result is not a number. Nothing requested or at most two minority rows: unchanged.", "quantifier": "all data sets with two classes, all parameters accepted by the constructor, all distance functions, neighbour searches, classifiers, clusterings and random draws meeting their contracts", "why_tests_cant": "Universal over data, external components and draws; tests check only shapes on a handful of random runs.", "anchors": ["smote_variants/oversampling/_symprod.py:SYMPROD.noise_removal", "smote_variants/oversampling/_symprod.py:SYMPROD.determine_cf_norms", "smote_variants/oversampling/_symprod.py:SYMPROD.determine_taus", "smote_variants/oversampling/_symprod.py:SYMPROD.minority_point_selection", "smote_variants/oversampling/_symprod.py:SYMPROD.select_neighborhoods", "smote_variants/oversampling/_symprod.py:SYMPROD.instance_synthesis", "smote_variants/oversampling/_symprod.py:SYMPROD.sampling_algorithm"]}
{"id": "C115", "title": "SMOTEWB interpolates towards quiet minority rows before the first majority row", "statement": "SMOTEWB calls a row noise if its boosting weight exceeds twice the size of the other class over the squared number of rows. For each minority row it uses the nearest rows that are not noise, up to the first majority row among them and at most as many as the quotient of the class sizes; a row that is not noise leaves out the nearest one. Noise without such neighbours makes no rows; the other minority rows share the requested number evenly (shares differ by at most 1): rows without neighbours are copied, the others yield rows on segments to used neighbours. If at least two rows are not noise, exactly the requested number is appended; if no row is, or every minority row is noise without neighbours, the result is that of SMOTE with 5 neighbours. With a single row that is not noise rows can be missing, and if none is made: ValueError. Nothing requested or at most two minority rows: unchanged.", "quantifier": "all data sets with two classes, all parameters accepted by the constructor, all distance functions, neighbour searches, classifiers, clusterings and random draws meeting their contracts; all weights of the right number", "why_tests_cant": "Universal over data, external components and draws; tests check only shapes on a handful of random runs.", "anchors": ["smote_variants/oversampling/_smotewb.py:SMOTEWB.noise_threshold", "smote_variants/oversampling/_smotewb.py:SMOTEWB.noise_detection", "smote_variants/oversampling/_smotewb.py:SMOTEWB.first_majority_index", "smote_variants/oversampling/_smotewb.py:SMOTEWB.sampling_algorithm"]}
{"id": "C116", "title": "SMOTE_FRST_2T relabels majority rows and keeps new rows close to the minority", "statement": "SMOTE_FRST_2T returns the majority rows that stay, followed by all minority rows, new rows and majority rows relabelled as minority, every row equal in value to the original one but possibly in another order. New rows come from SMOTE on the min-max scaled data: each is a combination of a minority row and its nearest minority rows and its scaled city block distance (cut at 1) from some minority row is below gamma_S times 1.1 to the 100th. Each relabelled row is, in scaled city block distance, closer than gamma_M to a minority row, a new row or a row relabelled before. Never more majority rows are relabelled than leave as many as there are original minority rows. With gamma_S above 1 and enough rows in 100 rounds the minority ends at least as large as the majority; smaller gamma_S promise nothing about balance. At most two minority rows, or no smaller class: unchanged. Nothing requested or at most two minority rows: unchanged.", "quantifier": "all data sets with two classes, all parameters accepted by the constructor, all distance functions, neighbour searches, classifiers, clusterings and random draws meeting their contracts", "why_tests_cant": "Universal over data, external components and draws; tests check only shapes on a handful of random runs.", "anchors": ["smote_variants/oversampling/_smote_frst_2t.py:SMOTE_FRST_2T.pos_cache", "smote_variants/oversampling/_smote_frst_2t.py:SMOTE_FRST_2T.iteration", "smote_variants/oversampling/_smote_frst_2t.py:SMOTE_FRST_2T.sampling_algorithm"]}
{"id": "C117", "title": "SOMO samples in and between the minority cells of the map", "statement": "SOMO keeps the cells of the self organising map that hold more minority rows than others. It appends exactly the requested number of rows: if two kept cells are side by side, half the number (rounded down) are combinations of minority rows of one kept cell and the others lie between minority rows of two kept cells side by side; otherwise all are of the first kind. Without kept cells: unchanged. Nothing requested or at most two minority rows: unchanged.", "quantifier": "all data sets with two classes, all parameters accepted by the constructor, all distance functions, neighbour searches, classifiers, clusterings and random draws meeting their contracts; all maps from rows to cells", "why_tests_cant": "Universal over data, external components and draws; tests check only shapes on a handful of random runs.", "anchors": ["smote_variants/oversampling/_somo.py:SOMO.construct_grid", "smote_variants/oversampling/_somo.py:SOMO.determine_densities", "smote_variants/oversampling/_somo.py:SOMO.determine_pair_densities", "smote_variants/oversampling/_somo.py:SOMO.generate_intra", "smote_variants/oversampling/_somo.py:SOMO.generate_inter_samples", "smote_variants/oversampling/_somo.py:SOMO.generate_inter", "smote_variants/oversampling/_somo.py:SOMO.sampling_algorithm"]}
{"id": "C118", "title": "V_SYNTH places rows between Voronoi faces and a row next to them", "statement": "V_SYNTH extends the data by copies of the lower corner of its bounding box only (never an upper one), reduces it by PCA until every component explains more than a hundredth, drops rows that have a later row closer than a thousandth and appends exactly the requested number of rows, each mapped back from a point between a convex combination of the corners of a ridge and one of the two rows of that ridge. The ridges are selected by comparing labels of all rows at the positions of the rows left: once a row has been dropped, which happens as soon as the lower corner is zero and a row of the data, the labels are those of other rows, and a new row can lie outside every segment between a ridge and a minority row. One component left, or no ridge with different labels: unchanged. n_components = 1 raises UnboundLocalError. Nothing requested or at most two minority rows: unchanged.", "quantifier": "all data sets with two classes, all parameters accepted by the constructor, all distance functions, neighbour searches, classifiers, clusterings and random draws meeting their contracts; all PCA and Voronoi routines meeting the contracts", "why_tests_cant": "Universal over data, external components and draws; tests check only shapes on a handful of random runs.", "anchors": ["smote_variants/oversampling/_v_synth.py:V_SYNTH.add_bounding_box", "smote_variants/oversampling/_v_synth.py:V_SYNTH.filter_vectors_too_close", "smote_variants/oversampling/_v_synth.py:V_SYNTH.generate_samples", "smote_variants/oversampling/_v_synth.py:V_SYNTH.dimensionality_reduction", "smote_variants/oversampling/_v_synth.py:V_SYNTH.sampling_algorithm"]}
{"id": "C119", "title": "DSMOTE hands abnormal minority rows to the majority and adds means of three rows", "statement": "DSMOTE ranks minority rows by their mean distance to the minority over that to the majority, after scaling every column to the inside of the unit interval. The int(rate * minority) most abnormal ones are returned as majority rows. The result is the majority rows, those, the other minority rows and exactly the requested number of new rows, all original rows equal in value. Each new row is, in scaled form, the geometric mean of three different rows among the kept and the earlier new ones, with a positive score; hence all new rows stay in the column ranges of the kept rows. Fewer than three kept rows: ValueError. A ValueError can also arise when no candidate has a positive score, but not if all scores are positive. Nothing requested or at most two minority rows: unchanged.", "quantifier": "all inputs of two or more columns, generators, distances that vanish only on equal rows, geometric means between the smallest and largest value, scores; every minority row differs from some majority row", "why_tests_cant": "Universal over data, external components and draws; tests check only shapes on a handful of random runs.", "anchors": ["smote_variants/oversampling/_dsmote.py:DSMOTE.calculate_abnormality", "smote_variants/oversampling/_dsmote.py:DSMOTE.generate_one_sample", "smote_variants/oversampling/_dsmote.py:DSMOTE.sampling", "smote_variants/oversampling/_dsmote.py:DSMOTE.sampling_algorithm"]}
{"id": "C120", "title": "SMOTE_AMSR moves rows towards the higher score", "statement": "SMOTE_AMSR appends exactly the requested number of rows. Each lies between two rows attribute by attribute: a minority row and the mean of the minority (star), two consecutive minority rows (bus) or two minority rows (mesh). The share of the way towards the row with the higher isolation forest score is, in every attribute, at least the difference of the two scores over the range of the scores of all rows concerned; if all scores are equal the share may be anything in the unit interval. Nothing requested or at most two minority rows: unchanged.", "quantifier": "all data sets with two classes, all parameters accepted by the constructor, all distance functions, neighbour searches, classifiers, clusterings and random draws meeting their contracts; all score functions", "why_tests_cant": "Universal over data, external components and draws; tests check only shapes on a handful of random runs.", "anchors": ["smote_variants/oversampling/_smote_amsr.py:SMOTE_AMSR._star_generator", "smote_variants/oversampling/_smote_amsr.py:SMOTE_AMSR._bus_generator", "smote_variants/oversampling/_smote_amsr.py:SMOTE_AMSR._mesh_generator", "smote_variants/oversampling/_smote_amsr.py:SMOTE_AMSR.sampling_algorithm"]}
{"id": "C121", "title": "PDFOS adds normal noise to minority rows inside the span of the eigenvectors", "statement": "PDFOS standardises the data and appends exactly the requested number of rows: the standardised new row number t is the minority mean plus the columns of the eigenvector matrix weighted by the coordinates of some minority row plus the t-th row of normal numbers. Hence in a direction at right angles to the eigenvectors kept the new rows do not spread at all: their component is that of the mean. A LinAlgError in the eigenvalue or bandwidth computation leaves the data unchanged, every other exception is passed on; data with one column is always left unchanged. Nothing requested or at most two minority rows: unchanged.", "quantifier": "all data sets with two classes, all parameters accepted by the constructor, all distance functions, neighbour searches, classifiers, clusterings and random draws meeting their contracts; all eigenvector, bandwidth and normal number routines giving the right shapes", "why_tests_cant": "Universal over data, external components and draws; tests check only shapes on a handful of random runs.", "anchors": ["smote_variants/oversampling/_pdfos.py:FullRankTransformer.transform", "smote_variants/oversampling/_pdfos.py:FullRankTransformer.inverse_transform", "smote_variants/oversampling/_pdfos.py:PDFOSKDE.fit", "smote_variants/oversampling/_pdfos.py:PDFOSKDE.sample", "smote_variants/oversampling/_pdfos.py:PDFOS.sampling_algorithm"]}
{"id": "C122", "title": "KernelADASYN reads a Metropolis chain", "statement": "KernelADASYN scores every minority row by its share in the majority neighbours of all minority rows. With fewer than two rows of positive score the data is unchanged. If the covariance of the scored rows is well conditioned, exactly the requested number of rows is appended: the states of a Metropolis chain, started at a minority row of positive score, at the multiples of periods after burn_in; the chain moves by normal numbers times the Cholesky factor and accepts exactly if the uniform number is below the ratio of the densities, so it never leaves the region of positive density. If it is ill conditioned, two columns leave the data unchanged and more are reduced by PCA to half as many, the sampling is repeated there and the whole result, the original rows included, is mapped back: the original rows come back changed. Nothing requested or at most two minority rows: unchanged.", "quantifier": "all data sets with two classes, all parameters accepted by the constructor, all distance functions, neighbour searches, classifiers, clusterings and random draws meeting their contracts; all densities, conditions, factors, normal numbers and PCA routines meeting their contracts", "why_tests_cant": "Universal over data, external components and draws; tests check only shapes on a handful of random runs.", "anchors": ["smote_variants/oversampling/_kerneladasyn.py:KernelADASYN.mcmc", "smote_variants/oversampling/_kerneladasyn.py:KernelADASYN.iterated_sampling", "smote_variants/oversampling/_kerneladasyn.py:KernelADASYN.sampling_algorithm"]}
{"id": "C123", "title": "MOT2LD samples in the clusters of density peaks", "statement": "MOT2LD embeds the data, takes as noise the minority rows without company within the cut distance or without minority neighbours, finds the density peaks among the minority rows sorted by company and groups the minority rows by the nearest peak. It appends exactly the requested number of rows, each a convex combination of different minority rows of one group that are not noise. It then removes rows: those at the positions, in the whole data, which the noise has among the minority rows; so majority rows can be removed while the noise remains. No peaks, a ValueError in the search, or nothing but noise: unchanged. Nothing requested or at most two minority rows: unchanged.", "quantifier": "all data sets with two classes, all parameters accepted by the constructor, all distance functions, neighbour searches, classifiers, clusterings and random draws meeting their contracts; all embeddings with a row per row, all peak searches giving valid positions", "why_tests_cant": "Universal over data, external components and draws; tests check only shapes on a handful of random runs.", "anchors": ["smote_variants/oversampling/_mot2ld.py:MOT2LD.density_peak_clustering", "smote_variants/oversampling/_mot2ld.py:MOT2LD.determine_cluster_centers", "smote_variants/oversampling/_mot2ld.py:MOT2LD.determine_clusters", "smote_variants/oversampling/_mot2ld.py:MOT2LD.do_clustering", "smote_variants/oversampling/_mot2ld.py:MOT2LD.generate_samples_in_clusters", "smote_variants/oversampling/_mot2ld.py:MOT2LD.sampling_algorithm"]}
{"id": "C124", "title": "DEAGO passes SMOTE rows through an autoencoder of the minority", "statement": "DEAGO appends exactly the requested number of rows. Standardised by the mean and deviation of the minority rows, each is the output of the autoencoder (trained on the standardised minority rows) for a standardised row that SMOTE with the same parameters may make. Nothing requested or at most two minority rows: unchanged.", "quantifier": "all data sets with two classes, all parameters accepted by the constructor, all distance functions, neighbour searches, classifiers, clusterings and random draws meeting their contracts; all autoencoders that keep the number of columns", "why_tests_cant": "Universal over data, external components and draws; tests check only shapes on a handful of random runs.", "anchors": ["smote_variants/oversampling/_deago.py:DEAGO.sampling_algorithm"]}
{"id": "C125", "title": "ASMOBD samples from minority rows that OPTICS does not call noise", "statement": "ASMOBD standardises the data and drops minority rows whose core distance and reachability both exceed the thresholds T_1 and T_2. If fewer than two rows are left it relaxes eps and the thresholds by half up to three times. With more than two rows left it weighs them by core distance and neighbourhood (an infinite core distance gives no weight) and appends exactly the requested number of combinations of rows left, the base with positive weight unless all weights vanish and the others among the nearest rows left; otherwise the data is unchanged. The parameters t_1 and t_2 have no influence on the result. With linear smoothing the weights are never negative; with the sigmoid they can be, and then the call can end in a ValueError. Nothing requested or at most two minority rows: unchanged.", "quantifier": "all data sets with two classes, all parameters accepted by the constructor, all distance functions, neighbour searches, classifiers, clusterings and random draws meeting their contracts; all OPTICS routines meeting the contract", "why_tests_cant": "Universal over data, external components and draws; tests check only shapes on a handful of random runs.", "anchors": ["smote_variants/oversampling/_asmobd.py:ASMOBD.calculate_density", "smote_variants/oversampling/_asmobd.py:ASMOBD.determine_not_noise", "smote_variants/oversampling/_asmobd.py:ASMOBD.determine_maj_min_ratios", "smote_variants/oversampling/_asmobd.py:ASMOBD.determine_not_noise_and_density_safe", "smote_variants/oversampling/_asmobd.py:ASMOBD.sampling_algorithm"]}
{"id": "C126", "title": "IPADE_ID returns evolved prototypes instead of the data", "statement": "IPADE_ID leaves data with at most four minority rows unchanged. Otherwise it returns one row and one label for every leaf of a decision tree on the min-max scaled data, and neither keeps the rows given nor ever adds one: the label is the most frequent one in the leaf (the smallest of several), and the rows come from the means of the leaves by finitely many rounds, each of which moves every row towards one row of its label and along the difference of two others, clips it to the unit interval, and strictly raises the score on some of the rows that share their leaf. All rows returned lie within the ranges of the attributes. If a class is missing among the leaf labels or the rows for validation, the scaled rows are returned with the given labels, although return_copies promises copies of the data. The search ends.", "quantifier": "all data sets with two classes, all parameters accepted by the constructor, all distance functions, neighbour searches, classifiers, clusterings and random draws meeting their contracts; all trees, scores and accuracies meeting the contracts, scores in steps of 1/N", "why_tests_cant": "Universal over data, external components and draws; tests check only shapes on a handful of random runs.", "anchors": ["smote_variants/oversampling/_ipade_id.py:IPADE_ID.update_element", "smote_variants/oversampling/_ipade_id.py:IPADE_ID.DE_optimization", "smote_variants/oversampling/_ipade_id.py:IPADE_ID.configuration_checks", "smote_variants/oversampling/_ipade_id.py:IPADE_ID.phase_1", "smote_variants/oversampling/_ipade_id.py:IPADE_ID.phase_2", "smote_variants/oversampling/_ipade_id.py:IPADE_ID.sampling_algorithm"]}
{"id": "C127", "title": "SMOTE_PSO appends rows near the minority support vectors until the classes balance", "statement": "SMOTE_PSO leaves data with at most two minority rows, and balanced data, unchanged. Otherwise it standardises the data and repeats a search until the minority is at least as large as the majority; the rows found are appended to the original rows, which stay as they are. Each search gives, for every minority support vector, as many rows as it takes nearest majority support vectors; either all of them lie eps of the way towards those, or all lie at most as far from the minority support vector as its nearest majority support vector; and the score of the classifier trained with them is at least that with the former. The minority can end up larger than the majority.", "quantifier": "all data sets with two classes, all parameters accepted by the constructor, all distance functions, neighbour searches, classifiers, clusterings and random draws meeting their contracts; all support vectors of both classes, all norms, all scores that are not negative", "why_tests_cant": "Universal over data, external components and draws; tests check only shapes on a handful of random runs.", "anchors": ["smote_variants/oversampling/_smote_pso.py:SMOTE_PSO.initialize", "smote_variants/oversampling/_smote_pso.py:SMOTE_PSO.update_velocities", "smote_variants/oversampling/_smote_pso.py:SMOTE_PSO.update_positions", "smote_variants/oversampling/_smote_pso.py:SMOTE_PSO.update_scores", "smote_variants/oversampling/_smote_pso.py:SMOTE_PSO.search", "smote_variants/oversampling/_smote_pso.py:SMOTE_PSO.sampling_algorithm"]}
{"id": "C128", "title": "SMOTE_PSOBAT is SMOTE with settings found by particles or bats", "statement": "SMOTE_PSOBAT leaves data with at most two minority rows unchanged. Otherwise the result is that of SMOTE with some number of neighbours between 1 and the number of minority rows and some proportion between 0.1 and 2, the order of the simplices being at most the number of neighbours; no exception is raised. With method pso the settings are those drawn first or were tried and reach a Cohen kappa above 0.4 in the cross validation. The number of neighbours is also bounded by 10 and by the minority sizes of all earlier calls of the same object with more than two minority rows, so the same call can give another result later. Not guaranteed: more iterations can lower the accuracy of the settings returned, and method bat can return settings with kappa at most 0.4 where better ones were tried.", "quantifier": "all data sets with two classes, all parameters accepted by the constructor, all distance functions, neighbour searches, classifiers, clusterings and random draws meeting their contracts; all sequences of calls, all predictions with the right labels, all roundings of the proportion that ask for some number", "why_tests_cant": "Universal over data, external components and draws; tests check only shapes on a handful of random runs.", "anchors": ["smote_variants/oversampling/_smote_psobat.py:SMOTE_PSOBAT.evaluate", "smote_variants/oversampling/_smote_psobat.py:SMOTE_PSOBAT.pso_vectorized", "smote_variants/oversampling/_smote_psobat.py:SMOTE_PSOBAT.pso_update_global_scores", "smote_variants/oversampling/_smote_psobat.py:SMOTE_PSOBAT.bat_vectorized", "smote_variants/oversampling/_smote_psobat.py:SMOTE_PSOBAT.bat_check_global", "smote_variants/oversampling/_smote_psobat.py:SMOTE_PSOBAT.sampling_algorithm"]}
{"id": "C129", "title": "AMSCO mixes resampled majority rows with minority rows extended by SMOTE", "statement": "AMSCO leaves data with at most four minority rows unchanged. Otherwise, if it returns, the majority rows come first: at least four of the given ones, possibly repeated, and at most nine per iteration more than given. After them come all given minority rows, alone or followed by what SMOTE appends, with 3 to 10 neighbours and a proportion between 1/4 and 4, to some such choice of majority rows and the minority rows; what is appended counts as minority even if it was made from majority rows because fewer of those were kept. It raises TypeError only if kappa times accuracy is not positive for some such data, ValueError only if some accuracy is not positive, and nothing else.", "quantifier": "all data sets with two classes, all parameters accepted by the constructor, all distance functions, neighbour searches, classifiers, clusterings and random draws meeting their contracts; all fitness functions, all roundings of the proportion that ask for some number", "why_tests_cant": "Universal over data, external components and draws; tests check only shapes on a handful of random runs.", "anchors": ["smote_variants/oversampling/_amsco.py:AMSCO.osmote", "smote_variants/oversampling/_amsco.py:AMSCO.evaluate_osmote", "smote_variants/oversampling/_amsco.py:AMSCO.sis", "smote_variants/oversampling/_amsco.py:AMSCO.remove_elements", "smote_variants/oversampling/_amsco.py:AMSCO.add_elements", "smote_variants/oversampling/_amsco.py:AMSCO.evaluate", "smote_variants/oversampling/_amsco.py:AMSCO.sampling_algorithm"]}
{"id": "C130", "title": "DSRBF returns the result of one of its calls of SMOTE", "statement": "DSRBF leaves the data unchanged if there are at most two minority rows, nothing is asked for, or the range of the number of neurons is empty. Otherwise, if the number of iterations is 0 or at least the number of epochs, the given rows come first and the appended rows, standardised, are those of one of the calls of SMOTE on the standardised data, at most one per iteration and one before; the networks only choose which. With fewer iterations than epochs it raises ZeroDivisionError. With at least two neurons as the least number nothing else is raised, as no mutation or recombination leaves a network with fewer than two; with one, ValueError is possible.", "quantifier": "all data sets with two classes, all parameters accepted by the constructor, all distance functions, neighbour searches, classifiers, clusterings and random draws meeting their contracts; all neurons, mutations and losses, all improvements of centers that keep the number of neurons", "why_tests_cant": "Universal over data, external components and draws; tests check only shapes on a handful of random runs.", "anchors": ["smote_variants/oversampling/_dsrbf.py:RBF.structural_mutation", "smote_variants/oversampling/_dsrbf.py:RBF.recombine", "smote_variants/oversampling/_dsrbf.py:DSRBF.recombination", "smote_variants/oversampling/_dsrbf.py:DSRBF.execute_optimization", "smote_variants/oversampling/_dsrbf.py:DSRBF.sampling_algorithm"]}
{"id": "C131", "title": "ADG draws from the rows with label 1 in rounds of halving size", "statement": "ADG leaves data with at most two minority rows unchanged, and if nothing is asked for. Otherwise it works with the rows of label 0 and those of label 1, whatever the labels: without any it raises ValueError; if the rows of label 1 are all the same it raises AttributeError; without rows of label 0 it returns the rows of label 1 alone. In the other cases the rows of label 0, those of label 1 and the new rows, with the minority label, follow each other. The new rows are drawn from the mixture of the rows of label 1, n, n/2, n/4, ... at a time, n being the number asked for, and kept if on the positive side; the rounds end if none is due, a system is singular, no row is kept, or less than a hundredth of the new rows. Fewer than 2n rows are made. After a singular system with at least two columns the same is done with the rows projected to half the columns, and projected back; ValueError is raised if there are fewer rows than that. The recursion ends.", "quantifier": "all data sets with two classes, all parameters accepted by the constructor, all distance functions, neighbour searches, classifiers, clusterings and random draws meeting their contracts; all clusterings that fail exactly on equal rows, all solutions, kernels, mixtures and projections", "why_tests_cant": "Universal over data, external components and draws; tests check only shapes on a handful of random runs.", "anchors": ["smote_variants/oversampling/_adg.py:ADG.step_5_6_7", "smote_variants/oversampling/_adg.py:ADG.step_9_16", "smote_variants/oversampling/_adg.py:evaluate_matrices", "smote_variants/oversampling/_adg.py:ADG.sampling_algorithm", "smote_variants/oversampling/_adg.py:ADG.sample_with_n_components"]}
{"id": "C132", "title": "polynom_fit_SMOTE with mesh topology samples between pairs of minority rows", "statement": "With mesh topology, if the requested number of rows is n, polynom_fit_SMOTE appends exactly n minority rows after the given ones. Every minority row gets as many partners among the minority rows as n divided by their number, rounded, at least one; each new row is a convex combination of a minority row and its partners, with the default settings of one partner, so it lies in the convex hull of the minority rows. Nothing requested or at most two minority rows: unchanged.", "quantifier": "all data sets with two classes, all parameters accepted by the constructor, all distance functions, neighbour searches, classifiers, clusterings and random draws meeting their contracts; all partners drawn", "why_tests_cant": "Universal over data, external components and draws; tests check only shapes on a handful of random runs.", "anchors": ["smote_variants/oversampling/_polynom_fit_smote.py:polynom_fit_SMOTE_mesh.sampling_algorithm"]}
{"id": "C133", "title": "polynom_fit_SMOTE with poly topology fits one polynomial per column", "statement": "With a poly topology of degree d and n rows requested, polynom_fit_SMOTE appends exactly n minority rows. The minority rows are arranged by increasing mean; in every column the new values are values of a least squares polynomial of degree d through the arranged rows, at parameters from 0 up to the number of rows. If no two minority rows have the same mean, the new rows do not depend on the order of the minority rows or on how the sort treats ties. Nothing requested or at most two minority rows: unchanged.", "quantifier": "all data sets with two classes, all parameters accepted by the constructor, all distance functions, neighbour searches, classifiers, clusterings and random draws meeting their contracts; all least squares fits, all sorting routines", "why_tests_cant": "Universal over data, external components and draws; tests check only shapes on a handful of random runs.", "anchors": ["smote_variants/oversampling/_polynom_fit_smote.py:polynom_fit_SMOTE.sampling_algorithm", "smote_variants/oversampling/_polynom_fit_smote.py:polynom_fit_SMOTE_poly.sampling_algorithm"]}
{"id": "C134", "title": "OversamplingClassifier trains its classifier on oversampled data", "statement": "A new OversamplingClassifier reports the two descriptions it was made from and has no classes. After a fit that returns, the classifier has been trained on exactly what the oversampler returned for the data, predict, predict_proba and classes_ are those of the trained classifier, and the parameters are unchanged. A fit that raises changes neither parameters nor classes_. After set_params the object behaves in predict, fit and predictions after fit like a new object made from the resulting parameters.", "quantifier": "all oversamplers and classifiers, whatever they return or raise and however they change, all parameters", "why_tests_cant": "Universal over the objects involved and over sequences of calls; the tests run one or two fits of one classifier.", "anchors": ["smote_variants/classifiers/_oversamplingclassifier.py:OversamplingClassifier.fit", "smote_variants/classifiers/_oversamplingclassifier.py:OversamplingClassifier.set_params", "smote_variants/classifiers/_oversamplingclassifier.py:OversamplingClassifier.get_params"]}
{"id": "C135", "title": "MLPClassifierWrapper sizes its hidden layer and fits afresh", "statement": "The hidden layer has the integer square root of the number of columns by default, or the given share of it between 0 and 1 rounded down, never less than one and never more than the number of columns. A fit depends on the parameters and the data, not on earlier fits; a fit that raises keeps the earlier network. A copy is unfitted and has the same parameters if max_iter has its default.", "quantifier": "all parameters, all data, all networks that are a function of parameters, size and data", "why_tests_cant": "Universal over the objects involved and over sequences of calls; the tests run one or two fits of one classifier.", "anchors": ["smote_variants/classifiers/_mlpclassifierwrapper.py:MLPClassifierWrapper._determine_hidden_layer_size", "smote_variants/classifiers/_mlpclassifierwrapper.py:MLPClassifierWrapper.fit", "smote_variants/classifiers/_mlpclassifierwrapper.py:MLPClassifierWrapper.copy"]}
{"id": "C136", "title": "ErrorWarningClassifier raises what it was asked to raise", "statement": "fit raises ValueError if so configured, otherwise RuntimeError if so configured, and in these cases the object is unchanged; otherwise it fits the neighbour classifier and passes on its exceptions, issuing a warning exactly if so configured.", "quantifier": "all settings, all data, all inner classifiers", "why_tests_cant": "Universal over the objects involved and over sequences of calls; the tests run one or two fits of one classifier.", "anchors": ["smote_variants/classifiers/_errorwarning_classifier.py:ErrorWarningClassifier.fit", "smote_variants/classifiers/_errorwarning_classifier.py:ErrorWarningClassifier.predict"]}
{"id": "C137", "title": "Configuration flags return the value last set", "statement": "After any sequence of calls of the three configuration functions, a call without argument returns the value last set by that function, or the default if there is none; a call with a value returns this value. The three settings do not influence each other.", "quantifier": "all sequences of calls with all values", "why_tests_cant": "Universal over the objects involved and over sequences of calls; the tests run one or two fits of one classifier.", "anchors": ["smote_variants/config.py:suppress_external_warnings", "smote_variants/config.py:suppress_internal_warnings", "smote_variants/config.py:distance_matrix_max_memory_chunk"]}
{"id": "C138", "title": "Plots name the classes", "statement": "For labels 0 and 1 relabel_y names 0 majority and 1 minority. For any other number of classes than two, 0 is named majority and every other label minority i, i being the number of smaller labels present; two positions get the same name exactly if they have the same label.", "quantifier": "all label vectors of integers", "why_tests_cant": "Universal over the objects involved and over sequences of calls; the tests run one or two fits of one classifier.", "anchors": ["smote_variants/visualization/_visualization.py:relabel_y", "smote_variants/visualization/_visualization.py:plot_sampling"]}
{"id": "C139", "title": "vector_labeling tells how the data have changed", "statement": "vector_labeling returns a table with a row for every combination of label and chosen coordinates, rounded to four decimals, that is present before or after, and for no other. A row is flagged new exactly if the combination is absent before, removed exactly if it is absent after. If the coordinates are all columns, there is one row per combination, with the numbers of data rows before and after, and the flag is untouched exactly if the number is the same, count_changed exactly if it differs.", "quantifier": "all data sets of the same number of columns, all lists of different coordinates", "why_tests_cant": "Universal over the objects involved and over sequences of calls; the tests run one or two fits of one classifier.", "anchors": ["smote_variants/visualization/_visualization.py:unique_data", "smote_variants/visualization/_visualization.py:vector_labeling"]}
{"id": "C140", "title": "Fixed matrices are positive definite and never shrink lengths", "statement": "fix_pd_matrix returns a symmetric matrix by which the squared length of every vector is at least eps times its usual squared length and at least its squared length by the given matrix; the eigenvectors are kept, eigenvalues below eps become eps, and a matrix whose squared lengths all exceed eps times the usual ones is returned unchanged. psd_mean does this to the mean. The inverse of a fixed covariance matrix is symmetric, positive definite, and measures squared lengths of at most 1/eps times the usual ones. reverse_matrix keeps the eigenvectors of a matrix with different eigenvalues and assigns the eigenvalues in reverse order.", "quantifier": "all symmetric real matrices of all sizes, all eps", "why_tests_cant": "Universal over matrices, data and over the learners, which are arbitrary; the tests run each method on one data set and look at shapes.", "anchors": ["smote_variants/base/_metrictensor.py:fix_pd_matrix", "smote_variants/base/_metrictensor.py:reverse_matrix", "smote_variants/base/_metrictensor.py:psd_mean", "smote_variants/base/_metrictensor.py:MetricTensor.tensor"]}
{"id": "C141", "title": "construct_tensor is a least squares fit of the dissimilarities", "statement": "construct_tensor selects different pairs of rows, all of them or 100 for each of the n(n+1)/2 free entries of a symmetric n by n matrix, whichever is less. It finds a symmetric matrix whose squared distances have the least sum of squared deviations from the squared dissimilarities of these pairs among all symmetric matrices, and returns the tensor fix_pd_matrix makes of it. If some symmetric matrix explains the dissimilarities of the pairs exactly, then the fitted one does.", "quantifier": "all data and dissimilarities, all regression routines that minimise the error", "why_tests_cant": "Universal over matrices, data and over the learners, which are arbitrary; the tests run each method on one data set and look at shapes.", "anchors": ["smote_variants/base/_metrictensor.py:construct_tensor", "smote_variants/base/_metrictensor.py:create_metric_tensor"]}
{"id": "C142", "title": "Dissimilarities implied by a forest are shares of trees", "statement": "The dissimilarity of two rows is the share of the trees in which they reach different leaves. It lies between 0 and 1, is 0 exactly if the rows reach the same leaves, is symmetric and satisfies the triangle inequality. transform_kneighbors returns the dissimilarities between the given rows and the rows dissimilarity_matrix was last called with, and fails after fit alone.", "quantifier": "all forests, all data", "why_tests_cant": "Universal over matrices, data and over the learners, which are arbitrary; the tests run each method on one data set and look at shapes.", "anchors": ["smote_variants/base/_metrictensor.py:ClassifierImpliedDissimilarityMatrix.dissimilarity_matrix", "smote_variants/base/_metrictensor.py:ClassifierImpliedDissimilarityMatrix.transform_kneighbors"]}
{"id": "C143", "title": "MetricTensor gives learners every different row once", "statement": "ITML, LSML and NCA are trained on a list holding every different row once, with the label of its first occurrence; rf, cov and MI_weighted use all rows; id gives the identity of the number of columns; cov_min uses the rows labelled 1. Any other method returns the tensor the object already has.", "quantifier": "all data, all learners, all method names", "why_tests_cant": "Universal over matrices, data and over the learners, which are arbitrary; the tests run each method on one data set and look at shapes.", "anchors": ["smote_variants/base/_metrictensor.py:MetricTensor.tensor", "smote_variants/base/_metrictensor.py:MetricTensor._train_metric_learning"]}
{"id": "C144", "title": "Mutual information becomes weights of mean one", "statement": "A column counts as discrete if it has at most five different values. The result has one entry per column, the mean of the repetitions; normalised, the entries are not negative, sum to the number of columns and are proportional to these means.", "quantifier": "all data, all estimates of the information that are not negative, all numbers of repetitions", "why_tests_cant": "Universal over matrices, data and over the learners, which are arbitrary; the tests run each method on one data set and look at shapes.", "anchors": ["smote_variants/base/_metrictensor.py:estimate_mutual_information", "smote_variants/base/_metrictensor.py:discrete_variable_mask"]}
{"id": "C145", "title": "nn_params decide about the metric tensor", "statement": "A metric tensor in nn_params is used as it is. Without one, if the metric is precomputed, a tensor is learned by the method at metric_learning_method; without this key or with another metric there is no tensor.", "quantifier": "all parameter dictionaries, all data, all learners", "why_tests_cant": "Universal over matrices, data and over the learners, which are arbitrary; the tests run each method on one data set and look at shapes.", "anchors": ["smote_variants/base/_metrictensor.py:MetricLearningMixin.metric_tensor_from_nn_params"]}
{"id": "C146", "title": "G_SMOTE with a kernel follows squared distances", "statement": "With a method non-linear_s, G_SMOTE appends exactly the requested number of rows, and with two-dimensional simplices and no gaussian component each lies between a minority row and one of its nearest neighbours. Among these it is one of largest cosine between a direction H and the list of squared distances of the difference of the two rows from all minority rows; neighbours without cosine, since one of the two vanishes, count last, and s does not influence the cosine. H is the row, numbered like the largest eigenvalue, of the eigenvector matrix of the exponentials of the squared distances over 2 s^2. Fewer than two columns, nothing requested or at most two minority rows: unchanged. The constructor takes as s what float makes of the part after the last underscore, and raises ValueError if that is zero or negative or if the method neither is linear nor starts with non-linear.", "quantifier": "all data sets with two classes, all widths s other than 0, all method names, all neighbour searches, norms, eigenvalue routines, decreasing arccos and random draws meeting their contracts", "why_tests_cant": "Universal over data, widths and external routines; the tests run one width and look at shapes.", "anchors": ["smote_variants/oversampling/_g_smote.py:G_SMOTE.__init__", "smote_variants/oversampling/_g_smote.py:G_SMOTE.determine_H", "smote_variants/oversampling/_g_smote.py:G_SMOTE.angles_non_linear", "smote_variants/oversampling/_g_smote.py:G_SMOTE.update_indices_by_angles", "smote_variants/oversampling/_g_smote.py:G_SMOTE.sampling_algorithm"]}
{"id": "C147", "title": "DSMOTE scores its candidates through running sums", "statement": "The score DSMOTE gives a candidate is, exactly, the documented Fisher ratio and geometric mean of all minority rows so far and the candidate, but its divergence takes the sum of all squared entries of the rows it started with together with the unsquared lengths of the rows added where the documented one takes each row's squared length. On positive data the score always exceeds the documented objective. With at least three positive minority rows, at least one step per row and two different rows in one of the classes, sampling returns exactly the requested number of rows, each of them the attribute-wise geometric mean of three different earlier rows and, among the candidates drawn for it, one of largest score.", "quantifier": "all data sets of positive entries, all numbers of steps, all draws of three different indices", "why_tests_cant": "Universal over data and draws, with logarithms and exponentials over the reals; the tests only look at shapes.", "anchors": ["smote_variants/oversampling/_dsmote.py:DSMOTE.calculate_gdiv", "smote_variants/oversampling/_dsmote.py:DSMOTE.calculate_fisher", "smote_variants/oversampling/_dsmote.py:DSMOTE.calculate_objective", "smote_variants/oversampling/_dsmote.py:DSMOTE.generate_one_sample", "smote_variants/oversampling/_dsmote.py:DSMOTE.sampling"]}
{"id": "C148", "title": "SSO computes exact integrals, of two different networks", "statement": "Its second formula is, for every network of Gaussian units and every row, exactly the mean of the square of the network over the cube of half width Q around the row. The first formula is exactly the mean of a network too, but of another: one whose units have the variance v in place of v squared and whose weights carry the factor v sqrt(pi/2) / sqrt(pi v/2)^d in d columns. For a single column and widths 1 the two agree, and the sensitivity is the mean squared difference between the network and the prediction at the row.", "quantifier": "all networks, rows, widths other than 0 and half widths above 0, all functions erf with the integral of exp(-t^2)", "why_tests_cant": "Integrals over cubes of any dimension against closed formulas; the tests only run the sampler.", "anchors": ["smote_variants/oversampling/_sso.py:SSO.eq_6_vectorized", "smote_variants/oversampling/_sso.py:SSO.eq_8_av_bv", "smote_variants/oversampling/_sso.py:SSO.eq_8_vectorized", "smote_variants/oversampling/_sso.py:SSO.determine_Q_and_weights", "smote_variants/oversampling/_sso.py:SSO.calculate_vectors"]}
{"id": "C149", "title": "KernelADASYN and PDFOS work with the densities of other kernels", "statement": "KernelADASYN's density is positive everywhere, and its chain moves to a proposal exactly if the uniform number times the score-weighted sum of Gaussians of variance h around the minority rows at the old place is below that sum at the new place. PDFOS takes, of the 20 widths 10^(-5 + 7k/19), the first that minimises the criterion of the paper with the logistic function in place of the exponential in the pair terms. The covariance of the numbers it then draws is that width times the matrix S, which is never the covariance, width squared times S, of the kernel the criterion scored.", "quantifier": "all minority rows, scores, bandwidths above 0, proposals and uniform numbers; all matrices and rows chosen for the estimation", "why_tests_cant": "Universal over data with exponentials and powers over the reals; the tests only look at shapes.", "anchors": ["smote_variants/oversampling/_kerneladasyn.py:KernelADASYN.p_x", "smote_variants/oversampling/_kerneladasyn.py:KernelADASYN.mcmc", "smote_variants/oversampling/_pdfos.py:PDFOSKDE.eq_5_0", "smote_variants/oversampling/_pdfos.py:PDFOSKDE.eq_8_vectorized", "smote_variants/oversampling/_pdfos.py:PDFOSKDE.M", "smote_variants/oversampling/_pdfos.py:PDFOSKDE.find_best_sigma", "smote_variants/oversampling/_pdfos.py:PDFOSKDE.fit"]}
{"id": "C150", "title": "Neurons of DSRBF can always be evaluated, and their changes of structure do not add up", "statement": "Every neuron that arises from a new one by cloning, mutating, moving its centre, adding and deleting connections has as many weights as columns and only columns of the data, so that evaluating it never fails; its value is the output weight times the Gaussian of the weighted columns around the centre, at most the output weight in absolute value if the radius is not 0. Adding a connection picks an unused column unless as many columns are used as there are, deleting keeps at least one. A mutation changes at most one of centre, radius and output weight, depending on the first number drawn. A clone keeps centre and radius but has the initial columns and weights and an output weight drawn anew. So in every network that arises each neuron has its initial columns, less at most one, plus at most one, and a mutation of the network takes every change of structure back.", "quantifier": "all data dimensions, initial columns and weights, sequences of operations, random draws and rows", "why_tests_cant": "Universal over sequences of random operations with exponentials over the reals; tests run a few seeds and look at shapes.", "anchors": ["smote_variants/oversampling/_dsrbf.py:RBFNeuron.__init__", "smote_variants/oversampling/_dsrbf.py:RBFNeuron.clone", "smote_variants/oversampling/_dsrbf.py:RBFNeuron.evaluate", "smote_variants/oversampling/_dsrbf.py:RBFNeuron.mutate", "smote_variants/oversampling/_dsrbf.py:RBFNeuron.add_connection", "smote_variants/oversampling/_dsrbf.py:RBFNeuron.delete_connection", "smote_variants/oversampling/_dsrbf.py:RBF.clone", "smote_variants/oversampling/_dsrbf.py:RBF.create_new_node", "smote_variants/oversampling/_dsrbf.py:RBF.mutation", "smote_variants/oversampling/_dsrbf.py:RBF.structural_mutation"]}
{"id": "C151", "title": "SOI_CJ merges overlapping clusters by the majority in a ball", "statement": "Without a metric tensor, two clusters of SOI_CJ that have a row in common are merged exactly if minority rows outnumber the others among all rows in the ball whose diameter joins a pair of rows, one of each cluster, of largest distance; both rows are in that ball, and the test never fails. With a positive semidefinite tensor the test does not fail either, but the radius is Euclidean while the rows are searched with the tensor, so that the ball can be empty and clusters are kept apart although there are only minority rows. Rows of the clusters can lie outside of the ball.", "quantifier": "all training sets, labels, pairs of nonempty clusters and semidefinite tensors", "why_tests_cant": "Universal over data and tensors; tests only check shapes and do not use a tensor for which the two distances differ.", "anchors": ["smote_variants/oversampling/_soi_cj.py:SOI_CJ.update_clusters"]}
{"id": "C152", "title": "The volume of a simplex is well defined and does not depend on how the simplex is written down", "statement": "The volume simplex_volume returns is never NaN or negative. It is 0 exactly if the vertices are affinely dependent, does not depend on the order of the vertices, stays the same if the simplex is moved or turned and is multiplied by |a|^n if it is scaled by a. For n edges in n columns it is the absolute determinant of the edges over n!. simplex_volumes gives the same volumes, also for two vertices, where it uses the distance. Simplices of more than c + 1 vertices in c columns have volume 0 even if all vertices differ.", "quantifier": "all real closed fields, numbers of vertices and columns, vertices, permutations, factors, translations and orthogonal matrices", "why_tests_cant": "Universal over matrices of all shapes; tests compute a few volumes.", "anchors": ["smote_variants/base/_simplexsampling.py:simplex_volume", "smote_variants/base/_simplexsampling.py:simplex_volumes"]}
{"id": "C153", "title": "SOI_CJ's merging of clusters ends if the ball test always has the same outcome, and it discards unions", "statement": "If the ball test of SOI_CJ never allows a merge, every round that finds an intersection removes a row from a cluster, so that there are at most one more rounds than rows in the clusters. If it always allows the merge, every such round shortens the list of clusters. In both cases the clustering of a data set with m minority rows ends within m*m+1 rounds and returns disjoint non-empty clusters. Two intersecting clusters that pass the test are not merged: the union is overwritten and only the second cluster, unchanged, is left. Three non-empty clusters can leave no cluster at all.", "quantifier": "all cluster lists, including lists that hold one set several times, all data sets, nearest-neighbour searches that keep their contract and tests of constant outcome", "why_tests_cant": "Termination of a while loop over shared mutable sets; a test that runs for ever reports nothing, and one that ends covers one list.", "anchors": ["smote_variants/oversampling/_soi_cj.py:SOI_CJ.clustering", "smote_variants/oversampling/_soi_cj.py:SOI_CJ.update_clusters", "smote_variants/oversampling/_soi_cj.py:SOI_CJ.rearrange_clusters"]}
