{
 "claims": [
  {
   "property": "C01",
   "status": "proved",
   "theorems": [
    "C01_minority_identified",
    "C01_single_label_raises",
    "C01_three_labels_refuted"
   ],
   "note": "Labels are integers. With more than two labels only the two smallest label values are looked at (C01_three_labels_refuted)."
  },
  {
   "property": "C02",
   "status": "proved",
   "theorems": [
    "C02_integer_proportion",
    "C02_float_proportion",
    "C02_never_negative",
    "C02_monotone",
    "C02_exact_at_one",
    "C02_unit_interval",
    "C02_other_types_raise"
   ],
   "note": "Bit-exact binary64 via Flocq; class sizes up to 2^53."
  },
  {
   "property": "C03",
   "status": "proved",
   "theorems": [
    "C03_originals_are_a_prefix"
   ],
   "note": ""
  },
  {
   "property": "C04",
   "status": "proved",
   "theorems": [
    "C04_balanced"
   ],
   "note": "Proved for simplex_sampling random/deterministic; the volume mode can raise on degenerate simplices."
  },
  {
   "property": "C05",
   "status": "proved",
   "theorems": [
    "C05_convex_hull",
    "C05_noise"
   ],
   "note": "Exact arithmetic: feature rounding not modelled."
  },
  {
   "property": "C06",
   "status": "proved",
   "theorems": [
    "C06_too_small_returns_copies",
    "C06_otherwise_algorithm_runs",
    "C06_default_checks"
   ],
   "note": ""
  },
  {
   "property": "C07",
   "status": "proved",
   "theorems": [
    "C07_simplices_enumerated"
   ],
   "note": ""
  },
  {
   "property": "C08",
   "status": "proved",
   "theorems": [
    "C08_base_weights_aligned",
    "C08_positive_weights_only"
   ],
   "note": ""
  },
  {
   "property": "C09",
   "status": "proved",
   "theorems": [
    "C09_deterministic_allocation",
    "C09_less_than_one_refuted"
   ],
   "note": "Exact arithmetic. The stricter claim \"differs by less than one\" is false: C09_less_than_one_refuted."
  },
  {
   "property": "C10",
   "status": "proved",
   "theorems": [
    "C10_deterministic_evenly_spaced",
    "C10_interior"
   ],
   "note": ""
  },
  {
   "property": "C11",
   "status": "proved",
   "theorems": [
    "C11_weighted_random",
    "C11_weighted_deterministic",
    "C11_deterministic_same_set_refuted"
   ],
   "note": "Deterministic mode without a separate vertex set sorts each pair and may use the base point weight instead: C11_deterministic_same_set_refuted."
  },
  {
   "property": "C12",
   "status": "proved",
   "theorems": [
    "C12_simplices_restored",
    "C12_restored_on_error_refuted"
   ],
   "note": "On an exception the array can stay shifted: C12_restored_on_error_refuted."
  },
  {
   "property": "C13",
   "status": "proved",
   "theorems": [
    "C13_probability_vector",
    "C13_uniform_when_nothing_left",
    "C13_proportional_otherwise",
    "C13_safe_divide"
   ],
   "note": "Exact arithmetic."
  },
  {
   "property": "C14",
   "status": "proved",
   "theorems": [
    "C14_inverse_cdf",
    "C14_positive_probability"
   ],
   "note": "Exact arithmetic: rows of p summing to one exactly."
  },
  {
   "property": "C15",
   "status": "proved",
   "theorems": [
    "C15_comparisons",
    "C15_ranges",
    "C15_list_and_jobs",
    "C15_only_ValueError",
    "C15_nan_refuted"
   ],
   "note": "nan passes every validator (C15_nan_refuted, finding)."
  },
  {
   "property": "C16",
   "status": "proved",
   "theorems": [
    "C16_coalesce_dict",
    "C16_coalesce_dict_is_a_dict",
    "C16_equal_dicts_sound",
    "C16_equal_dicts_complete",
    "C16_equal_dicts_total_on_same_keys",
    "C16_equal_dicts_refuted"
   ],
   "note": "equal_dicts raises on differing keys and is asymmetric on empty containers (C16_equal_dicts_refuted, finding)."
  },
  {
   "property": "C17",
   "status": "proved",
   "theorems": [
    "C17_mode"
   ],
   "note": ""
  },
  {
   "property": "C18",
   "status": "proved",
   "theorems": [
    "C18_partition",
    "C18_confusion_matrix",
    "C18_total",
    "C18_prediction_labels",
    "C18_ties_split"
   ],
   "note": ""
  },
  {
   "property": "C19",
   "status": "proved",
   "theorems": [
    "C19_rates",
    "C19_mcc",
    "C19_perfect",
    "C19_perfect_mcc",
    "C19_uncertainty",
    "C19_empty_class_raises",
    "C19_mcc_overflow_refuted"
   ],
   "note": "Bit-exact binary64. Findings: the int64 product in mcc wraps for larger data (C19_mcc_overflow_refuted). Logarithmic scores over the reals."
  },
  {
   "property": "C20",
   "status": "proved",
   "theorems": [
    "C20_atoms_permutation",
    "C20_labels_permutation",
    "C20_brier_permutation",
    "C20_brier_range",
    "C20_p_top20_value",
    "C20_p_top20_refuted",
    "C20_ties_refuted"
   ],
   "note": "Findings: p_top20 ignores the probabilities (C20_p_top20_refuted); ties at 0.5 make label scores order dependent (C20_ties_refuted)."
  },
  {
   "property": "C21",
   "status": "proved",
   "theorems": [
    "C21_exact",
    "C21_small_limit_refuted",
    "C21_euclid",
    "C21_tensor"
   ],
   "note": "Finding: with a limit below columns times rows the function calls itself with the same arguments until RecursionError (C21_small_limit_refuted)."
  },
  {
   "property": "C22",
   "status": "proved",
   "theorems": [
    "C22_kneighbors",
    "C22_radius",
    "C22_ignored_refuted"
   ],
   "note": "Finding: a metric tensor given with another metric than 'precomputed' is ignored silently (C22_ignored_refuted). Fewer than k neighbours are returned silently if there are fewer rows."
  },
  {
   "property": "C23",
   "status": "proved",
   "theorems": [
    "C23_tomek",
    "C23_minority_kept",
    "C23_duplicates_refuted"
   ],
   "note": "Finding: coinciding rows of different classes are not recognised as links (C23_duplicates_refuted)."
  },
  {
   "property": "C24",
   "status": "proved",
   "theorems": [
    "C24_condensed"
   ],
   "note": ""
  },
  {
   "property": "C25",
   "status": "proved",
   "theorems": [
    "C25_enn",
    "C25_enn_other_class_kept",
    "C25_enn_small",
    "C25_ncr",
    "C25_ncr_minority_kept",
    "C25_ncr_small_refuted"
   ],
   "note": "Finding: the cleaning rule raises ValueError on fewer than four rows (C25_ncr_small_refuted)."
  },
  {
   "property": "C26",
   "status": "proved",
   "theorems": [
    "C26_cnn_tomek",
    "C26_one_sided",
    "C26_roles_swap_refuted"
   ],
   "note": "Finding: the stages recompute which class is the minority, so without the proviso minority rows can be removed (C26_roles_swap_refuted)."
  },
  {
   "property": "C27",
   "status": "proved",
   "theorems": [
    "C27_random",
    "C27_random_raises",
    "C27_driven",
    "C27_driven_farthest",
    "C27_driven_random_balanced_refuted",
    "C27_driven_nothing_new_refuted"
   ],
   "note": "Findings: driven undersampling in random mode raises on balanced data (C27_driven_random_balanced_refuted) and in every mode when nothing was generated (C27_driven_nothing_new_refuted)."
  },
  {
   "property": "C28",
   "status": "proved",
   "theorems": [
    "C28_successive",
    "C28_equalize",
    "C28_smote",
    "C28_tie_refuted",
    "C28_one_short_refuted",
    "C28_equalize_overshoots_refuted"
   ],
   "note": "Findings: ties for the largest class make both strategies raise ValueError (C28_tie_refuted); the default strategy can leave a class one row short (C28_one_short_refuted); the other strategy overshoots with three or more classes (C28_equalize_overshoots_refuted)."
  },
  {
   "property": "C29",
   "status": "proved",
   "theorems": [
    "C29_started_once",
    "C29_parallelism",
    "C29_finite",
    "C29_no_deadlock",
    "C29_results",
    "C29_sequential",
    "C29_start_failure_refuted",
    "C29_big_result_refuted",
    "C29_no_workers_refuted"
   ],
   "note": "Interleaving model; the pipe buffer, process start and process death are parameters. Findings: a failing process start blocks the call forever (C29_start_failure_refuted); a result larger than the pipe buffer blocks the call, or with a timeout is always lost (C29_big_result_refuted); with n_jobs <= 0 nothing runs and None is returned for every job (C29_no_workers_refuted)."
  },
  {
   "property": "C30",
   "status": "proved",
   "theorems": [
    "C30_slot",
    "C30_reasons",
    "C30_raises",
    "C30_crash_in_lock_refuted"
   ],
   "note": "Finding: a process dying while it holds its queue lock after its timeout blocks the call forever (C30_crash_in_lock_refuted)."
  },
  {
   "property": "C31",
   "status": "proved",
   "theorems": [
    "C31_interrupted_dump",
    "C31_truncated",
    "C31_check_total"
   ],
   "note": "json.dumps/json.loads are modelled character by character (JsonModel.v). The file system is assumed to keep a prefix of what was written."
  },
  {
   "property": "C32",
   "status": "proved",
   "theorems": [
    "C32_round_trip",
    "C32_plain"
   ],
   "note": "Contracts: float(repr(x)) = x, strings without lone surrogate pairs. Recursion and integer digit limits of Python are not modelled."
  },
  {
   "property": "C33",
   "status": "proved",
   "theorems": [
    "C33_truncated",
    "C33_raises_refuted"
   ],
   "note": "Finding: check_if_damaged raises EOFError or UnpicklingError instead of returning True (C33_raises_refuted), so that a job whose pickle file was truncated can never be run again without deleting the file."
  },
  {
   "property": "C34",
   "status": "proved",
   "theorems": [
    "C34_complete",
    "C34_damaged_or_result",
    "C34_kept",
    "C34_other_files",
    "C34_completable",
    "C34_same_files",
    "C34_same_name_refuted"
   ],
   "note": "Finding: two jobs with one file name (an oversampler listed twice) may leave a finished job without its file (C34_same_name_refuted)."
  },
  {
   "property": "C35",
   "status": "proved",
   "theorems": [
    "C35_key",
    "C35_no_mixing",
    "C35_evaluation_key",
    "C35_scaler_refuted"
   ],
   "note": "Finding: scaler, data and validator settings are not part of the key; a request differing only in these silently gets the earlier result (C35_scaler_refuted)."
  },
  {
   "property": "C36",
   "status": "proved",
   "theorems": [
    "C36_split",
    "C36_cover",
    "C36_indices",
    "C36_names",
    "C36_files",
    "C36_stale_refuted"
   ],
   "note": "Finding: fold files of an earlier validator setting in the same directory are used as well (C36_stale_refuted)."
  },
  {
   "property": "C37",
   "status": "proved",
   "theorems": [
    "C37_yielded",
    "C37_retained_refuted"
   ],
   "note": "Finding: a list of folds shares one descriptor, all showing the last indices (C37_retained_refuted); evaluate_oversamplers without cache_path keeps such folds."
  },
  {
   "property": "C38",
   "status": "proved",
   "theorems": [
    "C38_failure",
    "C38_success",
    "C38_outcome",
    "C38_unscaled_refuted"
   ],
   "note": "Finding: after a successful oversampling the classifier is trained on scaled and tested on unscaled data (C38_unscaled_refuted)."
  },
  {
   "property": "C39",
   "status": "proved",
   "theorems": [
    "C39_table",
    "C39_selection",
    "C39_loss_refuted"
   ],
   "note": "Finding: model_selection maximises log_loss and brier too (C39_loss_refuted)."
  },
  {
   "property": "C40",
   "status": "proved",
   "theorems": [
    "C40_default",
    "C40_all",
    "C40_proportion",
    "C40_metric_learning",
    "C40_simplex",
    "C40_multiclass",
    "C40_unknown_strategy_refuted",
    "C40_quickest",
    "C40_ties",
    "C40_fails",
    "C40_negative",
    "C40_registry",
    "C40_names"
   ],
   "note": "Finding: get_multiclass_oversamplers accepts any strategy and then filters nothing (C40_unknown_strategy_refuted). Runtimes are the decimal numbers of the table."
  },
  {
   "property": "C41",
   "status": "proved",
   "theorems": [
    "C41_grid_complete"
   ],
   "note": ""
  },
  {
   "property": "C42",
   "status": "proved",
   "theorems": [
    "C42_rebuild",
    "C42_usable",
    "C42_set_params_refuted",
    "C42_set_params_generator_object",
    "C42_ss_params_ignored_refuted",
    "C42_constructor",
    "C42_values",
    "C42_generator"
   ],
   "note": "Constructor and parameter handling of SMOTE. Findings: set_params(get_params()) breaks the generator (C42_set_params_refuted), ss_params is ignored by set_params (C42_ss_params_ignored_refuted)."
  },
  {
   "property": "C43",
   "status": "proved",
   "theorems": [
    "C43_adasyn",
    "C43_total",
    "C43_zero_proportion_refuted"
   ],
   "note": "Finding: proportion=0 is ignored, `proportion or beta` falls back to beta (C43_zero_proportion_refuted). Class ratio and d_th in binary64, distances and weights exact."
  },
  {
   "property": "C44",
   "status": "proved",
   "theorems": [
    "C44_border1",
    "C44_border2",
    "C44_border1_total",
    "C44_border2_total",
    "C44_nearest_refuted",
    "C44_duplicates",
    "C44_tie_refuted"
   ],
   "note": "Findings: indices[:, 1:] and the sampler both skip a column, so the nearest neighbour is never used (C44_nearest_refuted) and k_neighbors=1 duplicates rows (C44_duplicates); a tie depends on the label values (C44_tie_refuted)."
  },
  {
   "property": "C45",
   "status": "proved",
   "theorems": [
    "C45_cbso",
    "C45_cure",
    "C45_suwo",
    "C45_suwo_sparse",
    "C45_suwo_apart",
    "C45_assembled",
    "C45_cure_one_refuted"
   ],
   "note": "Finding: CURE_SMOTE(n_clusters=1) drops and merges a cluster in each iteration, so an even number of minority rows leaves no cluster (C45_cure_one_refuted). Distances exact; principal-angle test of Assembled_SMOTE an arbitrary predicate."
  },
  {
   "property": "C46",
   "status": "proved",
   "theorems": [
    "C46_shuffle",
    "C46_no_random_state"
   ],
   "note": ""
  },
  {
   "property": "C47",
   "status": "proved",
   "theorems": [
    "C47_binary",
    "C47_labels_refuted"
   ],
   "note": "Finding: labels are used as indices; labels 1, 2 raise IndexError, labels -1, 1 record wrong sizes (C47_labels_refuted)."
  },
  {
   "property": "C48",
   "status": "partial",
   "theorems": [
    "C48_entries",
    "C48_order_partial",
    "C48_timed_out_refuted"
   ],
   "note": "Refuted in general (C48_timed_out_refuted, a finding): the recorded dictionaries have the same entries but in different order unless the given parameters are the first ones of get_params(), and rows are grouped by str() of the dictionary. Proved: equal entries, and equal order exactly in that case."
  },
  {
   "property": "C49",
   "status": "proved",
   "theorems": [
    "C49_clean_up"
   ],
   "note": "Names are matched as glob does with one star."
  },
  {
   "property": "C50",
   "status": "proved",
   "theorems": [
    "C50_mask",
    "C50_uncorrelated"
   ],
   "note": "np.corrcoef is an argument (any matrix with NaN entries). A single column, for which np.corrcoef returns a scalar, is not modelled."
  },
  {
   "property": "C51",
   "status": "partial",
   "theorems": [
    "C51_lengths_partial",
    "C51_mismatch_refuted"
   ],
   "note": "Refuted (a finding): rows are selected by the negated mask, labels are counted by the mask itself (C51_mismatch_refuted). Proved: rows and labels together are as many as the rows of both classes, so the numbers agree only if exactly half of the rows are border points."
  },
  {
   "property": "C52",
   "status": "proved",
   "theorems": [
    "C52_combinations",
    "C52_triples",
    "C52_missing_name",
    "C52_smote_amsr_refuted"
   ],
   "note": "Finding: SMOTE_AMSR.get_params() has no class_name, so generate_parameter_combinations over all oversamplers raises KeyError in its default format (C52_smote_amsr_refuted, C52_missing_name)."
  },
  {
   "property": "C53",
   "status": "proved",
   "theorems": [
    "C53_parameters",
    "C53_lost_refuted",
    "C53_accepted"
   ],
   "note": "Finding: DEAGO and SOMO lose nn_params, PDFOS loses metric_learning, SPY, SYMPROD and SMOTEWB lose n_jobs when rebuilt from get_params() (C53_lost_refuted). The signatures and keys in QueryData.v are taken from the source text."
  },
  {
   "property": "C54",
   "status": "proved",
   "theorems": [
    "C54_cbso",
    "C54_cbso_total",
    "C54_cbso_small_refuted",
    "C54_cure",
    "C54_cure_one_refuted",
    "C54_assembled",
    "C54_suwo",
    "C54_suwo_prefix_refuted"
   ],
   "note": "Findings: CBSO raises when n_neighbors+1 exceeds the number of rows (C54_cbso_small_refuted); CURE_SMOTE(n_clusters=1) never samples for an even minority (C54_cure_one_refuted); A_SUWO drops original rows from its output (C54_suwo_prefix_refuted). AgglomerativeClustering and the LDA error are oracles, distances and scaling exact."
  },
  {
   "property": "C55",
   "status": "proved",
   "theorems": [
    "C55_random_smote"
   ],
   "note": "Termination without exception included. Arithmetic exact."
  },
  {
   "property": "C56",
   "status": "proved",
   "theorems": [
    "C56_safe_level",
    "C56_majority_copy_refuted"
   ],
   "note": "Finding: with no minority neighbour of p but one of n the new row is n itself, so copies of majority rows are added as minority (C56_majority_copy_refuted). Arithmetic exact."
  },
  {
   "property": "C57",
   "status": "proved",
   "theorems": [
    "C57_selected",
    "C57_percentage_ignored",
    "C57_percentage_refuted"
   ],
   "note": "Finding: the number of significant attributes is computed with min([1, ...]) instead of max, so perc_sign_attr only distinguishes 0 from more (C57_percentage_ignored) and with 1.0 not all attributes vary (C57_percentage_refuted). Arithmetic exact."
  },
  {
   "property": "C58",
   "status": "proved",
   "theorems": [
    "C58_smote_out",
    "C58_smote_cosine",
    "C58_bound"
   ],
   "note": "Both neighbour searches are oracles. Arithmetic exact."
  },
  {
   "property": "C59",
   "status": "proved",
   "theorems": [
    "C59_ndo",
    "C59_count",
    "C59_exact_count_refuted"
   ],
   "note": "Finding: the exact count may be exceeded by one (C59_exact_count_refuted). Arithmetic exact."
  },
  {
   "property": "C60",
   "status": "proved",
   "theorems": [
    "C60_polynom",
    "C60_hull",
    "C60_count",
    "C60_length",
    "C60_exact_count_refuted"
   ],
   "note": "Finding: the requested count is not met in general (C60_exact_count_refuted). Topologies poly and mesh not modelled. Arithmetic exact."
  },
  {
   "property": "C61",
   "status": "proved",
   "theorems": [
    "C61_smote_d",
    "C61_hull",
    "C61_exact_count_refuted"
   ],
   "note": "Finding: the requested count is not met in general, even 0 rows are possible (C61_exact_count_refuted). np.std is a non-negative oracle. Arithmetic exact."
  },
  {
   "property": "C62",
   "status": "proved",
   "theorems": [
    "C62_tomek",
    "C62_tomek_sub",
    "C62_tomek_one_class_refuted",
    "C62_enn",
    "C62_enn_sub",
    "C62_enn_lost_refuted"
   ],
   "note": "Findings: SMOTE_TomekLinks may remove a whole class (C62_tomek_one_class_refuted); SMOTE_ENN may silently return the input (C62_enn_lost_refuted). Ties: which of several mutually nearest rows is linked is up to the neighbour search. Arithmetic exact."
  },
  {
   "property": "C63",
   "status": "proved",
   "theorems": [
    "C63_rsb",
    "C63_rectangular",
    "C63_exact_count_refuted"
   ],
   "note": "The levels are the binary64 values 0.4 + i*0.05 accumulated as in the code, within 1e-15 of the stated ones. With Gaussian noise in ss_params the dimension of SMOTE's rows is an assumption. Finding: proportions above 1 have no effect on the count (C63_exact_count_refuted). Arithmetic exact."
  },
  {
   "property": "C64",
   "status": "proved",
   "theorems": [
    "C64_spy",
    "C64_only_majority",
    "C64_threshold_one",
    "C64_threshold_refuted"
   ],
   "note": "Finding: the threshold is compared with n_neighbors + 1 although only n_neighbors rows are counted (C64_threshold_refuted)."
  },
  {
   "property": "C65",
   "status": "proved",
   "theorems": [
    "C65_stefanowski",
    "C65_keeps",
    "C65_vote_refuted"
   ],
   "note": "Finding: whether most of the five neighbours agree is decided by the mode over the first neighbours of all noisy rows instead of per row (C65_vote_refuted)."
  },
  {
   "property": "C66",
   "status": "proved",
   "theorems": [
    "C66_sundo",
    "C66_bound",
    "C66_balance_refuted"
   ],
   "note": "np.std is an oracle. Finding: the result is not balanced in general (C66_balance_refuted). Arithmetic exact."
  },
  {
   "property": "C67",
   "status": "proved",
   "theorems": [
    "C67_ipf",
    "C67_zero_refuted",
    "C67_labels",
    "C67_labels_refuted",
    "C67_consensus",
    "C67_consensus_few",
    "C67_consensus_refuted"
   ],
   "note": "Classifiers are an oracle returning one prediction vector per fold, a function of the current data (random_state is fixed). Findings: p = 0 is accepted but never ends (C67_zero_refuted); majority voting removes every row with a label other than 0 or 1 (C67_labels, C67_labels_refuted); consensus voting never removes a row labelled 1 (C67_consensus, C67_consensus_refuted) and nothing if there are fewer minority rows than folds (C67_consensus_few). Arithmetic exact."
  },
  {
   "property": "C68",
   "status": "proved",
   "theorems": [
    "C68_supervised",
    "C68_within",
    "C68_threshold_refuted"
   ],
   "note": "The classifier's probability is an oracle. Simplex sampling random or deterministic as in C05. Finding: rows outside [th_lower, th_upper] are added (C68_threshold_refuted). Arithmetic exact."
  },
  {
   "property": "C69",
   "status": "proved",
   "theorems": [
    "C69_distance_smote"
   ],
   "note": "Arithmetic exact; simplex sampling random or deterministic as in C05, no Gaussian component."
  },
  {
   "property": "C70",
   "status": "proved",
   "theorems": [
    "C70_nt_smote",
    "C70_fails"
   ],
   "note": "C70_fails: the ValueError is scikit-learn's rejection of more neighbours than rows, modelled in dim_neighbours. Arithmetic exact; simplex sampling random or deterministic as in C05, no Gaussian component."
  },
  {
   "property": "C71",
   "status": "proved",
   "theorems": [
    "C71_rwo",
    "C71_rose",
    "C71_gaussian_smote"
   ],
   "note": "np.std and the bandwidth's root are oracles. RWO_sampling for n_dim at most the number of minority rows. Arithmetic exact; simplex sampling random or deterministic as in C05, no Gaussian component."
  },
  {
   "property": "C72",
   "status": "proved",
   "theorems": [
    "C72_sdsmote",
    "C72_density_ignored"
   ],
   "note": "Finding: calculate_density takes the len of the list of results per query, which is always 1 (C72_density_ignored). Arithmetic exact; simplex sampling random or deterministic as in C05, no Gaussian component."
  },
  {
   "property": "C73",
   "status": "proved",
   "theorems": [
    "C73_ismote",
    "C73_copies",
    "C73_hull_refuted"
   ],
   "note": "Findings: the nearest neighbour is skipped twice, so n_neighbors = 1 only copies (C73_copies); weights above 1 are accepted and leave the hull (C73_hull_refuted). Arithmetic exact; simplex sampling random or deterministic as in C05, no Gaussian component."
  },
  {
   "property": "C74",
   "status": "proved",
   "theorems": [
    "C74_nras",
    "C74_unchanged",
    "C74_t_one",
    "C74_noise_refuted"
   ],
   "note": "The propensity scores are an oracle. Findings: rows dropped as noise still serve as vertices (C74_noise_refuted, an assignment to a copy); t is compared with n_neighbors + 1 (C74_t_one). Arithmetic exact; simplex sampling random or deterministic as in C05, no Gaussian component."
  },
  {
   "property": "C75",
   "status": "proved",
   "theorems": [
    "C75_sn_smote",
    "C75_one_neighbour_refuted"
   ],
   "note": "Findings: the loop over centroid neighbours assigns to copies, so only the nearest neighbour is used; n_neighbors = 1 raises IndexError (C75_one_neighbour_refuted). Arithmetic exact; simplex sampling random or deterministic as in C05, no Gaussian component."
  },
  {
   "property": "C76",
   "status": "proved",
   "theorems": [
    "C76_smmo",
    "C76_other_label"
   ],
   "note": "The ensemble's predictions are an oracle. Finding: labels other than 0 and 1 select every minority row (C76_other_label). Arithmetic exact; simplex sampling random or deterministic as in C05, no Gaussian component."
  },
  {
   "property": "C77",
   "status": "proved",
   "theorems": [
    "C77_ln_smote",
    "C77_within",
    "C77_one_neighbour"
   ],
   "note": "Finding: n_neighbors = 1 passes the constructor's check but nothing is generated (C77_one_neighbour). Arithmetic exact."
  },
  {
   "property": "C78",
   "status": "proved",
   "theorems": [
    "C78_lee",
    "C78_level_stays",
    "C78_fraction_refuted"
   ],
   "note": "Finding: the count is divided by n_neighbors although min(n_min, n_neighbors) neighbours are looked at, so rows surrounded by the majority are accepted (C78_fraction_refuted). Fuel n + 71 suffices. Simplex sampling as in C05."
  },
  {
   "property": "C79",
   "status": "proved",
   "theorems": [
    "C79_prowsyn",
    "C79_partition",
    "C79_levels",
    "C79_distinct_levels_refuted"
   ],
   "note": "Finding: the rows left over share level L with the last regular cluster (C79_distinct_levels_refuted). exp is any positive function. Simplex sampling as in C05."
  },
  {
   "property": "C80",
   "status": "proved",
   "theorems": [
    "C80_gazzah",
    "C80_keeps",
    "C80_minority_refuted"
   ],
   "note": "PCA is an oracle with contract pca_ok (centred scores, error for more components than rows). Finding: the minority rows themselves are lost (C80_minority_refuted)."
  },
  {
   "property": "C81",
   "status": "proved",
   "theorems": [
    "C81_msmote",
    "C81_hull_refuted"
   ],
   "note": "Finding: new rows may lie toward majority rows, outside the minority's hull (C81_hull_refuted). Arithmetic exact."
  },
  {
   "property": "C82",
   "status": "proved",
   "theorems": [
    "C82_cluster_smote",
    "C82_one_neighbour"
   ],
   "note": "The clustering is an oracle returning a label per row. Finding: n_neighbors counts the row itself, so n_neighbors = 1 copies (C82_one_neighbour). Simplex sampling as in C05."
  },
  {
   "property": "C83",
   "status": "proved",
   "theorems": [
    "C83_kmeans_smote"
   ],
   "note": "The clustering is an oracle returning a label per row; nonnegative distances. Simplex sampling as in C05."
  },
  {
   "property": "C84",
   "status": "proved",
   "theorems": [
    "C84_ce_smote",
    "C84_matching_refuted"
   ],
   "note": "Finding: the matching of cluster names is the identity (only the clusters named k - 1 are renamed, to 0, 1, .. and in the end back to k - 1), so equal partitions with other names count as disagreements (C84_matching_refuted). The missing return for nothing requested does not change the outcome. Simplex sampling as in C05."
  },
  {
   "property": "C85",
   "status": "proved",
   "theorems": [
    "C85_nrs_boundary",
    "C85_distance_kept",
    "C85_total_refuted"
   ],
   "note": "Finding: if every batch conflicts, ValueError from stacking an empty list (C85_total_refuted); fewer rows than requested may come back. Radius search is an oracle with contract within_ok. Simplex sampling as in C05."
  },
  {
   "property": "C86",
   "status": "proved",
   "theorems": [
    "C86_ans",
    "C86_small",
    "C86_separated"
   ],
   "note": "Finding: C is a number of rows, not the threshold c, so small or well separated data is never oversampled (C86_small, C86_separated). Radius search is an oracle with contract within_ok. Simplex sampling as in C05."
  },
  {
   "property": "C87",
   "status": "proved",
   "theorems": [
    "C87_isomap",
    "C87_never_cleans"
   ],
   "note": "The embedding is an oracle returning one row per input row. The test for too few rows is on sum(y) and sum(y == 0), not on the class sizes (C87_never_cleans). Simplex sampling as in C05, cleaning as in C25."
  },
  {
   "property": "C88",
   "status": "proved",
   "theorems": [
    "C88_sl_graph",
    "C88_renaming",
    "C88_names_refuted"
   ],
   "note": "Finding: the choice depends on the names of the classes (C88_names_refuted). The skewness of equal numbers is NaN, compared like 0."
  },
  {
   "property": "C89",
   "status": "proved",
   "theorems": [
    "C89_svm_balance",
    "C89_labels_refuted"
   ],
   "note": "Finding: the labels of input rows are replaced (C89_labels_refuted). Scaler, cross validation and classifier are oracles."
  },
  {
   "property": "C90",
   "status": "proved",
   "theorems": [
    "C90_msyn",
    "C90_enough"
   ],
   "note": "Distinct rows are assumed, so that the first neighbour of a row is itself. C90_enough is about IEEE doubles."
  },
  {
   "property": "C91",
   "status": "proved",
   "theorems": [
    "C91_edge_det",
    "C91_bases"
   ],
   "note": "The square root is an oracle: nonnegative, positive on positive numbers."
  },
  {
   "property": "C92",
   "status": "proved",
   "theorems": [
    "C92_mct",
    "C92_copies"
   ],
   "note": "Euclidean lengths are an oracle: nonnegative. Simplex sampling as in C05."
  },
  {
   "property": "C93",
   "status": "proved",
   "theorems": [
    "C93_ahc",
    "C93_recursion_refuted"
   ],
   "note": "Finding: RecursionError for deep dendrograms (C93_recursion_refuted); the model has the remaining recursion limit as an argument. The dendrogram is an oracle with contract dendrogram, k-means one returning k centres."
  },
  {
   "property": "C94",
   "status": "proved",
   "theorems": [
    "C94_lle",
    "C94_weights",
    "C94_hull_refuted"
   ],
   "note": "Finding: new rows outside the hull of the minority (C94_hull_refuted). The embedding is an oracle, the solver one with contract solver_ok; without Gaussian noise."
  },
  {
   "property": "C95",
   "status": "proved",
   "theorems": [
    "C95_no_smote"
   ],
   "note": ""
  },
  {
   "property": "C96",
   "status": "proved",
   "theorems": [
    "C96_adoms",
    "C96_step",
    "C96_hull_refuted"
   ],
   "note": "Finding: new rows outside the hull of the minority (C96_hull_refuted). Norm and principal direction are oracles."
  },
  {
   "property": "C97",
   "status": "proved",
   "theorems": [
    "C97_de",
    "C97_keeps_refuted"
   ],
   "note": "Finding: original rows removed (C97_keeps_refuted). k-means is an oracle: one of k labels per row and k centres."
  },
  {
   "property": "C98",
   "status": "proved",
   "theorems": [
    "C98_lvq"
   ],
   "note": "k-means is an oracle with contract kmeans_ok; the norm is any function."
  },
  {
   "property": "C99",
   "status": "proved",
   "theorems": [
    "C99_g_smote",
    "C99_axis_refuted"
   ],
   "note": "Finding: a row instead of a column of the eigenvector matrix (C99_axis_refuted). Linear method; the inverse cosine is any function decreasing on nonnegative numbers, NaN above 1 by rounding is not modelled."
  },
  {
   "property": "C100",
   "status": "proved",
   "theorems": [
    "C100_mdo",
    "C100_returns_refuted",
    "C100_distance_refuted"
   ],
   "note": "Findings: ValueError without minority neighbours (C100_returns_refuted), points outside the ellipsoid (C100_distance_refuted). The root is an oracle: nonnegative, its square at most the argument."
  },
  {
   "property": "C101",
   "status": "proved",
   "theorems": [
    "C101_oups",
    "C101_next_refuted"
   ],
   "note": "Finding: ranks wrap past the end (C101_next_refuted). The propensity ranking is an oracle: a permutation of the rows."
  },
  {
   "property": "C102",
   "status": "proved",
   "theorems": [
    "C102_and_smote"
   ],
   "note": "Nearest neighbours are an oracle with contract knn_ok."
  },
  {
   "property": "C103",
   "status": "proved",
   "theorems": [
    "C103_ccr",
    "C103_no_energy",
    "C103_number_refuted",
    "C103_budget_refuted",
    "C103_cleaned_refuted",
    "C103_ball_refuted"
   ],
   "note": "Findings: the number of rows (C103_number_refuted), the cost of the balls (C103_budget_refuted), unmoved majority rows (C103_cleaned_refuted), rows outside the ball (C103_ball_refuted), ValueError without energy (C103_no_energy). energy * dim ** scaling is one number in the model."
  },
  {
   "property": "C104",
   "status": "proved",
   "theorems": [
    "C104_smobd",
    "C104_threshold",
    "C104_noise_refuted"
   ],
   "note": "Finding: the noise threshold is dead (C104_threshold, C104_noise_refuted). OPTICS is an oracle: one core distance and one reachability per row, the row it starts with having none, or ValueError."
  },
  {
   "property": "C105",
   "status": "proved",
   "theorems": [
    "C105_e_smote",
    "C105_best_columns",
    "C105_seed_refuted"
   ],
   "note": "Findings: columns are dropped from the result; the random state does not fix it (C105_seed_refuted). The classifier's accuracy is an oracle; the fill loop needs draws that reach every column (covers)."
  },
  {
   "property": "C106",
   "status": "proved",
   "theorems": [
    "C106_gasmote",
    "C106_search",
    "C106_maxn_one",
    "C106_second_child",
    "C106_mutation",
    "C106_balance_refuted"
   ],
   "note": "Findings: C106_balance_refuted, C106_second_child, C106_mutation. Fitness predictions and the power r ** ((1 - ge/Ge) ** b) are oracles; power_ok is exact arithmetic, float rounding of the power to 1 is not modelled."
  },
  {
   "property": "C107",
   "status": "proved",
   "theorems": [
    "C107_sso",
    "C107_one_unit",
    "C107_number_refuted"
   ],
   "note": "Findings: the number of rows (C107_number_refuted), ValueError with one hidden unit (C107_one_unit). The network sensitivity and the spread Q are oracles."
  },
  {
   "property": "C108",
   "status": "proved",
   "theorems": [
    "C108_trim_smote"
   ],
   "note": "Nearest neighbours are an oracle with contract knn_ok."
  },
  {
   "property": "C109",
   "status": "proved",
   "theorems": [
    "C109_mwmote",
    "C109_zero"
   ],
   "note": "Finding: ValueError with cf_th = 0 or cmax = 0 (C109_zero). Row norms and k-means are oracles; the data have at least one column."
  },
  {
   "property": "C110",
   "status": "proved",
   "theorems": [
    "C110_bellman_ford",
    "C110_dbsmote",
    "C110_copies"
   ],
   "note": "Finding: the graph keeps the original eps when DBSCAN is retried with a larger one (C110_copies). DBSCAN is an oracle with contract dbscan_ok."
  },
  {
   "property": "C111",
   "status": "proved",
   "theorems": [
    "C111_neater",
    "C111_labels_refuted"
   ],
   "note": "Finding: labels 0 and 1 whatever the data (C111_labels_refuted); with minority 0 and majority 1 the rows among minority rows join the majority (C111_swapped_example)."
  },
  {
   "property": "C112",
   "status": "proved",
   "theorems": [
    "C112_vis_rst",
    "C112_labels_refuted"
   ],
   "note": "Finding: labels of original rows change in the result (C112_labels_refuted)."
  },
  {
   "property": "C113",
   "status": "proved",
   "theorems": [
    "C113_clusters",
    "C113_soi_cj",
    "C113_separated",
    "C113_lost_refuted"
   ],
   "note": "Findings: separated classes are never oversampled (C113_separated); rows of runs get lost since the merging indexes the list by a position in its rest (C113_lost_refuted). Termination of the merging is not claimed: the model has fuel and OutOfFuel is a separate outcome. The majority test of merging is an oracle."
  },
  {
   "property": "C114",
   "status": "proved",
   "theorems": [
    "C114_symprod",
    "C114_nan_refuted"
   ],
   "note": "Findings: neighbourhoods are those of the first selected row (np.take without axis); division by zero (C114_nan_refuted). Dirichlet draws are positive rationals."
  },
  {
   "property": "C115",
   "status": "proved",
   "theorems": [
    "C115_smotewb",
    "C115_count_refuted"
   ],
   "note": "Boosted decision trees are an oracle (one weight per row). Finding: with a single row that is not noise fewer rows than asked for are appended (C115_count_refuted)."
  },
  {
   "property": "C116",
   "status": "proved",
   "theorems": [
    "C116_frst"
   ],
   "note": "Distances behind nn are an oracle; the city block distance is computed. The closeness claims hold without Gaussian noise in the simplex sampling (ss_gauss = GNone)."
  },
  {
   "property": "C117",
   "status": "proved",
   "theorems": [
    "C117_somo"
   ],
   "note": "The self organising map is an oracle: any function from rows to cells."
  },
  {
   "property": "C118",
   "status": "proved",
   "theorems": [
    "C118_v_synth",
    "C118_minority_end_refuted"
   ],
   "note": "Findings: labels are compared at positions of another array (C118_minority_end_refuted), only the lower corner of the bounding box is added (boxed), n_components = 1 raises UnboundLocalError. PCA and Voronoi are oracles with contracts."
  },
  {
   "property": "C119",
   "status": "proved",
   "theorems": [
    "C119_dsmote",
    "C119_box"
   ],
   "note": "Geometric mean and score are oracles with contracts; one-column data, where None would be stacked as an object, is excluded."
  },
  {
   "property": "C120",
   "status": "proved",
   "theorems": [
    "C120_amsr"
   ],
   "note": "The isolation forest is an oracle: any score function."
  },
  {
   "property": "C121",
   "status": "proved",
   "theorems": [
    "C121_pdfos",
    "C121_flat"
   ],
   "note": "Eigenvectors, bandwidth and normal numbers are oracles of which only the shapes are assumed."
  },
  {
   "property": "C122",
   "status": "proved",
   "theorems": [
    "C122_kernel_adasyn",
    "C122_originals_refuted"
   ],
   "note": "Density, condition number, Cholesky factor, normal numbers and PCA are oracles with contracts. Finding: after a PCA reduction the original rows come back changed (C122_originals_refuted)."
  },
  {
   "property": "C123",
   "status": "proved",
   "theorems": [
    "C123_mot2ld",
    "C123_noise_refuted"
   ],
   "note": "t-SNE, the search for peaks and the order of sets are oracles with contracts. Finding: noise is deleted at the wrong positions (C123_noise_refuted)."
  },
  {
   "property": "C124",
   "status": "proved",
   "theorems": [
    "C124_deago"
   ],
   "note": "The autoencoder is an oracle: any function into rows of the right length."
  },
  {
   "property": "C125",
   "status": "proved",
   "theorems": [
    "C125_asmobd",
    "C125_sigmoid_refuted"
   ],
   "note": "OPTICS and the sigmoid are oracles. Findings: sigmoid smoothing can fail with ValueError (C125_sigmoid_refuted); t_1 and t_2 have no influence, as the reachabilities always contain infinity."
  },
  {
   "property": "C126",
   "status": "proved",
   "theorems": [
    "C126_ipade_id",
    "C126_extends_refuted",
    "C126_copies_refuted"
   ],
   "note": "Trees and scores are oracles with contracts; termination assumes scores in steps of 1/N. Findings: the result does not contain the data (C126_extends_refuted); the fallback returns scaled rows (C126_copies_refuted)."
  },
  {
   "property": "C127",
   "status": "proved",
   "theorems": [
    "C127_smote_pso",
    "C127_balanced_refuted"
   ],
   "note": "Support vectors, norm and classifier score are oracles with contracts. Finding: the minority can become the larger class (C127_balanced_refuted)."
  },
  {
   "property": "C128",
   "status": "proved",
   "theorems": [
    "C128_psobat",
    "C128_calls",
    "C128_best_refuted",
    "C128_bats_refuted",
    "C128_stateless_refuted"
   ],
   "note": "The predictions of the cross validation are an oracle with a contract. Findings: the best settings are replaced by less accurate ones (C128_best_refuted); bats return the wrong bat, as a position among the selected is used among all (C128_bats_refuted); the range of neighbours shrinks for all later calls (C128_stateless_refuted); alpha and gamma have no effect, as the pulse rates are updated on copies."
  },
  {
   "property": "C129",
   "status": "proved",
   "theorems": [
    "C129_amsco",
    "C129_fails_refuted",
    "C129_kept_refuted",
    "C129_new_refuted"
   ],
   "note": "Kappa and accuracy of the trees are an oracle. Findings: if every prediction is the majority, TypeError is raised (C129_fails_refuted); given rows disappear (C129_kept_refuted); SMOTE extends the majority if fewer majority rows were kept, and its rows count as minority (C129_new_refuted)."
  },
  {
   "property": "C130",
   "status": "proved",
   "theorems": [
    "C130_dsrbf",
    "C130_epochs_refuted",
    "C130_one_neuron_refuted",
    "C130_labels_refuted"
   ],
   "note": "Neurons, their random changes, the center improvement and the loss are oracles; int(0.1 * n_pop) is computed without rounding. Findings: fewer iterations than epochs fail with ZeroDivisionError (C130_epochs_refuted); m_min = 1 can fail with ValueError (C130_one_neuron_refuted); the losses are NaN without the labels 0 and 1, and the selection then ignores them (C130_labels_refuted)."
  },
  {
   "property": "C131",
   "status": "proved",
   "theorems": [
    "C131_adg",
    "C131_stops",
    "C131_number_refuted",
    "C131_labels_refuted",
    "C131_source_refuted",
    "C131_kept_refuted"
   ],
   "note": "Clustering, solution of the system, kernel, mixture and PCA are oracles with contracts. Findings: more rows than asked for, and not after the given ones (C131_number_refuted); with labels other than 0 and 1 the minority is lost (C131_labels_refuted); with minority label 0 the new rows come from the majority (C131_source_refuted); a projection changes the given rows (C131_kept_refuted)."
  },
  {
   "property": "C132",
   "status": "proved",
   "theorems": [
    "C132_mesh",
    "C132_hull",
    "C132_pair",
    "C132_copies_refuted"
   ],
   "note": "Partners are drawn by an oracle. Finding: a row may be its own partner, the new row is then a copy (C132_copies_refuted)."
  },
  {
   "property": "C133",
   "status": "proved",
   "theorems": [
    "C133_curve",
    "C133_order",
    "C133_line_refuted",
    "C133_range_refuted",
    "C133_ties_refuted"
   ],
   "note": "polyfit is an oracle required to be a least squares fit; argsort any sorting routine. Findings: the columns are evaluated at different parameters, so new rows leave the curve and the hull (C133_line_refuted); the parameter exceeds the last row (C133_range_refuted); ties of the means make the result depend on the order of rows (C133_ties_refuted)."
  },
  {
   "property": "C134",
   "status": "proved",
   "theorems": [
    "C134_construct",
    "C134_fit",
    "C134_failed_fit",
    "C134_set_params",
    "C134_unknown_parameter_refuted",
    "C134_fitted_state_refuted",
    "C134_failed_set_refuted"
   ],
   "note": "Findings: unknown parameter names are accepted without effect (C134_unknown_parameter_refuted); set_params loses the fitted classifier and keeps classes_ (C134_fitted_state_refuted); a failing set_params leaves new parameters with old objects (C134_failed_set_refuted)."
  },
  {
   "property": "C135",
   "status": "proved",
   "theorems": [
    "C135_sqrt",
    "C135_share",
    "C135_fit",
    "C135_copy",
    "C135_copy_refuted",
    "C135_string_refuted"
   ],
   "note": "Training is a function of parameters, size and data, so random_state is an integer, not a shared generator. Findings: a copy loses max_iter (C135_copy_refuted); a number given as string is repeated (C135_string_refuted)."
  },
  {
   "property": "C136",
   "status": "proved",
   "theorems": [
    "C136_fit",
    "C136_predict_refuted"
   ],
   "note": "Finding: predict returns nothing (C136_predict_refuted)."
  },
  {
   "property": "C137",
   "status": "proved",
   "theorems": [
    "C137_get",
    "C137_set"
   ],
   "note": "The default of the chunk size and of the two switches is part of the statement."
  },
  {
   "property": "C138",
   "status": "proved",
   "theorems": [
    "C138_two",
    "C138_more",
    "C138_distinct",
    "C138_two_labels_refuted",
    "C138_second_plot_refuted"
   ],
   "note": "Findings: two classes other than 0 and 1 get the same name (C138_two_labels_refuted); plotting relabels the caller's table, a second plot shows one class (C138_second_plot_refuted)."
  },
  {
   "property": "C139",
   "status": "proved",
   "theorems": [
    "C139_table",
    "C139_presence",
    "C139_flag",
    "C139_projection_refuted",
    "C139_resampled_flag_refuted",
    "C139_rounding_refuted"
   ],
   "note": "Findings: with fewer coordinates than columns a new row may be flagged untouched (C139_projection_refuted); resampled_flag is false for rows whose number has changed (C139_resampled_flag_refuted); rows that agree to four decimals are merged (C139_rounding_refuted)."
  },
  {
   "property": "C140",
   "status": "proved",
   "theorems": [
    "C140_fix_pd_matrix",
    "C140_eigenvectors",
    "C140_psd_mean",
    "C140_inverse",
    "C140_reverse_matrix",
    "C140_reverse_ties_refuted"
   ],
   "note": "Real arithmetic; eigh and inv are oracles with the contract of an eigendecomposition and of an inverse. Finding: with equal eigenvalues reverse_matrix changes the trace, 1, 1, 2 become 2, 2, 1 (C140_reverse_ties_refuted)."
  },
  {
   "property": "C141",
   "status": "proved",
   "theorems": [
    "C141_construct_tensor"
   ],
   "note": "Real arithmetic; eigh, the permutation and the regression are oracles with contracts. The score returned besides is not modelled."
  },
  {
   "property": "C142",
   "status": "proved",
   "theorems": [
    "C142_dissimilarity_matrix",
    "C142_metric",
    "C142_transform_kneighbors",
    "C142_fit_only",
    "C142_refit_refuted"
   ],
   "note": "A forest is the function from rows to lists of leaves. Finding: fit keeps the leaves stored for the previous forest, so a row may differ from itself (C142_refit_refuted)."
  },
  {
   "property": "C143",
   "status": "proved",
   "theorems": [
    "C143_learners",
    "C143_all_rows",
    "C143_identity",
    "C143_cov_min",
    "C143_cov_min_refuted",
    "C143_unknown",
    "C143_itml_mi_refuted"
   ],
   "note": "Learners are oracles, NCA a deterministic one. Findings: ITML_mi and gmean train NCA, gmean averages a tensor with itself (C143_learners); cov_min may use the larger class (C143_cov_min_refuted); the tensor of ITML_mi need not be symmetric or nonnegative (C143_itml_mi_refuted)."
  },
  {
   "property": "C144",
   "status": "proved",
   "theorems": [
    "C144_discrete_variable_mask",
    "C144_not_normalized",
    "C144_normalized"
   ],
   "note": "Exact arithmetic. Finding, part of the statement: without any information the weights are nan."
  },
  {
   "property": "C145",
   "status": "proved",
   "theorems": [
    "C145_given",
    "C145_learned",
    "C145_none",
    "C145_documented_refuted"
   ],
   "note": "Finding: the docstrings of the oversamplers name the key metric_learning, with which no tensor is learned (C145_documented_refuted)."
  },
  {
   "property": "C146",
   "status": "proved",
   "theorems": [
    "C146_k_smote",
    "C146_method",
    "C146_positive_refuted",
    "C146_kernel",
    "C146_gaussian_refuted"
   ],
   "note": "Exact arithmetic: overflow of the exponential is not modelled. Findings: the matrix decomposed has entries that grow with the distance, the negative sign its comment mentions is missing (C146_gaussian_refuted); non-linear_nan passes the check that s is positive (C146_positive_refuted)."
  },
  {
   "property": "C147",
   "status": "proved",
   "theorems": [
    "C147_score",
    "C147_above",
    "C147_total",
    "C147_identical_refuted",
    "C147_returns_refuted"
   ],
   "note": "Real arithmetic instead of binary64. Findings: the comment that dropping the squares has an identical effect is false (C147_identical_refuted); when all rows of each class are equal and the class means agree the ratio is 0/0, no candidate beats the initial score and sampling fails with ValueError (C147_returns_refuted)."
  },
  {
   "property": "C148",
   "status": "proved",
   "theorems": [
    "C148_second",
    "C148_first",
    "C148_sensitivity",
    "C148_unique",
    "C148_widths_refuted",
    "C148_columns_refuted",
    "C148_fitted_refuted"
   ],
   "note": "Real arithmetic; a mean over a cube is an iterated Riemann integral (Coquelicot), unique by C148_unique. Findings: the first formula is not the mean of the network that the second one squares, not for widths other than 1 (C148_widths_refuted) nor for several columns (C148_columns_refuted); and the weights were fitted to units exp(-d^2/v^2) whereas both formulas assume exp(-d^2/(2 v^2)) (C148_fitted_refuted)."
  },
  {
   "property": "C149",
   "status": "proved",
   "theorems": [
    "C149_chain",
    "C149_width",
    "C149_criterion",
    "C149_covariance",
    "C149_bandwidth_refuted",
    "C149_gaussian_refuted"
   ],
   "note": "Real arithmetic. Findings: h acts as a variance although the density divides by h as a standard deviation (C149_bandwidth_refuted); scipy's expit where the criterion needs exp makes PDFOS choose a width that does not minimise the criterion (C149_gaussian_refuted); the width is not squared in the covariance (C149_covariance)."
  },
  {
   "property": "C150",
   "status": "proved",
   "theorems": [
    "C150_works",
    "C150_add",
    "C150_delete",
    "C150_mutate",
    "C150_clone",
    "C150_structure",
    "C150_reset",
    "C150_identical_refuted"
   ],
   "note": "Real arithmetic; random numbers are arguments. Findings: the clone is not \"an identical neuron\" as documented, even with the same output weight (C150_identical_refuted), since the constructor stores the columns passed to it in an attribute nobody reads; the evolution of the structure is therefore undone in each step (C150_structure, C150_reset)."
  },
  {
   "property": "C151",
   "status": "proved",
   "theorems": [
    "C151_ball",
    "C151_tensor",
    "C151_merges_refuted",
    "C151_covers_refuted"
   ],
   "note": "Exact arithmetic on squared distances; the search without a tensor is the Euclidean one. Instance of the oracle in C113. Findings: the Euclidean radius is compared with distances of the tensor (C151_merges_refuted); the ball does not cover the clusters (C151_covers_refuted)."
  },
  {
   "property": "C152",
   "status": "proved",
   "theorems": [
    "C152_defined",
    "C152_dependent",
    "C152_order",
    "C152_affine",
    "C152_square",
    "C152_volumes",
    "C152_edge",
    "C152_thin",
    "C152_distinct_refuted"
   ],
   "note": "Exact arithmetic in a real closed field (mathcomp); rounding can make the determinant negative and the volume NaN. Finding: sampling by volume has no weight to choose by as soon as there are more edges than columns (C152_thin, C152_distinct_refuted)."
  },
  {
   "property": "C153",
   "status": "proved",
   "theorems": [
    "C153_never",
    "C153_always",
    "C153_clustering",
    "C153_two",
    "C153_left_refuted"
   ],
   "note": "The outcome of the ball test is constant in the theorems on termination; for outcomes that vary from pair to pair termination is not proved. Findings: the emptied cluster is written to the position counted from the rest of the list, so that the union of the first two clusters is lost (C153_two) and no cluster may be left (C153_left_refuted)."
  }
 ]
}