# Formal model of smote_variants: design

## Trusted base

* Coq 8.16.1's kernel (and `coqchk`).
* The axioms printed by `Print Assumptions` next to each theorem (see
  "Assumptions per theorem" at the end of this file).  No axiom is declared in
  `/verif/rocq`; the only ones that can occur come from Coq's standard library
  (`Coq.Reals`, `Coq.Logic`).
* The correspondence between the Python source and the Gallina model.  Each
  definition cites file and lines in `/repo`.

## Modelling conventions

* A numpy matrix is a `list (list Q)`, labels are `Z`, index arrays are
  `list nat`.  Feature arithmetic is exact rational arithmetic; rounding of
  feature values is *not* modelled.  Where rounding decides the observable
  behaviour (how many samples are generated) IEEE binary64 is modelled bit
  exactly with Coq's `SpecFloat`, and reasoned about through Flocq.
* Exceptions are values of a sum type `res`.
* Randomness: each draw is an explicit argument, constrained only by numpy's
  documented range (a `choice` with `p` returns indices with positive
  probability; `random_sample` returns numbers in [0,1)).  Theorems quantify
  over all draws.
* External algorithms (scikit-learn nearest neighbours, k-means, classifiers,
  fold generators) are function arguments, constrained by stated contracts
  (e.g. `knn_ok`), which a concrete brute-force implementation is proved to
  satisfy so that the hypotheses are inhabited.
* Loops whose termination is in question use fuel with an explicit out-of-fuel
  result; the theorem states that enough fuel exists.
* Concurrency: small-step transition relation, theorems over all reachable
  states and all maximal executions.
* Files: byte content; a crash leaves an arbitrary prefix of the data written.

A property that is false of the faithful model is reported as a theorem whose
name ends in `_refuted`, with a concrete witness, next to the strongest
positive statement that does hold.

## Plan per property

| id | modelled | proof idea |
|----|----------|------------|
| C01 | `class_label_statistics` via sorted-unique with counts | induction on label list |
| C02 | `det_n_to_sample` on `SpecFloat` binary64 | Flocq: exactness of multiplication by 1.0, monotonicity of rounding |
| C03-C05 | `sample`, `SMOTE.sampling_algorithm`, `sample_simplex` for all modes | compositional length/prefix/hull lemmas |
| C06 | `sample` and its checks | case analysis |
| C07 | `itertools.combinations`, tile/repeat, flat indexing | induction; bijection with strictly increasing sublists |
| C08 | `determine_weights`, `all_simplices_node_weights`, `simplices` | alignment of `repeat`ed blocks |
| C09 | `deterministic_sample` with `linspace`/`floor` removal | ceil sums; strict monotonicity of removal indices |
| C10, C11 | `deterministic_samples_dim_2`, `add_samples`, `reweight_simplex_vertices` | counting by multiplicity; refutation for swapped rows |
| C12 | in-place update as state transformer on the array | add/sub cancel |
| C13, C14, C17 | `fix_density`, `vector_choice`, `mode` | direct |
| C15 | `check_*` | case analysis |
| C16 | association-list dictionaries, nested values | induction; refutation of totality of `equal_dicts` |
| C18-C20 | `_metrics.py` over Q and R (sqrt, ln) | nra / Cauchy-Schwarz; refutation for p_top20 |
| C21, C22 | `_metrictensor.py` recursion with fuel; argsort neighbours | block induction; refutation of termination |
| C23-C26 | `noise_removal/` with neighbour oracle | sublist + membership; refutations of composites |
| C27 | `undersampling/` | permutation arguments |
| C28 | `_multiclassoversampling.py` with float proportions | exact in Q; Flocq error bound; refutations |
| C29, C30 | `_parallelization.py` as transition system | invariants, progress, termination measure |
| C31-C33 | `dump_dict`/`load_dict`/`check_if_damaged`, JSON printer and parser | round trip and prefix-freeness |
| C34, C35 | cache file store, job state machine over histories | idempotence; refutation of key completeness |
| C36, C37 | `Folding.fold` with heap for the shared descriptor | div/mod; refutation by aliasing |
| C38 | `SamplingJob.do_oversampling` | refutation of the success path, proof for fallback |
| C39 | `_pivot_best_scores`, `model_selection` argmax | max over groups; refutation for loss-like scores |
| C40, C41 | `_queries.py`, product of parameter lists | filter/sort/product lemmas |
| C42 | random state object with stream position, `set_params` | state machine; refutation of set/get round trip |
| C43, C44 | `ADASYN`, `Borderline_SMOTE1/2` on top of `sample_simplex` | reuse of C05/C08; refutations |
| C45 | merging loops on a symmetric distance matrix | partition invariant, decreasing size; refutation for CURE with n_clusters=1 |
| C46 | `shuffle_training_set` | gather with one permutation |
| C47 | fold descriptors: `imbalance ratio`, class sizes | direct; refutation for labels other than 0/1 |
| C48 | `evaluate_*` grouping by `str` of the parameter dictionary | order of entries; refutation |
| C49 | clean-up of cache files by glob pattern | one-star matching |
| C50 | `RemoveCorrelatedColumns` over a correlation matrix with NaN | invariant of the column loop |
| C51 | `ClosestNeighborsInClasses` | counting; refutation |
| C52, C53 | `_queries.py` + constructor/`get_params` tables transcribed from the sources (QueryData.v) | computation on the finite table, general lemmas on top |
| C54 | cluster-based oversamplers (CBSO, CURE_SMOTE, Assembled_SMOTE, A_SUWO) | hull per cluster by `by_cluster_spec` |
| C55-C58 | coordinate-wise samplers | interval arithmetic per coordinate |
| C59-C61 | segment samplers | hull, counting; refutations of exact counts |
| C62 | SMOTE followed by the noise filters of C23, C24 | composition of the sampler and filter theorems; witnesses for lost classes |
| C63 | rough-set selection by similarity levels | loop invariant over levels; selection without repetition |
| C64, C65 | relabelling and amplification | neighbour tables; drops_exactly + repetition counts |
| C66 | `SUNDO` | argmax of trials; rank of the threshold among pairwise distances bounds the removals |
| C67 | filter rounds with classifier oracle, fuel | rounds as an inductive relation; measure (rows left, rounds without removal) |
| C68 | rejection sampling with moving thresholds | progress: after ten moves everything is accepted |
| C69, C70 | simplices around minority rows (neighbour means, n_dim nearest rows) | every column used: strictly increasing positions fill the range |
| C71 | normal noise on samples, standardisation | noise separated from simplex sampling; scaling inverted on convex combinations |
| C72 | `SDSMOTE` | the density reduces to the uniform one; two-run statement |
| C73 | `ISMOTE` | argsort permutation; weighted vertices |
| C74 | `NRAS` with score oracle | positions below the threshold; scaling inverted; witness for noise vertices |
| C75, C76 | per-base simplex calls | `by_cluster_spec`, one base and one vertex |
| C77, C81 | interpolation toward rows of either class | counts of neighbours; share arithmetic; witness outside the hull |
| C78 | rejection sampling with a rising level, fuel | progress measure: rows missing + tries until the level exceeds 1 |
| C79 | proximity levels as an inductive relation | partition and level lemmas by induction; `by_cluster` order |
| C80 | PCA oracle, star topology of C60 | squared lengths against their mean; a row below the mean exists |
| C82, C83 | clusters as positions of labels, clustering oracle | `by_cluster_order`; sparsity shares from pairwise sums |
| C84 | labelings oracle, matching of names | matching proved to be the identity; agreement as a maximum of counts; witness with renamed clusters |
| C85 | batches with shrinking radii | `turns` as an inductive relation; loop invariant; witness without an accepted row |
| C86 | thresholds over counts of majority rows | fold characterised as first minimum; densities; separated data gives zero counts |
| C87 to C89 | wrappers of earlier models: SMOTE, the cleaning rule, Safe_Level_SMOTE, Borderline_SMOTE1; oracles for embedding and classifier | composition of their theorems; third central moment under linear maps; witnesses |
| C90 | SMOTE candidates, scores, stable argsort | stable order of `argsort`; hit and miss rows from the neighbour tables; monotone rounding for three times the proportion |
| C91, C92 | base weights of the simplex sampling | strengths as sums over attributes by a fold invariant; `shares_of` |
| C93 | recursion with memo and explicit recursion limit | memo invariant; active nodes of the dendrogram by induction; chain of merges as witness |
| C94 | linear solver oracle | Gram matrix as double sums; minimality by completing the square; witness with negative weights |
| C95 to C98 | draws per new row; norm, principal direction and k-means oracles | `mapM_draws`; first minimum of a fold; witnesses |
| C99 | angle order of neighbour rows, simplex sampling | sorted `argsort`; the cosine as a relation; witness with tilted axes of rational lengths |
| C100 | PCA and root oracles | shares of squared coordinates; choice with positive weight; witnesses |
| C101, C102 | ranking oracle; simplex weights | prefix lemma for longer weight rows; sizes of growing unions; witness with ranks past the end |
| C103 | draws per new row, permutation oracle | invariant of the radius loop; taxicab bound; witnesses |
| C104 | OPTICS and radius oracles | density weights up to equality of rationals; a mean over inf; witness |
| C105 | accuracy oracle, mask search, fuel for the fill loop | invariant of the rounds, five best of ten; maximum over tried masks; witness |
| C106 | fitness oracle, genetic loop | invariant: best fitness never drops; blocks per minority row |
| C107 | spread and sensitivity oracles | rounds with growing data; shares |
| C108 | leafs, candidates, seeds; the loop bound is the number of rows | partition invariant with boxes; first level reached by shrinking |
| C109 | three neighbour tables, k-means oracle | positivity of the weights; positions of mentioned rows |
| C110 | graphs as adjacency lists, unbounded weights; path following with fuel | invariant of relaxation: realised distances, rooted parents; simple walks are short |
| C111 | SMOTE and ADASYN models reused; game rounds | probabilities stay in the open unit interval; comparison of sums |
| C112 | three neighbour tables, kinds of rows | relabelling by places; filters; affine transport of combinations |
| C113 | sets as objects behind slots, passes with fuel | invariant from_runs; a pass without meeting leaves disjoint sets |
| C114 | outliers, closeness, thresholds, Dirichlet weights | positivity of the terms; first threshold; transport of weighted means |
| C115 | weights oracle, neighbour tables, subsets drawn without repetition | shares of a sum; leading neighbours |
| C116 | rounds as a state machine over scaled rows | invariant over states; min-max scaling and back |
| C117 | cells, pairs of cells | groups reused from the clustering facts |
| C118 | oracles for PCA and Voronoi | inductive description of the reduction; filter by places |
| C119 | growth loop over scaled rows | positivity of scaled numbers, bounds of means |
| C120 | scores oracle, moves attribute by attribute | cases on the sign of the score difference |
| C121 | linear map and back with exact sums | exchange of sums; zero component along orthogonal directions |
| C122 | chain with fuel, nested call with fuel | chain as a function of the iteration; inductive result relation |
| C123 | embedding, profile of deltas, groups | argsort facts, minimum over rows with more company |
| C124 | SMOTE then a map | reuse of the SMOTE theorem |
| C125 | up to four attempts | iteration of the relaxation; sign of the weights |
| C126 | loops with fuel, exceptions as values | measure on the score in steps of 1/N; ranges by the scaler |
| C127 | swarm of rows, loop with fuel | invariants of positions; every search adds a row |
| C128 | state threaded through the calls | boxes for the settings; at most one configuration kept per bat |
| C129 | two alternating searches, draws per iteration | boxes for settings; a majority row is always left out |
| C130 | population of networks over SMOTE calls | number of neurons stays at least min(2, m_min) |
| C131 | loop with fuel inside a recursion on columns | rounds as a list; halves sum to less than twice |
| C132 | mesh of drawn partners over the simplex sampler | shape of the neighbour table; hull |
| C133 | order and fit oracles with contracts | arranged rows unique when means differ; witnesses on a line |
| C134 | attribute dictionary | look-up after assignment; inner objects decide |
| C135, C136 | records and oracles | float share bounded by the number of columns |
| C137 | record of flags, sequence of calls | induction on calls |
| C138 | sorted unique labels | position = number of smaller labels; decimal names are injective |
| C139 | outer merge on keys | entries by count; keys unique when all columns are used |
| C140 | eigendecomposition with contract, quadratic forms | coordinates in the eigenbasis; clipped eigenvalues; inverse by uniqueness |
| C141 | upper triangles, least squares oracle | symmetric matrices = coefficient lists; form is linear in them |
| C142 | tables of leaves | counting differing positions |
| C143, C145 | dispatch over oracles | first occurrences; witnesses |
| C144 | means and normalisation over rationals | distinct values by reduced fractions |
| C146 | kernel rows, cosines that may be NaN, method strings | homogeneity of the norm removes the width; NaN-last sort; induction over strings |
| C147 | score as a number, infinity or NaN over the reals | running sums by induction over the added rows; positive variances rule out NaN |
| C148 | closed formulas against iterated integrals, `SensModel.v`, over the reals | products of one-variable integrals; completing the square; substitution |
| C149 | densities and widths over the reals, `BandModel.v` | cancelling the constant; fold over the grid; equal rows as witness |
| C150 | neurons as records over the reals, `NeuronModel.v` | induction over the operations that make neurons and networks |
| C151 | ball around the farthest pair by squared distances, `BallModel.v` | first maximum of a list; both ends of a diameter are equally far from the middle |
| C152 | Gram determinants over a real closed field (mathcomp), `VolumeModel.v` | Schur complement by induction; permutations act on edges by matrices of finite order |
| C153 | rounds of `soi_merge`, `GraphModel.v` | total size or number of places decreases in each round with an intersection |

## What is modelled

| file in `/repo/smote_variants` | model | remarks |
|---|---|---|
| `base/_simplexsampling.py` | `SimplexModel.v` | all functions; `simplex_volumes` is a parameter here and modelled in `VolumeModel.v` |
| `base/_base.py` | `BaseModel.v`, `SamplerModel.v`, `PyVal.v` | validators, dictionary helpers, `mode`, `fix_density`, statistics, random state; logging and `Interrupt` helpers are not |
| `base/_oversampling.py` | `SamplerModel.v` (`sample`, checks, `det_n_to_sample`), `BaseModel.v` (`set_params`) | dimensionality-reduction wrappers are not |
| `base/_metrics.py` | `MetricsModel.v` | label scores bit exact; AUC and log loss (scikit-learn) are not |
| `base/_metrictensor.py` | `DistModel.v`, `KnnModel.v` | distances, neighbours, `RemoveCorrelatedColumns`, `ClosestNeighborsInClasses`; exact arithmetic; learning of tensors in `TensorModel.v` (real arithmetic) and `LearnModel.v`, with metric-learn's and scikit-learn's estimators as oracles |
| `noise_removal/` | `NoiseModel.v` | all six filters |
| `undersampling/` | `UnderModel.v` | random and driven undersampling |
| `multiclassoversampling/_multiclassoversampling.py` | `MultiModel.v`, `MultiSmote.v` | both strategies |
| `evaluation/_parallelization.py` | `PoolModel.v` | interleaving model of coordinator, worker processes, queues, locks, timeouts |
| `evaluation/` (folding, sampling/evaluation jobs, cache, result tables) | `FoldModel.v`, `JobModel.v`, `CacheModel.v`, `JsonModel.v` | classifiers are oracles |
| `queries/_queries.py`, `queries/_runtimes.py` and all constructors' signatures | `QueryModel.v`, `QueryData.v` | transcribed from the text |
| `oversampling/_smote.py` | `SamplerModel.v` | |
| `oversampling/_adasyn.py`, `_borderline_smote.py` | `DangerModel.v` | |
| `oversampling/_cbso.py`, `_a_suwo.py`, `_cure_smote.py`, `_assembled_smote.py` and helpers | `ClusterModel.v`, `ClusterOversModel.v` | |
| `oversampling/_random_smote.py`, `_safe_level_smote.py`, `_selected_smote.py`, `_smote_out.py`, `_smote_cosine.py`, `_ndo_sampling.py`, `_polynom_fit_smote.py` (star, bus; mesh and poly in `CurveModel.v`), `_smote_d.py` | `CompModel.v` | |
| `oversampling/_smote_tomeklinks.py`, `_smote_enn.py`, `_smote_rsb.py`, `_spy.py`, `_stefanowski.py`, `_sundo.py`, `_smote_ipf.py`, `_supervised_smote.py` | `EditModel.v` | |
| `oversampling/_distance_smote.py`, `_nt_smote.py`, `_rwo_sampling.py`, `_rose.py`, `_gaussian_smote.py`, `_sdsmote.py`, `_ismote.py`, `_nras.py`, `_sn_smote.py`, `_smmo.py` | `NearModel.v` | |
| `oversampling/_ln_smote.py`, `_lee.py`, `_prowsyn.py`, `_gazzah.py`, `_msmote.py` | `LevelModel.v` | |
| `oversampling/_cluster_smote.py`, `_kmeans_smote.py`, `_ce_smote.py`, `_nrsboundary_smote.py`, `_ans.py` | `GroupModel.v` | |
| `oversampling/_isomap_hybrid.py`, `_sl_graph_smote.py`, `_svm_balance.py`, `_msyn.py`, `_edge_det_smote.py`, `_mct.py`, `_ahc.py`, `_lle_smote.py` | `WrapModel.v` | |
| `oversampling/_nosmote.py`, `_adoms.py`, `_de_oversampling.py`, `_lvq_smote.py`, `_g_smote.py` (linear; kernel in `KernelModel.v`), `_mdo.py` | `DirModel.v` | eigenvalues, arccos and exp are oracles |
| `oversampling/_oups.py`, `_and_smote.py`, `_ccr.py`, `_smobd.py` | `RegionModel.v` | |
| `oversampling/_e_smote.py`, `_gasmote.py`, `_sso.py`, `_trim_smote.py`, `_mwmote.py` | `SearchModel.v` | `E_SMOTE.preprocessing_transform`; SSO's network (`eq_6_vectorized`, `eq_8_vectorized`, `calculate_vectors`) is an oracle here; its sensitivities over the reals are in `SensModel.v` |
| `oversampling/_dbsmote.py`, `_neater.py`, `_vis_rst.py`, `_soi_cj.py`, `_symprod.py` | `GraphModel.v` | DBSCAN, Dirichlet draws, the order of `list(set)` and SOI_CJ's test of the ball around the farthest pair are oracles (the test is in `BallModel.v`) |
| `oversampling/_smotewb.py`, `_smote_frst_2t.py`, `_somo.py`, `_v_synth.py`, `_dsmote.py` | `MixModel.v` | boosted trees, the self organising map, PCA, Voronoi diagrams, geometric means and DSMOTE's score are oracles; the score and its loop over the reals are in `ScoreModel.v` |
| `oversampling/_smote_amsr.py`, `_pdfos.py`, `_kerneladasyn.py`, `_mot2ld.py`, `_deago.py`, `_asmobd.py` | `EmbedModel.v` | isolation forests, eigenvectors, bandwidths, densities, Cholesky factors, PCA, t-SNE, peak search, autoencoders, OPTICS and the sigmoid are oracles; the densities of KernelADASYN and PDFOS over the reals are in `BandModel.v` |
| `oversampling/_ipade_id.py`, `_smote_pso.py`, `_smote_psobat.py` | `SwarmModel.v` | trees, support vectors, norms, classifier scores and predictions are oracles; the pulse rates of the bats never change |
| `oversampling/_amsco.py`, `_dsrbf.py`, `_adg.py` | `FuseModel.v` | fitness of trees, neurons and losses, clustering, linear solver, mixture and PCA are oracles; the neurons are in `NeuronModel.v` |
| `classifiers/`, `config.py`, `visualization/_visualization.py` (tables and names) | `ShellModel.v` | objects, constructors, networks and inner classifiers are arbitrary; figures are not modelled |
<!--MORE-->

Not modelled: `base/_scipyport.py`, the plotting calls of `visualization/`,
`datasets/`, logging, warnings, documentation and tests.

## Caveats per model

* *Parallel pool.*  Scheduling is arbitrary interleaving of atomic steps.
  Process start, death at any point, pipe buffer size and whether a queue lock
  is held at death are parameters.  Time is abstract: a timeout may fire at any
  moment once the job was started.
* *Cache.*  A crash leaves a prefix of the bytes written so far (no reordered
  or zeroed blocks after power loss).  The file names of a job are fixed by its
  settings.  Recursion and integer-digit limits of `json` are not modelled;
  `float(repr(x)) = x` is a contract.
* *Distances.*  Exact arithmetic, squared distances, no broadcasting; the
  block-size divisions of the memory-limited computation are exact.
* *Query tables.*  Constructor signatures, `get_params` keys, categories and
  runtimes are transcribed from the source text; runtimes are decimals.
* *ADASYN / Borderline.*  Class fractions are exact; a strategy that is neither
  an int nor a float counts as truthy in `proportion or beta`.
* *Clustering.*  Agglomerative clustering, PCA, LDA and the principal-angle test
  are oracles; `MinMaxScaler` is exact; one generator per call of the sampler.
* *Coordinate-wise samplers.*  `rs i` is the generator at the i-th request; an
  `(n, 2)` choice is drawn as two columns; `np.std` is an oracle.
* *Editing samplers.*  Classifiers (predictions, probabilities) are functions of
  the data they are given; loops carry fuel and exhaustion is an explicit error;
  the levels of SMOTE_RSB are binary64 sums.
* *Nearest neighbours.*  `knn_ok` asks for k distinct indices sorted by
  distance, ties in any order.  Where a sampler assumes that a row is its own
  first neighbour this is *not* granted by the contract (duplicated rows), and
  the theorems hold without it.

## Wrong programs

`seeded/LOG.jsonl` lists edits of the model that were tried in a scratch copy.
After an edit the copy was rebuilt, and every proof that no longer went through
was skipped there until the rest was built.  `theorems_failed` are the theorems
that use a skipped proof, found by following names in the proof texts.  So an
entry says that the theorem is not proved for the edited model.  It does not say
that the statement is false for it: beside the theorem that states the broken
claim the list can contain theorems that stay true and only share a lemma.  For
the entries from the first edit of `TensorModel` on only the file with the
properties of the claim was built.  `theorems_tightened` names what was changed
or added because an edit had survived.  Edits that keep every claim true say so
in `claim`; they test how far the proofs depend on details.

## Findings

Properties one would expect of the code that are false of the model; each has a
concrete witness in a theorem named `..._refuted`.

* C01: Labels are integers. With more than two labels only the two smallest label values are looked at (C01_three_labels_refuted).
* C09: Exact arithmetic. The stricter claim "differs by less than one" is false: C09_less_than_one_refuted.
* C11: Deterministic mode without a separate vertex set sorts each pair and may use the base point weight instead: C11_deterministic_same_set_refuted.
* C12: On an exception the array can stay shifted: C12_restored_on_error_refuted.
* C15: nan passes every validator (C15_nan_refuted, finding).
* C16: equal_dicts raises on differing keys and is asymmetric on empty containers (C16_equal_dicts_refuted, finding).
* C19: Bit-exact binary64. Findings: the int64 product in mcc wraps for larger data (C19_mcc_overflow_refuted). Logarithmic scores over the reals.
* C20: Findings: p_top20 ignores the probabilities (C20_p_top20_refuted); ties at 0.5 make label scores order dependent (C20_ties_refuted).
* C21: Finding: with a limit below columns times rows the function calls itself with the same arguments until RecursionError (C21_small_limit_refuted).
* C22: Finding: a metric tensor given with another metric than 'precomputed' is ignored silently (C22_ignored_refuted). Fewer than k neighbours are returned silently if there are fewer rows.
* C23: Finding: coinciding rows of different classes are not recognised as links (C23_duplicates_refuted).
* C25: Finding: the cleaning rule raises ValueError on fewer than four rows (C25_ncr_small_refuted).
* C26: Finding: the stages recompute which class is the minority, so without the proviso minority rows can be removed (C26_roles_swap_refuted).
* C27: Findings: driven undersampling in random mode raises on balanced data (C27_driven_random_balanced_refuted) and in every mode when nothing was generated (C27_driven_nothing_new_refuted).
* C28: Findings: ties for the largest class make both strategies raise ValueError (C28_tie_refuted); the default strategy can leave a class one row short (C28_one_short_refuted); the other strategy overshoots with three or more classes (C28_equalize_overshoots_refuted).
* C29: Interleaving model; the pipe buffer, process start and process death are parameters. Findings: a failing process start blocks the call forever (C29_start_failure_refuted); a result larger than the pipe buffer blocks the call, or with a timeout is always lost (C29_big_result_refuted); with n_jobs <= 0 nothing runs and None is returned for every job (C29_no_workers_refuted).
* C30: Finding: a process dying while it holds its queue lock after its timeout blocks the call forever (C30_crash_in_lock_refuted).
* C33: Finding: check_if_damaged raises EOFError or UnpicklingError instead of returning True (C33_raises_refuted), so that a job whose pickle file was truncated can never be run again without deleting the file.
* C34: Finding: two jobs with one file name (an oversampler listed twice) may leave a finished job without its file (C34_same_name_refuted).
* C35: Finding: scaler, data and validator settings are not part of the key; a request differing only in these silently gets the earlier result (C35_scaler_refuted).
* C36: Finding: fold files of an earlier validator setting in the same directory are used as well (C36_stale_refuted).
* C37: Finding: a list of folds shares one descriptor, all showing the last indices (C37_retained_refuted); evaluate_oversamplers without cache_path keeps such folds.
* C38: Finding: after a successful oversampling the classifier is trained on scaled and tested on unscaled data (C38_unscaled_refuted).
* C39: Finding: model_selection maximises log_loss and brier too (C39_loss_refuted).
* C40: Finding: get_multiclass_oversamplers accepts any strategy and then filters nothing (C40_unknown_strategy_refuted). Runtimes are the decimal numbers of the table.
* C42: Constructor and parameter handling of SMOTE. Findings: set_params(get_params()) breaks the generator (C42_set_params_refuted), ss_params is ignored by set_params (C42_ss_params_ignored_refuted).
* C43: Finding: proportion=0 is ignored, `proportion or beta` falls back to beta (C43_zero_proportion_refuted). Class ratio and d_th in binary64, distances and weights exact.
* C44: Findings: indices[:, 1:] and the sampler both skip a column, so the nearest neighbour is never used (C44_nearest_refuted) and k_neighbors=1 duplicates rows (C44_duplicates); a tie depends on the label values (C44_tie_refuted).
* C45: Finding: CURE_SMOTE(n_clusters=1) drops and merges a cluster in each iteration, so an even number of minority rows leaves no cluster (C45_cure_one_refuted). Distances exact; principal-angle test of Assembled_SMOTE an arbitrary predicate.
* C47: Finding: labels are used as indices; labels 1, 2 raise IndexError, labels -1, 1 record wrong sizes (C47_labels_refuted).
* C48: Refuted in general (C48_timed_out_refuted, a finding): the recorded dictionaries have the same entries but in different order unless the given parameters are the first ones of get_params(), and rows are grouped by str() of the dictionary. Proved: equal entries, and equal order exactly in that case.
* C51: Refuted (a finding): rows are selected by the negated mask, labels are counted by the mask itself (C51_mismatch_refuted). Proved: rows and labels together are as many as the rows of both classes, so the numbers agree only if exactly half of the rows are border points.
* C52: Finding: SMOTE_AMSR.get_params() has no class_name, so generate_parameter_combinations over all oversamplers raises KeyError in its default format (C52_smote_amsr_refuted, C52_missing_name).
* C53: Finding: DEAGO and SOMO lose nn_params, PDFOS loses metric_learning, SPY, SYMPROD and SMOTEWB lose n_jobs when rebuilt from get_params() (C53_lost_refuted). The signatures and keys in QueryData.v are taken from the source text.
* C54: Findings: CBSO raises when n_neighbors+1 exceeds the number of rows (C54_cbso_small_refuted); CURE_SMOTE(n_clusters=1) never samples for an even minority (C54_cure_one_refuted); A_SUWO drops original rows from its output (C54_suwo_prefix_refuted). AgglomerativeClustering and the LDA error are oracles, distances and scaling exact.
* C56: Finding: with no minority neighbour of p but one of n the new row is n itself, so copies of majority rows are added as minority (C56_majority_copy_refuted). Arithmetic exact.
* C57: Finding: the number of significant attributes is computed with min([1, ...]) instead of max, so perc_sign_attr only distinguishes 0 from more (C57_percentage_ignored) and with 1.0 not all attributes vary (C57_percentage_refuted). Arithmetic exact.
* C59: Finding: the exact count may be exceeded by one (C59_exact_count_refuted). Arithmetic exact.
* C60: Finding: the requested count is not met in general (C60_exact_count_refuted). Topologies poly and mesh not modelled. Arithmetic exact.
* C61: Finding: the requested count is not met in general, even 0 rows are possible (C61_exact_count_refuted). np.std is a non-negative oracle. Arithmetic exact.
* C62: Findings: SMOTE_TomekLinks may remove a whole class (C62_tomek_one_class_refuted); SMOTE_ENN may silently return the input (C62_enn_lost_refuted). Ties: which of several mutually nearest rows is linked is up to the neighbour search. Arithmetic exact.
* C63: The levels are the binary64 values 0.4 + i*0.05 accumulated as in the code, within 1e-15 of the stated ones. With Gaussian noise in ss_params the dimension of SMOTE's rows is an assumption. Finding: proportions above 1 have no effect on the count (C63_exact_count_refuted). Arithmetic exact.
* C64: Finding: the threshold is compared with n_neighbors + 1 although only n_neighbors rows are counted (C64_threshold_refuted).
* C65: Finding: whether most of the five neighbours agree is decided by the mode over the first neighbours of all noisy rows instead of per row (C65_vote_refuted).
* C66: np.std is an oracle. Finding: the result is not balanced in general (C66_balance_refuted). Arithmetic exact.
* C67: Classifiers are an oracle returning one prediction vector per fold, a function of the current data (random_state is fixed). Findings: p = 0 is accepted but never ends (C67_zero_refuted); majority voting removes every row with a label other than 0 or 1 (C67_labels, C67_labels_refuted); consensus voting never removes a row labelled 1 (C67_consensus, C67_consensus_refuted) and nothing if there are fewer minority rows than folds (C67_consensus_few). Arithmetic exact.
* C68: The classifier's probability is an oracle. Simplex sampling random or deterministic as in C05. Finding: rows outside [th_lower, th_upper] are added (C68_threshold_refuted). Arithmetic exact.
* C73: Findings: the nearest neighbour is skipped twice, so n_neighbors = 1 only copies (C73_copies); weights above 1 are accepted and leave the hull (C73_hull_refuted). Arithmetic exact; simplex sampling random or deterministic as in C05, no Gaussian component.
* C74: The propensity scores are an oracle. Findings: rows dropped as noise still serve as vertices (C74_noise_refuted, an assignment to a copy); t is compared with n_neighbors + 1 (C74_t_one). Arithmetic exact; simplex sampling random or deterministic as in C05, no Gaussian component.
* C75: Findings: the loop over centroid neighbours assigns to copies, so only the nearest neighbour is used; n_neighbors = 1 raises IndexError (C75_one_neighbour_refuted). Arithmetic exact; simplex sampling random or deterministic as in C05, no Gaussian component.
* C78: Finding: the count is divided by n_neighbors although min(n_min, n_neighbors) neighbours are looked at, so rows surrounded by the majority are accepted (C78_fraction_refuted). Fuel n + 71 suffices. Simplex sampling as in C05.
* C79: Finding: the rows left over share level L with the last regular cluster (C79_distinct_levels_refuted). exp is any positive function. Simplex sampling as in C05.
* C80: PCA is an oracle with contract pca_ok (centred scores, error for more components than rows). Finding: the minority rows themselves are lost (C80_minority_refuted).
* C81: Finding: new rows may lie toward majority rows, outside the minority's hull (C81_hull_refuted). Arithmetic exact.
* C84: Finding: the matching of cluster names is the identity (only the clusters named k - 1 are renamed, to 0, 1, .. and in the end back to k - 1), so equal partitions with other names count as disagreements (C84_matching_refuted). The missing return for nothing requested does not change the outcome. Simplex sampling as in C05.
* C85: Finding: if every batch conflicts, ValueError from stacking an empty list (C85_total_refuted); fewer rows than requested may come back. Radius search is an oracle with contract within_ok. Simplex sampling as in C05.
* C88: Finding: the choice depends on the names of the classes (C88_names_refuted). The skewness of equal numbers is NaN, compared like 0.
* C89: Finding: the labels of input rows are replaced (C89_labels_refuted). Scaler, cross validation and classifier are oracles.
* C93: Finding: RecursionError for deep dendrograms (C93_recursion_refuted); the model has the remaining recursion limit as an argument. The dendrogram is an oracle with contract dendrogram, k-means one returning k centres.
* C94: Finding: new rows outside the hull of the minority (C94_hull_refuted). The embedding is an oracle, the solver one with contract solver_ok; without Gaussian noise.
* C96: Finding: new rows outside the hull of the minority (C96_hull_refuted). Norm and principal direction are oracles.
* C97: Finding: original rows removed (C97_keeps_refuted). k-means is an oracle: one of k labels per row and k centres.
* C99: Finding: a row instead of a column of the eigenvector matrix (C99_axis_refuted). Linear method; the inverse cosine is any function decreasing on nonnegative numbers, NaN above 1 by rounding is not modelled.
* C100: Findings: ValueError without minority neighbours (C100_returns_refuted), points outside the ellipsoid (C100_distance_refuted). The root is an oracle: nonnegative, its square at most the argument.
* C101: Finding: ranks wrap past the end (C101_next_refuted). The propensity ranking is an oracle: a permutation of the rows.
* C103: Findings: the number of rows (C103_number_refuted), the cost of the balls (C103_budget_refuted), unmoved majority rows (C103_cleaned_refuted), rows outside the ball (C103_ball_refuted), ValueError without energy (C103_no_energy). energy * dim ** scaling is one number in the model.
* C104: Finding: the noise threshold is dead (C104_threshold, C104_noise_refuted). OPTICS is an oracle: one core distance and one reachability per row, the row it starts with having none, or ValueError.
* C105: Findings: columns are dropped from the result; the random state does not fix it (C105_seed_refuted). The classifier's accuracy is an oracle; the fill loop needs draws that reach every column (covers).
* C106: Findings: C106_balance_refuted, C106_second_child, C106_mutation. Fitness predictions and the power r ** ((1 - ge/Ge) ** b) are oracles; power_ok is exact arithmetic, float rounding of the power to 1 is not modelled.
* C107: Findings: the number of rows (C107_number_refuted), ValueError with one hidden unit (C107_one_unit). The network sensitivity and the spread Q are oracles.
* C111: Finding: labels 0 and 1 whatever the data (C111_labels_refuted); with minority 0 and majority 1 the rows among minority rows join the majority (C111_swapped_example).
* C112: Finding: labels of original rows change in the result (C112_labels_refuted).
* C113: Findings: separated classes are never oversampled (C113_separated); rows of runs get lost since the merging indexes the list by a position in its rest (C113_lost_refuted). Termination of the merging is not claimed: the model has fuel and OutOfFuel is a separate outcome. The majority test of merging is an oracle.
* C114: Findings: neighbourhoods are those of the first selected row (np.take without axis); division by zero (C114_nan_refuted). Dirichlet draws are positive rationals.
* C115: Boosted decision trees are an oracle (one weight per row). Finding: with a single row that is not noise fewer rows than asked for are appended (C115_count_refuted).
* C118: Findings: labels are compared at positions of another array (C118_minority_end_refuted), only the lower corner of the bounding box is added (boxed), n_components = 1 raises UnboundLocalError. PCA and Voronoi are oracles with contracts.
* C122: Density, condition number, Cholesky factor, normal numbers and PCA are oracles with contracts. Finding: after a PCA reduction the original rows come back changed (C122_originals_refuted).
* C123: t-SNE, the search for peaks and the order of sets are oracles with contracts. Finding: noise is deleted at the wrong positions (C123_noise_refuted).
* C125: OPTICS and the sigmoid are oracles. Findings: sigmoid smoothing can fail with ValueError (C125_sigmoid_refuted); t_1 and t_2 have no influence, as the reachabilities always contain infinity.
* C126: Trees and scores are oracles with contracts; termination assumes scores in steps of 1/N. Findings: the result does not contain the data (C126_extends_refuted); the fallback returns scaled rows (C126_copies_refuted).
* C127: Support vectors, norm and classifier score are oracles with contracts. Finding: the minority can become the larger class (C127_balanced_refuted).
* C128: The predictions of the cross validation are an oracle with a contract. Findings: the best settings are replaced by less accurate ones (C128_best_refuted); bats return the wrong bat, as a position among the selected is used among all (C128_bats_refuted); the range of neighbours shrinks for all later calls (C128_stateless_refuted); alpha and gamma have no effect, as the pulse rates are updated on copies.
* C129: Kappa and accuracy of the trees are an oracle. Findings: if every prediction is the majority, TypeError is raised (C129_fails_refuted); given rows disappear (C129_kept_refuted); SMOTE extends the majority if fewer majority rows were kept, and its rows count as minority (C129_new_refuted).
* C130: Neurons, their random changes, the center improvement and the loss are oracles; int(0.1 * n_pop) is computed without rounding. Findings: fewer iterations than epochs fail with ZeroDivisionError (C130_epochs_refuted); m_min = 1 can fail with ValueError (C130_one_neuron_refuted); the losses are NaN without the labels 0 and 1, and the selection then ignores them (C130_labels_refuted).
* C131: Clustering, solution of the system, kernel, mixture and PCA are oracles with contracts. Findings: more rows than asked for, and not after the given ones (C131_number_refuted); with labels other than 0 and 1 the minority is lost (C131_labels_refuted); with minority label 0 the new rows come from the majority (C131_source_refuted); a projection changes the given rows (C131_kept_refuted).
* C132: Partners are drawn by an oracle. Finding: a row may be its own partner, the new row is then a copy (C132_copies_refuted).
* C133: polyfit is an oracle required to be a least squares fit; argsort any sorting routine. Findings: the columns are evaluated at different parameters, so new rows leave the curve and the hull (C133_line_refuted); the parameter exceeds the last row (C133_range_refuted); ties of the means make the result depend on the order of rows (C133_ties_refuted).
* C134: Findings: unknown parameter names are accepted without effect (C134_unknown_parameter_refuted); set_params loses the fitted classifier and keeps classes_ (C134_fitted_state_refuted); a failing set_params leaves new parameters with old objects (C134_failed_set_refuted).
* C135: Training is a function of parameters, size and data, so random_state is an integer, not a shared generator. Findings: a copy loses max_iter (C135_copy_refuted); a number given as string is repeated (C135_string_refuted).
* C136: Finding: predict returns nothing (C136_predict_refuted).
* C138: Findings: two classes other than 0 and 1 get the same name (C138_two_labels_refuted); plotting relabels the caller's table, a second plot shows one class (C138_second_plot_refuted).
* C139: Findings: with fewer coordinates than columns a new row may be flagged untouched (C139_projection_refuted); resampled_flag is false for rows whose number has changed (C139_resampled_flag_refuted); rows that agree to four decimals are merged (C139_rounding_refuted).
* C140: Real arithmetic; eigh and inv are oracles with the contract of an eigendecomposition and of an inverse. Finding: with equal eigenvalues reverse_matrix changes the trace, 1, 1, 2 become 2, 2, 1 (C140_reverse_ties_refuted).
* C142: A forest is the function from rows to lists of leaves. Finding: fit keeps the leaves stored for the previous forest, so a row may differ from itself (C142_refit_refuted).
* C143: Learners are oracles, NCA a deterministic one. Findings: ITML_mi and gmean train NCA, gmean averages a tensor with itself (C143_learners); cov_min may use the larger class (C143_cov_min_refuted); the tensor of ITML_mi need not be symmetric or nonnegative (C143_itml_mi_refuted).
* C145: Finding: the docstrings of the oversamplers name the key metric_learning, with which no tensor is learned (C145_documented_refuted).
* C146: Exact arithmetic: overflow of the exponential is not modelled. Findings: the matrix decomposed has entries that grow with the distance, the negative sign its comment mentions is missing (C146_gaussian_refuted); non-linear_nan passes the check that s is positive (C146_positive_refuted).
* C147: Real arithmetic instead of binary64. Findings: the comment that dropping the squares has an identical effect is false (C147_identical_refuted); when all rows of each class are equal and the class means agree the ratio is 0/0, no candidate beats the initial score and sampling fails with ValueError (C147_returns_refuted).
* C148: Real arithmetic; a mean over a cube is an iterated Riemann integral (Coquelicot), unique by C148_unique. Findings: the first formula is not the mean of the network that the second one squares, not for widths other than 1 (C148_widths_refuted) nor for several columns (C148_columns_refuted); and the weights were fitted to units exp(-d^2/v^2) whereas both formulas assume exp(-d^2/(2 v^2)) (C148_fitted_refuted).
* C149: Real arithmetic. Findings: h acts as a variance although the density divides by h as a standard deviation (C149_bandwidth_refuted); scipy's expit where the criterion needs exp makes PDFOS choose a width that does not minimise the criterion (C149_gaussian_refuted); the width is not squared in the covariance (C149_covariance).
* C150: Real arithmetic; random numbers are arguments. Findings: the clone is not "an identical neuron" as documented, even with the same output weight (C150_identical_refuted), since the constructor stores the columns passed to it in an attribute nobody reads; the evolution of the structure is therefore undone in each step (C150_structure, C150_reset).
* C151: Exact arithmetic on squared distances; the search without a tensor is the Euclidean one. Instance of the oracle in C113. Findings: the Euclidean radius is compared with distances of the tensor (C151_merges_refuted); the ball does not cover the clusters (C151_covers_refuted).
* C152: Exact arithmetic in a real closed field (mathcomp); rounding can make the determinant negative and the volume NaN. Finding: sampling by volume has no weight to choose by as soon as there are more edges than columns (C152_thin, C152_distinct_refuted).
* C153: The outcome of the ball test is constant in the theorems on termination; for outcomes that vary from pair to pair termination is not proved. Findings: the emptied cluster is written to the position counted from the rest of the list, so that the union of the first two clusters is lost (C153_two) and no cluster may be left (C153_left_refuted).

## Assumptions per theorem

From `Print Assumptions` (printed during the build after each theorem; the lists
below are generated from that output).

The axioms that occur are all from Coq's standard library:

* `ClassicalDedekindReals.sig_forall_dec`, `ClassicalDedekindReals.sig_not_dec`
  (the real numbers),
* `Classical_Prop.classic`,
* `FunctionalExtensionality.functional_extensionality_dep`.

Closed under the global context:

C01_minority_identified, C01_single_label_raises, C01_three_labels_refuted,
C02_integer_proportion, C02_other_types_raise, C06_too_small_returns_copies,
C06_otherwise_algorithm_runs, C06_default_checks, C07_simplices_enumerated,
C08_base_weights_aligned, C08_positive_weights_only,
C09_deterministic_allocation, C09_less_than_one_refuted,
C10_deterministic_evenly_spaced, C10_interior, C11_weighted_random,
C11_weighted_deterministic, C11_deterministic_same_set_refuted,
C12_simplices_restored, C12_restored_on_error_refuted, C13_probability_vector,
C13_uniform_when_nothing_left, C13_proportional_otherwise, C13_safe_divide,
C14_inverse_cdf, C14_positive_probability, C15_comparisons, C15_ranges,
C15_list_and_jobs, C15_only_ValueError, C15_nan_refuted, C16_coalesce_dict,
C16_coalesce_dict_is_a_dict, C16_equal_dicts_sound, C16_equal_dicts_complete,
C16_equal_dicts_total_on_same_keys, C16_equal_dicts_refuted, C17_mode,
C18_partition, C18_confusion_matrix, C18_total, C18_prediction_labels,
C18_ties_split, C20_atoms_permutation, C20_labels_permutation,
C20_brier_permutation, C20_brier_range, C20_ties_refuted, C21_exact,
C21_small_limit_refuted, C21_euclid, C21_tensor, C22_kneighbors, C22_radius,
C22_ignored_refuted, C23_tomek, C23_minority_kept, C23_duplicates_refuted,
C24_condensed, C25_enn, C25_enn_other_class_kept, C25_enn_small, C25_ncr,
C25_ncr_minority_kept, C25_ncr_small_refuted, C26_cnn_tomek, C26_one_sided,
C26_roles_swap_refuted, C27_random, C27_random_raises, C27_driven,
C27_driven_farthest, C27_driven_random_balanced_refuted,
C27_driven_nothing_new_refuted, C29_started_once, C29_parallelism, C29_finite,
C29_no_deadlock, C29_results, C29_sequential, C29_start_failure_refuted,
C29_big_result_refuted, C29_no_workers_refuted, C30_slot, C30_reasons,
C30_raises, C30_crash_in_lock_refuted, C31_interrupted_dump, C31_truncated,
C31_check_total, C32_round_trip, C32_plain, C33_truncated, C33_raises_refuted,
C34_complete, C34_damaged_or_result, C34_kept, C34_other_files,
C34_completable, C34_same_files, C34_same_name_refuted, C35_key,
C35_no_mixing, C35_evaluation_key, C35_scaler_refuted, C36_split, C36_cover,
C36_indices, C36_names, C36_files, C36_stale_refuted, C37_yielded,
C37_retained_refuted, C38_failure, C38_success, C38_outcome,
C38_unscaled_refuted, C39_table, C39_selection, C39_loss_refuted, C40_default,
C40_all, C40_proportion, C40_metric_learning, C40_simplex, C40_multiclass,
C40_unknown_strategy_refuted, C40_quickest, C40_ties, C40_fails, C40_negative,
C40_registry, C40_names, C41_grid_complete, C42_rebuild, C42_usable,
C42_set_params_refuted, C42_set_params_generator_object,
C42_ss_params_ignored_refuted, C42_constructor, C42_values, C42_generator,
C44_tie_refuted, C45_cbso, C45_cure, C45_suwo, C45_suwo_sparse,
C45_suwo_apart, C45_assembled, C45_cure_one_refuted, C46_shuffle,
C46_no_random_state, C47_binary, C47_labels_refuted, C48_entries,
C48_order_partial, C48_timed_out_refuted, C49_clean_up, C50_mask,
C50_uncorrelated, C51_lengths_partial, C51_mismatch_refuted, C52_combinations,
C52_triples, C52_missing_name, C52_smote_amsr_refuted, C53_parameters,
C53_lost_refuted, C53_accepted, C58_bound, C59_count, C60_hull, C60_count,
C60_length, C61_hull, C64_spy, C64_only_majority, C64_threshold_one,
C64_threshold_refuted, C65_stefanowski, C65_keeps, C65_vote_refuted,
C66_sundo, C66_bound, C66_balance_refuted, C73_ismote, C73_copies,
C73_hull_refuted, C74_t_one, C76_other_label, C77_within, C79_partition,
C79_levels, C79_distinct_levels_refuted, C82_one_neighbour, C85_distance_kept,
C87_never_cleans, C88_renaming, C91_bases, C92_copies, C93_ahc,
C93_recursion_refuted, C94_weights, C95_no_smote, C96_step, C105_best_columns,
C106_gasmote, C106_search, C106_maxn_one, C106_second_child, C106_mutation,
C106_balance_refuted, C110_bellman_ford, C110_copies, C113_clusters,
C113_lost_refuted, C119_box, C121_flat, C126_ipade_id, C126_extends_refuted,
C126_copies_refuted, C127_smote_pso, C127_balanced_refuted, C132_hull,
C132_pair, C134_construct, C134_fit, C134_failed_fit, C134_set_params,
C134_unknown_parameter_refuted, C134_fitted_state_refuted,
C134_failed_set_refuted, C135_copy, C135_copy_refuted, C136_fit,
C136_predict_refuted, C137_get, C137_set, C138_two, C138_more, C138_distinct,
C138_two_labels_refuted, C138_second_plot_refuted, C139_table, C139_presence,
C139_flag, C139_projection_refuted, C139_resampled_flag_refuted,
C139_rounding_refuted, C142_dissimilarity_matrix, C142_metric,
C142_transform_kneighbors, C142_fit_only, C142_refit_refuted, C143_learners,
C143_all_rows, C143_identity, C143_cov_min, C143_cov_min_refuted,
C143_unknown, C144_discrete_variable_mask, C144_not_normalized,
C144_normalized, C145_given, C145_learned, C145_none, C145_documented_refuted,
C146_kernel, C146_gaussian_refuted, C150_delete, C151_ball, C151_tensor,
C151_merges_refuted, C151_covers_refuted, C152_defined, C152_dependent,
C152_order, C152_affine, C152_square, C152_volumes, C152_edge, C152_thin,
C152_distinct_refuted, C153_never, C153_always, C153_clustering, C153_two,
C153_left_refuted

Depending on `ClassicalDedekindReals.sig_forall_dec`, `ClassicalDedekindReals.sig_not_dec`, `Classical_Prop.classic`, `FunctionalExtensionality.functional_extensionality_dep`:

C02_float_proportion, C02_never_negative, C02_monotone, C02_exact_at_one,
C02_unit_interval, C03_originals_are_a_prefix, C04_balanced, C05_convex_hull,
C05_noise, C19_rates, C19_mcc, C19_perfect, C19_perfect_mcc, C19_uncertainty,
C19_empty_class_raises, C19_mcc_overflow_refuted, C20_p_top20_value,
C20_p_top20_refuted, C28_successive, C28_equalize, C28_smote, C28_tie_refuted,
C28_one_short_refuted, C28_equalize_overshoots_refuted, C43_adasyn, C43_total,
C43_zero_proportion_refuted, C44_border1, C44_border2, C44_border1_total,
C44_border2_total, C44_nearest_refuted, C44_duplicates, C54_cbso,
C54_cbso_total, C54_cbso_small_refuted, C54_cure, C54_cure_one_refuted,
C54_assembled, C54_suwo, C54_suwo_prefix_refuted, C55_random_smote,
C56_safe_level, C56_majority_copy_refuted, C57_selected,
C57_percentage_ignored, C57_percentage_refuted, C58_smote_out,
C58_smote_cosine, C59_ndo, C59_exact_count_refuted, C60_polynom,
C60_exact_count_refuted, C61_smote_d, C61_exact_count_refuted, C62_tomek,
C62_tomek_sub, C62_tomek_one_class_refuted, C62_enn, C62_enn_sub,
C62_enn_lost_refuted, C63_rsb, C63_rectangular, C63_exact_count_refuted,
C67_ipf, C67_zero_refuted, C67_labels, C67_labels_refuted, C67_consensus,
C67_consensus_few, C67_consensus_refuted, C68_supervised, C68_within,
C68_threshold_refuted, C69_distance_smote, C70_nt_smote, C70_fails, C71_rwo,
C71_rose, C71_gaussian_smote, C72_sdsmote, C72_density_ignored, C74_nras,
C74_unchanged, C74_noise_refuted, C75_sn_smote, C75_one_neighbour_refuted,
C76_smmo, C77_ln_smote, C77_one_neighbour, C78_lee, C78_level_stays,
C78_fraction_refuted, C79_prowsyn, C80_gazzah, C80_keeps,
C80_minority_refuted, C81_msmote, C81_hull_refuted, C82_cluster_smote,
C83_kmeans_smote, C84_ce_smote, C84_matching_refuted, C85_nrs_boundary,
C85_total_refuted, C86_ans, C86_small, C86_separated, C87_isomap,
C88_sl_graph, C88_names_refuted, C89_svm_balance, C89_labels_refuted,
C90_msyn, C90_enough, C91_edge_det, C92_mct, C94_lle, C94_hull_refuted,
C96_adoms, C96_hull_refuted, C97_de, C97_keeps_refuted, C98_lvq, C99_g_smote,
C99_axis_refuted, C100_mdo, C100_returns_refuted, C100_distance_refuted,
C101_oups, C101_next_refuted, C102_and_smote, C103_ccr, C103_no_energy,
C103_number_refuted, C103_budget_refuted, C103_cleaned_refuted,
C103_ball_refuted, C104_smobd, C104_threshold, C104_noise_refuted,
C105_e_smote, C105_seed_refuted, C107_sso, C107_one_unit, C107_number_refuted,
C108_trim_smote, C109_mwmote, C109_zero, C110_dbsmote, C111_neater,
C111_labels_refuted, C112_vis_rst, C112_labels_refuted, C113_soi_cj,
C113_separated, C114_symprod, C114_nan_refuted, C115_smotewb,
C115_count_refuted, C116_frst, C117_somo, C118_v_synth,
C118_minority_end_refuted, C119_dsmote, C120_amsr, C121_pdfos,
C122_kernel_adasyn, C122_originals_refuted, C123_mot2ld, C123_noise_refuted,
C124_deago, C125_asmobd, C125_sigmoid_refuted, C128_psobat, C128_calls,
C128_best_refuted, C128_bats_refuted, C128_stateless_refuted, C129_amsco,
C129_fails_refuted, C129_kept_refuted, C129_new_refuted, C130_dsrbf,
C130_epochs_refuted, C130_one_neuron_refuted, C130_labels_refuted, C131_adg,
C131_stops, C131_number_refuted, C131_labels_refuted, C131_source_refuted,
C131_kept_refuted, C132_mesh, C132_copies_refuted, C133_curve, C133_order,
C133_line_refuted, C133_range_refuted, C133_ties_refuted, C135_sqrt,
C135_share, C135_fit, C135_string_refuted, C146_k_smote, C146_method,
C146_positive_refuted, C147_score, C147_above, C147_total,
C147_identical_refuted, C147_returns_refuted, C148_widths_refuted,
C148_columns_refuted, C148_fitted_refuted, C149_width, C149_covariance,
C149_bandwidth_refuted, C149_gaussian_refuted, C150_works,
C150_identical_refuted

Depending on `ClassicalDedekindReals.sig_forall_dec`, `ClassicalDedekindReals.sig_not_dec`, `FunctionalExtensionality.functional_extensionality_dep`:

C148_second, C148_first, C148_sensitivity, C148_unique, C149_chain,
C149_criterion

Depending on `ClassicalDedekindReals.sig_forall_dec`, `FunctionalExtensionality.functional_extensionality_dep`:

C140_fix_pd_matrix, C140_eigenvectors, C140_psd_mean, C140_inverse,
C140_reverse_matrix, C140_reverse_ties_refuted, C141_construct_tensor,
C143_itml_mi_refuted, C150_add, C150_mutate, C150_clone, C150_structure,
C150_reset
